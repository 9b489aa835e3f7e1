-Q theories Verif
theories/Base.v
theories/Lagrange.v
theories/PolyModel.v
theories/PolySpec.v
theories/PolyProofs.v
theories/PolyProps.v
theories/PropsPoly.v
theories/Bytes.v
theories/IntModel.v
theories/IntProofs.v
theories/PropsInt.v
theories/RandModel.v
theories/RandProofs.v
theories/PropsRand.v
theories/Limb.v
theories/ScLimbs.v
theories/ScModel.v
theories/ScProofs.v
theories/Primes.v
theories/ScalarProofs.v
theories/PropsSc.v
theories/FeLimbs.v
theories/FeModel.v
theories/FeProofs.v
theories/PropsFe.v
theories/Suite.v
theories/SuiteProofs.v
theories/VssModel.v
theories/VssSpec.v
theories/VssProofs.v
theories/PropsVss.v
theories/RvssModel.v
theories/RvssSpec.v
theories/RvssProofs.v
theories/PropsRvss.v
theories/Toy.v
theories/DkgModel.v
theories/DkgSpec.v
theories/DkgProofs.v
theories/PropsDkg.v
theories/ReshareSpec.v
theories/ReshareProofs.v
theories/PropsReshare.v
theories/RdkgModel.v
theories/RdkgSpec.v
theories/RdkgProofs.v
theories/PropsRdkg.v
theories/PropsTranscript.v
theories/DssModel.v
theories/DssSpec.v
theories/DssProofs.v
theories/PropsDss.v
theories/Group.v
theories/EdModel.v
theories/EdBytes.v
theories/EdSpec.v
theories/EdProofs.v
theories/ToyCurve.v
theories/PropsEd.v
theories/EciesModel.v
theories/PropsEcies.v
theories/PropsDkgQual.v
theories/Edwards.v
theories/Fp.v
theories/EdCurve.v
theories/GeConsts.v
theories/GeModel.v
theories/GeProofs.v
theories/GeMul.v
theories/GeBase.v
theories/GeBaseMul.v
theories/GeEnc.v
theories/GeVar.v
theories/EdOrder.v
theories/PointModel.v
theories/PointProofs.v
theories/PointCurve.v
theories/EdPolyModel.v
theories/PropsPoint.v
theories/PropsSubgroup.v
theories/EdScalars.v
theories/EdSuite.v
theories/SuiteEd.v
theories/PropsSuiteEd.v
theories/PropsEd25519.v
theories/WireModel.v
theories/WireProofs.v
theories/PropsWire.v
theories/EdWire.v
theories/PropsWireEd.v
theories/StateModel.v
theories/StateProofs.v
theories/PropsState.v
theories/FmtModel.v
theories/PropsFmt.v
theories/EntropyModel.v
theories/PropsEntropy.v
theories/PropsEntropyDkg.v
theories/LeakModel.v
theories/PropsLeak.v
theories/ShareHashModel.v
theories/PropsShareHash.v
theories/StreamModel.v
theories/PropsStream.v
theories/PropsLife.v
theories/PropsRecover.v
theories/PropsSplit.v
theories/PropsSim.v
theories/PropsRsplit.v
theories/PropsRhide.v
theories/PropsRbias.v
theories/PropsRresend.v
theories/PropsReplay.v
theories/PropsJust.v
theories/PropsOrder.v
theories/PropsSigned.v
theories/PropsRobust.v
theories/PropsLen.v
theories/EdLen.v
theories/PropsLenEd.v
theories/PropsDssRobust.v
theories/PolyCap.v
theories/PropsCap.v
theories/PropsDssRobustEd.v
theories/PropsRobustCert.v
theories/IntTextModel.v
theories/PropsIntText.v
theories/JacobiModel.v
theories/PropsJacobi.v
theories/IoModel.v
theories/PropsIo.v
theories/PropsTimeout.v
theories/PropsSigSet.v
theories/PropsWitness.v
theories/PropsWitnessVss.v
theories/CheckedModel.v
theories/PropsChecked.v
theories/PropsCheckedVss.v
