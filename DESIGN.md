# Formal model of kyber-rs: design

Source: `/repo` (teleconsys/kyber-rs, pinned commit). Nothing of the crate is built or run; every definition of
the model cites the file and lines it was read from. This file is regenerated whenever properties, theorems or
claims change; the per-property part follows `MANIFEST.json`.

## 1. Modelling conventions

* A Rust function becomes a total, computable Gallina function. `&mut self` becomes a returned new value.
  `Result`/`Option` stay data. `Base.v` has one result type `outcome`: `Ok`, `Err`, `Panic` (index out of bounds,
  `unwrap` on `None`, `copy_from_slice` length mismatch, explicit panics of callees) and `OutOfFuel` (only for loops that
  need not terminate; they take fuel).
* `Cargo.toml` sets `overflow-checks = false` for the dev profile and release builds have it off, so machine
  arithmetic wraps. Wrapping is written out where a property depends on it: all limb arithmetic (`Limb.v` has the
  semantics of wrapping `i32`/`i64` expressions), `u8`/`u16` byte tricks, `i8` digits, `usize` subtraction in
  certification, `i64` share indices on edwards25519.
* `HashMap` iteration order is arbitrary: a function that walks a map takes the order (a permutation of the keys) as
  argument, and the theorems quantify over it.
* Protocol layers (`share/`, `sign/dss`) are modelled over a `suite` record (`Suite.v`): scalars = a mathcomp `fieldType`,
  points = an `lmodType` over it, and operations for encodings, hash, Schnorr signatures, AEAD, `pick`. The laws the proofs
  need are the record `suite_ok`. **The record is instantiated with the modelled code** of scalar.rs, point.rs,
  schnorr_sig.rs and dh_impl.rs (`SuiteEd.v`, property C85), so the protocol theorems hold of the Ed25519 code and not
  only of an abstract group. What the abstract layer cannot express are points outside the prime-order subgroup; those are
  the subject of C83 and C84.
* Schnorr verification refuses keys and nonce points that `is_canonical`/`has_small_order` refuse, and `is_canonical`
  wrongly refuses 217 canonical fields (C31). `su_good` marks the scalars whose point is let through; honest-run
  theorems assume it of long-term keys and nonces (`coins_ok` and the like). `good_1`, `good_m1` show it is satisfiable.
* Hash functions are arbitrary functions. Where a claim would need collision resistance the conclusion is
  "equal transcripts, or an explicit collision". HKDF and AES-GCM are parameters with `prims_ok`: output lengths, decryption
  inverts encryption, decryption accepts only what encryption produces.
* Byte-level layers (`integer_field`, `edwards25519`, `random`, `xof`, `schnorr`, `eddsa`, `ecies`, the wire format) are
  modelled over `Z` and `list Z` of bytes.
* Randomness (secrets, polynomial coefficients, ephemeral keys, nonces) is an argument of the modelled function; the
  theorems quantify over it.

## 2. Layout (rocq/theories)

| files | what |
|---|---|
| `Base`, `Bytes`, `Group`, `Lagrange` | result type, byte strings, commutative groups with integer multiples, interpolation (no modelled code) |
| `PolyModel`, `PolySpec`, `PolyProofs`, `PolyProps`, `PropsPoly` | src/share/poly.rs |
| `IntModel`, `IntProofs`, `PropsInt` | src/group/integer_field/integer.rs |
| `RandModel`, `RandProofs`, `PropsRand` | src/util/random/random_stream.rs, src/xof/blake3/xof.rs, src/cipher/stream.rs |
| `Limb` | a language of straight-line wrapping integer code with a verified interval/polynomial analyser |
| `ScLimbs` (generated from scalar.rs), `ScModel`, `ScProofs`, `ScalarProofs`, `PropsSc` | src/group/edwards25519/scalar.rs |
| `Primes` | primality of p and l (Pocklington certificates checked in Coq), Fermat |
| `FeLimbs` (generated from fe.rs), `FeModel`, `FeProofs`, `PropsFe` | src/group/edwards25519/fe.rs |
| `Edwards`, `Fp`, `EdCurve`, `EdOrder` | the curve as mathematics: addition law, associativity, group, cyclic of order 8 l (no modelled code) |
| `GeConsts` (generated from constants.rs), `GeModel`, `GeProofs`, `GeMul`, `GeBase`, `GeBaseMul`, `GeEnc`, `GeVar` | ge.rs, ge_mult_vartime.rs, constants.rs |
| `PointModel`, `PointProofs`, `PointCurve`, `EdPolyModel`, `PropsPoint`, `PropsSubgroup` | point.rs, marshal.rs, `PubPoly::eval/check` on the full curve |
| `EdModel`, `EdBytes`, `EdSpec`, `EdProofs`, `ToyCurve`, `PropsEd` | point.rs byte checks, curve.rs, key_pair.rs, schnorr_sig.rs, eddsa_sig.rs |
| `EciesModel`, `PropsEcies` | dh_impl.rs, ecies_impl.rs |
| `Suite`, `SuiteProofs`, `Toy` | the suite record, injective encodings, a small computing suite for examples |
| `VssModel`, `VssSpec`, `VssProofs`, `PropsVss` | src/share/vss/pedersen/vss.rs |
| `RvssModel`, `RvssSpec`, `RvssProofs`, `PropsRvss` | src/share/vss/rabin/vss.rs |
| `DkgModel`, `DkgSpec`, `DkgProofs`, `PropsDkg`, `PropsDkgQual` | src/share/dkg/pedersen/{dkg,structs}.rs |
| `ReshareSpec`, `ReshareProofs`, `PropsReshare` | resharing in src/share/dkg/pedersen/dkg.rs |
| `RdkgModel`, `RdkgSpec`, `RdkgProofs`, `PropsRdkg` | src/share/dkg/rabin/dkg.rs |
| `PropsTranscript` | signed transcripts of all VSS/DKG messages |
| `DssModel`, `DssSpec`, `DssProofs`, `PropsDss` | src/sign/dss/dss_sig.rs |
| `EdScalars`, `EdSuite`, `SuiteEd`, `PropsSuiteEd` | the suite made of the Ed25519 code; end-to-end DKG + signing |
| `PropsCheckedVss` | C123: certification of Pedersen deals with overflow checks on (with its definition `deal_certified_ck`) |
| `CheckedModel`, `PropsChecked` | C123: canonicality checks and signature verification with overflow checks on |
| `PropsWitness`, `PropsWitnessVss` | closed forms, with witnesses, of the refutations of C40, C45, C65, C72, C73, C76, C77, C87 |
| `PropsSigSet` | C122: the set of accepted Schnorr signatures |
| `PropsTimeout` | C48: timeouts of dealers and verifiers |
| `IoModel`, `PropsIo` | C121: `marshal_to`/`unmarshal_from` of `Int`, `unmarshal_from_random`, `marshal_id` |
| `JacobiModel`, `PropsJacobi` | C120: `Int::jacobi` |
| `IntTextModel`, `PropsIntText` | C119: `set_string`, `new_int_string` on texts; `from_str_radix` of num_bigint_dig character by character |
| `PolyCap`, `PropsCap` | C118: the argument n of the recovery functions |
| `PropsDssRobust`, `PropsDssRobustEd` | C117: robustness of threshold signing |
| `PropsLen`, `EdLen`, `PropsLenEd` | C116: lengths of messages |
| `PropsRobust`, `PropsRobustCert` | C115: a corrupted minority against an honest dealer |
| `PropsSigned` | C114: the signatures of returned messages |
| `PropsOrder` | C113: the order of delivery between honest participants |
| `PropsJust` | C112: which shares a dealer publishes in justifications |
| `PropsReplay` | C111: messages delivered twice |
| `PropsRresend` | C110: contested commitments in the Rabin key generation |
| `PropsRbias` | C109: after the first phase the Rabin key is determined by the stored deals |
| `PropsRhide` | C108: the messages of a Rabin participant before the reveal are independent of its secret, for coalitions below the threshold |
| `PropsRsplit` | agreement on the key in the Rabin key generation |
| `PropsSim` | simulators for commitments and partial signatures |
| `PropsSplit` | agreement on the key with faulty participants; the equivocating dealer |
| `PropsRecover` | reconstruction with arbitrary values; epochs of refreshed shares |
| `PropsLife` | epochs of a key: generation, refresh, handover, signing |
| `StreamModel`, `PropsStream` | histories of calls of RandStream |
| `ShareHashModel`, `PropsShareHash` | hashing of shares, order of scalars |
| `EntropyModel`, `PropsEntropy`, `PropsEntropyDkg` | entropy options of the Pedersen key generator |
| `LeakModel`, `PropsLeak` | branches, indices and calls of scalar multiplication and inversion |
| `StateModel`, `StateProofs`, `PropsState` | serialization of the protocol states |
| `FmtModel`, `PropsFmt` | text forms (`Display`, `Debug`, hexadecimal) of values, messages and states |
| `EdWire`, `PropsWireEd` | the deal serialization of the protocol layers instantiated with the wire format |
| `WireModel`, `WireProofs`, `PropsWire` | bincode wire format of the messages (encoding/encodings.rs and the derived serde implementations) |
| `PropsEd25519` | signatures, ECIES and key agreement stated on the curve itself |

`Props*` files hold the property theorems, each followed by `Print Assumptions`, and the examples showing that the
hypotheses are met by concrete non-trivial cases. `*Spec` files hold the vocabulary the statements use.

## 3. What is modelled and what is not

| source | modelled | not modelled |
|---|---|---|
| share/poly.rs | all of PriPoly, PubPoly, PriShare/PubShare, recover_*, text forms, hashing of shares | |
| group/integer_field/integer.rs | constructors (also from text), arithmetic, comparison, encodings, setters, hexadecimal text | derived `Debug` of `Int` |
| util/random/random_stream.rs, xof/blake3/xof.rs | bits, random_int, RandStream, the XOF state machine | the Blake3 and SHA-256 compression functions (arbitrary functions) |
| edwards25519/scalar.rs, fe.rs, ge.rs, ge_mult_vartime.rs, constants.rs, point.rs, curve.rs | every arithmetic function statement by statement; encoding, embedding, picking, checks, equality, ordering, hashing, text forms; branches, indices and calls of `mul` and `inv` | timing below the level of calls |
| edwards25519/suite.rs | delegation to curve and hash factory (through SuiteEd) | the operating system's random source |
| group/internal/marshalling/marshal.rs | point/scalar `marshal_to`, `unmarshal_from`, `unmarshal_from_random` | |
| encoding/encodings.rs | `WireModel` (bincode format of all message types); the protocol layers take `deal_enc`/`deal_dec` as parameters, instantiated with this format in `PropsWireEd` | |
| sign/schnorr, sign/eddsa, util/key, dh, encrypt/ecies | all public functions | SHA-512, HKDF, AES-GCM internals |
| share/vss/{pedersen,rabin}, share/dkg/{pedersen,rabin}, sign/dss | all handlers and queries: constructors, deals, responses, justifications, certification, timeouts, key shares, renew, resharing, complaints, reconstruction, partial signatures, serialization of states, `Display`/`Debug` | log output |
| xof/traits.rs, group.rs, share/vss/suite.rs | as interfaces (records) | |
| memory zeroisation, timing of instructions, thread interleavings | | not expressible in this model |

## 4. Properties

Status is that of `MANIFEST.json`. `_partial` theorems prove what is true, `_refuted` theorems exhibit where the full
statement fails for the code (a finding).

**C01 Any t shares give back the shared secret** (proved; PropsPoly): Share collection is modelled as the loop of the code (skip `None`, insert, stop at t), then the Lagrange loops over the map in any order. Proof: the loop selects t distinct genuine shares; interpolation as a polynomial identity in mathcomp; invariance under permutation. Every field, every hash-map iteration order.
  `C01_recover_secret`, `C01_shares_are_genuine`

**C02 Fewer than t distinct shares is an error, never a value** (proved; PropsPoly): Length argument on the collected map.
  `C02_too_few_shares`

**C03 t-1 shares say nothing about the secret** (proved; PropsPoly): Existence and uniqueness of the interpolating polynomial through (0,s) and t-1 points.
  `C03_secrecy`

**C04 recover_pri_poly rebuilds the whole polynomial** (proved; PropsPoly): The coefficient loops of the code against the polynomial they expand to.
  `C04_recover_pri_poly`

**C05 Polynomial addition and multiplication act on shares** (proved; PropsPoly): Horner evaluation as polynomial evaluation; linearity.
  `C05_add`, `C05_mul`, `C05_pub_add`, `C05_commit_add`

**C06 Share verification is exact** (proved; PropsPoly): `eval` and `check` of PubPoly; injectivity of multiplication of a non-neutral point.
  `C06_check_exact`, `C06_neutral_base_accepts_all`

**C07 Public commitment recovery** (proved; PropsPoly): Share collection is modelled as the loop of the code (skip `None`, insert, stop at t), then the Lagrange loops over the map in any order. Proof: the loop selects t distinct genuine shares; interpolation as a polynomial identity in mathcomp; invariance under permutation.
  `C07_recover_commit`

**C08 Public polynomial recovery** (partial; PropsPoly): Executable model of the loop with its `enumerate` positions; witness by computation, exact condition by proof. The full statement is false of the code: enumerate() positions are used as map keys, and the recovered base point is the public share 0; proved exactly when it works.
  `C08_recover_pub_poly_partial`, `C08_recover_pub_poly_refuted`, `C08_recovered_poly_check_refuted`

**C09 Polynomial equality tests** (partial; PropsPoly): The comparison loop with its indexing panic. PubPoly::equal compares no lengths: true for a prefix, panic for a shorter argument.
  `C09_pri_equal`, `C09_pub_equal_partial`, `C09_pub_equal_refuted`

**C10 Accessors never crash on polynomials the API can build** (partial; PropsPoly): All constructors and accessors with explicit `Panic`. True for every constructor except the three exhibited empty-polynomial cases.
  `C10_accessors_partial`, `C10_accessors_refuted`, `C10_values`, `C10_new_values`

**C11 Modular integers stay in range and compute modular arithmetic** (proved; PropsInt, PropsIo, PropsRand): `Int` over Z with Rust's truncated remainder; induction over expressions. Every expression over add/sub/mul/neg/zero/one; inv is Ok with the inverse iff gcd = 1, else panic; pick in C18_pick.
  `C11_modular_arithmetic`, `C11_inverse`, `C11_one_modulus_one_refuted`, `C11_representation`, `C18_pick`

**C12 Constructors reduce into the field** (partial; PropsInt): Each constructor with its exact result for every argument. False for negative arguments (new_int), negative multiples of m (new_int64, set_int64) and set_string, which stores unreduced; exact conditions proved.
  `C12_constructors_partial`, `C12_negative_exact`, `C12_constructors_refuted`

**C13 Int division and exponentiation** (partial; PropsInt): What div and exp compute, for every receiver; what set_string makes of a numerator and a denominator. Div multiplies instead of dividing; exp uses the receiver as base; proved what they compute.
  `C13_div_is_product`, `C13_div_partial`, `C13_exp_partial`, `C13_div_exp_refuted`, `C13_set_string_partial`, `C13_set_string_refuted`

**C14 Big-endian Int encoding round-trips with fixed width** (proved; PropsInt): Byte encoders and decoders over `list Z` with padding, reversal and the receiver as written.
  `C14_big_endian_round_trip`, `C14_width`

**C15 Little-endian Int encoding round-trips with fixed width** (partial; PropsInt): Byte encoders and decoders over `list Z` with padding, reversal and the receiver as written. Little-endian output is not padded; decodes exactly for values that fill the width.
  `C15_little_endian_partial`, `C15_little_endian_refuted`

**C16 Decoding rejects out-of-range integers and leaves the receiver alone** (partial; PropsInt): Byte encoders and decoders over `list Z` with padding, reversal and the receiver as written. Acceptance condition proved; a rejected out-of-range value is left in the receiver.
  `C16_accepts_iff`, `C16_failure_partial`, `C16_receiver_unchanged_refuted`

**C17 Explicit-width encoders honour [min,max]** (partial; PropsInt): Byte encoders and decoders over `list Z` with padding, reversal and the receiver as written. Little_endian ignores min; big_endian panics unless the value fills the width.
  `C17_little_endian_partial`, `C17_big_endian_partial`, `C17_widths_refuted`

**C18 random_int is uniform-range** (proved; PropsRand): The rejection loop with fuel over an arbitrary stream. For every stream whose output is as long as its input.
  `C18_random_int`, `C18_never_returns`, `C18_pick`

**C19 bits(n, exact) has the requested length** (proved; PropsRand): Masking of the top byte; bounds on the value.
  `C19_bits`

**C20 Multi-reader random stream** (proved; PropsRand): Readers as lists of results; the hash and XOF are arbitrary functions. SHA-256 and the Blake3 output are arbitrary functions.
  `C20_rand_stream`

**C21 XOF output is one continuous stream** (proved; PropsRand): State machine absorbing/squeezing over an arbitrary output function; induction over call lists. `write_all` is the std retry loop with fuel.
  `C21_continuous`, `C21_involution`, `C21_clone`, `C21_short_destination`

**C22 No absorbing after squeezing unless reseeded** (partial; PropsRand): State machine absorbing/squeezing over an arbitrary output function; induction over call lists. `write_all` is the std retry loop with fuel. All but the write_all clause: write_all never returns on a squeezed XOF because the refusal has kind Interrupted.
  `C22_no_absorb_after_squeeze`, `C22_reseed`, `C22_absorb_concat`, `C22_write_all_partial`, `C22_write_all_refuted`, `C22_flush_panics_refuted`

**C23 Edwards25519 scalar arithmetic is exact modulo the group order** (proved; PropsSc): Limb code translated statement by statement by a script from scalar.rs into `Limb`; the verified analyser bounds every intermediate and yields the polynomial it computes; value equations modulo l. The limb code is generated statement by statement from scalar.rs.
  `C23_arithmetic`, `C23_no_overflow`, `encodes_unique`

**C24 Scalar inversion and division** (proved; PropsSc): The square-and-multiply loop over the bits of l-2; l is prime (certificate); Fermat.
  `C24_inverse`

**C25 Scalar canonicality check is exact** (proved; PropsSc): The byte loop with its u16 wraps against the integer comparison.
  `C25_canonical`

**C26 Scalar encoding** (proved; PropsSc): Composition of reduction and copying.
  `C26_marshal`, `C26_unmarshal`, `C26_round_trips`

**C27 Scalar setters overwrite the receiver** (partial; PropsSc): Setters as written (copy into the receiver without clearing); exact effect for every receiver. Exact effect proved for every receiver; correct on zero receivers; stale high bytes survive otherwise.
  `C27_setters_partial`, `C27_setters_refuted`

**C28 Field multiplication and squaring are exact** (proved; PropsFe): As C23, with the documented limb bounds of fe.rs. The limb code is generated statement by statement from fe.rs.
  `C28_mul`, `C28_square`, `C28_no_overflow`

**C29 Field encoding is canonical** (proved; PropsFe): The carry chain of fe_to_bytes shown to produce the canonical residue.
  `C29_to_bytes`, `C29_from_bytes`, `C29_round_trips`, `C29_sign_and_zero`

**C30 Field inversion and square-root exponent** (proved; PropsFe): The addition chains; exponent arithmetic; Fermat for p (certificate).
  `C30_invert`, `C30_pow22523`

**C31 Point canonicality check is exact** (partial; PropsEd): The byte check as written; the loop conditions are characterised for all byte strings. The check accepts exactly the 32-byte strings with y below p-217; the 217 canonical fields p-217..p-1 are refused, refuting the full statement.
  `C31_canonical_partial`, `C31_refuted`

**C32 Small-order check** (proved; PropsEd, PropsPoint): The table comparison; the points with 8P = 0 are computed from the group structure (cyclic of order 8 l, `EdOrder`). The five listed y-coordinates are exactly those of the eight points with 8 P = 0, in the group of the curve, which is cyclic of order 8 l.
  `C32_small_order`, `C32_exact`, `C32_group`

**C33 Point addition and doubling implement the Edwards law** (proved; PropsPoint): Completed/projective/cached formulas of ge.rs, limb by limb, refine the Edwards addition law (`Edwards`: associativity by explicit cofactors and ring); denominators never vanish as d is a non-square. Limb by limb, every receiver and every representation; any sequence of operations stays within the limb bounds.
  `C33_operations`, `C33_complete`, `C33_computations`

**C34 Scalar multiplication multiplies** (partial; PropsPoint): Signed-digit recoding, table look-ups, the precomputed table of constants.rs (all 256 entries checked against multiples of B), and the sliding-window variable-time code. Holds for every scalar below 2^255; above, ge_scalar_mult drops the top digit: the exact result is given for every scalar and the 32 bytes 255 times B give -B (finding).
  `C34_multiplication_partial`, `C34_all_scalars`, `C34_refuted`

**C35 Point encoding round-trips** (proved; PropsPoint): `set_bytes` with its square root computation against the curve equation; `write_bytes` against RFC 8032.
  `C35_accepts`, `C35_round_trip`, `C35_equality`, `C35_canonical`

**C36 Embedded data comes back** (proved; PropsPoint): The rejection loop over an arbitrary stream with fuel. Termination of the rejection loop depends on the stream (fuel).
  `C36_embed`, `C36_total`, `C36_data_total`

**C37 Schnorr completeness** (proved; PropsEd, PropsEd25519): sign/verify as written over the point record with laws `curve_ok`, which the code of point.rs satisfies (`ed25519_ok` in PointCurve). Proved over any point operations satisfying the laws of curve_ok and instantiated with the code of point.rs (C37_ed25519); verification refuses when R or the key has one of the 217 fields of C31.
  `C37_completeness`, `C37_nonce`, `C37_total`, `C37_ed25519`

**C38 Schnorr verification is exact and key-binding** (proved; PropsEd, PropsEd25519): sign/verify as written over the point record with laws `curve_ok`, which the code of point.rs satisfies (`ed25519_ok` in PointCurve). Over any point operations satisfying curve_ok; C38_ed25519 is the statement on the curve itself for the code of point.rs; the hash is a parameter.
  `C38_exact`, `C38_unique`, `C38_nonce_reuse`, `C38_two_keys`, `C38_ed25519`

**C39 EdDSA completeness and determinism** (proved; PropsEd, PropsEd25519): sign/verify as written over the point record with laws `curve_ok`, which the code of point.rs satisfies (`ed25519_ok` in PointCurve). Over any point operations satisfying curve_ok, and for the code of point.rs; determinism is the functional form of the model.
  `C39_completeness`, `C39_cross`, `C39_seed_signer`, `C39_ed25519`

**C40 EdDSA keeps the private key private for every way of building the signer** (partial; PropsEd, PropsWitness): eddsa_sig.rs with both ways of building a signer. Refuted for signers converted from a key pair: the nonce is the hash of the message alone, so the key is computed from one signature.
  `C40_nonce_partial`, `C40_refuted`, `C40_witness_refuted`

**C41 EdDSA key serialisation** (partial; PropsEd): eddsa_sig.rs with both ways of building a signer. Marshalling a converted or default signer panics, refuting the no-panic part.
  `C41_round_trip`, `C41_wrong_length`, `C41_public_half_ignored`, `C41_refuted`

**C42 Threshold signature equals a valid single signature** (proved; PropsDss): The DSS state machine over arbitrary histories of messages. Every history, order and subset. The hypothesis that the threshold is the size of the shared polynomials is needed: new_dss does not compare them, and with a smaller threshold signature() returns Ok of an invalid signature (finding).
  `C42_any_history`, `C42_too_few`, `C42_honest_accepted`, `C42_honest_session`, `C42_threshold_refuted`

**C43 Only valid partial signatures are accepted** (partial; PropsDss): The DSS state machine over arbitrary histories of messages. Acceptance is exact. Counting: every other participant at most once; the own index is counted twice if its partial arrives before partial_sig() is called (finding, C43_once_refuted).
  `C43_process`, `C43_failure_no_effect`, `C43_other_message`, `C43_once_partial`, `C43_once_refuted`

**C44 ECIES and DH round trip** (proved; PropsEcies): dh_impl.rs and ecies_impl.rs as written, panics explicit. HKDF and AES-GCM are parameters with the laws prims_ok; any point operations satisfying curve_ok.
  `C44_dh_agree`, `C44_dh_encrypt`, `C44_decrypt_exact`, `C44_ecies_round_trip`, `C44_ecies_ephemeral`, `C44_encrypt_total`, `C44_aead`

**C45 Decryption never crashes on malformed input** (partial; PropsEcies, PropsRdkg, PropsVss, PropsWitness): All slicing and unwrapping with explicit panics, for ECIES, AEAD and the VSS deal decryption. VSS and DKG part; findings: nonce length and empty commitments panic.
  `C45_decrypt_deal_no_panic_partial`, `C45_decrypt_deal_refuted`, `C45_empty_commitments_refuted`, `C63_empty_commits_panic`, `C45_ecies_refuted`, `C45_witness_refuted`, `C45_aead_open`

**C46 Pedersen VSS: honest dealer is always approved** (partial; PropsVss): Dealer, Verifier and Aggregator of vss.rs as state machines; invariants by induction on message histories. Holds for lists of distinct non-neutral keys; refuted for a repeated key: the later holder of the key refuses its own honest deal.
  `C46_honest_deal_approved_partial`, `C46_honest_run_certified_partial`, `C46_repeated_key_refused`, `C46_honest_deal_approved_refuted`

**C47 Pedersen VSS: approved deals are consistent** (partial; PropsVss): Dealer, Verifier and Aggregator of vss.rs as state machines; invariants by induction on message histories. Share, threshold and index are checked; refuted: the number of commitments is not compared with t, and the session id inside the deal is not compared with the computed one.
  `C47_approval_sound_partial`, `C47_approved_shares_recover_partial`, `C47_degree_refuted`, `C47_session_refuted`

**C48 Pedersen VSS: certification rule** (partial; PropsTimeout, PropsVss): Dealer, Verifier and Aggregator of vss.rs as state machines; invariants by induction on message histories. The certification rule is exact; refuted: a verifier that received nothing reports a certified deal after the timeout while deal() is None.
  `C48_certified_iff`, `C48_missing_responses`, `C48_deal_iff_certified_partial`, `C48_empty_certified`, `C48_timeout`, `C48_deal_iff_certified_refuted`

**C49 Pedersen VSS: one authenticated response per verifier** (partial; PropsVss): Dealer, Verifier and Aggregator of vss.rs as state machines; invariants by induction on message histories. Refuted for the session: before a deal arrives responses of any session are recorded.
  `C49_process_response`, `C49_history_partial`, `C49_session_refuted`

**C50 Pedersen VSS: a valid justification clears the complaint** (partial; PropsVss): Dealer, Verifier and Aggregator of vss.rs as state machines; invariants by induction on message histories. Finding: a valid justification never clears the complaint.
  `C50_bad_justification_partial`, `C50_complaint_is_permanent`, `C50_justification_clears_refuted`

**C51 Pedersen VSS: threshold and session pinning** (partial; PropsVss): Dealer, Verifier and Aggregator of vss.rs as state machines; invariants by induction on message histories. Finding: a configured threshold is overwritten by the first deal.
  `C51_pinned_after_deal_partial`, `C51_set_threshold_ignored`, `C51_configured_threshold_refuted`

**C52 Session id binds dealer, verifiers, commitments and threshold** (partial; PropsVss): Dealer, Verifier and Aggregator of vss.rs as state machines; invariants by induction on message histories. Binding when the number of verifiers is fixed; no separator between verifiers and commitments otherwise (Pedersen part).
  `C52_session_id_binds_partial`, `C52_no_separator`, `C52_session_id_binds_refuted`

**C53 Rabin VSS: honest dealer is always approved** (partial; PropsRvss): As C46-C52 for the Rabin variant with two polynomials; binding and hiding by linear algebra over the field. As C46: holds for lists of distinct non-neutral keys; refuted for a repeated key.
  `C53_honest_deal_approved_partial`, `C53_honest_run_certified_partial`, `C53_honest_shares_recover`, `C53_repeated_key_refused`, `C53_honest_deal_approved_refuted`

**C54 Rabin VSS: approved deals are consistent and hiding** (partial; PropsRvss): As C46-C52 for the Rabin variant with two polynomials; binding and hiding by linear algebra over the field. Commitment equation, binding and perfect hiding proved; refuted: number of commitments not compared with t, session id of the deal not compared with the computed one.
  `C54_approval_sound_partial`, `C54_binding_partial`, `C54_hiding`, `C54_degree_refuted`, `C54_session_refuted`

**C55 Rabin VSS: certification rule and timeout** (proved; PropsRvss): As C46-C52 for the Rabin variant with two polynomials; binding and hiding by linear algebra over the field.
  `C55_certified_iff`, `C55_dealer_certified_iff`, `C55_timeout`

**C56 Rabin VSS: a valid justification turns the complaint into an approval** (partial; PropsRvss): As C46-C52 for the Rabin variant with two polynomials; binding and hiding by linear algebra over the field. Effect of justifications proved in every reachable state; finding: the accepted deal may be for another index or polynomial.
  `C56_justification`, `C56_honest_justification`, `C56_wrong_deal_refuted`

**C57 Pedersen DKG: all honest participants get the same public key and matching shares** (partial; PropsDkg): The DKG handler over the VSS model; a network of handlers with arbitrary schedule; invariants over arbitrary histories for a single participant. Honest runs of any size, threshold and delivery order: proved, including recovery from any t shares. Against arbitrary histories the share matches the commitments only if no response with the participant's own index comes from the network; C57_replayed_response_refuted shows the attack otherwise.
  `C57_handlers`, `C57_any_schedule`, `C57_honest_run`, `C57_recover`, `C57_share_matches_partial`, `C57_replayed_response_refuted`

**C58 Pedersen DKG: threshold certification** (partial; PropsDkg): The DKG handler over the VSS model; a network of handlers with arbitrary schedule; invariants over arbitrary histories for a single participant. Holds for an explicit threshold and for resharing, over every history; false for the default threshold, where the configured zero is compared (finding).
  `C58_threshold_partial`, `C58_default_refuted`

**C59 Resharing preserves the secret** (partial; PropsReshare): The handler in resharing mode, over arbitrary histories. Any number of holders, any thresholds, any history without responses under the own index in which the opened deals are those of the dealers' polynomials: the new shares lie on a polynomial of the new threshold with the old secret and key. Needs the certified deals to have been received; C59_lost_deal_refuted shows that otherwise the outcome depends on hash-map order (finding).
  `C59_dealer`, `C59_any_history`, `C59_recover`, `C59_lost_deal_refuted`

**C60 Resharing rejects deals not built from the dealer's old share** (partial; PropsReshare): The handler in resharing mode, over arbitrary histories. The answer is always a signed complaint, and when the dealer is a new holder without recorded answer the deal is never certified in any later history. Otherwise the node keeps its own approval and the wrong secret can be certified (finding).
  `C60_mismatch_partial`, `C60_own_approval_refuted`

**C61 Refreshing shares keeps the public key** (partial; PropsDkg): renew as written. All parts but "does not panic" proved; the panics are characterised exactly and exhibited.
  `C61_renew`, `C61_refreshed_shares`, `C61_rejects`, `C61_panics_iff`, `C61_panics_refuted`

**C62 Rabin DKG: agreement of honest run** (proved; PropsRdkg): The Rabin DKG handler with its second phase; network schedule and arbitrary histories. Honest runs of any size, threshold and delivery order; against arbitrary histories a handed-out share matches its commitments if no deal with the own index comes from outside and no QUAL member was reconstructed (those: C63).
  `C62_generators`, `C62_any_schedule`, `C62_honest_run`, `C62_recover`, `C62_share_matches`

**C63 Rabin DKG: complaints and reconstruction** (partial; PropsRdkg): The Rabin DKG handler with its second phase; network schedule and arbitrary histories. Complaints and reconstruction from genuine messages proved. Findings: a reconstruct message with a made-up share is believed; the complainer cannot contribute its own share, so t honest participants may be stuck; commitments of the wrong length are accepted and block the key; empty commitments panic.
  `C63_complaint`, `C63_inadmissible`, `C63_empty_commits_panic`, `C63_complaint_processed`, `C63_no_commits_no_answer`, `C63_early_reconstruct_lost`, `C63_reconstruct`, `C63_forged_refuted`, `C63_stuck_refuted`, `C63_length_refuted`

**C64 Signed protocol messages bind their session** (partial; PropsTranscript): The hashed transcripts as byte strings; injectivity of the encodings. Responses and complaints bind everything; justifications for session ids of one length; secret commitments and reconstruct messages do not bind the session id (finding).
  `C64_response`, `C64_justification_partial`, `C64_rabin_justification_partial`, `C64_justification_refuted`, `C64_secret_commits_partial`, `C64_secret_commits_replayable`, `C64_secret_commits_refuted`, `C64_complaint`, `C64_reconstruct_partial`, `C64_reconstruct_replayable`, `C64_reconstruct_refuted`, `C64_kinds`, `C64_context`

**C65 Duplicate participants are rejected or handled consistently** (partial; PropsDkg, PropsWitnessVss): The DKG handler over the VSS model; a network of handlers with arbitrary schedule; invariants over arbitrary histories for a single participant. False for every list with a repeated key: the handler is created without verifiers and panics on the next deal. Without repetition every listed dealer has a verifier after any history.
  `C65_duplicates_refuted`, `C65_witness_refuted`, `C65_distinct`

**C66 Generated key pairs are consistent** (proved; PropsEd): Key generation as written with clamping.
  `C66_key_pair`, `C66_any_generator`, `C66_eddsa_new`

**C67 Machine integer conversions of Int** (proved; PropsInt): Conversions as written over Z.
  `C67_machine_integers`

**C68 Int::sqrt returns a modular square root** (partial; PropsInt): Conversions as written over Z. Integer square root of the representative instead of a modular one.
  `C68_sqrt_partial`, `C68_negative`, `C68_sqrt_refuted`

**C69 Int equality means the same field element** (partial; PropsInt): Conversions as written over Z. True for one modulus and reduced values; the modulus is not compared.
  `C69_equality_partial`, `C69_equality_refuted`, `C69_order`, `C69_nonzero`, `C69_set`

**C70 Integer-to-scalar constants are exact** (proved; PropsSc): new_scalar_int as written.
  `C70_scalar_constants`

**C71 Field addition, negation and conditional move** (proved; PropsFe): Limb-wise operations with wrapping semantics.
  `C71_add_sub_neg`, `C71_cond_move`

**C72 VSS: justifications come from the dealer** (partial; PropsRvss, PropsVss, PropsWitnessVss): process_justification as written, for arbitrary justifications. Finding: signature and session id of a justification are never looked at, so a forged one brands an honest dealer.
  `C72_justification_not_authenticated`, `C72_forged_justification_refuted`, `C72_rabin_justification_not_authenticated`, `C72_rabin_forged_justification_refuted`, `C72_rabin_witness_refuted`

**C73 Rabin VSS: a verifier never panics** (partial; PropsRvss, PropsWitnessVss): As C46-C52 for the Rabin variant with two polynomials; binding and hiding by linear algebra over the field. Findings: queries before the first deal, a nonce of another length and empty commitments panic; nothing else does.
  `C73_no_panic_partial`, `C73_query_refuted`, `C73_nonce_refuted`, `C73_empty_commitments_refuted`, `C73_witness_refuted`

**C74 Rabin DKG: only a cheating dealer has its shares published** (partial; PropsRdkg): The Rabin DKG handler with its second phase; network schedule and arbitrary histories. Holds for complaints carrying the deal the dealer made; false otherwise: the deal in a complaint is checked only against its own commitments, so one participant can make everybody publish the shares of an honest dealer (finding).
  `C74_honest_dealer_partial`, `C74_false_complaint_refuted`

**C75 Distributed signatures: reuse of the random key is not refused and reveals the long-term key** (proved; PropsDss): The DSS state machine over arbitrary histories of messages.
  `C75_reuse`

**C76 An ECIES ciphertext opens only for the recipient it was made for** (partial; PropsEcies, PropsWitness): dh_impl.rs and ecies_impl.rs as written, panics explicit. False: with the neutral element as ephemeral point a ciphertext opens under every private key (finding). For ephemeral points of the prime-order subgroup the key-derivation inputs differ.
  `C76_universal_refuted`, `C76_witness_refuted`, `C76_inputs_differ_partial`

**C77 ECIES ciphertexts are not malleable** (partial; PropsEcies, PropsEd25519, PropsWitness): dh_impl.rs and ecies_impl.rs as written, panics explicit. False: the ephemeral point may be re-encoded (C77_refuted: neutral point, sign bit set). Nothing else can be changed: for an ephemeral point with y >= 19 and x <> 0 the ciphertext is unique.
  `C77_point_bytes`, `C77_unique`, `C77_ed25519_partial`, `C77_refuted`, `C76_witness_refuted`

**C78 Qualified share holders are exactly the responsive ones** (proved; PropsDkgQual): The counting loops of dkg.rs over arbitrary states.
  `C78_qualified_shares`

**C79 Expected number of deals** (proved; PropsDkgQual): The counting loops of dkg.rs over arbitrary states.
  `C79_expected_deals`

**C80 Picked points generate the prime-order subgroup** (proved; PropsPoint): The rejection loop over an arbitrary stream with fuel.
  `C80_pick`, `C80_first`

**C81 Hash and order of points agree with equality** (partial; PropsSubgroup): Derived ordering and hashing of the limb representation; streamed marshalling over a reader/writer of bytes. Hash agrees with equality; the derived order compares limbs, so equal points in different representations do not compare as equal (finding).
  `C81_hash`, `C81_order_partial`, `C81_refuted`

**C82 Streamed points and scalars are read back** (proved; PropsSubgroup): Derived ordering and hashing of the limb representation; streamed marshalling over a reader/writer of bytes.
  `C82_points`, `C82_scalars`, `C82_failure`

**C83 Decoded points lie in the prime-order subgroup** (partial; PropsSubgroup): The full group of order 8 l, including points with a torsion component. False: every point of the curve decodes; B + T with T of order 2 passes all three checks (finding).
  `C83_whole_curve`, `C83_subgroup`, `C83_refuted`

**C84 Share verification on edwards25519 binds the share to the committed secret** (partial; PropsSubgroup): The full group of order 8 l, including points with a torsion component. The check is exact; with commitments outside the prime-order subgroup accepted shares need not be shares of commits[0] (finding).
  `C84_eval`, `C84_check`, `C84_refuted`

**C85 The edwards25519 code meets the laws the protocols rely on** (proved; PropsSuiteEd): Mathcomp structures built from the scalar and point code; the laws follow from C23-C26, C33-C35, C37, C44. SHA-512, HKDF, AES-GCM, the suite hash and the XOF are parameters: output lengths, decryption of what was encrypted.
  `C85_suite_laws`

**C86 Distributed key generation followed by threshold signing gives a valid EdDSA signature** (proved; PropsSuiteEd): Composition of C57/C62, C42 and C39 over the Ed25519 suite.
  `C86_dkg_then_sign`, `C86_rabin_then_sign`, `C86_runs`, `C86_rabin_runs`

**C87 Both keys matter in a key agreement** (partial; PropsEd25519, PropsWitness): dh_exchange over the full curve group of order 8 l. Holds in the prime-order subgroup; false otherwise: with a clamped private key every public key of small order gives the neutral element and a small-order component is ignored (finding).
  `C87_shared_partial`, `C87_small_order_refuted`, `C87_witness_refuted`, `C87_torsion_ignored`

**C88 Messages survive the wire** (proved; PropsWire): Codec combinators for bincode (integers, bool, arrays, vectors, structs) with two laws each: decoding after encoding, and encoding after decoding; every message type is an instance. Saved states are C94.
  `C88_shares`, `C88_pedersen_messages`, `C88_rabin_messages`, `C88_keys_and_signatures`

**C89 A message has one encoding** (partial; PropsWire): Codec combinators for bincode (integers, bool, arrays, vectors, structs) with two laws each: decoding after encoding, and encoding after decoding; every message type is an instance. False: surplus bytes are ignored, also behind a signed DKG deal (finding); otherwise the encoding is unique and prefix-free.
  `C89_refuted`, `C89_partial`

**C90 Equal deals are signed alike** (partial; PropsWire): Over the limb representation of points that is serialized, with the curve semantics of the point layer. False: the signature covers the internal representation of the ephemeral key, every deal has an equal one with other signed bytes (finding); equal bytes do imply equal deals.
  `C90_refuted`, `C90_partial`

**C91 Messages carry only valid points and scalars** (partial; PropsWire): Over the limb representation of points that is serialized, with the curve semantics of the point layer. False: limbs and scalar bytes are taken as they come (finding); what correct senders send arrives unchanged.
  `C91_refuted`, `C91_partial`

**C92 Approved deals of one session carry the same public polynomial** (partial; PropsWire): PubPoly::eval at limb level: the first addition is to the neutral element, whose T is 0, so T of the last commitment drops out; the sum is evaluated in the field. False: the T coordinate of the last commitment is invisible to equality, session id and share check, but enters PubPoly::add (finding).
  `C92_check`, `C92_sum_partial`, `C92_refuted`

**C93 Key generation and threshold signing over the real message bytes** (proved; PropsWireEd): `wdeal_enc`/`wdeal_dec` are the bincode codecs of WireModel over the scalars modulo l and the prime-order subgroup (values that no Rust type can hold pass behind a non-byte mark, so the laws hold for all model values); C86 is instantiated with them. Points are taken in the prime-order subgroup.
  `C93_deals`, `C93_rabin_deals`, `C93_any_limbs`, `C93_rabin_any_limbs`, `C93_dealer_fits`, `C93_rabin_dealer_fits`, `C93_signed_bytes`, `C93_dkg_then_sign`, `C93_rabin_then_sign`, `C93_runs`, `C93_rabin_runs`

**C94 A saved state resumes exactly** (proved; PropsState): StateModel gives each state the codec that serde derives (fields in order, `Option`, `HashMap` as a counted list of entries inserted one by one). StateProofs proves for each combinator: decoding after encoding, independence of what follows, refusal of proper prefixes. Maps are entry lists; two are the same map when lookups agree. Finding: two equal states can give different files (HashMap order); the entropy source type of Config is a parameter that must itself serialize.
  `C94_polynomials`, `C94_pedersen_sharing`, `C94_rabin_sharing`, `C94_key_generators`, `C94_signing_sessions`, `C94_map_order`, `C94_map_last`, `C94_file_refuted`

**C95 Printing a value does not disclose its secrets** (proved; PropsFmt): FmtModel writes each `fmt` body as a function to strings. `hides R f`: R-related values have equal text, where R states field by field that the public parts are equal and leaves the secrets free. The EdDSA text is split back into its fields by a parser-like argument (decimal digits contain no separator). Finding: the derived Debug of EdDSA prints the secret, the seed and the prefix.
  `C95_shares`, `C95_pedersen_sharing`, `C95_rabin_sharing`, `C95_pedersen_keys`, `C95_rabin_keys`, `C95_signing`, `C95_eddsa_refuted`

**C96 The text of a scalar, point or integer determines it** (partial; PropsFmt): A separate reader `unhex`/`radix16` is proved inverse to the printers; points go through C35; the negative witness is -5 against 5, the Debug witness is the base point against its decoding. The full statement is false for negative Int (set_string accepts them; the sign is not printed) and for Debug of points (equal points, different text).
  `C96_scalars`, `C96_points`, `C96_ints_partial`, `C96_ints_refuted`, `C96_debug_refuted`, `C96_pripoly_string`

**C97 The key generator's secret comes from the configured entropy** (partial; PropsEntropy, PropsEntropyDkg): A reader is a function to an optional block of 32 bytes and a next state; the stream of RandStream is stateful over the list of readers. `attempt k` gives the bytes of the k-th try independently of the model; the theorem is by induction on the fuel. Full statement: user_reader_only makes the key generator depend on the user's source alone and refuse one that fails. False: a source with fewer than 32 bytes makes the constructor loop forever, and all coefficients but the secret come from the system.
  `C97_secret`, `C97_user_only`, `C97_combined`, `C97_bytes`, `C97_refuted`, `C97_deals`, `C97_reproducible_refuted`

**C98 Scalar multiplication and inversion are constant time unless a point asks otherwise** (partial; PropsLeak): LeakModel repeats each function with a writer of events; erasing the events gives the original function (C98_same_results). Equality of traces is by induction on digits. Variable time: the trace is parsed back to the signed digits, which determine the scalar (slide_ok). Straight-line callees count as one event. Full statement (no multiplication shows anything about its scalar) is false for a receiver whose flag was set in a received message; compiler and hardware are outside the model.
  `C98_same_results`, `C98_constant_time`, `C98_inversion`, `C98_flag`, `C98_variable_time`, `C98_refuted`

**C99 The hash of a share binds its value and index** (partial; PropsShareHash): The hashed bytes have fixed width, so they split; scalars through the canonical encoding (C26), points through C35. Up to `collision H`: two different inputs with the same hash. Full statement (shares that differ under == hash differently or give a collision) is false for indices from 2^32 (cast to u32) and for unreduced scalars (marshalling reduces, == does not).
  `C99_private`, `C99_private_binding`, `C99_public`, `C99_refuted`

**C100 The order of scalars is total and agrees with equality** (proved; PropsShareHash): Lexicographic comparison of lists. Finding: not the numeric order.
  `C100_order`, `C100_least_byte`, `C100_numeric_refuted`

**C101 RandStream keeps the contract of Stream** (partial; PropsStream): `delivered k` is what the readers give on the k-th call; induction on the calls over C20. Full statement is false: calls do not concatenate, also for readers that never repeat; the XOF keeps the contract (C21).
  `C101_calls`, `C101_decrypt_partial`, `C101_key_reuse`, `C101_refuted`, `C101_lengths`

**C102 A key survives handovers and refreshes** (proved; PropsLife): Inductive predicate `life` (its constructors use the runs of C57/C62, `renew`, and the histories of C59); induction shows that the holders have shares of one polynomial with the first constant term, then C42 and C86. Handovers under the hypotheses of C59 (the holder receives the deals it certifies and no forged response with its own index); refreshes with shares of a polynomial with constant term 0 and the same threshold.
  `C102_signs`, `C102_same_key`, `C102_verifies`

**C103 What reconstruction does with wrong shares** (proved; PropsRecover): The collected maps are computed exactly for distinct indices; the loops sum to the Lagrange combination; C01 gives the part of the genuine polynomial. Finding: wrong shares are not detected.
  `C103_secret`, `C103_commit`, `C103_shift`, `C103_one_wrong`

**C104 Refreshing is proactive** (proved; PropsRecover): For every epoch C03 gives a polynomial with the chosen secret through the known shares; consecutive differences are the refreshes. Mixing is C103 with the deviation of the old shares. About the shares alone (the public commitments determine the secret for an unbounded intruder).
  `C104_proactive`, `C104_mixed`, `C104_one_old`

**C105 Honest participants agree on the public key** (partial; PropsSplit): Refutation: two histories of honest participants over the toy suite, all honest messages made by the model. Positive part: the fold over the certified deals is a sum of commitments independent of the map order; shares by C57; recovery by C103 and C07. The full statement is refuted (finding); agreement holds among participants that hold the same commitments for the same certified dealers.
  `C105_split_key_refuted`, `C105_same_key_partial`, `C105_agreement_partial`

**C106 Commitments and partial signatures reveal no more than the public key and the signature** (proved; PropsSim): The polynomial is the Lagrange combination of its value at 0 and t-1 shares (Lagrange.v), coefficient by coefficient for the commitments; partial signatures are shares of h f + r. The simulators are explicit Lagrange formulas; computational indistinguishability of distributions is not modelled.
  `C106_shares`, `C106_deals`, `C106_key`, `C106_partials`

**C107 Honest participants of the Rabin key generation agree on the public key** (partial; PropsRsplit): As C105; in addition the keys of the verifier map are distinct after every history, so QUAL can be compared as a set. The full statement is refuted without reliable broadcast (finding); agreement holds among participants with the same QUAL and commitments.
  `C107_split_key_refuted`, `C107_same_key_partial`, `C107_agreement_partial`

**C108 Before the commitments are revealed, fewer than t participants learn nothing about a Rabin participant's secret** (proved; PropsRhide): Simulation: the state of the participant sharing s' is a function of the state of the one sharing s (other dealer, other own deal); every call commutes with it and returns the same value. The coefficients come from C54_hiding. Perfect (information-theoretic) hiding of the messages for a coalition; ciphertexts for other participants are not part of its view.
  `C108_hiding`

**C109 Once the deals are out and QUAL is fixed, the Rabin key can no longer be biased** (proved; PropsRbias): A stored deal is never replaced, whatever call follows (holds_run), so the share - the sum of the stored deals over QUAL - is the same in both continuations; by C62_share_matches the final commitments take the values share*base at the points of Q, and a coefficient list of length at most |Q| is determined by those values (Lagrange basis). C109_few_refuted shows that the bound |Q| >= number of commitments is needed.
  `C109_no_bias`, `C109_few_refuted`

**C110 Rabin DKG: an upheld commitment complaint is final** (partial; PropsRresend): Case analysis over all nine calls: only secret_commits, process_secret_commits and process_reconstruct_commits add commitments, and the last only once per dealer. The counterexample is a complete toy run. Full statement refuted by a replayed SecretCommits message (finding); holds in histories without one.
  `C110_final_partial`, `C110_lost`, `C110_resend_refuted`

**C111 DKG: a message delivered twice counts once** (proved; PropsReplay): Equality of whole participant states after the second delivery, by case analysis over every exit of every handler; later deliveries by invariants over all events (a stored deal, response or approval stays).
  `C111_pedersen`, `C111_pedersen_later`, `C111_rabin`, `C111_rabin_later`

**C112 A dealer publishes a share only when its owner complained about that deal** (partial; PropsJust): The dealer and its aggregator only change by recording responses (invariant over all events), so the session and key checks refer to the configuration. The counterexample is a toy resharing with one cheating dealer. Full statement refuted for leaving holders of a Pedersen resharing by a relabelled complaint (finding); proved for Rabin and for participants of the new group.
  `C112_pedersen_partial`, `C112_answered`, `C112_rabin`, `C112_relabelled_refuted`

**C113 The order in which messages arrive does not matter between honest participants** (partial; PropsOrder): Both runs reach the state that C57 and C62 describe, which does not mention the schedule. The counterexample is a toy group of three in which the messages of participant 0 are permuted; C113_rabin_sends shows that what participant 0 itself sends is unchanged, so the other participants do not notice. Full statement refuted for the Rabin key generation when a response overtakes its deal (finding: honest participants finish with different keys); proved for Pedersen, and for Rabin when responses follow their deals and commitments follow the responses.
  `C113_pedersen`, `C113_rabin_partial`, `C113_early_response`, `C113_rabin_refuted`

**C114 Every message a participant returns is signed by the participant it names as its author** (partial; PropsSigned): Invariant over all events: every stored verifier signs with the configured key and under the position of that key; the dealer only changes its aggregator. Then completeness of the signature scheme (suite law, proved of the Schnorr code in C37). Full statement refuted for the justifications of a holder that leaves in a Pedersen resharing, which are unsigned (finding); proved for all other messages.
  `C114_pedersen_partial`, `C114_rabin`, `C114_leaving`, `C114_leaving_refuted`

**C115 A corrupted minority cannot exclude an honest dealer or stop the key generation** (partial; PropsRobust, PropsRobustCert): With t such dealers the run is certified (counting distinct members of QUAL). Rabin: invariant on the verifier kept for the dealer over arbitrary events (not bad, right session and threshold, the dealer deal stored, no complaint from the honest set, which answers are recorded), first shown for the deal itself, strengthened by each honest approval and by the timeout. Pedersen: recorded responses are never replaced, so a complaint stays in every later state; the qualified dealers are among those without one. Full statement refuted: in the Pedersen key generation one complaint of one participant excludes an honest dealer for good and can stop the protocol, in the Rabin one a forged unsigned justification does (findings); proved for the Rabin key generation when justifications in the dealer name are the dealer own.
  `C115_rabin_partial`, `C115_rabin_certified_partial`, `C115_rabin_forged`, `C115_rabin_refuted`, `C115_pedersen_excluded`, `C115_pedersen_complaint`, `C115_pedersen_stopped`, `C115_pedersen_refuted`

**C116 Lengths of messages reveal nothing secret** (proved; PropsLen, PropsLenEd): Lengths of the bincode encodings computed codec by codec from the codecs of WireModel for well-formed values; for the dealers the length of the deal encoding over the ed25519 suite, of the Schnorr signature and of the sealed deal are put together, with the session identifier a hash of fixed size. The sizes are given as explicit formulas (scalar 32, point 161, deal 64 + sid + 161 per commitment); the AEAD is assumed to add a tag of constant size.
  `C116_pedersen_messages`, `C116_rabin_messages`, `C116_keys`, `C116_encryption`, `C116_dealer`, `C116_rabin_dealer`

**C117 Threshold signing is robust** (proved; PropsDssRobust, PropsDssRobustEd): Contributors only grow along a run; a delivered honest partial signature either finds its index already counted, with the right value by the run invariant, or is accepted by C42_honest_accepted; the own one is counted when partial_sig is called. Then C42_any_history. The second theorem splits on the number of distinct contributors. Over ed25519 both hold for key shares from finished runs of either key generation, with eddsa::verify of the result. Histories are arbitrary; an honest partial signature is one produced by partial_sig of a signer of the same session in any of its states.
  `C117_signature`, `C117_only`, `C117_ed25519`, `C117_rabin_ed25519`

**C118 The number n given to the recovery functions does not influence the result** (partial; PropsCap): with_capacity modelled as the isize::MAX check in front of the functions of PolyModel; case split on the check. Finding: n reaches Vec::with_capacity unchecked, so a caller-supplied n of 2^60 or more panics with enough genuine shares at hand; running out of memory below that is not modelled.
  `C118_irrelevant_partial`, `C118_secret`, `C118_shares`, `C118_panics`, `C118_irrelevant_refuted`

**C119 Integers are read from text exactly** (partial; PropsIntText): BigInt::from_str_radix modelled on bytes; the numerals are an inductive specification, and reading is proved equivalent to it by induction on the text. Findings: what Display writes (prefix 0x) is refused by set_string in every base up to 33, base 16 included; a base outside 2..36 panics instead of returning the error, and new_int_string panics on a malformed text; the fraction n/d becomes the product n*d (C13).
  `C119_reads`, `C119_onto`, `C119_hex`, `C119_fraction_partial`, `C119_panics`, `C119_link`, `C119_display_refuted`

**C120 The Jacobi symbol tells squares from non-squares** (partial; PropsJacobi): the library function is the product of Legendre symbols over the prime factors; induction on the list of primes. Findings: a non-square gets the value -1, which is outside [0,m), differs from the -1 of the field and is encoded exactly like 1, so that the decoded symbol is that of a square; for a composite modulus the symbol 1 does not mean square as the comment says (2 modulo 15). The reciprocity algorithm of num_bigint_dig is taken by its contract, the product of Legendre symbols.
  `C120_prime`, `C120_odd_partial`, `C120_even`, `C120_composite_refuted`, `C120_encoding_refuted`, `C120_encoding_witness_refuted`

**C121 Integers on streams, and values read from a random stream** (partial; PropsIo): induction on the list written, from the round trip C14; C18, C27 and C80 for the picked values; witnesses computed. Findings: little-endian integers are written without their zero bytes, so two written integers are read back without an error as another number; a scalar refilled by unmarshal_from_random keeps the bytes above the length of the picked number and can end up above the order.
  `C121_stream_partial`, `C121_stream_refuted`, `C121_reader`, `C121_random_partial`, `C121_random_refuted`, `C121_ids`

**C122 The accepted signatures are those the signer can make** (proved; PropsSigSet): k = (S - x c) mod order is computed from a valid signature (C38_exact) and shown to sign it again; a source returning k is built, and C37_completeness gives the converse. On the curve edwards25519 and on any group with the same encoding laws.
  `C122_nonce`, `C122_exact`, `C122_public_key`, `C122_ed25519`

**C123 Verification and certification give the same answer whether or not arithmetic overflow is checked** (partial; PropsChecked, PropsCheckedVss): a second model of the three checks (scalar.rs is_canonical, point.rs is_canonical and has_small_order) with checked u16 subtraction; induction over the byte loop, case analysis of both verifiers; witnesses R = base point with S = 2^253, and R = neutral element with S = 0. For certification an invariant over all message sequences: the threshold of the aggregator is that of the stored deal. Finding: the canonicality and small-order checks subtract with - where an underflow is expected; with overflow checks 64-byte strings that need no key (S = 2^253, or R the neutral element) make both verifiers panic. The inputs on which the checks panic are characterised exactly; elsewhere the results agree. Pedersen certification computes verifiers.len() - t: after any messages a verifier panics there exactly when the stored deal declares t above n, which a dealer can cause with one deal.
  `C123_scalar`, `C123_point`, `C123_small_order`, `C123_verify_partial`, `C123_refuted`, `C123_small_refuted`, `C123_certified_partial`, `C123_certified_refuted`

## 5. Findings

The refuted statements, i.e. behaviour of the code that contradicts the property as a user would state it:

* **C08**: the full statement is false of the code: enumerate() positions are used as map keys, and the recovered base point is the public share 0; proved exactly when it works (`C08_recover_pub_poly_refuted`, `C08_recovered_poly_check_refuted`)
* **C09**: PubPoly::equal compares no lengths: true for a prefix, panic for a shorter argument (`C09_pub_equal_refuted`)
* **C10**: true for every constructor except the three exhibited empty-polynomial cases (`C10_accessors_refuted`)
* **C100**: finding: not the numeric order (`C100_numeric_refuted`)
* **C101**: full statement is false: calls do not concatenate, also for readers that never repeat; the XOF keeps the contract (C21) (`C101_refuted`)
* **C105**: the full statement is refuted (finding); agreement holds among participants that hold the same commitments for the same certified dealers (`C105_split_key_refuted`)
* **C107**: the full statement is refuted without reliable broadcast (finding); agreement holds among participants with the same QUAL and commitments (`C107_split_key_refuted`)
* **C109**: C109_few_refuted shows that the bound |Q| >= number of commitments is needed (`C109_few_refuted`)
* **C11**: every expression over add/sub/mul/neg/zero/one; inv is Ok with the inverse iff gcd = 1, else panic; pick in C18_pick (`C11_one_modulus_one_refuted`)
* **C110**: full statement refuted by a replayed SecretCommits message (finding); holds in histories without one (`C110_resend_refuted`)
* **C112**: full statement refuted for leaving holders of a Pedersen resharing by a relabelled complaint (finding); proved for Rabin and for participants of the new group (`C112_relabelled_refuted`)
* **C113**: full statement refuted for the Rabin key generation when a response overtakes its deal (finding: honest participants finish with different keys); proved for Pedersen, and for Rabin when responses follow their deals and commitments follow the responses (`C113_rabin_refuted`)
* **C114**: full statement refuted for the justifications of a holder that leaves in a Pedersen resharing, which are unsigned (finding); proved for all other messages (`C114_leaving_refuted`)
* **C115**: full statement refuted: in the Pedersen key generation one complaint of one participant excludes an honest dealer for good and can stop the protocol, in the Rabin one a forged unsigned justification does (findings); proved for the Rabin key generation when justifications in the dealer name are the dealer own (`C115_rabin_refuted`, `C115_pedersen_refuted`)
* **C118**: finding: n reaches Vec::with_capacity unchecked, so a caller-supplied n of 2^60 or more panics with enough genuine shares at hand; running out of memory below that is not modelled (`C118_irrelevant_refuted`)
* **C119**: findings: what Display writes (prefix 0x) is refused by set_string in every base up to 33, base 16 included; a base outside 2..36 panics instead of returning the error, and new_int_string panics on a malformed text; the fraction n/d becomes the product n*d (C13) (`C119_display_refuted`)
* **C12**: false for negative arguments (new_int), negative multiples of m (new_int64, set_int64) and set_string, which stores unreduced; exact conditions proved (`C12_constructors_refuted`)
* **C120**: findings: a non-square gets the value -1, which is outside [0,m), differs from the -1 of the field and is encoded exactly like 1, so that the decoded symbol is that of a square; for a composite modulus the symbol 1 does not mean square as the comment says (2 modulo 15). The reciprocity algorithm of num_bigint_dig is taken by its contract, the product of Legendre symbols (`C120_composite_refuted`, `C120_encoding_refuted`, `C120_encoding_witness_refuted`)
* **C121**: findings: little-endian integers are written without their zero bytes, so two written integers are read back without an error as another number; a scalar refilled by unmarshal_from_random keeps the bytes above the length of the picked number and can end up above the order (`C121_stream_refuted`, `C121_random_refuted`)
* **C123**: finding: the canonicality and small-order checks subtract with - where an underflow is expected; with overflow checks 64-byte strings that need no key (S = 2^253, or R the neutral element) make both verifiers panic. The inputs on which the checks panic are characterised exactly; elsewhere the results agree. Pedersen certification computes verifiers.len() - t: after any messages a verifier panics there exactly when the stored deal declares t above n, which a dealer can cause with one deal (`C123_refuted`, `C123_small_refuted`, `C123_certified_refuted`)
* **C13**: div multiplies instead of dividing; exp uses the receiver as base; proved what they compute (`C13_div_exp_refuted`, `C13_set_string_refuted`)
* **C15**: little-endian output is not padded; decodes exactly for values that fill the width (`C15_little_endian_refuted`)
* **C16**: acceptance condition proved; a rejected out-of-range value is left in the receiver (`C16_receiver_unchanged_refuted`)
* **C17**: little_endian ignores min; big_endian panics unless the value fills the width (`C17_widths_refuted`)
* **C22**: all but the write_all clause: write_all never returns on a squeezed XOF because the refusal has kind Interrupted (`C22_write_all_refuted`, `C22_flush_panics_refuted`)
* **C27**: exact effect proved for every receiver; correct on zero receivers; stale high bytes survive otherwise (`C27_setters_refuted`)
* **C31**: the check accepts exactly the 32-byte strings with y below p-217; the 217 canonical fields p-217..p-1 are refused, refuting the full statement (`C31_refuted`)
* **C34**: holds for every scalar below 2^255; above, ge_scalar_mult drops the top digit: the exact result is given for every scalar and the 32 bytes 255 times B give -B (finding) (`C34_refuted`)
* **C40**: refuted for signers converted from a key pair: the nonce is the hash of the message alone, so the key is computed from one signature (`C40_refuted`, `C40_witness_refuted`)
* **C41**: marshalling a converted or default signer panics, refuting the no-panic part (`C41_refuted`)
* **C42**: Every history, order and subset. The hypothesis that the threshold is the size of the shared polynomials is needed: new_dss does not compare them, and with a smaller threshold signature() returns Ok of an invalid signature (finding). (`C42_threshold_refuted`)
* **C43**: Acceptance is exact. Counting: every other participant at most once; the own index is counted twice if its partial arrives before partial_sig() is called (finding, C43_once_refuted). (`C43_once_refuted`)
* **C45**: VSS and DKG part; findings: nonce length and empty commitments panic (`C45_decrypt_deal_refuted`, `C45_empty_commitments_refuted`, `C45_ecies_refuted`, `C45_witness_refuted`)
* **C46**: holds for lists of distinct non-neutral keys; refuted for a repeated key: the later holder of the key refuses its own honest deal (`C46_honest_deal_approved_refuted`)
* **C47**: share, threshold and index are checked; refuted: the number of commitments is not compared with t, and the session id inside the deal is not compared with the computed one (`C47_degree_refuted`, `C47_session_refuted`)
* **C48**: the certification rule is exact; refuted: a verifier that received nothing reports a certified deal after the timeout while deal() is None (`C48_deal_iff_certified_refuted`)
* **C49**: refuted for the session: before a deal arrives responses of any session are recorded (`C49_session_refuted`)
* **C50**: finding: a valid justification never clears the complaint (`C50_justification_clears_refuted`)
* **C51**: finding: a configured threshold is overwritten by the first deal (`C51_configured_threshold_refuted`)
* **C52**: binding when the number of verifiers is fixed; no separator between verifiers and commitments otherwise (Pedersen part) (`C52_session_id_binds_refuted`)
* **C53**: as C46: holds for lists of distinct non-neutral keys; refuted for a repeated key (`C53_honest_deal_approved_refuted`)
* **C54**: commitment equation, binding and perfect hiding proved; refuted: number of commitments not compared with t, session id of the deal not compared with the computed one (`C54_degree_refuted`, `C54_session_refuted`)
* **C56**: effect of justifications proved in every reachable state; finding: the accepted deal may be for another index or polynomial (`C56_wrong_deal_refuted`)
* **C57**: Honest runs of any size, threshold and delivery order: proved, including recovery from any t shares. Against arbitrary histories the share matches the commitments only if no response with the participant's own index comes from the network; C57_replayed_response_refuted shows the attack otherwise. (`C57_replayed_response_refuted`)
* **C58**: Holds for an explicit threshold and for resharing, over every history; false for the default threshold, where the configured zero is compared (finding). (`C58_default_refuted`)
* **C59**: Any number of holders, any thresholds, any history without responses under the own index in which the opened deals are those of the dealers' polynomials: the new shares lie on a polynomial of the new threshold with the old secret and key. Needs the certified deals to have been received; C59_lost_deal_refuted shows that otherwise the outcome depends on hash-map order (finding). (`C59_lost_deal_refuted`)
* **C60**: The answer is always a signed complaint, and when the dealer is a new holder without recorded answer the deal is never certified in any later history. Otherwise the node keeps its own approval and the wrong secret can be certified (finding). (`C60_own_approval_refuted`)
* **C61**: All parts but "does not panic" proved; the panics are characterised exactly and exhibited. (`C61_panics_refuted`)
* **C63**: Complaints and reconstruction from genuine messages proved. Findings: a reconstruct message with a made-up share is believed; the complainer cannot contribute its own share, so t honest participants may be stuck; commitments of the wrong length are accepted and block the key; empty commitments panic. (`C63_forged_refuted`, `C63_stuck_refuted`, `C63_length_refuted`)
* **C64**: Responses and complaints bind everything; justifications for session ids of one length; secret commitments and reconstruct messages do not bind the session id (finding). (`C64_justification_refuted`, `C64_secret_commits_refuted`, `C64_reconstruct_refuted`)
* **C65**: False for every list with a repeated key: the handler is created without verifiers and panics on the next deal. Without repetition every listed dealer has a verifier after any history. (`C65_duplicates_refuted`, `C65_witness_refuted`)
* **C68**: integer square root of the representative instead of a modular one (`C68_sqrt_refuted`)
* **C69**: true for one modulus and reduced values; the modulus is not compared (`C69_equality_refuted`)
* **C72**: finding: signature and session id of a justification are never looked at, so a forged one brands an honest dealer (`C72_forged_justification_refuted`, `C72_rabin_forged_justification_refuted`, `C72_rabin_witness_refuted`)
* **C73**: findings: queries before the first deal, a nonce of another length and empty commitments panic; nothing else does (`C73_query_refuted`, `C73_nonce_refuted`, `C73_empty_commitments_refuted`, `C73_witness_refuted`)
* **C74**: Holds for complaints carrying the deal the dealer made; false otherwise: the deal in a complaint is checked only against its own commitments, so one participant can make everybody publish the shares of an honest dealer (finding). (`C74_false_complaint_refuted`)
* **C76**: false: with the neutral element as ephemeral point a ciphertext opens under every private key (finding). For ephemeral points of the prime-order subgroup the key-derivation inputs differ. (`C76_universal_refuted`, `C76_witness_refuted`)
* **C77**: false: the ephemeral point may be re-encoded (C77_refuted: neutral point, sign bit set). Nothing else can be changed: for an ephemeral point with y >= 19 and x <> 0 the ciphertext is unique (`C77_refuted`, `C76_witness_refuted`)
* **C81**: hash agrees with equality; the derived order compares limbs, so equal points in different representations do not compare as equal (finding) (`C81_refuted`)
* **C83**: false: every point of the curve decodes; B + T with T of order 2 passes all three checks (finding) (`C83_refuted`)
* **C84**: the check is exact; with commitments outside the prime-order subgroup accepted shares need not be shares of commits[0] (finding) (`C84_refuted`)
* **C87**: holds in the prime-order subgroup; false otherwise: with a clamped private key every public key of small order gives the neutral element and a small-order component is ignored (finding) (`C87_small_order_refuted`, `C87_witness_refuted`)
* **C89**: false: surplus bytes are ignored, also behind a signed DKG deal (finding); otherwise the encoding is unique and prefix-free (`C89_refuted`)
* **C90**: false: the signature covers the internal representation of the ephemeral key, every deal has an equal one with other signed bytes (finding); equal bytes do imply equal deals (`C90_refuted`)
* **C91**: false: limbs and scalar bytes are taken as they come (finding); what correct senders send arrives unchanged (`C91_refuted`)
* **C92**: false: the T coordinate of the last commitment is invisible to equality, session id and share check, but enters PubPoly::add (finding) (`C92_refuted`)
* **C94**: finding: two equal states can give different files (HashMap order); the entropy source type of Config is a parameter that must itself serialize (`C94_file_refuted`)
* **C95**: finding: the derived Debug of EdDSA prints the secret, the seed and the prefix (`C95_eddsa_refuted`)
* **C96**: the full statement is false for negative Int (set_string accepts them; the sign is not printed) and for Debug of points (equal points, different text) (`C96_ints_refuted`, `C96_debug_refuted`)
* **C97**: full statement: user_reader_only makes the key generator depend on the user's source alone and refuse one that fails. False: a source with fewer than 32 bytes makes the constructor loop forever, and all coefficients but the secret come from the system (`C97_refuted`, `C97_reproducible_refuted`)
* **C98**: full statement (no multiplication shows anything about its scalar) is false for a receiver whose flag was set in a received message; compiler and hardware are outside the model (`C98_refuted`)
* **C99**: full statement (shares that differ under == hash differently or give a collision) is false for indices from 2^32 (cast to u32) and for unreduced scalars (marshalling reduces, == does not) (`C99_refuted`)

## 6. Trusted base

* Coq 8.16.1's kernel, including its virtual machine (`vm_compute`); `coqchk` re-checks all files without it.
* `Print Assumptions` says **"Closed under the global context"** for every theorem named in `MANIFEST.json`: no axiom,
  neither our own nor the standard library's. (`coqchk` lists some constants of mathcomp's sealed modules among the
  library's assumptions; they are an artefact of module sealing in mathcomp 1.x and no theorem here depends on an axiom.)
* Parameters, always visible as arguments in the statements: hash functions (arbitrary), SHA-512 (output 64 bytes), HKDF and
  AES-GCM (`prims_ok`), the XOF output function, randomness, hash-map order, deal serialisation where the protocol layer
  takes it as argument (it has to invert).
* The reading of the Rust source. No extraction or execution ties the model to the code. The limb programs and
  constants were translated by scripts from the text of scalar.rs, fe.rs and constants.rs; everything else by hand.
* External crates are read by their documentation: num_bigint_dig (as Z), byteorder, blake3, sha2, hkdf, aes-gcm, bincode/serde.

## 7. Wrong programs

`seeded/LOG.jsonl` records edits of the model in a scratch copy, each a realistic bug, and the theorems that failed to
rebuild; where none failed the theorem was tightened (field `tightened`).
