(** The suite of the protocol layers instantiated with the modelled code: scalar.rs for the field, point.rs on the prime-order
    subgroup for the points, schnorr_sig.rs for the signatures, dh_impl.rs for the encryption of deals.  SHA-512, the suite's
    hash, HKDF, AES-GCM and the source of [pick] stay parameters. *)
From mathcomp Require Import all_ssreflect all_algebra.
From mathcomp Require Import zify.
From Coq Require Import ZArith.
From Verif Require Import Base Bytes RandModel RandProofs ScModel ScProofs Primes Group EdCurve GeBase GeEnc EdOrder EdModel EdBytes PropsSc EdSpec EdProofs PointModel
  PointProofs PointCurve EciesModel PropsEcies EdScalars EdSuite Suite.

Set Implicit Arguments.
Unset Strict Implicit.
Unset Printing Implicit Defensive.

Opaque ladd lopp lmul linv l0 l1 gadd gopp gnull gbase gscale of_l sub_code sub_decode.

(** ** Scalars *)
Definition fl_to (a : fl) : nat := Z.to_nat (lz a).
Definition fl_from (n : nat) : fl := of_l (Z.of_nat n).
Lemma fl_toK : cancel fl_to fl_from. Proof. exact fl_nat. Qed.
Definition fl_eqMixin := CanEqMixin fl_toK.
Canonical fl_eqType := Eval hnf in EqType fl fl_eqMixin.
Definition fl_choiceMixin := CanChoiceMixin fl_toK.
Canonical fl_choiceType := Eval hnf in ChoiceType fl fl_choiceMixin.
Definition fl_zmodMixin := ZmodMixin ladd_assoc ladd_comm ladd_0 ladd_opp.
Canonical fl_zmodType := Eval hnf in ZmodType fl fl_zmodMixin.
Lemma fl_mulD : left_distributive lmul (+%R : fl -> fl -> fl)%R. Proof. exact lmul_add. Qed.
Lemma fl_10 : l1 != (0%R : fl). Proof. by apply/eqP; exact: l1_nz. Qed.
Definition fl_ringMixin := ComRingMixin lmul_assoc lmul_comm lmul_1 fl_mulD fl_10.
Canonical fl_ringType := Eval hnf in RingType fl fl_ringMixin.
Canonical fl_comRingType := Eval hnf in ComRingType fl lmul_comm.
Lemma fl_mulV (a : fl) : (a != 0 -> linv a * a = 1)%R. Proof. by move/eqP; exact: linv_l. Qed.
Lemma fl_inv0 : linv 0%R = 0%R. Proof. exact: linv_0. Qed.
Definition fl_unitRingMixin := FieldUnitMixin fl_mulV fl_inv0.
Canonical fl_unitRingType := Eval hnf in UnitRingType fl fl_unitRingMixin.
Canonical fl_comUnitRingType := Eval hnf in [comUnitRingType of fl].
Lemma fl_field : GRing.Field.mixin_of [unitRingType of fl]. Proof. by move=> a. Qed.
Canonical fl_idomainType := Eval hnf in IdomainType fl (FieldIdomainMixin fl_field).
Canonical fl_fieldType := Eval hnf in FieldType fl fl_field.
Definition Fl : fieldType := [fieldType of fl].

(** ** Points *)
Lemma sub_codeP : pcancel sub_code sub_decode. Proof. exact sub_codeK. Qed.
Definition sub_eqMixin := PcanEqMixin sub_codeP.
Canonical sub_eqType := Eval hnf in EqType sub sub_eqMixin.
Definition sub_choiceMixin := PcanChoiceMixin sub_codeP.
Canonical sub_choiceType := Eval hnf in ChoiceType sub sub_choiceMixin.
Definition sub_zmodMixin := ZmodMixin gadd_assoc gadd_comm gadd_null gadd_gopp.
Canonical sub_zmodType := Eval hnf in ZmodType sub sub_zmodMixin.
Lemma sub_scaleDl (v : sub) : {morph (fun a : Fl => gscale a v) : a b / (a + b)%R}. Proof. by move=> a b; exact: gscale_ladd. Qed.
Lemma sub_scaleDr : right_distributive (gscale : Fl -> sub -> sub) (+%R : sub -> sub -> sub)%R. Proof. exact: gscale_gadd. Qed.
Definition sub_lmodMixin := LmodMixin (R := Fl) gscale_mul gscale_1 sub_scaleDr sub_scaleDl.
Canonical sub_lmodType := Eval hnf in LmodType Fl sub sub_lmodMixin.
Definition Gl : lmodType Fl := [lmodType Fl of sub].

(** ** The characteristic is l *)
Lemma natr_l (n : nat) : (n%:R : Fl)%R = of_l (Z.of_nat n).
Proof.
elim: n => [|n IH]; first exact: l0E.
rewrite -addn1 GRing.natrD IH; exact: of_l_succ.
Qed.
Lemma prime_l : prime.prime (Z.to_nat ell).
Proof.
apply/primeP; split; first exact: ell_gt1.
move=> d /dvdnP[q E]; have [H|H] := ell_divisors _ _ (esym E); first by rewrite H.
by rewrite H eqxx orbT.
Qed.
Lemma char_l : Z.to_nat ell \in [char Fl]%R.
Proof.
apply/andP; split; first exact prime_l.
apply/eqP; etransitivity; [exact (natr_l (Z.to_nat ell))|exact of_l_ell].
Qed.

(** ** The suite *)
Lemma gl_base_nz : (gbase : Gl) != 0%R.
Proof. exact (introN (@eqP Gl gbase 0%R) gbase_nz). Qed.
Lemma enc_32 : exists n : nat, n != 0%N /\ forall P : Gl, size (enc_l P) = n.
Proof. exists 32%N; split; [exact isT|exact enc_l_len]. Qed.
Section EdSuite.
Variables (sha : list Z -> list Z) (X : aead_prims) (hash : bytestr -> bytestr).
Variables (St : Type) (Rs : stream St) (fuel : nat) (xof : list Z -> St).
Definition ed_suite : suite Gl := @Suite Fl Gl gbase enc_l senc_l hash (sign_l sha) (verify_l sha) (seal_l X) (open_l X) (derive_l Rs fuel xof) good_l.

(** Given a hash with 64-byte outputs, a key expansion of the requested length and an AEAD that opens what it sealed (and
    takes messages of any length), the code satisfies the laws. *)
Theorem ed_suite_ok : sha_ok sha -> prims_ok X ->
  (forall k n a m, List.Forall (fun b => (0 <= b < 256)%Z) m -> exists c, aes_enc X k n a m = Some c /\ List.Forall (fun b => (0 <= b < 256)%Z) c) -> suite_ok ed_suite.
Proof.
move=> shok okX tot; split.
- exact gl_base_nz.
- exact enc_l_inj.
- exact enc_32.
- exact (sign_verify_l sha shok).
- exact (seal_open_l X okX tot).
Qed.
End EdSuite.
Print Assumptions ed_suite_ok.
