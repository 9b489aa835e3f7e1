(** The refutations of C40, C45, C76, C77 and C87 as closed statements on edwards25519: the general theorems ([C40_refuted],
    [C45_ecies_refuted], [C76_universal_refuted], [C77_refuted], [C87_small_order_refuted]) with their witnesses.  The hash and
    the cipher of the witnesses are those of EdSuite ([toysha], [toyaead]). *)
From Coq Require Import ZArith Znumtheory String List Bool Lia ssrbool.
From Verif Require Import Base Bytes Limb ScLimbs IntModel RandModel RandProofs ScModel ScProofs Primes Group EdModel EdBytes PropsSc EdSpec EdProofs
  PropsEd Edwards Fp EdCurve GeBase GeEnc EdOrder PointCurve EciesModel PropsEcies EdScalars EdSuite GeMul PropsEd25519 PropsSigSet.
Import ListNotations.
Local Open Scope Z_scope.
Opaque GeModel.ge_scalar_mult GeModel.ge_scalar_mult_base GeModel.ge_scalar_mult_vartime GeModel.ext_set_bytes GeModel.ext_write_bytes.

(** The signer made from a key pair (not from a seed) signs a message, and the private key is computed from the public key, the
    message and the signature.  The full statement: no such computation exists. *)
Theorem C40_witness_refuted : exists (sha : list Z -> list Z) (x msg sig : list Z), sha_ok sha /\ scalar32 x /\
  let e := eddsa_of_pair ed25519 x (mul (le_val x) ebase) in
  eddsa_sign ed25519 sha e msg = Ok sig /\
  (le_val (skipn 32 sig) - le_val (sha msg)) * le_val (sha (firstn 32 sig ++ enc (ed_public ed25519 e) ++ msg)) ^ (order - 2) mod order = le_val x.
Proof.
  assert (S1 : scalar32 (le_bytes 32 1)) by (split; [apply le_bytes_bytes|apply le_bytes_length]).
  assert (V1 : le_val (le_bytes 32 1) = 1) by (vm_compute; reflexivity).
  set (e := eddsa_of_pair ed25519 (le_bytes 32 1) (zmul (co_group ed25519 ed25519_ok) (le_val (le_bytes 32 1)) (pbase ed25519))).
  destruct (C40_nonce_partial ed25519 ed25519_ok toysha toysha_ok e [1] S1) as [sig [Es Fs]].
  exists toysha, (le_bytes 32 1), [1], sig. split; [exact toysha_ok|]. split; [exact S1|]. cbv zeta.
  assert (P : zmul (co_group ed25519 ed25519_ok) (le_val (le_bytes 32 1)) (pbase ed25519) = ebase).
  { rewrite co_zmul, V1, ed_base. apply emul_1. }
  assert (P' : mul (le_val (le_bytes 32 1)) ebase = ebase) by (rewrite V1; apply emul_1).
  unfold e in *. rewrite P in *. rewrite P'. split; [exact Es|].
  assert (R1 : le_val (toysha [1]) = 1) by (vm_compute; reflexivity).
  cbn [ed_prefix eddsa_of_pair app] in Fs. rewrite R1, co_zmul, ed_base, (emul_1 ebase), ed_enc in Fs. 
  pose proof (C40_refuted ed25519 ed25519_ok toysha toysha_ok (le_bytes 32 1) [1] sig S1) as H. cbv zeta in H. rewrite P in H.
  specialize (H Es). cbn [ed_public eddsa_of_pair] in H |- *. unfold recover_key, challengeZ in H. rewrite ed_enc, Fs in H. rewrite Fs.
  rewrite H; [vm_compute; reflexivity|]. apply not_mult_mod. vm_compute. reflexivity.
Qed.
Print Assumptions C40_witness_refuted.

Theorem C45_witness_refuted : exists (X : aead_prims) (x ctx : list Z), prims_ok X /\ scalar32 x /\ le_val x < 2 ^ 255 /\
  ecies_decrypt ed25519 X x ctx = Panic.
Proof.
  exists toyaead, (le_bytes 32 1), (repeat 7 31). split; [exact toyaead_ok|].
  split; [split; [apply le_bytes_bytes|apply le_bytes_length]|]. split; reflexivity.
Qed.
Print Assumptions C45_witness_refuted.

(** One ciphertext that every private key opens to the same message, and another one differing in a single byte. *)
Theorem C76_witness_refuted : exists (X : aead_prims) (m ctx ctx' : list Z), prims_ok X /\ ctx' <> ctx /\ skipn 32 ctx' = skipn 32 ctx /\
  forall x, scalar32 x -> le_val x < 2 ^ 255 -> ecies_decrypt ed25519 X x ctx = Ok m /\ ecies_decrypt ed25519 X x ctx' = Ok m.
Proof.
  destruct C77_nonvacuous as [oX [ctx U]]. destruct (C77_refuted toyaead [1; 2; 3] ctx oX U) as [ctx' [N [_ [K H]]]].
  exists toyaead, [1; 2; 3], ctx, ctx'. auto.
Qed.
Print Assumptions C76_witness_refuted.

(** A public key other than the neutral element, accepted as canonical, with which two different private keys share the same point. *)
Theorem C87_witness_refuted : exists (b x x' : list Z) (P : epoint), clamped x /\ clamped x' /\ ~ (order | le_val x - le_val x') /\
  pdec ed25519 b = Some P /\ P <> e0 /\ pt_is_canonical b = true /\ dh_exchange ed25519 x P = dh_exchange ed25519 x' P.
Proof.
  assert (K : clamped (le_bytes 32 (2 ^ 254 + 8))).
  { split; [split; [apply le_bytes_bytes|apply le_bytes_length]|]. split; [split; vm_compute; [discriminate|reflexivity]|].
    exists (2 ^ 251 + 1). vm_compute. reflexivity. }
  destruct C87_nonvacuous as [K0 _].
  destruct (C87_small_order_refuted _ (enc tors) K eq_refl) as [P [D [N [Ca E]]]].
  destruct (C87_small_order_refuted _ (enc tors) K0 eq_refl) as [P' [D' [_ [_ E']]]].
  rewrite D in D'. apply some_inj in D'. subst P'.
  exists (enc tors), (le_bytes 32 (2 ^ 254 + 8)), (le_bytes 32 (2 ^ 254)), P. split; [exact K|]. split; [exact K0|].
  split; [apply not_mult; vm_compute; auto|]. split; [exact D|]. split; [exact N|]. split; [exact Ca|]. rewrite E, E'. reflexivity.
Qed.
Print Assumptions C87_witness_refuted.
