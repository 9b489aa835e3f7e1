(** Lengths of the encodings, signatures and ciphertexts of EdSuite.v and EdWire.v. *)
From Coq Require Import ZArith List Bool Lia.
From Verif Require Import Base Bytes RandModel ScModel Group EdCurve EdModel EdBytes PropsSc EdSpec EdProofs PointModel PointCurve EciesModel PropsEcies EdScalars EdSuite
  WireModel WireProofs EdWire PropsLen.
Import ListNotations.
Local Open Scope nat_scope.


Lemma toZ_len b : length (toZ b) = length b. Proof. apply map_length. Qed.
Lemma toN_len b : length (toN b) = length b. Proof. apply map_length. Qed.

Lemma sign_l_len sha (shok : sha_ok sha) x m k : length (sign_l sha x m k) = 64.
Proof.
  unfold sign_l. rewrite (schnorr_sign_with_ok ed25519 ed25519_ok sha shok _ _ _ (lbytes_32 k) (lbytes_small k) (lbytes_32 x) (lbytes_small x)).
  rewrite toN_len, app_length. match goal with |- context [red ?z] => pose proof (proj2 (red_scalar z)) as L; set (r := red z) in * end. cbn beta in L.
  match goal with |- context [penc ed25519 ?P] => pose proof (proj2 (co_enc ed25519 ed25519_ok P)) as L'; set (q := penc ed25519 P) in * end. lia.
Qed.
Lemma seal_l_len X (okX : prims_ok X) (tot : forall k n a m, bytes m -> exists c, aes_enc X k n a m = Some c /\ bytes c) (tag : nat)
  (T : forall k n a m c, aes_enc X k n a m = Some c -> length c = length m + tag) P ctx nonce plain :
  is_bytes plain = true -> length (seal_l X P ctx nonce plain) = length plain + tag.
Proof.
  intros B. unfold seal_l. rewrite B. rewrite (aead_newE ed25519 X okX). unfold aead_seal, aes_encrypt. rewrite (po_expand X okX). cbn [Nat.eqb negb].
  match goal with |- context [aes_enc X ?k ?n ?a ?m] => destruct (tot k n a m (is_bytes_toZ plain B)) as [c [Ec _]]; rewrite Ec end.
  cbn [bindo copy_dst]. rewrite toN_len, (T _ _ _ _ _ Ec), toZ_len. reflexivity.
Qed.
Lemma deal_bytes_len sid i v t cs : deal_fits sid i t cs = true ->
  is_bytes (deal_bytes sid i v t cs) = true /\ length (deal_bytes sid i v t cs) = 64 + length sid + 161 * length cs.
Proof.
  intros F. pose proof (deal_wf sid i v t cs F) as W. split; [exact (toN_is_bytes _ (ok_bytes _ _ deal_ok _ W))|].
  unfold deal_bytes. rewrite toN_len. destruct C116_pedersen_messages as [_ [H _]]. pose proof (H _ _ W eq_refl) as L.
  rewrite L. cbn [wire_deal wd_sid wd_commits]. unfold wire_points. rewrite toZ_len, map_length. reflexivity.
Qed.
Lemma rdeal_bytes_len sid i v j w t cs : rdeal_fits sid i j t cs = true ->
  is_bytes (rdeal_bytes sid i v j w t cs) = true /\ length (rdeal_bytes sid i v j w t cs) = 104 + length sid + 161 * length cs.
Proof.
  intros F. pose proof (rdeal_wf sid i v j w t cs F) as W. split; [exact (toN_is_bytes _ (ok_bytes _ _ rdeal_ok _ W))|].
  unfold rdeal_bytes. rewrite toN_len. destruct C116_rabin_messages as [H _]. pose proof (H _ _ W eq_refl) as L.
  rewrite L. cbn [wire_rdeal wrd_sid wrd_commits]. unfold wire_points. rewrite toZ_len, map_length. reflexivity.
Qed.
