(** C122: the signatures that verify are those the signer can make. *)
From Coq Require Import ZArith Znumtheory String List Bool Lia ssrbool.
From Verif Require Import Base Bytes Limb ScLimbs IntModel RandModel RandProofs PropsRand ScModel ScProofs ScalarProofs Primes.
From Verif Require Import Group EdModel EdBytes PropsSc EdSpec EdProofs ToyCurve PropsEd.
From Verif Require Import Group Edwards Fp EdCurve GeBase GeEnc EdOrder PointCurve EdSuite PropsEd25519.
Import ListNotations.
Local Open Scope Z_scope.

(** A random source that returns the number k, big-endian, whenever it is asked for bytes. *)
Definition source (k : Z) : stream unit := Stream (fun s src => (Some (rev (le_bytes (length src) k)), s)).
Lemma source_law k : stream_law (source k).
Proof.
  intros s src o s' H. cbn [xks source] in H. injection H as <- _. rewrite rev_length, le_bytes_length. split; [reflexivity|].
  intros _. apply Forall_rev. apply le_bytes_bytes.
Qed.
Lemma source_pick k : 1 <= k < order -> random_int unit (source k) 1 order tt = Ok (k, tt).
Proof.
  intros Hk. apply (C18_random_int unit (source k) 1 order tt tt k (source_law k) order_pos). exists 0%nat.
  split; [lia|]. assert (E : kth_candidate (source k) order tt 0 = k).
  { unfold kth_candidate. cbn [draws]. unfold drawn. cbn [xks source fst]. rewrite repeat_length. unfold be_val. rewrite rev_involutive.
    assert (Z.log2 order + 1 = 253) as -> by (vm_compute; reflexivity). change (Z.to_nat ((253 + 7) / 8)) with 32%nat.
    assert (B : order < 2 ^ 253) by (vm_compute; reflexivity). assert (B' : 2 ^ 253 < 256 ^ Z.of_nat 32) by (vm_compute; reflexivity).
    rewrite le_val_le_bytes_small by lia. apply Z.mod_small. lia. }
  rewrite E. split; [reflexivity|]. split; [exact Hk|]. split; [now destruct (draws (source k) _ 1 tt)|]. lia.
Qed.

Section C122.
Variables (C : curve) (ok : curve_ok C) (sha : list Z -> list Z) (shok : sha_ok sha).
Notation mul := (zmul (co_group C ok)).
Notation B := (pbase C).

(** Every valid signature under the public key of x is what [sign] computes from exactly one nonce. *)
Theorem C122_nonce (x msg sig : list Z) : scalar32 x -> le_val x < 2 ^ 255 -> Forall (fun b => 0 <= b < 256) sig ->
  valid_signature C ok sha (penc C (mul (le_val x) B)) msg sig ->
  exists k, 1 <= k < order /\ schnorr_sign_with C sha (le_bytes 32 k) x msg = Ok sig /\
    forall k', 0 <= k' < order -> schnorr_sign_with C sha (le_bytes 32 k') x msg = Ok sig -> k' = k.
Proof.
  intros Hx Bx Hs [rb [s [R [A [[E L] Hss [D1 D2] [Y1 Y2] [N1 [N2 Q]]]]]]].
  rewrite (co_enc_dec C ok) in D2. injection D2 as D2. set (c := challengeZ sha rb (penc C (mul (le_val x) B)) msg) in *.
  set (k := (s - le_val x * c) mod order). pose proof (Z.mod_pos_bound (s - le_val x * c) order order_pos) as Bk. fold k in Bk.
  assert (ER : R = mul k B).
  { unfold k. rewrite base_mod. apply (gadd_cancel_r (co_group C ok) (mul (c mod order) A)). change (gadd (co_group C ok)) with (padd C). rewrite <- Q, <- D2.
    change (padd C) with (gadd (co_group C ok)). rewrite <- zmul_mul, <- zmul_add. apply base_cong.
    pose proof (Z.div_mod c order ltac:(discriminate)) as D. exists (le_val x * (c / order)).
    replace (c mod order) with (c - order * (c / order)) by lia. ring. }
  assert (Br : bytes rb) by (subst sig; exact (proj1 (proj1 (Forall_app _ _ _) Hs))).
  assert (Sm : pt_small_order (penc C R) = false).
  { destruct (pt_small_order (penc C R)) eqn:S; [|reflexivity]. apply (co_small C ok) in S. contradiction. }
  assert (Er : penc C R = rb).
  { apply (co_dec_enc C ok); [exact Br|exact D1| |exact Sm]. apply C31_canonical_partial; [exact Br|]. split; [exact L|exact Y1]. }
  assert (Hk1 : 1 <= k).
  { assert (k <> 0); [|lia]. intros Z. apply N1. rewrite ER, Z. apply (zmul_g0 (co_group C ok)). }
  assert (SW : forall j, 0 <= j < order -> schnorr_sign_with C sha (le_bytes 32 j) x msg =
     Ok (penc C (mul j B) ++ red (j + le_val x * challengeZ sha (penc C (mul j B)) (penc C (mul (le_val x) B)) msg))).
  { intros j Hj. assert (V : le_val (le_bytes 32 j) = j).
    { apply le_val_le_bytes_small. pose proof order_255. assert (2 ^ 255 < 256 ^ Z.of_nat 32) by reflexivity. lia. }
    rewrite (schnorr_sign_with_ok C ok sha shok); [now rewrite V|split; [apply le_bytes_bytes|apply le_bytes_length]| |exact Hx|exact Bx].
    rewrite V. pose proof order_255. lia. }
  exists k. split; [lia|]. split.
  - rewrite (SW k Bk), E, <- ER, Er. fold c. f_equal. f_equal. unfold red. f_equal.
    unfold k. rewrite Zplus_mod_idemp_l. replace (s - le_val x * c + le_val x * c) with s by ring. apply Z.mod_small. exact Hss.
  - intros k' Hk' H. rewrite (SW k' Hk') in H. injection H as H. rewrite E in H. apply (f_equal (firstn 32)) in H.
    rewrite !firstn_app_exact in H by (exact L || apply (co_enc C ok)). rewrite <- Er in H.
    apply (f_equal (pdec C)) in H. rewrite !(co_enc_dec C ok) in H. injection H as H. rewrite ER in H. exact (base_inj_small C ok _ _ Hk' Bk H).
Qed.

(** [verify] accepts a string exactly when [sign] returns it for some random source and neither of its two points has one of the
    217 refused y fields (C31). *)
Theorem C122_exact (x msg sig : list Z) : scalar32 x -> le_val x < 2 ^ 255 -> ~ (order | le_val x) ->
  Forall (fun b => 0 <= b < 256) msg -> Forall (fun b => 0 <= b < 256) sig ->
  let A := mul (le_val x) B in
  (schnorr_verify C sha A msg sig = Ok tt <->
   y_of (firstn 32 sig) < p25519 - 217 /\ y_of (penc C A) < p25519 - 217 /\
   exists (St : Type) (Rnd : stream St) (fuel : nat) (st st' : St), stream_law Rnd /\ schnorr_sign C sha St Rnd fuel st x msg = Ok (sig, st')).
Proof.
  intros Hx Bx Dx Hm Hs A. split.
  - intros V. apply (C38_exact C ok sha shok) in V; [|apply (co_enc C ok)|exact Hs].
    destruct (C122_nonce x msg sig Hx Bx Hs V) as [k [Hk [E _]]].
    destruct V as [rb [s [R [A' [[Es L] _ _ [Y1 Y2] _]]]]]. split; [rewrite Es, firstn_app_exact by exact L; exact Y1|]. split; [exact Y2|].
    exists unit, (source k), 1%nat, tt, tt. split; [apply source_law|]. unfold schnorr_sign.
    destruct (C27_setters_partial scalar_default 0 []) as [_ [_ P]]; [split; [apply bytes_repeat0|reflexivity]|lia|constructor|].
    destruct (P unit (source k) 1%nat tt (source_law k)) as [[_ E']|[r [v [s' [E1 [E2 [_ [[n [_ [[Br Lr] _]]] Er]]]]]]]]; [rewrite (source_pick k Hk) in E'; discriminate E'|].
    rewrite (source_pick k Hk) in E2. injection E2 as <- <-. rewrite E1. cbn [must bindo]. specialize (Er eq_refl).
    assert (r = le_bytes 32 k) as ->; [|now rewrite E].
    apply le_val_inj; [exact Br|apply le_bytes_bytes|now rewrite le_bytes_length|]. rewrite Er. symmetry. apply le_val_le_bytes_small.
    pose proof order_255. assert (2 ^ 255 < 256 ^ Z.of_nat 32) by reflexivity. lia.
  - intros [Y1 [Y2 [St [Rnd [fuel [st [st' [HR H]]]]]]]].
    destruct (C37_completeness C ok sha shok St Rnd fuel st st' x msg sig HR Hx Bx Dx Hm H) as [_ [V _]]. apply V. split; [exact Y1|exact Y2].
Qed.

(** The signatures depend on the private key through the public key only. *)
Theorem C122_public_key (x x' k msg : list Z) : scalar32 x -> le_val x < 2 ^ 255 -> scalar32 x' -> le_val x' < 2 ^ 255 ->
  scalar32 k -> le_val k < 2 ^ 255 -> mul (le_val x) B = mul (le_val x') B ->
  schnorr_sign_with C sha k x msg = schnorr_sign_with C sha k x' msg.
Proof.
  intros Hx Bx Hx' Bx' Hk Bk E. rewrite !(schnorr_sign_with_ok C ok sha shok) by assumption. rewrite E. f_equal. f_equal. apply red_eq.
  apply (base_inj C ok) in E. destruct E as [q E]. set (c := challengeZ _ _ _ _).
  replace (le_val x) with (le_val x' + q * order) by lia. replace (le_val k + (le_val x' + q * order) * c) with (le_val k + le_val x' * c + (q * c) * order) by ring.
  apply Z_mod_plus_full.
Qed.
End C122.
Print Assumptions C122_nonce.
Print Assumptions C122_exact.
Print Assumptions C122_public_key.

(** A signature of the toy curve (C38): its only nonce is 99, and it is also what the source of 99 gives. *)
Example C122_nonvacuous : scalar32 xkey /\ le_val xkey < 2 ^ 255 /\ ~ (order | le_val xkey) /\ Forall (fun b => 0 <= b < 256) sg1 /\
  valid_signature toyc toy_ok ToyCurve.toysha (penc toyc (zmul (co_group toyc toy_ok) (le_val xkey) (pbase toyc))) m1 sg1 /\
  schnorr_sign_with toyc ToyCurve.toysha (le_bytes 32 99) xkey m1 = Ok sg1 /\
  (exists st', schnorr_sign toyc ToyCurve.toysha unit (source 99) 1 tt xkey m1 = Ok (sg1, st')) /\
  (** the same public key from another representative of the private key *)
  le_val (le_bytes 32 (4242 + order)) < 2 ^ 255 /\
  schnorr_sign_with toyc ToyCurve.toysha (le_bytes 32 99) (le_bytes 32 (4242 + order)) m1 = Ok sg1.
Proof.
  split; [split; [apply le_bytes_bytes|apply le_bytes_length]|]. split; [reflexivity|]. split; [apply not_mult; vm_compute; auto|].
  assert (Bs : Forall (fun b => 0 <= b < 256) sg1).
  { vm_compute. repeat (constructor; [split; [discriminate|reflexivity]|]). constructor. }
  split; [exact Bs|]. split; [|split; [vm_compute; reflexivity|split; [eexists; vm_compute; reflexivity|split; vm_compute; reflexivity]]].
  refine (proj1 (C38_exact toyc toy_ok ToyCurve.toysha ToyCurve.toysha_ok _ m1 sg1 _ Bs) _); [apply (co_enc toyc toy_ok)|].
  assert (zmul (co_group toyc toy_ok) (le_val xkey) (pbase toyc) = tmk 4242) as ->; [|vm_compute; reflexivity].
  rewrite toy_mul. apply tpt_eq. vm_compute. reflexivity.
Qed.

Lemma ok_inj (E A : Type) (a b : A) : @Ok E A a = Ok b -> a = b.
Proof. intros H. now injection H. Qed.
(** On the curve edwards25519. *)
Opaque GeModel.ge_scalar_mult GeModel.ge_scalar_mult_base GeModel.ge_scalar_mult_vartime GeModel.ext_set_bytes GeModel.ext_write_bytes.
Theorem C122_ed25519 (sha : list Z -> list Z) (x msg sig : list Z) : sha_ok sha -> scalar32 x -> le_val x < 2 ^ 255 -> ~ (order | le_val x) ->
  Forall (fun b => 0 <= b < 256) msg -> Forall (fun b => 0 <= b < 256) sig ->
  let A := mul (le_val x) ebase in
  (schnorr_verify ed25519 sha A msg sig = Ok tt <->
   y_of (firstn 32 sig) < p25519 - 217 /\ fz (ey A) < p25519 - 217 /\
   exists (St : Type) (Rnd : stream St) (fuel : nat) (st st' : St), stream_law Rnd /\ schnorr_sign ed25519 sha St Rnd fuel st x msg = Ok (sig, st')) /\
  (schnorr_verify ed25519 sha A msg sig = Ok tt ->
   exists k, 1 <= k < order /\ firstn 32 sig = enc (mul k ebase) /\ schnorr_sign_with ed25519 sha (le_bytes 32 k) x msg = Ok sig /\
     forall k', 0 <= k' < order -> schnorr_sign_with ed25519 sha (le_bytes 32 k') x msg = Ok sig -> k' = k).
Proof.
  intros Hsha Hx Bx Dx Hm Hs A. pose proof (C122_exact ed25519 ed25519_ok sha Hsha x msg sig Hx Bx Dx Hm Hs) as V. cbv zeta in V.
  rewrite co_zmul, ed_base in V. fold A in V. assert (EA : y_of (penc ed25519 A) = fz (ey A)).
  { rewrite ed_enc. unfold y_of. rewrite (proj1 (enc_parts A)). reflexivity. }
  rewrite EA in V. split; [exact V|]. intros H.
  apply (C38_exact ed25519 ed25519_ok sha Hsha) in H; [|apply (co_enc ed25519 ed25519_ok)|exact Hs].
  pose proof (C122_nonce ed25519 ed25519_ok sha Hsha x msg sig Hx Bx Hs) as N. rewrite co_zmul, ed_base in N. fold A in N.
  destruct (N H) as [k [Hk [E U]]]. exists k. split; [exact Hk|]. split; [|split; [exact E|exact U]].
  assert (Bk : le_val (le_bytes 32 k) = k).
  { apply le_val_le_bytes_small. pose proof order_255. assert (2 ^ 255 < 256 ^ Z.of_nat 32) by reflexivity. lia. }
  rewrite (schnorr_sign_with_ok ed25519 ed25519_ok sha Hsha) in E;
    [|split; [apply le_bytes_bytes|apply le_bytes_length]|rewrite Bk; pose proof order_255; lia|exact Hx|exact Bx].
  apply ok_inj in E. rewrite <- E. rewrite firstn_app_exact by apply (co_enc ed25519 ed25519_ok). rewrite Bk, co_zmul, ed_base. apply ed_enc.
Qed.
Print Assumptions C122_ed25519.
Example C122_ed25519_nonvacuous : let x := le_bytes 32 1 in scalar32 x /\ le_val x < 2 ^ 255 /\ ~ (order | le_val x) /\
  Forall (fun b => 0 <= b < 256) (exA ++ le_bytes 32 ((1 + exc) mod order)) /\
  valid_ed25519 EdSuite.toysha (enc (mul (le_val x) ebase)) [1; 2; 3] (exA ++ le_bytes 32 ((1 + exc) mod order)).
Proof.
  cbv zeta. assert (E : le_val (le_bytes 32 1) = 1) by (vm_compute; reflexivity). rewrite E.
  split; [split; [apply le_bytes_bytes|apply le_bytes_length]|]. split; [reflexivity|]. split; [apply not_mult; vm_compute; auto|].
  split; [apply bytes_app; [apply enc_bytes|apply le_bytes_bytes]|]. rewrite zmul_1. exact (proj1 (proj2 C38_ed25519_nonvacuous)).
Qed.
