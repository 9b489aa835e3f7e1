(** C31, C32, C37-C41, C66: point checks, Schnorr and EdDSA signatures, key pairs. *)
From Coq Require Import ZArith Znumtheory String List Bool Lia ssrbool Eqdep_dec.
From Verif Require Import Base Bytes Limb ScLimbs IntModel RandModel RandProofs ScModel ScProofs ScalarProofs Primes.
From Verif Require Import Group EdModel EdBytes PropsSc EdSpec EdProofs ToyCurve.
Import ListNotations.
Local Open Scope Z_scope.

(** ** C31 *)
(** The check accepts exactly the 32-byte strings whose y field is below p - 217. *)
Theorem C31_canonical_partial (b : list Z) : Forall (fun x => 0 <= x < 256) b ->
  (pt_is_canonical b = true <-> length b = 32%nat /\ y_of b < p25519 - 217).
Proof.
  intros Hb. rewrite (pt_is_canonical_ok b Hb). unfold p25519. change (y_of b) with (y_field b).
  split; (intros [H1 H2]; split; [exact H1|lia]).
Qed.
Print Assumptions C31_canonical_partial.
(** The full statement ("iff y < p") fails: 217 canonical y fields are refused, e.g. p - 3. *)
Theorem C31_refuted : exists b, Forall (fun x => 0 <= x < 256) b /\ length b = 32%nat /\ 0 <= y_of b < p25519 /\ pt_is_canonical b = false.
Proof.
  exists (le_bytes 32 (p25519 - 3)). split; [apply le_bytes_bytes|]. split; [reflexivity|]. vm_compute. repeat split; discriminate.
Qed.
Print Assumptions C31_refuted.
Example C31_nonvacuous :
  pt_is_canonical (le_bytes 32 (p25519 - 218)) = true /\ pt_is_canonical (le_bytes 32 (p25519 - 217)) = false /\
  pt_is_canonical (le_bytes 32 p25519) = false /\ pt_is_canonical (le_bytes 32 (2 ^ 255 - 1)) = false /\
  pt_is_canonical (le_bytes 32 (2 ^ 255 + 4)) = true /\ pt_is_canonical (le_bytes 31 4) = false.
Proof. vm_compute. auto 10. Qed.

(** ** C32 *)
Definition y8 : Z := 2707385501144840649318225287225658788936804267575313519463743609750303402022.
Theorem C32_small_order (s : list Z) : Forall (fun x => 0 <= x < 256) s -> length s = 32%nat ->
  (pt_small_order s = true <-> y_of s = 0 \/ y_of s = 1 \/ y_of s = p25519 - 1 \/ y_of s = y8 \/ y_of s = p25519 - y8).
Proof.
  intros Hs L. rewrite (pt_small_order_ok s Hs L). change (y_of s) with (y_field s).
  assert (E : map le_val WEAK_KEYS = [0; 1; y8; p25519 - y8; p25519 - 1]) by (vm_compute; reflexivity).
  rewrite E. cbn [In]. split; intuition.
Qed.
Print Assumptions C32_small_order.
Example C32_nonvacuous : pt_small_order (le_bytes 32 (2 ^ 255 + y8)) = true /\ pt_small_order (le_bytes 32 2) = false.
Proof. vm_compute. auto. Qed.

(** ** C37 *)
Section C37.
Variables (C : curve) (ok : curve_ok C) (sha : list Z -> list Z) (shok : sha_ok sha).
Notation mul := (zmul (co_group C ok)).
Notation B := (pbase C).

Lemma point_valid_key z : ~ (order | z) -> small C (mul z B) = false.
Proof. intros D. apply (small_false C ok). now apply base_not_small. Qed.

Lemma sign_valid (x z : Z) (msg : list Z) : ~ (order | x) -> ~ (order | z) ->
  let R := penc C (mul z B) in let A := penc C (mul x B) in
  let sig := R ++ red (z + x * challengeZ sha R A msg) in
  valid_signature C ok sha A msg sig <-> y_of R < p25519 - 217 /\ y_of A < p25519 - 217.
Proof.
  intros Dx Dz R A sig. pose proof (proj2 (co_enc C ok (mul z B))) as LR. fold R in LR.
  split.
  - intros [rb [s [R' [A' [[E L] _ _ [H1 H2] _]]]]]. assert (rb = R) as ->; [|split; assumption].
    apply (f_equal (firstn 32)) in E. unfold sig in E. rewrite !firstn_app_exact in E by assumption. congruence.
  - intros [H1 H2]. exists R, ((z + x * challengeZ sha R A msg) mod order), (mul z B), (mul x B).
    split.
    + split; [reflexivity|exact LR].
    + apply Z.mod_pos_bound. exact order_pos.
    + split; apply (co_enc_dec C ok).
    + split; assumption.
    + split; [now apply base_not_small|]. split; [now apply base_not_small|].
      rewrite base_mod, zmul_add. change (padd C) with (gadd (co_group C ok)). f_equal.
      rewrite <- zmul_mul. apply base_cong. set (c := challengeZ sha R A msg).
      pose proof (Z.div_mod c order ltac:(discriminate)) as D. exists (x * (c / order)).
      replace (c mod order) with (c - order * (c / order)) by lia. ring.
Qed.

(** What [sign] returns (if its rejection loop stops) is a valid signature and passes [verify], unless one of the two points
    has one of the 217 refused y fields; then [verify] refuses it. *)
Theorem C37_completeness (St : Type) (Rnd : stream St) (fuel : nat) (st st' : St) (x msg sig : list Z) :
  stream_law Rnd -> scalar32 x -> le_val x < 2 ^ 255 -> ~ (order | le_val x) -> Forall (fun b => 0 <= b < 256) msg ->
  schnorr_sign C sha St Rnd fuel st x msg = Ok (sig, st') ->
  let A := mul (le_val x) B in
  length sig = 64%nat /\
  (schnorr_verify C sha A msg sig = Ok tt <-> y_of (firstn 32 sig) < p25519 - 217 /\ y_of (penc C A) < p25519 - 217) /\
  (schnorr_verify C sha A msg sig = Ok tt <-> valid_signature C ok sha (penc C A) msg sig).
Proof.
  intros HR Hx Bx Dx _ H A. unfold schnorr_sign in H.
  destruct (C27_setters_partial scalar_default 0 []) as [_ [_ P]]; [split; [apply bytes_repeat0|reflexivity]|lia|constructor|].
  destruct (P St Rnd fuel st HR) as [[E _]|[k [v [s' [E [_ [Hv [[n [_ [Sk _]]] Hk]]]]]]]]; [rewrite E in H; discriminate|].
  rewrite E in H. cbn [must bindo] in H. specialize (Hk eq_refl).
  rewrite (schnorr_sign_with_ok C ok sha shok) in H; [|exact Sk|pose proof order_255; lia|exact Hx|exact Bx].
  cbn [bindo] in H. injection H as <- <-. fold A. rewrite Hk. set (sig := penc C (mul v B) ++ _).
  assert (Dv : ~ (order | v)). { intros [q D]. assert (q = 0 \/ q >= 1 \/ q <= -1) by lia. pose proof order_pos. nia. }
  pose proof (co_enc C ok (mul v B)) as [BR LR]. pose proof (co_enc C ok A) as [BA LA].
  assert (Bsig : bytes sig) by (apply bytes_app; [exact BR|apply red_scalar]).
  assert (V : schnorr_verify C sha A msg sig = Ok tt <-> valid_signature C ok sha (penc C A) msg sig).
  { unfold schnorr_verify. rewrite (schnorr_eddsa C ok sha shok) by assumption. rewrite (eddsa_verify_checks C ok sha shok) by assumption.
    now apply checks_valid. }
  split; [|split].
  - unfold sig. rewrite app_length, LR. reflexivity.
  - rewrite V. unfold sig at 2. rewrite firstn_app_exact by exact LR. exact (sign_valid (le_val x) v msg Dx Dv).
  - exact V.
Qed.

(** Exact form of the signature: the nonce k is the number drawn from the stream, which is left just behind that draw (so
    the next signature draws a new one). *)
Theorem C37_nonce (St : Type) (Rnd : stream St) (fuel : nat) (st st' : St) (x msg sig : list Z) :
  stream_law Rnd -> scalar32 x -> le_val x < 2 ^ 255 -> schnorr_sign C sha St Rnd fuel st x msg = Ok (sig, st') ->
  exists k, random_int St Rnd fuel order st = Ok (k, st') /\ 1 <= k < order /\
    sig = penc C (mul k B) ++ le_bytes 32 ((k + le_val x * challengeZ sha (penc C (mul k B)) (penc C (mul (le_val x) B)) msg) mod order).
Proof.
  intros HR Hx Bx H. unfold schnorr_sign in H.
  destruct (C27_setters_partial scalar_default 0 []) as [_ [_ P]]; [split; [apply bytes_repeat0|reflexivity]|lia|constructor|].
  destruct (P St Rnd fuel st HR) as [[E _]|[k [v [s' [E [Ev [Hv [[n [_ [Sk _]]] Hk]]]]]]]]; [rewrite E in H; discriminate|].
  rewrite E in H. cbn [must bindo] in H. specialize (Hk eq_refl).
  rewrite (schnorr_sign_with_ok C ok sha shok) in H; [|exact Sk|pose proof order_255; lia|exact Hx|exact Bx].
  cbn [bindo] in H. injection H as <- <-. exists v. split; [exact Ev|]. split; [exact Hv|]. rewrite Hk. reflexivity.
Qed.

(** [sign] never fails or panics. *)
Theorem C37_total (St : Type) (Rnd : stream St) (fuel : nat) (st : St) (x msg : list Z) :
  stream_law Rnd -> scalar32 x -> le_val x < 2 ^ 255 ->
  schnorr_sign C sha St Rnd fuel st x msg = OutOfFuel \/ exists sig st', schnorr_sign C sha St Rnd fuel st x msg = Ok (sig, st').
Proof.
  intros HR Hx Bx. unfold schnorr_sign.
  destruct (C27_setters_partial scalar_default 0 []) as [_ [_ P]]; [split; [apply bytes_repeat0|reflexivity]|lia|constructor|].
  destruct (P St Rnd fuel st HR) as [[E _]|[k [v [s' [E [_ [Hv [[n [_ [Sk _]]] Hk]]]]]]]]; rewrite E; cbn [must bindo]; [now left|right].
  rewrite (schnorr_sign_with_ok C ok sha shok); [|exact Sk|specialize (Hk eq_refl); pose proof order_255; lia|exact Hx|exact Bx].
  cbn [bindo]. eauto.
Qed.

(** ** C38 *)
(** [verify_with_checks] accepts exactly the valid signatures. *)
Theorem C38_exact (ab msg sig : list Z) : Forall (fun b => 0 <= b < 256) ab -> Forall (fun b => 0 <= b < 256) sig ->
  (schnorr_verify_with_checks C sha ab msg sig = Ok tt <-> valid_signature C ok sha ab msg sig).
Proof.
  intros Ha Hs. rewrite (schnorr_eddsa C ok sha shok) by assumption. rewrite (eddsa_verify_checks C ok sha shok) by assumption.
  now apply checks_valid.
Qed.

(** One R, one S: the second half is determined by the first, the key and the message. *)
Theorem C38_unique (ab msg sig sig' : list Z) :
  valid_signature C ok sha ab msg sig -> valid_signature C ok sha ab msg sig' -> firstn 32 sig = firstn 32 sig' -> sig = sig'.
Proof.
  intros [rb [s [R [A [[-> L] Hs [D1 D2] _ [_ [_ E]]]]]]] [rb' [s' [R' [A' [[-> L'] Hs' [D1' D2'] _ [_ [_ E']]]]]]] F.
  rewrite !firstn_app_exact in F by assumption. subst rb'. assert (R' = R) by congruence. assert (A' = A) by congruence. subst.
  do 2 f_equal. apply (base_inj_small C ok); try assumption. congruence.
Qed.

(** Two accepted signatures with the same R and different challenges determine the private key: x (c - c') = s - s'. *)
Theorem C38_nonce_reuse (x : Z) (ab msg msg' rb : list Z) (s s' : Z) :
  pdec C ab = Some (mul x B) -> length rb = 32%nat -> 0 <= s < order -> 0 <= s' < order ->
  valid_signature C ok sha ab msg (rb ++ le_bytes 32 s) -> valid_signature C ok sha ab msg' (rb ++ le_bytes 32 s') ->
  let c := challengeZ sha rb ab msg in let c' := challengeZ sha rb ab msg' in
  (order | (s - s') - x * (c - c')) /\
  (~ (order | c - c') -> exists i, (order | i * (c - c') - 1) /\ (order | x - i * (s - s'))).
Proof.
  intros Hx L Hs Hs' V V' c c'.
  assert (Q : forall m t, 0 <= t < order -> valid_signature C ok sha ab m (rb ++ le_bytes 32 t) ->
            exists R, pdec C rb = Some R /\ mul t B = padd C R (mul (x * challengeZ sha rb ab m) B)).
  { intros m t Ht [rb1 [t1 [R1 [A1 [[E1 L1] Ht1 [D1 D2] _ [_ [_ Eq]]]]]]]. exists R1.
    assert (rb1 = rb) as ->. { apply (f_equal (firstn 32)) in E1. rewrite !firstn_app_exact in E1 by assumption. congruence. }
    split; [exact D1|]. apply app_inv_head in E1. apply (f_equal le_val) in E1.
    assert (P : 2 ^ 255 < 256 ^ Z.of_nat 32) by reflexivity. pose proof order_255.
    rewrite !le_val_le_bytes_small in E1 by lia. subst t1. rewrite Eq. assert (A1 = mul x B) as -> by congruence. f_equal.
    rewrite <- zmul_mul. apply base_cong. set (e := challengeZ sha rb ab m). pose proof (Z.div_mod e order ltac:(discriminate)) as D. exists (- x * (e / order)).
    replace (e mod order) with (e - order * (e / order)) by lia. ring. }
  destruct (Q _ _ Hs V) as [R [DR E]]. destruct (Q _ _ Hs' V') as [R' [DR' E']]. assert (R' = R) by congruence. subst R'.
  fold c in E. fold c' in E'.
  assert (D : (order | (s - s') - x * (c - c'))).
  { replace ((s - s') - x * (c - c')) with ((s + x * c') - (s' + x * c)) by ring. apply (base_inj C ok).
    rewrite !zmul_add, E, E'. change (padd C) with (gadd (co_group C ok)). rewrite <- !gadd_assoc. f_equal. apply gadd_comm. }
  split; [exact D|]. intros N.
  assert (Rp : rel_prime (c - c') order). { apply rel_prime_sym. apply prime_rel_prime; [exact order_prime|exact N]. }
  destruct (rel_prime_bezout _ _ Rp) as [u v Huv]. exists u. split.
  - exists (- v). lia.
  - destruct D as [q D]. exists (v * x - u * q). replace (s - s') with (x * (c - c') + q * order) by lia.
    replace x with (x * (u * (c - c') + v * order)) at 1 by (rewrite Huv; ring). ring.
Qed.

(** A signature accepted under two keys for one message ties the keys together: c A = c' A'. *)
Theorem C38_two_keys (ab ab' msg sig : list Z) (A A' : pt C) :
  valid_signature C ok sha ab msg sig -> valid_signature C ok sha ab' msg sig -> pdec C ab = Some A -> pdec C ab' = Some A' ->
  mul (challengeZ sha (firstn 32 sig) ab msg mod order) A = mul (challengeZ sha (firstn 32 sig) ab' msg mod order) A'.
Proof.
  intros [rb [s [R [A1 [[-> L] Hs [D1 D2] _ [_ [_ E]]]]]]] [rb' [s' [R' [A1' [[F L'] Hs' [D1' D2'] _ [_ [_ E']]]]]]] DA DA'.
  rewrite firstn_app_exact by assumption.
  assert (rb' = rb) as ->. { apply (f_equal (firstn 32)) in F. rewrite !firstn_app_exact in F by assumption. congruence. }
  apply app_inv_head in F. apply (f_equal le_val) in F.
  assert (P : 2 ^ 255 < 256 ^ Z.of_nat 32) by reflexivity. pose proof order_255. rewrite !le_val_le_bytes_small in F by lia. subst s'.
  assert (R' = R) by congruence. assert (A1 = A) by congruence. assert (A1' = A') by congruence. subst.
  apply (gadd_cancel_l (co_group C ok) R). cbn [gadd co_group]. congruence.
Qed.

(** ** C39 *)
(** EdDSA signatures of a signer with a clamped or reduced secret are accepted by both verifiers. *)
Theorem C39_completeness (e : eddsa C) (msg : list Z) :
  scalar32 (ed_secret C e) -> le_val (ed_secret C e) < 2 ^ 255 -> ~ (order | le_val (ed_secret C e)) ->
  ed_public C e = mul (le_val (ed_secret C e)) B -> ~ (order | le_val (sha (ed_prefix C e ++ msg))) ->
  exists sig, eddsa_sign C sha e msg = Ok sig /\ length sig = 64%nat /\
    (eddsa_verify C sha (ed_public C e) msg sig = Ok tt <->
       y_of (firstn 32 sig) < p25519 - 217 /\ y_of (penc C (ed_public C e)) < p25519 - 217) /\
    (eddsa_verify C sha (ed_public C e) msg sig = Ok tt <-> valid_signature C ok sha (penc C (ed_public C e)) msg sig).
Proof.
  intros Hx Bx Dx Pe Dr. rewrite (eddsa_sign_ok C ok sha shok) by exact Hx. eexists. split; [reflexivity|].
  rewrite Pe. set (r := le_val (sha (ed_prefix C e ++ msg))) in *. set (sig := penc C (mul r B) ++ _).
  pose proof (co_enc C ok (mul r B)) as [BR LR]. pose proof (co_enc C ok (mul (le_val (ed_secret C e)) B)) as [BA LA].
  assert (Bsig : bytes sig) by (apply bytes_app; [exact BR|apply red_scalar]).
  assert (V : eddsa_verify C sha (mul (le_val (ed_secret C e)) B) msg sig = Ok tt <-> valid_signature C ok sha (penc C (mul (le_val (ed_secret C e)) B)) msg sig).
  { unfold eddsa_verify. rewrite (eddsa_verify_checks C ok sha shok) by assumption. now apply checks_valid. }
  split; [unfold sig; rewrite app_length, LR; reflexivity|]. split; [|exact V].
  rewrite V. unfold sig at 2. rewrite firstn_app_exact by exact LR. exact (sign_valid (le_val (ed_secret C e)) r msg Dx Dr).
Qed.

(** The two verifiers accept the same signatures, for every key, message and signature bytes. *)
Theorem C39_cross (ab msg sig : list Z) : Forall (fun b => 0 <= b < 256) ab -> Forall (fun b => 0 <= b < 256) sig ->
  (eddsa_verify_with_checks C sha ab msg sig = Ok tt <-> schnorr_verify_with_checks C sha ab msg sig = Ok tt).
Proof. intros Ha Hs. symmetry. now apply schnorr_eddsa. Qed.

(** The secrets derived from seeds meet the hypotheses of [C39_completeness]. *)
Lemma clamp_ok d : bytes d -> length d = 32%nat -> clamped (clamp d).
Proof.
  intros Hd L. destruct d as [|b0 r]; [discriminate|]. cbn [length] in L. injection L as L.
  inversion Hd as [|? ? H0 Hr]; subst. unfold is_byte in H0. cbn [clamp].
  pose proof (nth_byte r 30 Hr) as H31. set (t := nth 30 r 0) in *.
  assert (E0 : exists q, Z.land b0 248 = 8 * q /\ 0 <= q < 32).
  { assert (F : forallb (fun i => (Z.land (Z.of_nat i) 248 =? 8 * (Z.of_nat i / 8))) (seq 0 256) = true) by (vm_compute; reflexivity).
    rewrite forallb_forall in F. specialize (F (Z.to_nat b0)). rewrite Z2Nat.id in F by lia.
    exists (b0 / 8). split; [apply Z.eqb_eq, F, in_seq; lia|]. split; [apply Z.div_pos; lia|apply Z.div_lt_upper_bound; lia]. }
  assert (E1 : 64 <= Z.lor (Z.land t 127) 64 < 128).
  { assert (F : forallb (fun i => let v := Z.lor (Z.land (Z.of_nat i) 127) 64 in (64 <=? v) && (v <? 128)) (seq 0 256) = true) by (vm_compute; reflexivity).
    rewrite forallb_forall in F. specialize (F (Z.to_nat t)). rewrite Z2Nat.id in F by lia. cbn zeta in F.
    rewrite andb_true_iff, Z.leb_le, Z.ltb_lt in F. apply F, in_seq. lia. }
  destruct E0 as [q [-> Hq]]. set (v := Z.lor _ _) in *.
  pose proof (bytes_firstn 30 r Hr) as B30. assert (L30 : length (firstn 30 r) = 30%nat) by (rewrite firstn_length; lia).
  pose proof (le_val_bound _ B30) as V30. rewrite L30 in V30.
  assert (V : le_val (8 * q :: firstn 30 r ++ [v]) = 8 * q + 256 * (le_val (firstn 30 r) + 256 ^ 30 * v)).
  { cbn [le_val]. rewrite le_val_app, L30. cbn [le_val]. change (Z.of_nat 30) with 30. ring. }
  split; [|split].
  - split; [|cbn [length]; rewrite app_length, L30; reflexivity]. constructor; [lia|]. apply bytes_app; [exact B30|].
    constructor; [unfold is_byte; lia|constructor].
  - rewrite V. change (2 ^ 255) with (256 * (256 ^ 30 * 128)). change (2 ^ 254) with (256 * (256 ^ 30 * 64)).
    change (Z.of_nat 30) with 30 in V30. assert (0 < 256 ^ 30) by reflexivity. nia.
  - rewrite V. exists (q + 32 * (le_val (firstn 30 r) + 256 ^ 30 * v)). ring.
Qed.

Lemma clamped_not_multiple s : clamped s -> ~ (order | le_val s).
Proof.
  intros [_ [R [k K]]] [m M]. assert (D8 : (8 | m)).
  { apply Gauss with order; [exists k; lia|]. apply rel_prime_sym. apply prime_rel_prime; [exact order_prime|].
    intros D. apply Z.divide_pos_le in D; [|lia]. revert D. unfold order. lia. }
  destruct D8 as [j J]. subst m. rewrite M in R. assert (O4 : 4 * order > 2 ^ 254) by reflexivity. assert (O8 : 8 * order > 2 ^ 255) by reflexivity.
  destruct (Z_le_gt_dec j 0); nia.
Qed.

Theorem C39_seed_signer (seed : list Z) : Forall (fun b => 0 <= b < 256) seed -> length seed = 32%nat ->
  let e := eddsa_of_seed C sha seed in
  clamped (ed_secret C e) /\ ~ (order | le_val (ed_secret C e)) /\ ed_public C e = mul (le_val (ed_secret C e)) B /\
  ed_seed C e = seed /\ ed_prefix C e = skipn 32 (sha seed) /\ length (ed_prefix C e) = 32%nat.
Proof.
  intros Hs L e. destruct (shok seed) as [BS LS].
  assert (K : clamped (ed_secret C e)). { apply clamp_ok; [apply bytes_firstn; exact BS|rewrite firstn_length; lia]. }
  split; [exact K|]. split; [now apply clamped_not_multiple|]. split; [|split; [reflexivity|split; [reflexivity|]]].
  - apply (co_mul_base C ok); [apply K|apply K].
  - change (length (skipn 32 (sha seed)) = 32%nat). rewrite skipn_length. lia.
Qed.

(** ** C40 *)
(** For signers with a 32-byte prefix the nonce is the hash of the prefix and the message; equal R for two messages means
    equal nonces modulo the order. *)
Theorem C40_nonce_partial (e : eddsa C) (msg : list Z) : scalar32 (ed_secret C e) ->
  exists sig, eddsa_sign C sha e msg = Ok sig /\ firstn 32 sig = penc C (mul (le_val (sha (ed_prefix C e ++ msg))) B).
Proof.
  intros Hx. rewrite (eddsa_sign_ok C ok sha shok) by exact Hx. eexists. split; [reflexivity|].
  apply firstn_app_exact. apply (co_enc C ok).
Qed.

(** What an observer of one signature of a converted key pair computes, from the public key, message and signature only. *)
Definition recover_key (ab msg sig : list Z) : Z :=
  (le_val (skipn 32 sig) - le_val (sha msg)) * challengeZ sha (firstn 32 sig) ab msg ^ (order - 2) mod order.
Theorem C40_refuted (x msg sig : list Z) : scalar32 x ->
  let e := eddsa_of_pair C x (mul (le_val x) B) in
  eddsa_sign C sha e msg = Ok sig ->
  ~ (order | challengeZ sha (firstn 32 sig) (penc C (ed_public C e)) msg) ->
  recover_key (penc C (ed_public C e)) msg sig = le_val x mod order.
Proof.
  intros Hx e H Dc. rewrite (eddsa_sign_ok C ok sha shok) in H by exact Hx. injection H as <-. cbn [ed_prefix ed_public ed_secret eddsa_of_pair e app] in *.
  set (r := le_val (sha msg)) in *. set (Rb := penc C (mul r B)) in *. set (Ab := penc C (mul (le_val x) B)) in *.
  assert (LR : length Rb = 32%nat) by apply (co_enc C ok). unfold recover_key.
  rewrite firstn_app_exact, skipn_app_exact in * by exact LR. fold r. set (c := challengeZ sha Rb Ab msg) in *. rewrite red_val.
  assert (N : c mod order <> 0). { intros E. apply Dc. now apply Z.mod_divide. }
  pose proof (fermat order c order_prime N) as F.
  replace (order - 1) with (Z.succ (order - 2)) in F by lia. rewrite Z.pow_succ_r in F by (unfold order; lia).
  set (w := c ^ (order - 2)) in *.
  rewrite <- (Zmult_mod_idemp_l ((r + le_val x * c) mod order - r)), Zminus_mod_idemp_l, Zmult_mod_idemp_l.
  replace ((r + le_val x * c - r) * w) with (le_val x * (c * w)) by ring.
  rewrite <- Zmult_mod_idemp_r, F. f_equal. ring.
Qed.

(** ** C41 *)
(** Signers made from a seed survive serialisation; other lengths than 64 are refused without touching the receiver. *)
Theorem C41_round_trip (seed : list Z) (recv : eddsa C) : length seed = 32%nat ->
  let e := eddsa_of_seed C sha seed in
  eddsa_marshal C e = Ok (seed ++ penc C (ed_public C e)) /\
  (forall b, eddsa_marshal C e = Ok b -> length b = 64%nat /\ eddsa_unmarshal C sha recv b = (Ok tt, e)).
Proof.
  intros L e. unfold eddsa_marshal. change (ed_seed C e) with seed. rewrite L. cbn [Nat.eqb negb]. split; [reflexivity|].
  intros b E. set (w := seed ++ penc C (ed_public C e)) in E. injection E as <-. pose proof (co_enc C ok (ed_public C e)) as [_ LA].
  assert (Lb : length w = 64%nat) by (unfold w; rewrite app_length; lia). split; [exact Lb|].
  unfold eddsa_unmarshal. rewrite Lb. unfold w. rewrite firstn_app_exact by exact L. reflexivity.
Qed.
Theorem C41_wrong_length (recv : eddsa C) (b : list Z) : length b <> 64%nat -> eddsa_unmarshal C sha recv b = (Err SigMarshalling, recv).
Proof. intros N. unfold eddsa_unmarshal. now rewrite (proj2 (Nat.eqb_neq _ _) N). Qed.
(** Every 64-byte string is accepted; the public-key half is ignored: the result is determined by the first 32 bytes. *)
Theorem C41_public_half_ignored (recv recv' : eddsa C) (b b' : list Z) : length b = 64%nat -> length b' = 64%nat ->
  firstn 32 b = firstn 32 b' -> eddsa_unmarshal C sha recv b = eddsa_unmarshal C sha recv' b' /\ fst (eddsa_unmarshal C sha recv b) = Ok tt.
Proof. intros L L' E. unfold eddsa_unmarshal. now rewrite L, L', E. Qed.
(** Serialising a signer converted from a key pair, or the default signer, panics. *)
Theorem C41_refuted (x : list Z) (P : pt C) : eddsa_marshal C (eddsa_of_pair C x P) = Panic /\ eddsa_marshal C (eddsa_default C) = Panic.
Proof. split; reflexivity. Qed.

(** ** C66 *)
Theorem C66_key_pair (St : Type) (Rnd : stream St) (fuel : nat) (st : St) (private : list Z) (public : pt C) (st' : St) :
  stream_law Rnd -> key_pair_gen C sha St Rnd fuel st = Ok (private, public, st') ->
  clamped private /\ public = mul (le_val private) B /\ mul 8 public <> pzero C /\
  exists seed, xks Rnd st (repeat 0 32) = (Some seed, st').
Proof.
  intros HR H. unfold key_pair_gen, pair_gen_with, new_key, random_bytes in H.
  destruct (xks Rnd st (repeat 0 32)) as [[seed|] s1] eqn:E; [|discriminate].
  cbn [bindo] in H. destruct (HR _ _ _ _ E) as [L Bs]. rewrite repeat_length in L. specialize (Bs (bytes_repeat0 32)).
  unfold new_key_and_seed_with_input in H. cbn [bindo] in H. set (k := clamp _) in H. injection H as <- <- <-.
  destruct (C39_seed_signer seed Bs L) as [K [N [P _]]]. split; [exact K|]. split; [exact P|].
  split; [|eauto]. change (mul 8 (ed_public C (eddsa_of_seed C sha seed)) <> pzero C). rewrite P. now apply base_not_small.
Qed.
(** Any generator: the keys match, and without a generator the private key is a uniformly addressed nonzero residue. *)
Theorem C66_any_generator (St : Type) (Rnd : stream St) generator (fuel : nat) (st : St) (private : list Z) (public : pt C) (st' : St) :
  stream_law Rnd -> (forall s k s', generator s = Ok (Some k, s') -> scalar32 k /\ le_val k < 2 ^ 255) ->
  pair_gen_with C St Rnd generator fuel st = Ok (private, public, st') ->
  scalar32 private /\ public = mul (le_val private) B /\
  (forall s, generator st = Ok (None, s) -> random_int St Rnd fuel order s = Ok (le_val private, st') /\
     1 <= le_val private < order /\ mul 8 public <> pzero C) /\
  (forall k s, generator st = Ok (Some k, s) -> private = k /\ st' = s).
Proof.
  intros HR Hg H. unfold pair_gen_with in H. destruct (generator st) as [[[k|] s1]| | |] eqn:E; try discriminate; cbn [bindo] in H.
  - injection H as <- <- <-. destruct (Hg _ _ _ E) as [Sk Bk]. split; [exact Sk|]. split; [now apply (co_mul_base C ok)|].
    split; [discriminate|]. intros k' s' E'. injection E' as <- <-. auto.
  - destruct (C27_setters_partial scalar_default 0 []) as [_ [_ P]]; [split; [apply bytes_repeat0|reflexivity]|lia|constructor|].
    destruct (P St Rnd fuel s1 HR) as [[E' _]|[k [v [s' [E' [Ev [Hv [[n [_ [Sk _]]] Hk]]]]]]]]; rewrite E' in H; [discriminate|].
    cbn [must bindo] in H. injection H as <- <- <-. specialize (Hk eq_refl). pose proof order_255.
    assert (Pk : pmul_base C k = mul (le_val k) B) by (apply (co_mul_base C ok); [exact Sk|lia]).
    split; [exact Sk|]. split; [exact Pk|]. split; [|discriminate]. intros s Es. injection Es as <-. split; [congruence|]. split; [lia|]. rewrite Pk, Hk. apply base_not_small.
    intros [q D]. assert (q = 0 \/ q >= 1 \/ q <= -1) by lia. pose proof order_pos. nia.
Qed.
Theorem C66_eddsa_new (St : Type) (Rnd : stream St) (st st' : St) (e : eddsa C) :
  stream_law Rnd -> eddsa_new C sha St Rnd st = Ok (e, st') ->
  exists seed, xks Rnd st (repeat 0 32) = (Some seed, st') /\ length seed = 32%nat /\ e = eddsa_of_seed C sha seed /\ clamped (ed_secret C e) /\ ed_public C e = mul (le_val (ed_secret C e)) B.
Proof.
  intros HR H. unfold eddsa_new, random_bytes in H. destruct (xks Rnd st (repeat 0 32)) as [[seed|] s1] eqn:E; [|discriminate].
  cbn [bindo] in H. destruct (HR _ _ _ _ E) as [L Bs]. rewrite repeat_length in L. specialize (Bs (bytes_repeat0 32)).
  injection H as <- <-. exists seed. destruct (C39_seed_signer seed Bs L) as [K [N [P _]]]. auto.
Qed.
End C37.
Print Assumptions C37_completeness.
Print Assumptions C37_nonce.
Print Assumptions C37_total.
Print Assumptions C38_exact.
Print Assumptions C38_unique.
Print Assumptions C38_nonce_reuse.
Print Assumptions C38_two_keys.
Print Assumptions C39_completeness.
Print Assumptions C39_cross.
Print Assumptions C39_seed_signer.
Print Assumptions C40_nonce_partial.
Print Assumptions C40_refuted.
Print Assumptions C41_round_trip.
Print Assumptions C41_wrong_length.
Print Assumptions C41_public_half_ignored.
Print Assumptions C41_refuted.
Print Assumptions C66_key_pair.
Print Assumptions C66_any_generator.
Print Assumptions C66_eddsa_new.

(** *** Non-vacuity, on the toy curve: a signature, two with one nonce, a seed signer, a converted signer. *)
Definition cstream : stream nat := Stream (fun n src => (Some (map (fun _ => Z.of_nat n mod 256) src), S n)).
Lemma cstream_law : stream_law cstream.
Proof.
  intros s src o s' E. cbn in E. injection E as <- <-. rewrite map_length. split; [reflexivity|]. intros _.
  apply Forall_map, Forall_forall. intros x _. apply Z.mod_pos_bound. lia.
Qed.
Definition xkey : list Z := le_bytes 32 4242.
Definition m1 : list Z := [1; 2; 3].
Definition m2 : list Z := [1; 2; 4].
Definition sig_of (o : outcome sig_error (list Z)) : list Z := match o with Ok s => s | _ => [] end.
Lemma not_mult z : 0 < z < order -> ~ (order | z).
Proof. intros H [q D]. assert (q = 0 \/ q >= 1 \/ q <= -1) by lia. pose proof order_pos. nia. Qed.
Lemma not_mult_mod z : (z mod order =? 0) = false -> ~ (order | z).
Proof. intros H D. apply Z.mod_divide in D; [|discriminate]. rewrite D in H. discriminate. Qed.

Example C37_nonvacuous :
  exists sig st', schnorr_sign toyc toysha nat cstream 5 1%nat xkey m1 = Ok (sig, st') /\ st' <> 1%nat /\
    stream_law cstream /\ scalar32 xkey /\ le_val xkey < 2 ^ 255 /\ ~ (order | le_val xkey) /\
    y_of (firstn 32 sig) < p25519 - 217 /\ y_of (penc toyc (tmk 4242)) < p25519 - 217 /\
    schnorr_verify toyc toysha (tmk 4242) m1 sig = Ok tt /\ is_ok (schnorr_verify toyc toysha (tmk 4242) m2 sig) = false /\
    is_ok (schnorr_verify toyc toysha (tmk 4243) m1 sig) = false.
Proof.
  eexists. eexists. split; [vm_compute; reflexivity|]. split; [discriminate|]. split; [exact cstream_law|].
  split; [split; [apply le_bytes_bytes|apply le_bytes_length]|]. split; [reflexivity|]. split; [apply not_mult; vm_compute; auto|].
  repeat (split; [vm_compute; reflexivity|]). vm_compute; reflexivity.
Qed.
(** C38: the run above satisfies [valid_signature]; with the same nonce for two messages the key comes out. *)
Definition sg1 : list Z := sig_of (schnorr_sign_with toyc toysha (le_bytes 32 99) xkey m1).
Definition sg2 : list Z := sig_of (schnorr_sign_with toyc toysha (le_bytes 32 99) xkey m2).
Example C38_nonvacuous :
  let ab := penc toyc (tmk 4242) in let rb := penc toyc (tmk 99) in
  let s := le_val (skipn 32 sg1) in let s' := le_val (skipn 32 sg2) in
  valid_signature toyc toy_ok toysha ab m1 (rb ++ le_bytes 32 s) /\ valid_signature toyc toy_ok toysha ab m2 (rb ++ le_bytes 32 s') /\
  pdec toyc ab = Some (zmul (co_group toyc toy_ok) 4242 (pbase toyc)) /\ 0 <= s < order /\ 0 <= s' < order /\
  ~ (order | challengeZ toysha rb ab m1 - challengeZ toysha rb ab m2).
Proof.
  cbv zeta.
  assert (V : forall m sg, schnorr_verify_with_checks toyc toysha (penc toyc (tmk 4242)) m sg = Ok tt -> Forall (fun b => 0 <= b < 256) sg ->
     valid_signature toyc toy_ok toysha (penc toyc (tmk 4242)) m sg).
  { intros m sg H Hs. refine (proj1 (C38_exact toyc toy_ok toysha toysha_ok _ m sg _ Hs) H). apply tenc_ok. }
  split; [|split; [|split; [|split; [|split]]]].
  - apply V; [vm_compute; reflexivity|]. apply bytes_app; [apply tenc_ok|apply le_bytes_bytes].
  - apply V; [vm_compute; reflexivity|]. apply bytes_app; [apply tenc_ok|apply le_bytes_bytes].
  - rewrite (co_enc_dec toyc toy_ok), toy_mul. apply (f_equal Some). apply tpt_eq. vm_compute. reflexivity.
  - vm_compute. split; [discriminate|reflexivity].
  - vm_compute. split; [discriminate|reflexivity].
  - apply not_mult_mod. vm_compute. reflexivity.
Qed.
Definition seed1 : list Z := repeat 7 32.
Definition signer1 : eddsa toyc := eddsa_of_seed toyc toysha seed1.
Definition esig (e : eddsa toyc) (m : list Z) : list Z := sig_of (eddsa_sign toyc toysha e m).
Example C39_nonvacuous :
  ~ (order | le_val (toysha (ed_prefix toyc signer1 ++ m1))) /\ ~ (order | le_val (ed_secret toyc signer1)) /\
  y_of (firstn 32 (esig signer1 m1)) < p25519 - 217 /\ y_of (penc toyc (ed_public toyc signer1)) < p25519 - 217 /\
  eddsa_verify toyc toysha (ed_public toyc signer1) m1 (esig signer1 m1) = Ok tt /\
  schnorr_verify toyc toysha (ed_public toyc signer1) m1 (esig signer1 m1) = Ok tt /\
  is_ok (eddsa_verify toyc toysha (ed_public toyc signer1) m2 (esig signer1 m1)) = false.
Proof.
  split; [apply not_mult_mod; vm_compute; reflexivity|]. split; [apply not_mult_mod; vm_compute; reflexivity|].
  repeat (split; [vm_compute; reflexivity|]). vm_compute; reflexivity.
Qed.
(** C40: the public recovery finds the key 4242 of a converted pair. *)
Definition conv : eddsa toyc := eddsa_of_pair toyc xkey (zmul (co_group toyc toy_ok) (le_val xkey) (pbase toyc)).
Example C40_nonvacuous :
  exists sig, eddsa_sign toyc toysha conv m1 = Ok sig /\
    ~ (order | challengeZ toysha (firstn 32 sig) (penc toyc (ed_public toyc conv)) m1) /\
    recover_key toysha (penc toyc (ed_public toyc conv)) m1 sig = 4242.
Proof.
  assert (Hx : scalar32 xkey) by (split; [apply le_bytes_bytes|apply le_bytes_length]).
  assert (P : ed_public toyc conv = tmk 4242).
  { unfold conv. cbn [ed_public eddsa_of_pair]. rewrite toy_mul. apply tpt_eq. vm_compute. reflexivity. }
  destruct (C40_nonce_partial toyc toy_ok toysha toysha_ok conv m1 Hx) as [sig [E F]].
  exists sig. split; [exact E|].
  assert (N : ~ (order | challengeZ toysha (firstn 32 sig) (penc toyc (ed_public toyc conv)) m1)).
  { rewrite P, F, toy_mul. apply not_mult_mod. vm_compute. reflexivity. }
  split; [exact N|].
  unfold conv in *. rewrite (C40_refuted toyc toy_ok toysha toysha_ok xkey m1 sig Hx E N). vm_compute. reflexivity.
Qed.
Example C41_nonvacuous :
  is_ok (eddsa_marshal toyc signer1) = true /\ length seed1 = 32%nat /\ eddsa_marshal toyc conv = Panic /\
  firstn 32 (seed1 ++ repeat 0 32) = firstn 32 (seed1 ++ repeat 1 32).
Proof. vm_compute. auto. Qed.
Example C66_nonvacuous :
  is_ok (key_pair_gen toyc toysha nat cstream 3 1%nat) = true /\ is_ok (eddsa_new toyc toysha nat cstream 1%nat) = true /\
  is_ok (pair_gen_with toyc nat cstream (fun s => Ok (None, s)) 3 1%nat) = true /\
  is_ok (pair_gen_with toyc nat cstream (fun s => Ok (Some xkey, s)) 3 1%nat) = true.
Proof. vm_compute. auto. Qed.
