(** C123: verification with overflow checks on. *)
From Coq Require Import ZArith Znumtheory String List Bool Lia ssrbool.
From Verif Require Import Base Bytes Limb ScLimbs IntModel RandModel ScModel ScProofs ScalarProofs EdModel EdBytes PropsSc EdSpec CheckedModel.
From Verif Require Import Group EdProofs PropsEd Edwards Fp EdCurve GeBase GeEnc EdOrder PointCurve EdSuite PropsEd25519.
Import ListNotations.
Local Open Scope Z_scope.
Local Open Scope outcome_scope.
Opaque GeModel.ge_scalar_mult GeModel.ge_scalar_mult_base GeModel.ge_scalar_mult_vartime GeModel.ext_set_bytes GeModel.ext_write_bytes.

(** The bytes of the order, as the loop sees them. *)
Definition order_byte (i : nat) : Z := order / 256 ^ Z.of_nat i mod 256.

Lemma step_ck {E} cn s l : 0 <= s < 256 -> 0 <= l < 256 ->
  @canon_step_ck E cn (s, l) = if s <=? l then Panic else Ok (canon_step cn (s, l)).
Proof.
  intros Hs Hl. destruct cn as [c n]. unfold canon_step_ck, canon_step, sub_ck.
  destruct (Z.ltb_spec s l) as [H|H]; [destruct (Z.leb_spec s l); [reflexivity|lia]|]. cbn [bindo].
  destruct (Z.leb_spec s l) as [H'|H'].
  - assert (s = l) as -> by lia. rewrite Z.lxor_nilpotent. reflexivity.
  - pose proof (lxor_byte s l Hs Hl) as B. assert (Z.lxor s l <> 0) by (rewrite Z.lxor_eq_0_iff; lia).
    destruct (Z.ltb_spec (Z.lxor s l) 1); [lia|]. cbn [bindo]. rewrite !Z.mod_small by lia. reflexivity.
Qed.
Lemma fold_ck {E} xs cn : Forall (fun sl => 0 <= fst sl < 256 /\ 0 <= snd sl < 256) xs ->
  @foldo E _ _ canon_step_ck cn xs = if existsb (fun sl => fst sl <=? snd sl) xs then Panic else Ok (fold_left canon_step xs cn).
Proof.
  revert cn. induction xs as [|[s l] xs IH]; intros cn H; [reflexivity|]. inversion H as [|? ? [Hs Hl] Hx]; subst. cbn [fst snd] in Hs, Hl.
  cbn [foldo existsb fold_left fst snd]. rewrite step_ck by assumption. destruct (s <=? l); [reflexivity|]. cbn [bindo orb]. now rewrite IH.
Qed.
Lemma existsb_combine (f : Z * Z -> bool) (a b : list Z) : length a = length b ->
  (existsb f (combine a b) = true <-> exists i, (i < length a)%nat /\ f (nth i a 0, nth i b 0) = true).
Proof.
  intros L. rewrite existsb_exists. split.
  - intros [x [I F]]. apply (In_nth _ _ (0, 0)) in I. destruct I as [i [Hi E]]. rewrite combine_length, L, Nat.min_id in Hi. rewrite combine_nth in E by exact L.
    exists i. rewrite L, E. auto.
  - intros [i [Hi F]]. exists (nth i a 0, nth i b 0). split; [|exact F]. rewrite <- combine_nth by exact L. apply nth_In. rewrite combine_length, L, Nat.min_id. lia.
Qed.
Lemma order_bytes i : nth i (to_bytes_le PRIME_ORDER) 0 = if Nat.ltb i 32 then order_byte i else 0.
Proof.
  destruct (Nat.ltb_spec i 32) as [H|H]; [|apply nth_overflow; vm_compute; lia].
  do 32 (destruct i as [|i]; [vm_compute; reflexivity|]). lia.
Qed.

(** The check of S panics exactly when the top four bits are not zero and some byte is at most the byte of the order in its place;
    otherwise it is the check of C25. *)
Theorem C123_scalar {E} (sb : list Z) : Forall (fun b => 0 <= b < 256) sb ->
  let over := length sb = 32%nat /\ 16 <= nth 31 sb 0 /\ exists i, (i < 32)%nat /\ nth i sb 0 <= order_byte i in
  (@sc_is_canonical_ck E sb = Panic <-> over) /\ (~ over -> @sc_is_canonical_ck E sb = Ok (sc_is_canonical sb)).
Proof.
  intros Hb over. unfold sc_is_canonical_ck, sc_is_canonical, over.
  destruct (Nat.eqb_spec (length sb) 32) as [L|L]; cbn [negb]; [|split; [split; [discriminate|tauto]|reflexivity]].
  pose proof (nth_byte sb 31 Hb) as B31.
  assert (T : (Z.land (nth 31 sb 0) 240 =? 0) = (nth 31 sb 0 <? 16)).
  { set (x := nth 31 sb 0) in *. assert (E16 : Z.land x 240 = 16 * (x / 16)).
    { apply Z.bits_inj'. intros n Hn. rewrite Z.land_spec. change 16 with (2 ^ 4) at 1. rewrite Z.mul_comm. change 16 with (2 ^ 4).
      rewrite <- Z.shiftr_div_pow2, <- Z.shiftl_mul_pow2, Z.shiftl_spec by lia. change 240 with (Z.shiftl (Z.ones 4) 4). rewrite Z.shiftl_spec by lia.
      destruct (Z.ltb_spec n 4) as [N4|N4]; [rewrite !(Z.testbit_neg_r _ (n - 4)) by lia; apply andb_false_r|].
      rewrite Z.shiftr_spec by lia. replace (n - 4 + 4) with n by lia. destruct (Z.ltb_spec n 8) as [N8|N8].
      - rewrite Z.ones_spec_low by lia. apply andb_true_r.
      - rewrite Z.ones_spec_high by lia. rewrite andb_false_r. symmetry. destruct (Z.eq_dec x 0) as [->|X0]; [apply Z.bits_0|].
        apply Z.bits_above_log2; [lia|]. apply Z.log2_lt_pow2; [lia|]. assert (2 ^ 8 <= 2 ^ n) by (apply Z.pow_le_mono_r; lia). lia. }
    rewrite E16. destruct (Z.ltb_spec x 16) as [H|H].
    - rewrite Z.div_small by lia. reflexivity.
    - apply Z.eqb_neq. assert (1 <= x / 16) by (apply Z.div_le_lower_bound; lia). lia. }
  rewrite T. destruct (Z.ltb_spec (nth 31 sb 0) 16) as [H|H]; [split; [split; [discriminate|lia]|reflexivity]|].
  assert (LL : length (to_bytes_le PRIME_ORDER) = 32%nat) by (vm_compute; reflexivity).
  rewrite fold_ck.
  2:{ apply Forall_rev. apply Forall_forall. intros [s l] I. cbn [fst snd]. split.
      - apply in_combine_l in I. exact (proj1 (Forall_forall _ _) Hb s I).
      - apply in_combine_r in I. revert l I. apply Forall_forall. vm_compute. repeat (constructor; [split; [discriminate|reflexivity]|]). constructor. }
  set (f := fun sl : Z * Z => fst sl <=? snd sl).
  assert (R : existsb f (rev (combine sb (to_bytes_le PRIME_ORDER))) = true <-> exists i, (i < 32)%nat /\ nth i sb 0 <= order_byte i).
  { transitivity (existsb f (combine sb (to_bytes_le PRIME_ORDER)) = true).
    - rewrite !existsb_exists. setoid_rewrite <- in_rev. reflexivity.
    - rewrite existsb_combine by (rewrite LL; exact L). rewrite L. split; intros [i [Hi F]]; exists i; (split; [exact Hi|]);
        revert F; unfold f; cbn [fst snd]; rewrite order_bytes; destruct (Nat.ltb_spec i 32); try lia; rewrite Z.leb_le; auto. }
  destruct (existsb f _) eqn:X; cbn [bindo].
  - split; [split; [intros _|reflexivity]|]. + split; [exact L|]. split; [lia|]. now apply R.
    + intros N. exfalso. apply N. split; [exact L|]. split; [lia|]. now apply R.
  - split; [split; [intros Q; destruct (fold_left canon_step _ _); discriminate Q|]|].
    + intros [_ [_ Q]]. apply R in Q. discriminate.
    + intros _. destruct (fold_left canon_step _ _). reflexivity.
Qed.
Print Assumptions C123_scalar.

(** The check of a point panics exactly on the 256 largest y fields. *)
Theorem C123_point {E} (b : list Z) : Forall (fun b => 0 <= b < 256) b ->
  let over := length b = 32%nat /\ 2 ^ 255 - 256 <= y_of b in
  (@pt_is_canonical_ck E b = Panic <-> over) /\ (~ over -> @pt_is_canonical_ck E b = Ok (pt_is_canonical b)).
Proof.
  intros Hb over. unfold over, pt_is_canonical_ck, pt_is_canonical. change (y_of b) with (y_field b).
  destruct (Nat.eqb_spec (length b) 32) as [L|L]; cbn [negb]; [|split; [split; [discriminate|tauto]|reflexivity]].
  set (c0 := Z.lxor (Z.land (nth 31 b 0) 127) 127). assert (H31 := nth_byte b 31 Hb).
  assert (C0 : 0 <= c0 < 256). { apply lxor_byte; [rewrite land127; pose proof (Z.mod_pos_bound (nth 31 b 0) 128); lia|lia]. }
  set (c := fold_left _ _ c0).
  assert (Cb : 0 <= c < 256). { unfold c. apply (fold_lor_byte (fun i => Z.lxor (nth i b 0) 255)); [exact C0|]. intros i _. apply lxor_byte; [apply nth_byte; exact Hb|lia]. }
  assert (Z0 : c = 0 <-> 2 ^ 255 - 256 <= y_field b).
  { assert (Y := y_field_split b Hb L). pose proof (Z.mod_pos_bound (nth 31 b 0) 128 ltac:(lia)) as M31.
    unfold c. rewrite (fold_lor_zero (fun i => Z.lxor (nth i b 0) 255)). unfold c0. rewrite land127, Z.lxor_eq_0_iff.
    rewrite (Forall_forall _ (rev _)). setoid_rewrite <- in_rev. rewrite <- Forall_forall.
    assert (S : Forall (fun i => Z.lxor (nth i b 0) 255 = 0) (seq 1 30) <-> Forall (fun x => x = 255) (firstn 30 (skipn 1 b))).
    { transitivity (Forall (fun i => nth i b 0 = 255) (seq 1 30)).
      - split; apply Forall_impl; intros i; rewrite Z.lxor_eq_0_iff; tauto.
      - rewrite (nth_forall_seq b (fun x => x = 255) 1 30) by lia. reflexivity. }
    rewrite S. destruct b as [|b0 r]; [discriminate|]. cbn [length] in L. injection L as L. inversion Hb as [|? ? Hb0 Hr]; subst.
    change (skipn 1 (b0 :: r)) with r. change (firstn 31 (b0 :: r)) with (b0 :: firstn 30 r) in Y. cbn [le_val] in Y.
    rewrite le_val_all255 by (apply bytes_firstn; exact Hr). rewrite firstn_length_le by lia. change (Z.of_nat 30) with 30.
    pose proof (le_val_bound (firstn 30 r) (bytes_firstn 30 r Hr)) as B30. rewrite firstn_length_le in B30 by lia. change (Z.of_nat 30) with 30 in B30.
    cbn [nth] in *. set (m := nth 30 r 0 mod 128) in *. set (v := le_val (firstn 30 r)) in *.
    rewrite Y. change (2 ^ 255) with (128 * 256 ^ 31). change (256 ^ 31) with (256 * 256 ^ 30) in *. set (P := 256 ^ 30) in *.
    assert (0 < P) by reflexivity. split; [intros [-> ->]; lia|]. intros Q. assert (m = 127) by nia. split; [assumption|]. nia. }
  unfold sub_ck. destruct (Z.ltb_spec c 1) as [H|H]; cbn [bindo].
  - assert (c = 0) by lia. split; [split; [intros _; split; [exact L|now apply Z0]|reflexivity]|]. intros N. exfalso. apply N. split; [exact L|now apply Z0].
  - assert (c <> 0) by lia. split; [split; [discriminate|intros [_ Q]; apply Z0 in Q; contradiction]|]. intros _. rewrite (Z.mod_small (c - 1)) by lia. reflexivity.
Qed.
Print Assumptions C123_point.

Lemma weak_fold {E} s ws k : bytes s -> Forall bytes ws ->
  @foldo E _ _ (fun k w => let! d := sub_ck (weak_diff s w) 1 in Ok (Z.lor k d)) k ws =
  if existsb (fun w => weak_diff s w =? 0) ws then Panic
  else Ok (fold_left (fun k w => Z.lor k ((weak_diff s w - 1) mod 65536)) ws k).
Proof.
  intros Hs. revert k. induction ws as [|w ws IH]; intros k Hw; [reflexivity|]. inversion Hw as [|? ? H1 H2]; subst.
  cbn [foldo existsb fold_left]. pose proof (weak_diff_byte s w Hs H1) as B. unfold sub_ck at 1.
  destruct (Z.ltb_spec (weak_diff s w) 1) as [L|L]; destruct (Z.eqb_spec (weak_diff s w) 0) as [Z0|Z0]; try lia; [reflexivity|].
  cbn [bindo orb]. rewrite (Z.mod_small (weak_diff s w - 1)) by lia. now apply IH.
Qed.
Lemma small_fold {E} s ws : bytes s -> Forall bytes ws ->
  (let! k := foldo (fun k w => let! d := sub_ck (weak_diff s w) 1 in Ok (Z.lor k d)) 0 ws in @Ok E bool (0 <? Z.land (Z.shiftr k 8) 1)) =
  if existsb (fun w => weak_diff s w =? 0) ws then Panic
  else Ok (0 <? Z.land (Z.shiftr (fold_left (fun k w => Z.lor k ((weak_diff s w - 1) mod 65536)) ws 0) 8) 1).
Proof. intros Hs Hw. rewrite weak_fold by assumption. destruct (existsb _ ws); reflexivity. Qed.
Lemma weak_existsb s ws : bytes s -> length s = 32%nat -> Forall (fun w => bytes w /\ length w = 32%nat /\ nth 31 w 0 < 128) ws ->
  (existsb (fun w => weak_diff s w =? 0) ws = true <-> In (y_field s) (map le_val ws)).
Proof.
  intros Hs L W. rewrite existsb_exists, in_map_iff. rewrite Forall_forall in W.
  split; intros [w [H1 H2]]; exists w.
  - destruct (W w H1) as [Bw [Lw Hw]]. split; [|exact H1]. symmetry. apply weak_diff_zero; try assumption. now apply Z.eqb_eq.
  - destruct (W w H2) as [Bw [Lw Hw]]. split; [exact H2|]. apply Z.eqb_eq. apply weak_diff_zero; try assumption. now symmetry.
Qed.
Lemma weak_bytes : Forall (fun w => bytes w /\ length w = 32%nat /\ nth 31 w 0 < 128) WEAK_KEYS.
Proof.
  repeat (apply Forall_cons; [split; [repeat (constructor; [unfold is_byte; lia|]); constructor|split; [reflexivity|reflexivity]]|]). constructor.
Qed.
Lemma small_ck {E} s : scalar32 s -> @pt_small_order_ck E s = if pt_small_order s then Panic else Ok false.
Proof.
  intros [Hs L]. assert (W1 : Forall bytes WEAK_KEYS) by (eapply Forall_impl; [|exact weak_bytes]; intros a [H _]; exact H).
  assert (H := @small_fold E s WEAK_KEYS Hs W1). assert (X := weak_existsb s WEAK_KEYS Hs L weak_bytes).
  rewrite <- (pt_small_order_ok s Hs L) in X.
  assert (H' : @pt_small_order_ck E s = if existsb (fun w => weak_diff s w =? 0) WEAK_KEYS then Panic else Ok (pt_small_order s)) by exact H.
  clear H. rewrite H'. clear H'. destruct (pt_small_order s), (existsb _ WEAK_KEYS); try reflexivity; exfalso; [|]; intuition discriminate.
Qed.
Lemma small_ckC {E} (C : curve) (ok : curve_ok C) P : @pt_small_order_ck E (penc C P) = if small C P then Panic else Ok false.
Proof. rewrite smallE. apply small_ck. apply (co_enc C ok). Qed.
(** The small-order check never answers [true]: it panics exactly on the encodings of C32, and answers [false] on all others. *)
Theorem C123_small_order {E} (s : list Z) : Forall (fun b => 0 <= b < 256) s -> length s = 32%nat ->
  let weak := y_of s = 0 \/ y_of s = 1 \/ y_of s = p25519 - 1 \/ y_of s = y8 \/ y_of s = p25519 - y8 in
  (@pt_small_order_ck E s = Panic <-> weak) /\ (~ weak -> @pt_small_order_ck E s = Ok false).
Proof.
  intros Hs L weak. assert (K := C32_small_order s Hs L). assert (H := @small_ck E s (conj Hs L)). rewrite H. clear H.
  unfold weak. rewrite <- K. destruct (pt_small_order s).
  - split; [split; reflexivity|]. intros N. now destruct N.
  - split; [split; discriminate|]. intros _. reflexivity.
Qed.
Print Assumptions C123_small_order.

Lemma pt_ck_cases {E} b : bytes b -> @pt_is_canonical_ck E b = Panic \/ @pt_is_canonical_ck E b = Ok (pt_is_canonical b).
Proof.
  intros Hb. destruct (@C123_point E b Hb) as [H1 H2]. destruct (Nat.eq_dec (length b) 32) as [L|L]; [|right; apply H2; tauto].
  destruct (Z_le_gt_dec (2 ^ 255 - 256) (y_of b)) as [Y|Y]; [left; apply H1; auto|right; apply H2; lia].
Qed.
Lemma sc_ck_cases {E} sb : bytes sb -> @sc_is_canonical_ck E sb = Panic \/ @sc_is_canonical_ck E sb = Ok (sc_is_canonical sb).
Proof.
  intros Hb. destruct (@C123_scalar E sb Hb) as [H1 H2]. destruct (@sc_is_canonical_ck E sb) as [x|x| |] eqn:X; [right|right|left|right].
  - apply H2. rewrite <- H1. discriminate.
  - apply H2. rewrite <- H1. discriminate.
  - reflexivity.
  - apply H2. rewrite <- H1. discriminate.
Qed.

(** Full statement: verification does not depend on the overflow checks.  What holds: with the checks it returns the same result or
    panics, and it is the same when the y fields of R and A are not among the 256 largest, S is below 2^252 and neither R nor A
    decodes to a point of order dividing 8. *)
Theorem C123_verify_partial (C : curve) (ok : curve_ok C) (sha : list Z -> list Z) (ab msg sig : list Z) :
  Forall (fun b => 0 <= b < 256) ab -> Forall (fun b => 0 <= b < 256) sig ->
  (schnorr_verify_with_checks_ck C sha ab msg sig = Panic \/
   schnorr_verify_with_checks_ck C sha ab msg sig = schnorr_verify_with_checks C sha ab msg sig) /\
  (eddsa_verify_with_checks_ck C sha ab msg sig = Panic \/
   eddsa_verify_with_checks_ck C sha ab msg sig = eddsa_verify_with_checks C sha ab msg sig) /\
  (y_of (firstn 32 sig) < 2 ^ 255 - 256 -> y_of ab < 2 ^ 255 - 256 -> le_val (skipn 32 sig) < 2 ^ 252 ->
   (forall P, pdec C (firstn 32 sig) = Some P \/ pdec C ab = Some P -> zmul (co_group C ok) 8 P <> pzero C) ->
   schnorr_verify_with_checks_ck C sha ab msg sig = schnorr_verify_with_checks C sha ab msg sig /\
   eddsa_verify_with_checks_ck C sha ab msg sig = eddsa_verify_with_checks C sha ab msg sig).
Proof.
  intros Ha Hs. assert (Hr : bytes (firstn 32 sig)) by (apply bytes_firstn; exact Hs). assert (Hb : bytes (skipn 32 sig)) by (apply bytes_skipn; exact Hs).
  assert (P : forall E b, bytes b -> y_of b < 2 ^ 255 - 256 -> @pt_is_canonical_ck E b = Ok (pt_is_canonical b)).
  { intros E b B Y. apply C123_point; [exact B|lia]. }
  assert (S : forall E b, bytes b -> length b = 32%nat -> le_val b < 2 ^ 252 -> @sc_is_canonical_ck E b = Ok (sc_is_canonical b)).
  { intros E b B L Y. apply C123_scalar; [exact B|]. intros [_ [H _]].
    assert (Eb : b = firstn 31 b ++ skipn 31 b) by (symmetry; apply firstn_skipn).
    assert (N : nth 31 b 0 = nth 0 (skipn 31 b) 0). { rewrite Eb at 1. rewrite app_nth2; rewrite firstn_length_le by lia; [|lia]. reflexivity. }
    rewrite Eb, le_val_app in Y. rewrite firstn_length_le in Y by lia. change (Z.of_nat 31) with 31 in Y.
    pose proof (le_val_bound _ (bytes_firstn 31 b B)) as B1. destruct (skipn 31 b) as [|x r] eqn:K; [cbn in N; lia|]. cbn [nth] in N. cbn [le_val] in Y.
    assert (Br : bytes r). { pose proof (bytes_skipn 31 b B) as Q. rewrite K in Q. now inversion Q. } pose proof (le_val_bound _ Br) as B2.
    change (2 ^ 252) with (256 ^ 31 * 16) in Y. assert (0 < 256 ^ 31) by reflexivity. nia. }
  unfold schnorr_verify_with_checks_ck, schnorr_verify_with_checks, eddsa_verify_with_checks_ck, eddsa_verify_with_checks.
  destruct (Nat.eqb_spec (length sig) 64) as [L|L]; cbn [negb]; [|auto].
  assert (Lb : length (skipn 32 sig) = 32%nat) by (rewrite skipn_length; lia).
  assert (W : forall P, @pt_small_order_ck sig_error (penc C P) = if small C P then Panic else Ok false) by (intros Q; exact (small_ckC C ok Q)).
  split; [|split].
  - destruct (dec C (firstn 32 sig)) as [R|er| |]; cbn [bindo]; auto.
    destruct (@pt_ck_cases sig_error _ Hr) as [-> | ->]; cbn [bindo]; [auto|]. destruct (negb _); [auto|].
    rewrite W. destruct (small C R); cbn [bindo]; [auto|].
    destruct (@sc_ck_cases sig_error _ Hb) as [-> | ->]; cbn [bindo]; [auto|]. destruct (negb _); [auto|].
    destruct (scalar_unmarshal _ _) as [u s]. destruct (sig_try u); cbn [bindo]; auto. destruct (dec C ab) as [A|er| |]; cbn [bindo]; auto.
    destruct (@pt_ck_cases sig_error _ Ha) as [-> | ->]; cbn [bindo]; [auto|]. destruct (negb _); [auto|].
    rewrite W. destruct (small C A); cbn [bindo]; auto.
  - destruct (@sc_ck_cases sig_error _ Hb) as [-> | ->]; cbn [bindo]; [auto|]. destruct (negb _); [auto|].
    destruct (@pt_ck_cases sig_error _ Hr) as [-> | ->]; cbn [bindo]; [auto|]. destruct (negb _); [auto|].
    destruct (dec C (firstn 32 sig)) as [R|er| |]; cbn [bindo]; auto. rewrite W. destruct (small C R); cbn [bindo]; [auto|].
    destruct (scalar_unmarshal _ _) as [u s]. destruct (sig_try u); cbn [bindo]; auto.
    destruct (@pt_ck_cases sig_error _ Ha) as [-> | ->]; cbn [bindo]; [auto|]. destruct (negb _); [auto|].
    destruct (dec C ab) as [A|er| |]; cbn [bindo]; auto. rewrite W. destruct (small C A); cbn [bindo]; auto.
  - intros Y1 Y2 Y3 Y4.
    assert (W' : forall Q b, dec C b = Ok Q -> b = firstn 32 sig \/ b = ab -> small C Q = false).
    { intros Q b D I. destruct (small C Q) eqn:SQ; [|reflexivity]. rewrite smallE in SQ. apply (co_small C ok) in SQ. exfalso. apply (Y4 Q); [|exact SQ].
      unfold dec in D. destruct (pdec C b) as [Q'|] eqn:PD; [|discriminate]. injection D as <-. destruct I as [-> | ->]; auto. }
    rewrite (P sig_error _ Hr Y1), (P sig_error _ Ha Y2), (S sig_error _ Hb Lb Y3). cbn [bindo]. split.
    + destruct (dec C (firstn 32 sig)) as [R|er| |] eqn:D1; cbn [bindo]; auto. destruct (negb _); [auto|].
      rewrite W, (W' R _ D1) by auto. cbn [bindo]. destruct (negb _); [auto|].
      destruct (scalar_unmarshal _ _) as [u s]. destruct (sig_try u); cbn [bindo]; auto. destruct (dec C ab) as [A|er| |] eqn:D2; cbn [bindo]; auto.
      destruct (negb _); [auto|]. rewrite W, (W' A _ D2) by auto. reflexivity.
    + destruct (negb _); [auto|]. destruct (negb _); [auto|].
      destruct (dec C (firstn 32 sig)) as [R|er| |] eqn:D1; cbn [bindo]; auto. rewrite W, (W' R _ D1) by auto. cbn [bindo].
      destruct (scalar_unmarshal _ _) as [u s]. destruct (sig_try u); cbn [bindo]; auto. destruct (negb _); [auto|].
      destruct (dec C ab) as [A|er| |] eqn:D2; cbn [bindo]; auto. rewrite W, (W' A _ D2) by auto. reflexivity.
Qed.
Print Assumptions C123_verify_partial.

Lemma refused (C : curve) (ok : curve_ok C) sha ab msg rb sb P : dec C rb = Ok P -> length rb = 32%nat -> length sb = 32%nat -> pt_is_canonical rb = true ->
  @pt_is_canonical_ck sig_error rb = Ok true -> small C P = false -> sc_is_canonical sb = false -> @sc_is_canonical_ck sig_error sb = Panic ->
  schnorr_verify_with_checks C sha ab msg (rb ++ sb) = Err SignatureNotCanonical /\
  schnorr_verify_with_checks_ck C sha ab msg (rb ++ sb) = Panic /\
  eddsa_verify_with_checks C sha ab msg (rb ++ sb) = Err SignatureNotCanonical /\
  eddsa_verify_with_checks_ck C sha ab msg (rb ++ sb) = Panic.
Proof.
  intros D LA LB K1 K1' K2 K3 K3'.
  unfold schnorr_verify_with_checks_ck, schnorr_verify_with_checks, eddsa_verify_with_checks_ck, eddsa_verify_with_checks.
  rewrite app_length, LA, LB, firstn_app_exact, skipn_app_exact by exact LA. cbn [Nat.add Nat.eqb negb]. rewrite D, K1, K1', K3, K3'. cbn [bindo negb].
  rewrite (small_ckC C ok), K2. cbn [bindo negb]. auto.
Qed.
(** Full statement false: 64 bytes that need no key, R the base point and S = 2^253, are refused by both verifiers when arithmetic
    wraps, for every key and message, and make both panic when overflow is checked. *)
Theorem C123_refuted : exists sig : list Z, Forall (fun b => 0 <= b < 256) sig /\ forall (sha : list Z -> list Z) (ab msg : list Z),
  schnorr_verify_with_checks ed25519 sha ab msg sig = Err SignatureNotCanonical /\
  schnorr_verify_with_checks_ck ed25519 sha ab msg sig = Panic /\
  eddsa_verify_with_checks ed25519 sha ab msg sig = Err SignatureNotCanonical /\
  eddsa_verify_with_checks_ck ed25519 sha ab msg sig = Panic.
Proof.
  set (sb := repeat 0 31 ++ [32]). exists (exA ++ sb).
  assert (LA : length exA = 32%nat) by apply enc_length. assert (BA : bytes exA) by apply enc_bytes.
  assert (Bs : bytes sb) by (unfold sb; vm_compute; repeat (constructor; [split; [discriminate|reflexivity]|]); constructor).
  split; [apply bytes_app; assumption|]. intros sha ab msg.
  assert (D : dec ed25519 exA = Ok ebase).
  { unfold dec. assert (pdec ed25519 exA = Some ebase) as ->; [|reflexivity].
    apply ed_dec; [exact BA|]. split; [exact LA|apply enc_decodes]. }
  assert (K1 : pt_is_canonical exA = true) by (vm_compute; reflexivity).
  assert (K1' : @pt_is_canonical_ck sig_error exA = Ok true).
  { rewrite <- K1. apply C123_point; [exact BA|]. intros [_ Q]. vm_compute in Q. now apply Q. }
  assert (K2 : small ed25519 ebase = false).
  { unfold small. rewrite ed_enc. vm_compute. reflexivity. }
  assert (K3 : sc_is_canonical sb = false) by (vm_compute; reflexivity).
  assert (K3' : @sc_is_canonical_ck sig_error sb = Panic) by (vm_compute; reflexivity).
  exact (refused ed25519 ed25519_ok sha ab msg exA sb ebase D LA eq_refl K1 K1' K2 K3 K3').
Qed.
Print Assumptions C123_refuted.

Lemma refused_small (C : curve) (ok : curve_ok C) sha ab msg rb sb P : dec C rb = Ok P -> length rb = 32%nat -> length sb = 32%nat ->
  pt_is_canonical rb = true -> @pt_is_canonical_ck sig_error rb = Ok true -> small C P = true -> sc_is_canonical sb = true ->
  @sc_is_canonical_ck sig_error sb = Ok true ->
  schnorr_verify_with_checks C sha ab msg (rb ++ sb) = Err RSmallOrder /\
  schnorr_verify_with_checks_ck C sha ab msg (rb ++ sb) = Panic /\
  eddsa_verify_with_checks C sha ab msg (rb ++ sb) = Err RSmallOrder /\
  eddsa_verify_with_checks_ck C sha ab msg (rb ++ sb) = Panic.
Proof.
  intros D LA LB K1 K1' K2 K3 K3'.
  unfold schnorr_verify_with_checks_ck, schnorr_verify_with_checks, eddsa_verify_with_checks_ck, eddsa_verify_with_checks.
  rewrite app_length, LA, LB, firstn_app_exact, skipn_app_exact by exact LA. cbn [Nat.add Nat.eqb negb]. rewrite D, K1, K1', K3, K3'. cbn [bindo negb].
  rewrite (small_ckC C ok), K2. cbn [bindo]. auto.
Qed.
(** So do a canonical S and an R of small order: the encoding of the neutral element followed by 32 zero bytes. *)
Theorem C123_small_refuted : exists sig : list Z, sig = 1 :: repeat 0 63 /\ forall (sha : list Z -> list Z) (ab msg : list Z),
  schnorr_verify_with_checks ed25519 sha ab msg sig = Err RSmallOrder /\
  schnorr_verify_with_checks_ck ed25519 sha ab msg sig = Panic /\
  eddsa_verify_with_checks ed25519 sha ab msg sig = Err RSmallOrder /\
  eddsa_verify_with_checks_ck ed25519 sha ab msg sig = Panic.
Proof.
  set (rb := enc e0). assert (E0 : rb = 1 :: repeat 0 31) by (vm_compute; reflexivity).
  exists (rb ++ repeat 0 32). split; [rewrite E0; reflexivity|]. intros sha ab msg.
  assert (LA : length rb = 32%nat) by apply enc_length. assert (BA : bytes rb) by apply enc_bytes.
  assert (D : dec ed25519 rb = Ok e0).
  { unfold dec. assert (pdec ed25519 rb = Some e0) as ->; [|reflexivity].
    apply ed_dec; [exact BA|]. split; [exact LA|apply enc_decodes]. }
  assert (K1 : pt_is_canonical rb = true) by (rewrite E0; vm_compute; reflexivity).
  assert (K1' : @pt_is_canonical_ck sig_error rb = Ok true) by (rewrite E0; vm_compute; reflexivity).
  assert (K2 : small ed25519 e0 = true).
  { rewrite smallE, ed_enc. fold rb. rewrite E0. vm_compute. reflexivity. }
  refine (refused_small ed25519 ed25519_ok sha ab msg rb (repeat 0 32) e0 D LA _ K1 K1' K2 _ _); vm_compute; reflexivity.
Qed.
Print Assumptions C123_small_refuted.

(** The toy signature of C38 is far from the limits; S between 2^252 and the order and the largest y fields are not. *)
Example C123_nonvacuous :
  y_of exA < 2 ^ 255 - 256 /\ le_val (le_bytes 32 ((1 + exc) mod order)) < 2 ^ 252 /\
  sc_is_canonical (repeat 0 31 ++ [16]) = true /\ @sc_is_canonical_ck sig_error (repeat 0 31 ++ [16]) = Panic /\
  @sc_is_canonical_ck sig_error (repeat 255 32) = Ok false /\
  pt_is_canonical (19 :: repeat 255 30 ++ [127]) = true /\ @pt_is_canonical_ck sig_error (19 :: repeat 255 30 ++ [127]) = Panic.
Proof. repeat (split; [vm_compute; reflexivity|]). vm_compute. reflexivity. Qed.
