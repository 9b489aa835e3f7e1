(** Correctness of the scalar limb code of scalar.rs (see ScLimbs.v). *)
From Coq Require Import ZArith String List Lia Bool.
From Verif Require Import Base Bytes Limb ScLimbs IntModel ScModel.
Import ListNotations.
Local Open Scope Z_scope.

(** The group order. *)
Definition ell : Z := 2 ^ 252 + 27742317777372353535851937790883648493.

(** ** Limbs of a byte string *)

Lemma le_val_firstn a n : bytes a -> le_val (firstn n a) = le_val a mod 256 ^ Z.of_nat n.
Proof.
  intros Hb. destruct (Nat.le_gt_cases n (length a)) as [H|H].
  - rewrite <- (firstn_skipn n a) at 2. rewrite le_val_app, firstn_length, Nat.min_l by lia.
    rewrite Z.mul_comm, Z.mod_add by (pose proof (pow256_pos n); lia).
    rewrite Z.mod_small; [reflexivity|]. pose proof (le_val_bound _ (bytes_firstn n a Hb)) as B.
    rewrite firstn_length, Nat.min_l in B by lia. exact B.
  - rewrite firstn_all2 by lia. rewrite Z.mod_small; [reflexivity|].
    pose proof (le_val_bound a Hb). assert (256 ^ Z.of_nat (length a) <= 256 ^ Z.of_nat n) by (apply Z.pow_le_mono_r; lia). lia.
Qed.

Lemma le_val_skipn a n : bytes a -> le_val (skipn n a) = le_val a / 256 ^ Z.of_nat n.
Proof.
  intros Hb. destruct (Nat.le_gt_cases n (length a)) as [H|H].
  - rewrite <- (firstn_skipn n a) at 2. rewrite le_val_app, firstn_length, Nat.min_l by lia.
    rewrite Z.mul_comm, Z.div_add by (pose proof (pow256_pos n); lia).
    rewrite Z.div_small; [lia|]. pose proof (le_val_bound _ (bytes_firstn n a Hb)) as B.
    rewrite firstn_length, Nat.min_l in B by lia. exact B.
  - rewrite skipn_all2 by lia. cbn [le_val]. symmetry. apply Z.div_small.
    pose proof (le_val_bound a Hb). assert (256 ^ Z.of_nat (length a) <= 256 ^ Z.of_nat n) by (apply Z.pow_le_mono_r; lia). lia.
Qed.

Lemma land_low a b k : 0 <= k -> 0 <= a < 2 ^ k -> Z.land (b * 2 ^ k) a = 0.
Proof.
  intros Hk Ha. apply Z.bits_inj'. intros n Hn. rewrite Z.land_spec, Z.bits_0. destruct (Z.lt_ge_cases n k) as [H|H].
  - rewrite Z.mul_pow2_bits_low by lia. reflexivity.
  - destruct (Z.eq_dec a 0) as [->|Hz]; [rewrite Z.bits_0; apply andb_false_r|].
    rewrite (Z.bits_above_log2 a n); [apply andb_false_r|lia|].
    assert (Z.log2 a < k) by (apply Z.log2_lt_pow2; lia). lia.
Qed.

Lemma lor_add a b k : 0 <= k -> 0 <= a < 2 ^ k -> Z.lor a (Z.shiftl b k) = a + b * 2 ^ k.
Proof.
  intros Hk Ha. rewrite Z.shiftl_mul_pow2 by lia. rewrite Z.lor_comm. symmetry. rewrite Z.add_comm.
  rewrite <- Z.lxor_lor by (now apply land_low). apply Z.add_nocarry_lxor. now apply land_low.
Qed.

Lemma load4_val b : bytes b -> (4 <= length b)%nat -> load4 b = le_val (firstn 4 b).
Proof.
  intros Hb Hl. destruct b as [|b0 [|b1 [|b2 [|b3 b]]]]; cbn [length] in Hl; try lia.
  inversion Hb as [|x l H0 Hb1]; subst. inversion Hb1 as [|x l H1 Hb2]; subst. inversion Hb2 as [|x l H2 Hb3]; subst.
  inversion Hb3 as [|x l H3 Hb4]; subst. unfold is_byte in *. unfold load4. cbn [nth firstn le_val].
  rewrite (lor_add b0 b1 8), (lor_add _ b2 16), (lor_add _ b3 24) by lia. lia.
Qed.

Lemma load3_val b : bytes b -> (3 <= length b)%nat -> load3 b = le_val (firstn 3 b).
Proof.
  intros Hb Hl. destruct b as [|b0 [|b1 [|b2 b]]]; cbn [length] in Hl; try lia.
  inversion Hb as [|x l H0 Hb1]; subst. inversion Hb1 as [|x l H1 Hb2]; subst. inversion Hb2 as [|x l H2 Hb3]; subst.
  unfold is_byte in *. unfold load3. cbn [nth firstn le_val].
  rewrite (lor_add b0 b1 8), (lor_add _ b2 16) by lia. lia.
Qed.

(** Taking n bits at bit position j of a byte-aligned slice. *)
Lemma slice_bits v k n j w : 0 <= k -> 0 <= j -> 0 <= w -> j + w <= n -> ((v / 2 ^ k) mod 2 ^ n / 2 ^ j) mod 2 ^ w = (v / 2 ^ (k + j)) mod 2 ^ w.
Proof.
  intros Hk Hj Hw Hn. assert (0 < 2 ^ w) by (apply Z.pow_pos_nonneg; lia). assert (0 < 2 ^ j) by (apply Z.pow_pos_nonneg; lia).
  rewrite (Z.pow_add_r 2 k j), <- Z.div_div by (try lia; apply Z.pow_pos_nonneg; lia).
  set (u := v / 2 ^ k). replace n with (j + (n - j)) by lia. rewrite (Z.pow_add_r 2 j) by lia.
  assert (0 < 2 ^ (n - j)) by (apply Z.pow_pos_nonneg; lia).
  rewrite Z.rem_mul_r by lia. rewrite (Z.mul_comm (2 ^ j)), Z.div_add by lia.
  rewrite Z.div_small by (apply Z.mod_pos_bound; lia). rewrite Z.add_0_l.
  replace (n - j) with (w + (n - j - w)) by lia. rewrite (Z.pow_add_r 2 w) by lia.
  assert (0 < 2 ^ (n - j - w)) by (apply Z.pow_pos_nonneg; lia).
  rewrite Z.rem_mul_r by lia. rewrite (Z.mul_comm (2 ^ w)), Z.mod_add by lia. apply Z.mod_mod; lia.
Qed.

Lemma land_21 x : Z.land 2097151 x = x mod 2 ^ 21.
Proof. rewrite Z.land_comm. change 2097151 with (Z.ones 21). apply Z.land_ones. lia. Qed.

Lemma pow256_pow2 n : 256 ^ n = 2 ^ (8 * n).
Proof. destruct (Z.lt_ge_cases n 0) as [H|H]; [rewrite !Z.pow_neg_r by lia; reflexivity|]. rewrite Z.pow_mul_r by lia. reflexivity. Qed.

Lemma limb4 a k j : bytes a -> length a = 32%nat -> (k + 4 <= 32)%nat -> 0 <= j -> j + 21 <= 32 ->
  Z.land 2097151 (Z.shiftr (load4 (skipn k a)) j) = (le_val a / 2 ^ (8 * Z.of_nat k + j)) mod 2 ^ 21.
Proof.
  intros Hb Hl Hk Hj Hj2. rewrite land_21, Z.shiftr_div_pow2 by lia.
  rewrite load4_val by (try (rewrite skipn_length); try lia; now apply bytes_skipn).
  rewrite le_val_firstn, le_val_skipn, !pow256_pow2 by (try assumption; now apply bytes_skipn).
  apply slice_bits; lia.
Qed.

Lemma limb3 a k j : bytes a -> length a = 32%nat -> (k + 3 <= 32)%nat -> 0 <= j -> j + 21 <= 24 ->
  Z.land 2097151 (Z.shiftr (load3 (skipn k a)) j) = (le_val a / 2 ^ (8 * Z.of_nat k + j)) mod 2 ^ 21.
Proof.
  intros Hb Hl Hk Hj Hj2. rewrite land_21, Z.shiftr_div_pow2 by lia.
  rewrite load3_val by (try (rewrite skipn_length); try lia; now apply bytes_skipn).
  rewrite le_val_firstn, le_val_skipn, !pow256_pow2 by (try assumption; now apply bytes_skipn).
  apply slice_bits; lia.
Qed.

(** The limbs are the base-2^21 digits (the last one holds the remaining 25 bits). *)
Lemma sc_limbs_digits a : bytes a -> length a = 32%nat ->
  let v := le_val a in
  sc_limbs a = [v mod 2 ^ 21; (v / 2 ^ 21) mod 2 ^ 21; (v / 2 ^ 42) mod 2 ^ 21; (v / 2 ^ 63) mod 2 ^ 21;
                (v / 2 ^ 84) mod 2 ^ 21; (v / 2 ^ 105) mod 2 ^ 21; (v / 2 ^ 126) mod 2 ^ 21; (v / 2 ^ 147) mod 2 ^ 21;
                (v / 2 ^ 168) mod 2 ^ 21; (v / 2 ^ 189) mod 2 ^ 21; (v / 2 ^ 210) mod 2 ^ 21; v / 2 ^ 231].
Proof.
  intros Hb Hl v. unfold sc_limbs.
  assert (L0 : forall k, (k + 3 <= 32)%nat -> Z.land 2097151 (load3 (skipn k a)) = (v / 2 ^ (8 * Z.of_nat k)) mod 2 ^ 21).
  { intros k Hk. rewrite <- (Z.shiftr_0_r (load3 _)). rewrite (limb3 a k 0) by (try assumption; lia). now rewrite Z.add_0_r. }
  rewrite !L0 by lia.
  rewrite (limb4 a 2 5), (limb3 a 5 2), (limb4 a 7 7), (limb4 a 10 4), (limb3 a 13 1), (limb4 a 15 6), (limb3 a 18 3),
    (limb4 a 23 5), (limb3 a 26 2) by (try assumption; lia).
  change (8 * Z.of_nat 0) with 0. rewrite Z.pow_0_r, Z.div_1_r.
  do 11 (apply (f_equal2 cons); [reflexivity|]). apply (f_equal2 cons); [|reflexivity].
  rewrite load4_val by (try (rewrite skipn_length); try lia; now apply bytes_skipn).
  rewrite Z.shiftr_div_pow2, le_val_firstn, le_val_skipn, !pow256_pow2 by (try lia; try assumption; now apply bytes_skipn).
  fold v. change (8 * Z.of_nat 28) with 224. change (8 * Z.of_nat 4) with 32.
  pose proof (le_val_bound a Hb) as B. rewrite Hl in B. fold v in B. change (256 ^ Z.of_nat 32) with (2 ^ 256) in B.
  rewrite Z.mod_small by (split; [apply Z.div_pos; [apply B|reflexivity]|apply Z.div_lt_upper_bound; [reflexivity|apply B]]).
  rewrite Z.div_div by (try discriminate; reflexivity). reflexivity.
Qed.

(** Value of limbs in radix 2^21. *)
Fixpoint wv (l : list Z) : Z := match l with [] => 0 | x :: l' => x + 2 ^ 21 * wv l' end.

Lemma digits_step v k : 0 <= k -> (v / 2 ^ k) mod 2 ^ 21 + 2 ^ 21 * (v / 2 ^ (k + 21)) = v / 2 ^ k.
Proof.
  intros Hk. rewrite Z.pow_add_r, <- Z.div_div by (try lia; apply Z.pow_pos_nonneg; lia).
  pose proof (Z.div_mod (v / 2 ^ k) (2 ^ 21) ltac:(lia)). lia.
Qed.

Lemma sc_limbs_value a : bytes a -> length a = 32%nat -> wv (sc_limbs a) = le_val a.
Proof.
  intros Hb Hl. rewrite sc_limbs_digits by assumption. set (v := le_val a). cbn [wv].
  pose proof (digits_step v 0 ltac:(lia)) as D0. rewrite Z.pow_0_r, Z.div_1_r in D0.
  pose proof (digits_step v 21 ltac:(lia)) as D1. pose proof (digits_step v 42 ltac:(lia)) as D2.
  pose proof (digits_step v 63 ltac:(lia)) as D3. pose proof (digits_step v 84 ltac:(lia)) as D4.
  pose proof (digits_step v 105 ltac:(lia)) as D5. pose proof (digits_step v 126 ltac:(lia)) as D6.
  pose proof (digits_step v 147 ltac:(lia)) as D7. pose proof (digits_step v 168 ltac:(lia)) as D8.
  pose proof (digits_step v 189 ltac:(lia)) as D9. pose proof (digits_step v 210 ltac:(lia)) as D10.
  repeat match goal with H : context [2 ^ (?a + 21)] |- _ => let c := eval vm_compute in (a + 21) in change (a + 21) with c in H end.
  rewrite Z.mul_0_r, Z.add_0_r. rewrite D10, D9, D8, D7, D6, D5, D4, D3, D2, D1, D0. reflexivity.
Qed.

Lemma sc_limbs_range a : bytes a -> length a = 32%nat ->
  Forall (fun x => 0 <= x <= 2097151) (firstn 11 (sc_limbs a)) /\ 0 <= nth 11 (sc_limbs a) 0 <= 33554431.
Proof.
  intros Hb Hl. rewrite sc_limbs_digits by assumption. cbn [firstn nth]. split.
  - repeat (constructor; [match goal with |- 0 <= ?x mod _ <= _ => pose proof (Z.mod_pos_bound x (2 ^ 21) ltac:(lia)); lia end|]). constructor.
  - pose proof (le_val_bound a Hb) as B. rewrite Hl in B. change (256 ^ Z.of_nat 32) with (2 ^ 256) in B.
    assert (le_val a / 2 ^ 231 < 2 ^ 25) by (apply Z.div_lt_upper_bound; lia).
    assert (0 <= le_val a / 2 ^ 231) by (apply Z.div_pos; lia). lia.
Qed.

(** ** Output bytes *)

Lemma byte_at L X a j : 0 <= a -> 0 <= j -> 0 <= L < 2 ^ a -> (L + 2 ^ a * X) / 2 ^ (a + j) = X / 2 ^ j.
Proof.
  intros Ha Hj HL. rewrite Z.pow_add_r, <- Z.div_div by (try lia; apply Z.pow_pos_nonneg; lia).
  rewrite Z.mul_comm, Z.div_add by (assert (0 < 2 ^ a) by (apply Z.pow_pos_nonneg; lia); lia). rewrite (Z.div_small L) by lia. reflexivity.
Qed.

Lemma byte_one s t j : 0 <= j -> j + 8 <= 21 -> ((s + 2 ^ 21 * t) / 2 ^ j) mod 256 = u8 (Z.shiftr s j).
Proof.
  intros Hj H. unfold u8. rewrite Z.shiftr_div_pow2 by lia.
  replace (2 ^ 21 * t) with (2 ^ (21 - j - 8) * t * 256 * 2 ^ j).
  - rewrite Z.div_add by (assert (0 < 2 ^ j) by (apply Z.pow_pos_nonneg; lia); lia). now rewrite Z.mod_add by lia.
  - change 256 with (2 ^ 8). replace 21 with ((21 - j - 8) + 8 + j) at 2 by lia. rewrite !Z.pow_add_r by lia. ring.
Qed.

Lemma byte_two s t u j : 0 <= s < 2 ^ 21 -> 0 <= t < 2 ^ 26 -> 13 <= j <= 21 ->
  ((s + 2 ^ 21 * (t + 2 ^ 21 * u)) / 2 ^ j) mod 256 = u8 (Z.lor (Z.shiftr s j) (wrap I64 (Z.shiftl t (21 - j)))).
Proof.
  intros Hs Ht Hj. unfold u8. assert (H2 : 0 < 2 ^ j) by (apply Z.pow_pos_nonneg; lia).
  assert (H3 : 0 < 2 ^ (21 - j)) by (apply Z.pow_pos_nonneg; lia).
  assert (H4 : 2 ^ (21 - j) <= 2 ^ 8) by (apply Z.pow_le_mono_r; lia).
  rewrite wrap_id.
  2:{ rewrite Z.shiftl_mul_pow2 by lia. unfold half. nia. }
  rewrite lor_add.
  - rewrite Z.shiftr_div_pow2 by lia.
    replace (s + 2 ^ 21 * (t + 2 ^ 21 * u)) with (s + (2 ^ (21 - j) * (t + 2 ^ 21 * u)) * 2 ^ j).
    + rewrite Z.div_add by lia.
      replace (s / 2 ^ j + 2 ^ (21 - j) * (t + 2 ^ 21 * u)) with (s / 2 ^ j + t * 2 ^ (21 - j) + (2 ^ (21 - j) * 2 ^ 13 * u) * 256) by (change (2 ^ 21) with (2 ^ 13 * 256); ring).
      now rewrite Z.mod_add by lia.
    + replace 21 with ((21 - j) + j) at 3 by lia. rewrite Z.pow_add_r by lia. ring.
  - lia.
  - rewrite Z.shiftr_div_pow2 by lia. split; [apply Z.div_pos; lia|]. apply Z.div_lt_upper_bound; [lia|].
    rewrite <- Z.pow_add_r by lia. replace (j + (21 - j)) with 21 by lia. lia.
Qed.

Lemma wv_split i l : wv l = wv (firstn i l) + 2 ^ (21 * Z.of_nat (length (firstn i l))) * wv (skipn i l).
Proof.
  revert l; induction i as [|i IH]; intros [|x l]; cbn [firstn skipn wv length].
  - lia.
  - change (21 * Z.of_nat 0) with 0. lia.
  - lia.
  - rewrite (IH l). replace (21 * Z.of_nat (S (length (firstn i l)))) with (21 + 21 * Z.of_nat (length (firstn i l))) by lia.
    rewrite Z.pow_add_r by lia. ring.
Qed.

Lemma wv_bound l : Forall (fun x => 0 <= x < 2 ^ 21) l -> 0 <= wv l < 2 ^ (21 * Z.of_nat (length l)).
Proof.
  intros H; induction H as [|x l Hx Hl IH]; cbn [wv length]; [change (21 * Z.of_nat 0) with 0; lia|].
  replace (21 * Z.of_nat (S (length l))) with (21 + 21 * Z.of_nat (length l)) by lia. rewrite Z.pow_add_r by lia. nia.
Qed.

(** Byte k of the value, from the limb i it starts in. *)
Lemma nth_byte l k i j : Forall (fun x => 0 <= x < 2 ^ 21) (firstn i l) -> (i <= length l)%nat ->
  0 <= j -> 8 * k = 21 * Z.of_nat i + j -> (wv l / 2 ^ (8 * k)) = wv (skipn i l) / 2 ^ j.
Proof.
  intros Hf Hl Hj E. pose proof (wv_bound _ Hf) as B. rewrite (wv_split i l), E.
  rewrite firstn_length, Nat.min_l in * by lia. apply byte_at; lia.
Qed.

Lemma le_bytes_nth n v : le_bytes n v = map (fun k => (v / 2 ^ (8 * Z.of_nat k)) mod 256) (seq 0 n).
Proof.
  assert (G : forall n v s, 0 <= s -> le_bytes n (v / 2 ^ (8 * s)) = map (fun k => (v / 2 ^ (8 * (s + Z.of_nat k))) mod 256) (seq 0 n)).
  { clear. induction n as [|n IH]; intros v s Hs; [reflexivity|]. cbn [le_bytes seq map]. rewrite Z.add_0_r. f_equal.
    rewrite Z.div_div by (try lia; apply Z.pow_pos_nonneg; lia). change 256 with (2 ^ 8) at 1. rewrite <- Z.pow_add_r by lia.
    replace (8 * s + 8) with (8 * (s + 1)) by lia. rewrite IH by lia. rewrite <- seq_shift, map_map.
    apply map_ext. intros k. do 4 f_equal. lia. }
  specialize (G n v 0 ltac:(lia)). rewrite Z.mul_0_r, Z.pow_0_r, Z.div_1_r in G. exact G.
Qed.

Lemma sc_bytes_ok s0 s1 s2 s3 s4 s5 s6 s7 s8 s9 s10 s11 :
  Forall (fun x => 0 <= x < 2 ^ 21) [s0; s1; s2; s3; s4; s5; s6; s7; s8; s9; s10] -> 0 <= s11 < 2 ^ 25 ->
  sc_bytes s0 s1 s2 s3 s4 s5 s6 s7 s8 s9 s10 s11 = le_bytes 32 (wv [s0; s1; s2; s3; s4; s5; s6; s7; s8; s9; s10; s11]).
Proof.
  intros H H11. rewrite le_bytes_nth. set (l := [s0; s1; s2; s3; s4; s5; s6; s7; s8; s9; s10; s11]).
  assert (F : forall i, (i <= 11)%nat -> Forall (fun x => 0 <= x < 2 ^ 21) (firstn i l)).
  { intros i Hi. replace (firstn i l) with (firstn i (firstn 11 l)) by (rewrite firstn_firstn; f_equal; lia).
    apply Forall_forall. intros x Hx. rewrite Forall_forall in H. apply H. cbn [firstn l] in Hx.
    rewrite <- (firstn_skipn i). apply in_or_app. left. exact Hx. }
  assert (R : forall x, In x [s0; s1; s2; s3; s4; s5; s6; s7; s8; s9; s10] -> 0 <= x < 2 ^ 21) by (now apply Forall_forall).
  cbn [seq map]. unfold sc_bytes.
  assert (Z0 : forall x, Z.shiftr x 0 = x) by (intros; apply Z.shiftr_0_r).
  assert (B1 : forall (k i : nat) j s t, (i <= 11)%nat -> 0 <= j -> j + 8 <= 21 -> 8 * Z.of_nat k = 21 * Z.of_nat i + j ->
     skipn i l = s :: t -> u8 (Z.shiftr s j) = (wv l / 2 ^ (8 * Z.of_nat k)) mod 256).
  { intros k i j s t Hi Hj Hj2 E Es. rewrite (nth_byte l (Z.of_nat k) i j) by (try lia; try (now apply F); unfold l; cbn [length]; lia).
    rewrite Es. cbn [wv]. now rewrite byte_one by lia. }
  assert (B2 : forall (k i : nat) j s t u, (i < 11)%nat -> 13 <= j <= 21 -> 8 * Z.of_nat k = 21 * Z.of_nat i + j ->
     skipn i l = s :: t :: u -> u8 (Z.lor (Z.shiftr s j) (wrap I64 (Z.shiftl t (21 - j)))) = (wv l / 2 ^ (8 * Z.of_nat k)) mod 256).
  { intros k i j s t u Hi Hj E Es. rewrite (nth_byte l (Z.of_nat k) i j) by (try lia; try (apply F; lia); unfold l; cbn [length]; lia).
    rewrite Es. cbn [wv].
    assert (Hs : 0 <= s < 2 ^ 21 /\ 0 <= t < 2 ^ 26).
    { clear - Es Hi R H11. do 11 (destruct i as [|i]; [cbn [skipn l] in Es; injection Es as <- <- _; split;
        [apply R; simpl; tauto | first [lia | match goal with |- 0 <= ?x < _ => pose proof (R x ltac:(simpl; tauto)); lia end]]|]). lia. }
    now rewrite byte_two by lia. }
  repeat match goal with |- _ :: _ = _ :: _ => f_equal end.
  - rewrite <- (Z0 s0). eapply (B1 0%nat 0%nat 0); try lia; reflexivity.
  - eapply (B1 1%nat 0%nat 8); try lia; reflexivity.
  - eapply (B2 2%nat 0%nat 16); try lia; reflexivity.
  - eapply (B1 3%nat 1%nat 3); try lia; reflexivity.
  - eapply (B1 4%nat 1%nat 11); try lia; reflexivity.
  - eapply (B2 5%nat 1%nat 19); try lia; reflexivity.
  - eapply (B1 6%nat 2%nat 6); try lia; reflexivity.
  - eapply (B2 7%nat 2%nat 14); try lia; reflexivity.
  - eapply (B1 8%nat 3%nat 1); try lia; reflexivity.
  - eapply (B1 9%nat 3%nat 9); try lia; reflexivity.
  - eapply (B2 10%nat 3%nat 17); try lia; reflexivity.
  - eapply (B1 11%nat 4%nat 4); try lia; reflexivity.
  - eapply (B1 12%nat 4%nat 12); try lia; reflexivity.
  - eapply (B2 13%nat 4%nat 20); try lia; reflexivity.
  - eapply (B1 14%nat 5%nat 7); try lia; reflexivity.
  - eapply (B2 15%nat 5%nat 15); try lia; reflexivity.
  - eapply (B1 16%nat 6%nat 2); try lia; reflexivity.
  - eapply (B1 17%nat 6%nat 10); try lia; reflexivity.
  - eapply (B2 18%nat 6%nat 18); try lia; reflexivity.
  - eapply (B1 19%nat 7%nat 5); try lia; reflexivity.
  - eapply (B1 20%nat 7%nat 13); try lia; reflexivity.
  - rewrite <- (Z0 s8). eapply (B1 21%nat 8%nat 0); try lia; reflexivity.
  - eapply (B1 22%nat 8%nat 8); try lia; reflexivity.
  - eapply (B2 23%nat 8%nat 16); try lia; reflexivity.
  - eapply (B1 24%nat 9%nat 3); try lia; reflexivity.
  - eapply (B1 25%nat 9%nat 11); try lia; reflexivity.
  - eapply (B2 26%nat 9%nat 19); try lia; reflexivity.
  - eapply (B1 27%nat 10%nat 6); try lia; reflexivity.
  - eapply (B2 28%nat 10%nat 14); try lia; reflexivity.
  - eapply (B1 29%nat 11%nat 1); try lia; reflexivity.
  - eapply (B1 30%nat 11%nat 9); try lia; reflexivity.
  - rewrite (nth_byte l (Z.of_nat 31) 11 17) by (try lia; try (apply F; lia); unfold l; cbn [length]; lia).
    cbn [skipn l wv]. rewrite Z.mul_0_r, Z.add_0_r. unfold u8. now rewrite Z.shiftr_div_pow2 by lia.
Qed.

(** ** The tail shared by the four functions *)

Lemma tails_equal :
  (sc_add_p2 = sc_mul_add_p2 /\ sc_add_p3 = sc_mul_add_p3) /\ (sc_sub_p2 = sc_mul_add_p2 /\ sc_sub_p3 = sc_mul_add_p3) /\
  (sc_mul_p2 = sc_mul_add_p2 /\ sc_mul_p3 = sc_mul_add_p3).
Proof. repeat split; reflexivity. Qed.

Local Open Scope string_scope.
Definition snames := names12 "s".
Definition weights (xs : list string) : list (string * Z) :=
  (fix go (k : Z) (xs : list string) := match xs with [] => [] | x :: xs' => (x, k) :: go (k * 2 ^ 21)%Z xs' end) 1%Z xs.
Definition ranges11 (p : string) (lo hi lo' hi' : Z) : list (string * (Z * Z)) :=
  List.app (map (fun x => (x, (lo, hi))) (firstn 11 (names12 p))) [(p ++ "11", (lo', hi'))].
(** Ranges after part 1, after part 2, after part 3. *)
Definition rng1 := List.app (ranges11 "s" (- 2 ^ 28) (2 ^ 28) (- 2 ^ 20) (2 ^ 20)) [("s12", (0, 0))].
Definition rng2 := ranges11 "s" 0 (2 ^ 21 - 1) 0 (2 ^ 21 - 1).
Definition rng3 := map (fun x => (x, (0, 2 ^ 21 - 1)%Z)) (firstn 11 snames).
Local Close Scope string_scope.

Lemma wval_weights r xs : wval r (weights xs) = wv (map r xs).
Proof.
  assert (G : forall k, wval r ((fix go (k : Z) (xs : list string) := match xs with [] => [] | x :: xs' => (x, k) :: go (k * 2 ^ 21)%Z xs' end) k xs) = k * wv (map r xs)).
  { induction xs as [|x xs IH]; intros k; cbn [wval map wv]; [ring|]. rewrite IH. ring. }
  unfold weights. rewrite G. ring.
Qed.

Definition fold12 : Z := ell - 2 ^ 252.

Definition s13 := (snames ++ ["s12"%string])%list.

Lemma tail_p2 : check 0 (init rng1) sc_mul_add_p2 (weights s13) (SLin (weights s13)) (rng2 ++ [("s12"%string, (-1, 0))]) = true.
Proof. vm_compute. reflexivity. Qed.
Lemma tail_p3 : check 0 (init (rng2 ++ [("s12"%string, (-1, 0))])) sc_mul_add_p3 (weights snames)
   (SSub (SLin (weights snames)) (SScale fold12 (SLin [("s12"%string, 1)]))) rng3 = true.
Proof. vm_compute. reflexivity. Qed.

Lemma div0_eq a b : (0 | a - b) -> a = b.
Proof. intros [k H]. lia. Qed.

Lemma wv_app l1 l2 : wv (l1 ++ l2) = wv l1 + 2 ^ (21 * Z.of_nat (length l1)) * wv l2.
Proof.
  induction l1 as [|x l IH]; cbn [app wv length]; [change (21 * Z.of_nat 0) with 0; lia|].
  rewrite IH. replace (21 * Z.of_nat (S (length l))) with (21 + 21 * Z.of_nat (length l)) by lia. rewrite Z.pow_add_r by lia. ring.
Qed.

Lemma forall_rng_map (r : env) lo hi xs :
  Forall (fun x => fst (snd x) <= r (fst x) <= snd (snd x)) (map (fun x => (x, (lo, hi))) xs) -> Forall (fun v => lo <= v <= hi) (map r xs).
Proof. intros H. apply Forall_map in H. apply Forall_map. exact H. Qed.

Definition in_ranges (r : env) (l : list (string * (Z * Z))) : Prop := Forall (fun x => fst (snd x) <= r (fst x) <= snd (snd x)) l.

Lemma tail_core r r2 r3 : in_ranges r rng1 -> in_ranges r2 (rng2 ++ [("s12"%string, (-1, 0))]) -> in_ranges r3 rng3 ->
  wv (map r2 s13) = wv (map r s13) -> wv (map r3 snames) = wv (map r2 snames) - fold12 * (1 * r2 "s12"%string + 0) ->
  store r3 = le_bytes 32 (wv (map r snames) mod ell).
Proof.
  intros H R2 R3 V2 V3. unfold in_ranges in *.
  unfold s13 in V2. rewrite !map_app, !wv_app in V2. change (length (map r2 snames)) with 12%nat in V2. change (length (map r snames)) with 12%nat in V2.
  change (21 * Z.of_nat 12) with 252 in V2. cbn [map wv] in V2.
  assert (E12 : r "s12"%string = 0).
  { rewrite Forall_forall in H. specialize (H ("s12"%string, (0, 0)) ltac:(cbn; tauto)). cbn [fst snd] in H. lia. }
  rewrite E12 in V2.
  assert (B2 : 0 <= wv (map r2 snames) < 2 ^ 252).
  { assert (F : Forall (fun x => 0 <= x < 2 ^ 21) (map r2 snames)).
    { apply Forall_app in R2. destruct R2 as [R2 _]. unfold rng2, ranges11 in R2. apply Forall_app in R2. destruct R2 as [Ra Rb].
      apply forall_rng_map in Ra. inversion_clear Rb as [|? ? Rc _]. cbn [fst snd] in Rc.
      change (map r2 snames) with (map r2 (firstn 11 (names12 "s")) ++ [r2 "s11"%string])%list. apply Forall_app. split.
      - eapply Forall_impl; [|exact Ra]. intros; cbv beta in *; lia.
      - constructor; [|constructor]. change ("s" ++ "11")%string with "s11"%string in Rc. lia. }
    apply wv_bound in F. exact F. }
  assert (B12 : -1 <= r2 "s12"%string <= 0).
  { apply Forall_app in R2. destruct R2 as [_ R2]. inversion_clear R2 as [|? ? Rc _]. exact Rc. }
  assert (B1 : - 2 ^ 252 + 2 ^ 250 <= wv (map r snames) <= 2 ^ 252 - 2 ^ 250).
  { unfold rng1, ranges11 in H. apply Forall_app in H. destruct H as [H _]. apply Forall_app in H. destruct H as [Ra Rb].
    inversion_clear Rb as [|? ? Rc _]. cbn [fst snd] in Rc. change ("s" ++ "11")%string with "s11"%string in Rc.
    apply forall_rng_map in Ra. cbn [map firstn names12 String.append] in Ra.
    cbn [map snames names12 String.append wv].
    repeat match goal with F : Forall _ (_ :: _) |- _ => inversion_clear F end. cbv beta in *. lia. }
  assert (Ve : wv (map r3 snames) = wv (map r snames) mod ell).
  { apply (Z.mod_unique_pos _ _ (r2 "s12"%string)).
    - rewrite V3. unfold fold12, ell in *. lia.
    - rewrite V3. unfold fold12, ell. lia. }
  assert (B3 : 0 <= wv (map r3 snames) < ell) by (rewrite Ve; apply Z.mod_pos_bound; reflexivity).
  rewrite <- Ve. unfold store. apply forall_rng_map in R3.
  assert (R3' : Forall (fun x => 0 <= x < 2 ^ 21) (map r3 (firstn 11 snames))).
  { eapply Forall_impl; [|exact R3]. intros; cbv beta in *; lia. }
  assert (B11 : 0 <= r3 "s11"%string < 2 ^ 25).
  { pose proof (wv_bound _ R3') as Bl.
    change (map r3 snames) with (map r3 (firstn 11 snames) ++ [r3 "s11"%string])%list in B3. rewrite wv_app in B3.
    change (length (map r3 (firstn 11 snames))) with 11%nat in *. change (21 * Z.of_nat 11) with 231 in *.
    cbn [wv] in B3. unfold ell in B3. lia. }
  exact (sc_bytes_ok _ _ _ _ _ _ _ _ _ _ _ _ R3' B11).
Qed.

(** From the ranges after part 1, parts 2 and 3 produce the canonical representative. *)
Lemma tail_ok r : in_ranges r rng1 -> store (exec r (sc_mul_add_p2 ++ sc_mul_add_p3)) = le_bytes 32 (wv (map r snames) mod ell).
Proof.
  intros H. rewrite exec_app. destruct (check_ok _ _ _ _ _ _ r (Z.le_refl 0) H tail_p2) as [V2 R2].
  generalize dependent (exec r sc_mul_add_p2). intros r2 V2 R2. apply div0_eq in V2. cbn [sval] in V2. rewrite !wval_weights in V2.
  destruct (check_ok _ _ _ _ _ _ r2 (Z.le_refl 0) R2 tail_p3) as [V3 R3].
  generalize dependent (exec r2 sc_mul_add_p3). intros r3 V3 R3. apply div0_eq in V3. cbn [sval] in V3. rewrite !wval_weights in V3. cbn [wval] in V3.
  exact (tail_core r r2 r3 H R2 R3 V2 V3).
Qed.

(** ** Part 1 of each function *)

Definition inr (p : string) := ranges11 p 0 2097151 0 33554431.
Definition inl (p : string) := SLin (weights (names12 p)).

Lemma part1_mul_add : check ell (init (inr "a" ++ inr "b" ++ inr "c")) sc_mul_add_p1 (weights snames) (SAdd (SMul (inl "a") (inl "b")) (inl "c")) rng1 = true.
Proof. vm_compute. reflexivity. Qed.
Lemma part1_add : check ell (init (inr "a" ++ inr "c")) sc_add_p1 (weights snames) (SAdd (inl "a") (inl "c")) rng1 = true.
Proof. vm_compute. reflexivity. Qed.
Lemma part1_sub : check ell (init (inr "a" ++ inr "c")) sc_sub_p1 (weights snames) (SSub (inl "a") (inl "c")) rng1 = true.
Proof. vm_compute. reflexivity. Qed.
Lemma part1_mul : check ell (init (inr "a" ++ inr "b")) sc_mul_p1 (weights snames) (SMul (inl "a") (inl "b")) rng1 = true.
Proof. vm_compute. reflexivity. Qed.

Lemma mod_of_divide m a b : 0 < m -> (m | a - b) -> a mod m = b mod m.
Proof. intros Hm [k H]. replace a with (b + k * m) by lia. apply Z.mod_add. lia. Qed.

Lemma map_binds xs vs r : length xs = length vs -> NoDup xs -> map (binds xs vs r) xs = vs.
Proof.
  revert vs; induction xs as [|x xs IH]; intros [|v vs] Hl Hn; cbn [length] in Hl; try discriminate; [reflexivity|].
  cbn [binds map]. inversion_clear Hn as [|? ? Hx Hn']. f_equal; [unfold upd; now rewrite String.eqb_refl|].
  rewrite <- (IH vs) at 2 by (try lia; assumption). apply map_ext_in. intros y Hy. unfold upd.
  destruct (String.eqb_spec y x) as [->|]; [contradiction|reflexivity].
Qed.

Lemma binds_other xs vs r y : ~ In y xs -> binds xs vs r y = r y.
Proof.
  revert vs; induction xs as [|x xs IH]; intros [|v vs] H; try reflexivity. cbn [binds]. unfold upd.
  destruct (String.eqb_spec y x) as [->|]; [exfalso; apply H; now left|]. apply IH. intros Hy; apply H; now right.
Qed.

Fixpoint nodupb (l : list string) : bool := match l with [] => true | x :: l' => negb (existsb (String.eqb x) l') && nodupb l' end.
Lemma nodupb_ok l : nodupb l = true -> NoDup l.
Proof.
  induction l as [|x l IH]; intros H; constructor; cbn [nodupb] in H; apply andb_prop in H; destruct H as [H1 H2]; [|now apply IH].
  intros Hx. apply negb_true_iff in H1. assert (existsb (String.eqb x) l = true); [|congruence].
  apply existsb_exists. exists x. split; [exact Hx|apply String.eqb_refl].
Qed.

Lemma load_arg_limbs p a r : In p ["a"; "b"; "c"]%string -> map (load_arg p a r) (names12 p) = sc_limbs a.
Proof.
  intros Hp. unfold load_arg. apply map_binds; [reflexivity|]. apply nodupb_ok.
  destruct Hp as [<-|[<-|[<-|[]]]]; reflexivity.
Qed.

Lemma load_arg_other p q a r : In p ["a"; "b"; "c"]%string -> In q ["a"; "b"; "c"]%string -> p <> q ->
  map (load_arg p a r) (names12 q) = map r (names12 q).
Proof.
  intros Hp Hq Hn. apply map_ext_in. intros y Hy. apply binds_other. intros Hy2.
  destruct Hp as [<-|[<-|[<-|[]]]], Hq as [<-|[<-|[<-|[]]]]; try congruence;
    cbn in Hy, Hy2; repeat (destruct Hy as [<-|Hy]; [repeat (destruct Hy2 as [Hy2|Hy2]; [discriminate|]); contradiction|]); contradiction.
Qed.

Lemma inr_ok r p a : bytes a -> length a = 32%nat -> map r (names12 p) = sc_limbs a ->
  Forall (fun x => fst (snd x) <= r (fst x) <= snd (snd x)) (inr p).
Proof.
  intros Hb Hl E. destruct (sc_limbs_range a Hb Hl) as [R1 R2]. rewrite <- E in R1, R2.
  unfold inr, ranges11. apply Forall_app. split.
  - apply Forall_map. rewrite firstn_map in R1. apply Forall_map in R1. exact R1.
  - constructor; [|constructor]. exact R2.
Qed.

Lemma inl_val r p a : bytes a -> length a = 32%nat -> map r (names12 p) = sc_limbs a -> sval r (inl p) = le_val a.
Proof. intros Hb Hl E. unfold inl. cbn [sval]. rewrite wval_weights, E. now apply sc_limbs_value. Qed.

Ltac tok := cbn; tauto.

Lemma run_mul_add r a b c : bytes a -> bytes b -> bytes c -> length a = 32%nat -> length b = 32%nat -> length c = 32%nat -> map r (names12 "a") = sc_limbs a -> map r (names12 "b") = sc_limbs b -> map r (names12 "c") = sc_limbs c ->
  store (exec r sc_mul_add_prog) = le_bytes 32 ((le_val a * le_val b + le_val c) mod ell).
Proof.
  intros Hba Hbb Hbc La Lb Lc Ea Eb Ec. unfold sc_mul_add_prog. rewrite exec_app.
  assert (I : in_ranges r (inr "a" ++ inr "b" ++ inr "c")) by (repeat first [apply (inr_ok r "a" a); assumption | apply (inr_ok r "b" b); assumption | apply (inr_ok r "c" c); assumption | apply Forall_app; split]).
  destruct (check_ok ell _ _ _ _ _ r ltac:(discriminate) I part1_mul_add) as [V R].
  rewrite (tail_ok _ R). rewrite wval_weights in V. cbn [sval] in V. rewrite (inl_val r "a" a), (inl_val r "b" b), (inl_val r "c" c) in V by assumption.
  apply (f_equal (le_bytes 32)). apply mod_of_divide; [reflexivity|exact V].
Qed.

Theorem sc_mul_add_ok a b c : bytes a -> bytes b -> bytes c -> length a = 32%nat -> length b = 32%nat -> length c = 32%nat ->
  sc_mul_add a b c = le_bytes 32 ((le_val a * le_val b + le_val c) mod ell).
Proof.
  intros Hba Hbb Hbc La Lb Lc. apply run_mul_add; try assumption; repeat (rewrite load_arg_other by (try tok; discriminate)); apply load_arg_limbs; tok.
Qed.

Lemma run_add r a c : bytes a -> bytes c -> length a = 32%nat -> length c = 32%nat -> map r (names12 "a") = sc_limbs a -> map r (names12 "c") = sc_limbs c ->
  store (exec r sc_add_prog) = le_bytes 32 ((le_val a + le_val c) mod ell).
Proof.
  intros Hba Hbc La Lc Ea Ec. unfold sc_add_prog. rewrite exec_app.
  assert (I : in_ranges r (inr "a" ++ inr "c")) by (repeat first [apply (inr_ok r "a" a); assumption | apply (inr_ok r "c" c); assumption | apply Forall_app; split]).
  destruct (check_ok ell _ _ _ _ _ r ltac:(discriminate) I part1_add) as [V R].
  destruct tails_equal as [[E2 E3] _]. rewrite E2, E3. rewrite (tail_ok _ R). rewrite wval_weights in V. cbn [sval] in V. rewrite (inl_val r "a" a), (inl_val r "c" c) in V by assumption.
  apply (f_equal (le_bytes 32)). apply mod_of_divide; [reflexivity|exact V].
Qed.

Theorem sc_add_ok a c : bytes a -> bytes c -> length a = 32%nat -> length c = 32%nat ->
  sc_add a c = le_bytes 32 ((le_val a + le_val c) mod ell).
Proof.
  intros Hba Hbc La Lc. apply run_add; try assumption; repeat (rewrite load_arg_other by (try tok; discriminate)); apply load_arg_limbs; tok.
Qed.

Lemma run_sub r a c : bytes a -> bytes c -> length a = 32%nat -> length c = 32%nat -> map r (names12 "a") = sc_limbs a -> map r (names12 "c") = sc_limbs c ->
  store (exec r sc_sub_prog) = le_bytes 32 ((le_val a - le_val c) mod ell).
Proof.
  intros Hba Hbc La Lc Ea Ec. unfold sc_sub_prog. rewrite exec_app.
  assert (I : in_ranges r (inr "a" ++ inr "c")) by (repeat first [apply (inr_ok r "a" a); assumption | apply (inr_ok r "c" c); assumption | apply Forall_app; split]).
  destruct (check_ok ell _ _ _ _ _ r ltac:(discriminate) I part1_sub) as [V R].
  destruct tails_equal as [_ [[E2 E3] _]]. rewrite E2, E3. rewrite (tail_ok _ R). rewrite wval_weights in V. cbn [sval] in V. rewrite (inl_val r "a" a), (inl_val r "c" c) in V by assumption.
  apply (f_equal (le_bytes 32)). apply mod_of_divide; [reflexivity|exact V].
Qed.

Theorem sc_sub_ok a c : bytes a -> bytes c -> length a = 32%nat -> length c = 32%nat ->
  sc_sub a c = le_bytes 32 ((le_val a - le_val c) mod ell).
Proof.
  intros Hba Hbc La Lc. apply run_sub; try assumption; repeat (rewrite load_arg_other by (try tok; discriminate)); apply load_arg_limbs; tok.
Qed.

Lemma run_mul r a b : bytes a -> bytes b -> length a = 32%nat -> length b = 32%nat -> map r (names12 "a") = sc_limbs a -> map r (names12 "b") = sc_limbs b ->
  store (exec r sc_mul_prog) = le_bytes 32 ((le_val a * le_val b) mod ell).
Proof.
  intros Hba Hbb La Lb Ea Eb. unfold sc_mul_prog. rewrite exec_app.
  assert (I : in_ranges r (inr "a" ++ inr "b")) by (repeat first [apply (inr_ok r "a" a); assumption | apply (inr_ok r "b" b); assumption | apply Forall_app; split]).
  destruct (check_ok ell _ _ _ _ _ r ltac:(discriminate) I part1_mul) as [V R].
  destruct tails_equal as [_ [_ [E2 E3]]]. rewrite E2, E3. rewrite (tail_ok _ R). rewrite wval_weights in V. cbn [sval] in V. rewrite (inl_val r "a" a), (inl_val r "b" b) in V by assumption.
  apply (f_equal (le_bytes 32)). apply mod_of_divide; [reflexivity|exact V].
Qed.

Theorem sc_mul_ok a b : bytes a -> bytes b -> length a = 32%nat -> length b = 32%nat ->
  sc_mul a b = le_bytes 32 ((le_val a * le_val b) mod ell).
Proof.
  intros Hba Hbb La Lb. apply run_mul; try assumption; repeat (rewrite load_arg_other by (try tok; discriminate)); apply load_arg_limbs; tok.
Qed.


(** ** No overflow *)

Lemma tail_safe r : in_ranges r rng1 -> safe_run r (sc_mul_add_p2 ++ sc_mul_add_p3).
Proof.
  intros H. apply safe_run_app; [exact (check_safe _ _ _ _ _ _ r H tail_p2)|].
  destruct (check_ok _ _ _ _ _ _ r (Z.le_refl 0) H tail_p2) as [_ R2].
  exact (check_safe _ _ _ _ _ _ _ R2 tail_p3).
Qed.

Lemma run_safe_mul_add r a b c : bytes a -> bytes b -> bytes c -> length a = 32%nat -> length b = 32%nat -> length c = 32%nat -> map r (names12 "a") = sc_limbs a -> map r (names12 "b") = sc_limbs b -> map r (names12 "c") = sc_limbs c -> safe_run r sc_mul_add_prog.
Proof.
  intros Hba Hbb Hbc La Lb Lc Ea Eb Ec. unfold sc_mul_add_prog.
  assert (I : in_ranges r (inr "a" ++ inr "b" ++ inr "c")) by (repeat first [apply (inr_ok r "a" a); assumption | apply (inr_ok r "b" b); assumption | apply (inr_ok r "c" c); assumption | apply Forall_app; split]).
  apply safe_run_app; [exact (check_safe ell _ _ _ _ _ r I part1_mul_add)|].
  destruct (check_ok ell _ _ _ _ _ r ltac:(discriminate) I part1_mul_add) as [V R].
  exact (tail_safe _ R).
Qed.

Lemma run_safe_add r a c : bytes a -> bytes c -> length a = 32%nat -> length c = 32%nat -> map r (names12 "a") = sc_limbs a -> map r (names12 "c") = sc_limbs c -> safe_run r sc_add_prog.
Proof.
  intros Hba Hbc La Lc Ea Ec. unfold sc_add_prog.
  assert (I : in_ranges r (inr "a" ++ inr "c")) by (repeat first [apply (inr_ok r "a" a); assumption | apply (inr_ok r "c" c); assumption | apply Forall_app; split]).
  apply safe_run_app; [exact (check_safe ell _ _ _ _ _ r I part1_add)|].
  destruct (check_ok ell _ _ _ _ _ r ltac:(discriminate) I part1_add) as [V R].
  destruct tails_equal as [[E2 E3] _]. rewrite E2, E3. exact (tail_safe _ R).
Qed.

Lemma run_safe_sub r a c : bytes a -> bytes c -> length a = 32%nat -> length c = 32%nat -> map r (names12 "a") = sc_limbs a -> map r (names12 "c") = sc_limbs c -> safe_run r sc_sub_prog.
Proof.
  intros Hba Hbc La Lc Ea Ec. unfold sc_sub_prog.
  assert (I : in_ranges r (inr "a" ++ inr "c")) by (repeat first [apply (inr_ok r "a" a); assumption | apply (inr_ok r "c" c); assumption | apply Forall_app; split]).
  apply safe_run_app; [exact (check_safe ell _ _ _ _ _ r I part1_sub)|].
  destruct (check_ok ell _ _ _ _ _ r ltac:(discriminate) I part1_sub) as [V R].
  destruct tails_equal as [_ [[E2 E3] _]]. rewrite E2, E3. exact (tail_safe _ R).
Qed.

Lemma run_safe_mul r a b : bytes a -> bytes b -> length a = 32%nat -> length b = 32%nat -> map r (names12 "a") = sc_limbs a -> map r (names12 "b") = sc_limbs b -> safe_run r sc_mul_prog.
Proof.
  intros Hba Hbb La Lb Ea Eb. unfold sc_mul_prog.
  assert (I : in_ranges r (inr "a" ++ inr "b")) by (repeat first [apply (inr_ok r "a" a); assumption | apply (inr_ok r "b" b); assumption | apply Forall_app; split]).
  apply safe_run_app; [exact (check_safe ell _ _ _ _ _ r I part1_mul)|].
  destruct (check_ok ell _ _ _ _ _ r ltac:(discriminate) I part1_mul) as [V R].
  destruct tails_equal as [_ [_ [E2 E3]]]. rewrite E2, E3. exact (tail_safe _ R).
Qed.

