(** Proofs about the byte checks of src/group/edwards25519/point.rs. *)
From Coq Require Import ZArith String List Bool Lia.
From Verif Require Import Base Bytes Limb ScLimbs ScModel EdModel.
Import ListNotations.
Local Open Scope Z_scope.

Lemma lor_byte a b : 0 <= a < 256 -> 0 <= b < 256 -> 0 <= Z.lor a b < 256.
Proof.
  intros Ha Hb. split; [apply Z.lor_nonneg; lia|].
  destruct (Z.eq_dec (Z.lor a b) 0) as [->|N]; [lia|].
  change 256 with (2 ^ 8). apply Z.log2_lt_pow2; [pose proof (Z.lor_nonneg a b); lia|].
  rewrite Z.log2_lor by lia.
  destruct (Z.eq_dec a 0) as [->|Na]; destruct (Z.eq_dec b 0) as [->|Nb]; cbn [Z.log2]; try lia.
  - assert (Z.log2 b < 8) by (apply Z.log2_lt_pow2; lia). lia.
  - assert (Z.log2 a < 8) by (apply Z.log2_lt_pow2; lia). pose proof (Z.log2_nonneg 0). cbn in *. lia.
  - assert (Z.log2 b < 8) by (apply Z.log2_lt_pow2; lia). assert (Z.log2 a < 8) by (apply Z.log2_lt_pow2; lia). lia.
Qed.
Lemma lxor_byte a b : 0 <= a < 256 -> 0 <= b < 256 -> 0 <= Z.lxor a b < 256.
Proof.
  intros Ha Hb. split; [apply Z.lxor_nonneg; lia|].
  destruct (Z.eq_dec (Z.lxor a b) 0) as [->|N]; [lia|].
  change 256 with (2 ^ 8). apply Z.log2_lt_pow2; [pose proof (Z.lxor_nonneg a b); lia|].
  eapply Z.le_lt_trans; [apply Z.log2_lxor; lia|].
  destruct (Z.eq_dec a 0) as [->|Na]; destruct (Z.eq_dec b 0) as [->|Nb]; cbn [Z.log2]; try lia.
  - assert (Z.log2 b < 8) by (apply Z.log2_lt_pow2; lia). lia.
  - assert (Z.log2 a < 8) by (apply Z.log2_lt_pow2; lia). pose proof (Z.log2_nonneg 0). cbn in *. lia.
  - assert (Z.log2 b < 8) by (apply Z.log2_lt_pow2; lia). assert (Z.log2 a < 8) by (apply Z.log2_lt_pow2; lia). lia.
Qed.

Lemma fold_lor_zero {A} (f : A -> Z) l c :
  fold_left (fun c i => Z.lor c (f i)) l c = 0 <-> c = 0 /\ Forall (fun i => f i = 0) l.
Proof.
  revert c. induction l as [|i l IH]; intros c; cbn [fold_left]; [split; [split; [assumption|constructor]|tauto]|].
  rewrite IH, Z.lor_eq_0_iff. split.
  - intros [[H1 H2] H3]. split; [assumption|]. constructor; assumption.
  - intros [H1 H2]. inversion H2; subst. tauto.
Qed.
Lemma fold_lor_byte {A} (f : A -> Z) l c : 0 <= c < 256 -> (forall i, In i l -> 0 <= f i < 256) ->
  0 <= fold_left (fun c i => Z.lor c (f i)) l c < 256.
Proof.
  revert c. induction l as [|i l IH]; intros c Hc Hf; cbn [fold_left]; [exact Hc|].
  apply IH; [apply lor_byte; [assumption|apply Hf; now left]|]. intros j Hj. apply Hf. now right.
Qed.
Lemma fold_lor_bit {A} (f : A -> Z) n l c :
  Z.testbit (fold_left (fun c i => Z.lor c (f i)) l c) n = Z.testbit c n || existsb (fun i => Z.testbit (f i) n) l.
Proof.
  revert c. induction l as [|i l IH]; intros c; cbn [fold_left existsb]; [now rewrite orb_false_r|].
  rewrite IH, Z.lor_spec. now rewrite orb_assoc.
Qed.

(** u16 [c - 1 >> 8]: all ones for c = 0, zero otherwise. *)
Lemma mask_zero c : 0 <= c < 256 -> Z.shiftr ((c - 1) mod 65536) 8 = if c =? 0 then 255 else 0.
Proof.
  intros H. rewrite Z.shiftr_div_pow2 by lia. change (2 ^ 8) with 256. destruct (Z.eqb_spec c 0) as [->|N].
  - reflexivity.
  - rewrite Z.mod_small by lia. apply Z.div_small. lia.
Qed.

Lemma nth_byte (b : list Z) i : bytes b -> 0 <= nth i b 0 < 256.
Proof.
  intros H. destruct (Nat.lt_ge_cases i (length b)) as [L|L].
  - exact (proj1 (Forall_forall _ _) H (nth i b 0) (nth_In b 0 L)).
  - rewrite nth_overflow by lia. lia.
Qed.

Lemma land127 x : Z.land x 127 = x mod 128.
Proof. change 127 with (Z.ones 7). now rewrite Z.land_ones by lia. Qed.

(** The y-coordinate field of an encoding: the low 255 bits. *)
Definition y_field (b : list Z) : Z := le_val b mod 2 ^ 255.

Lemma y_field_split b : bytes b -> length b = 32%nat ->
  y_field b = le_val (firstn 31 b) + 256 ^ 31 * (nth 31 b 0 mod 128).
Proof.
  intros Hb L. unfold y_field.
  assert (E : b = firstn 31 b ++ [nth 31 b 0]).
  { rewrite <- (firstn_skipn 31 b) at 1. f_equal.
    assert (L' : length (skipn 31 b) = 1%nat) by (rewrite skipn_length; lia).
    rewrite <- (firstn_skipn 31 b) at 2. rewrite app_nth2; rewrite firstn_length_le by lia; [|lia].
    destruct (skipn 31 b) as [|x [|]]; try discriminate. reflexivity. }
  rewrite E at 1. rewrite le_val_app. rewrite firstn_length_le by lia. cbn [le_val]. rewrite Z.mul_0_r, Z.add_0_r.
  change (Z.of_nat 31) with 31.
  pose proof (le_val_bound (firstn 31 b) (bytes_firstn 31 b Hb)) as B. rewrite firstn_length_le in B by lia. change (Z.of_nat 31) with 31 in B.
  pose proof (nth_byte b 31 Hb) as H31. set (x := nth 31 b 0) in *. set (v := le_val (firstn 31 b)) in *.
  pose proof (Z.div_mod x 128 ltac:(lia)) as D. pose proof (Z.mod_pos_bound x 128 ltac:(lia)) as M.
  symmetry. apply Z.mod_unique with (q := x / 128).
  - left. change (2 ^ 255) with (256 ^ 31 * 128). nia.
  - change (2 ^ 255) with (256 ^ 31 * 128). rewrite D at 1. ring.
Qed.

(** The largest 31-byte tail. *)
Lemma le_val_all255 l : bytes l -> (Forall (fun x => x = 255) l <-> le_val l = 256 ^ Z.of_nat (length l) - 1).
Proof.
  induction l as [|x l IH]; intros H; [split; [reflexivity|constructor]|].
  inversion H as [|? ? Hx Hl]; subst. unfold is_byte in Hx. cbn [le_val length]. rewrite pow256_S.
  pose proof (le_val_bound l Hl) as B. pose proof (pow256_pos (length l)) as Pp. split.
  - intros F. inversion F; subst. apply IH in H3; [|assumption]. lia.
  - intros E. assert (x = 255 /\ le_val l = 256 ^ Z.of_nat (length l) - 1) as [-> E'] by nia. constructor; [reflexivity|]. now apply IH.
Qed.

Lemma nth_forall_seq (b : list Z) (P : Z -> Prop) k n : (k + n <= length b)%nat ->
  (Forall (fun i => P (nth i b 0)) (seq k n) <-> Forall P (firstn n (skipn k b))).
Proof.
  revert k. induction n as [|n IH]; intros k L; cbn [seq firstn]; [split; constructor|].
  destruct (skipn k b) as [|x r] eqn:E; [apply (f_equal (@length Z)) in E; rewrite skipn_length in E; cbn in E; lia|].
  assert (nth k b 0 = x /\ skipn (S k) b = r) as [<- <-].
  { split.
    - rewrite <- (firstn_skipn k b). rewrite app_nth2; rewrite firstn_length_le by lia; [|lia]. now rewrite Nat.sub_diag, E.
    - clear - E. revert b E. induction k as [|k IHk]; intros b E; destruct b; cbn in *; try discriminate; [now injection E|now apply IHk]. }
  rewrite !Forall_cons_iff, (IH (S k)) by lia. reflexivity.
Qed.

(** is_canonical rejects exactly the y fields of 2^255 - 236 and above. *)
Lemma pt_is_canonical_ok b : bytes b -> (pt_is_canonical b = true <-> length b = 32%nat /\ y_field b < 2 ^ 255 - 236).
Proof.
  intros Hb. unfold pt_is_canonical. destruct (Nat.eqb_spec (length b) 32) as [L|L]; cbn [negb]; [|split; [discriminate|tauto]].
  set (c0 := Z.lxor (Z.land (nth 31 b 0) 127) 127).
  assert (H31 := nth_byte b 31 Hb). assert (H0 := nth_byte b 0 Hb).
  assert (C0 : 0 <= c0 < 256). { apply lxor_byte; [rewrite land127; pose proof (Z.mod_pos_bound (nth 31 b 0) 128); lia|lia]. }
  set (c := fold_left _ _ c0).
  assert (Cb : 0 <= c < 256). { unfold c. apply (fold_lor_byte (fun i => Z.lxor (nth i b 0) 255)); [exact C0|]. intros i _. apply lxor_byte; [apply nth_byte; exact Hb|lia]. }
  rewrite mask_zero by exact Cb.
  assert (D : u8 (Z.shiftr ((237 - (1 - nth 0 b 0) mod 65536) mod 65536) 8) = if 20 <=? nth 0 b 0 then 1 else 0).
  { set (x := nth 0 b 0) in *. rewrite Z.shiftr_div_pow2 by lia. change (2 ^ 8) with 256.
    assert (E : (237 - (1 - x) mod 65536) mod 65536 = 236 + x).
    { rewrite Zminus_mod_idemp_r. replace (237 - (1 - x)) with (236 + x) by lia. apply Z.mod_small. lia. }
    rewrite E. destruct (Z.leb_spec 20 x).
    - assert ((236 + x) / 256 = 1) as -> by (symmetry; apply Z.div_unique with (r := x - 20); lia). reflexivity.
    - rewrite Z.div_small by lia. reflexivity. }
  rewrite D. clear D.
  assert (Y := y_field_split b Hb L).
  pose proof (Z.mod_pos_bound (nth 31 b 0) 128 ltac:(lia)) as M31.
  destruct b as [|b0 r]; [discriminate|]. cbn [length] in L. injection L as L. inversion Hb as [|? ? Hb0 Hr]; subst.
  cbn [nth] in *. change (firstn 31 (b0 :: r)) with (b0 :: firstn 30 r) in Y. cbn [le_val] in Y.
  assert (F : Forall (fun x => x = 255) (firstn 30 r) <-> le_val (firstn 30 r) = 256 ^ 30 - 1).
  { rewrite le_val_all255 by (apply bytes_firstn; exact Hr). rewrite firstn_length_le by lia. reflexivity. }
  pose proof (le_val_bound (firstn 30 r) (bytes_firstn 30 r Hr)) as B30. rewrite firstn_length_le in B30 by lia. change (Z.of_nat 30) with 30 in B30.
  set (m := nth 30 r 0 mod 128) in *. set (v := le_val (firstn 30 r)) in *.
  assert (Z0 : c = 0 <-> m = 127 /\ v = 256 ^ 30 - 1).
  { unfold c. rewrite (fold_lor_zero (fun i => Z.lxor (nth i (b0 :: r) 0) 255)). unfold c0. rewrite land127. fold m. rewrite Z.lxor_eq_0_iff, <- F.
    apply and_iff_compat_l.
    rewrite (Forall_forall _ (rev _)). setoid_rewrite <- in_rev. rewrite <- Forall_forall.
    transitivity (Forall (fun i => nth i (b0 :: r) 0 = 255) (seq 1 30)).
    - split; apply Forall_impl; intros i; rewrite Z.lxor_eq_0_iff; tauto.
    - rewrite (nth_forall_seq (b0 :: r) (fun x => x = 255) 1 30) by (cbn [length]; lia). reflexivity. }
  assert (Y' : y_field (b0 :: r) = b0 + 256 * v + 256 ^ 31 * m) by lia.
  change (2 ^ 255) with (128 * 256 ^ 31). change (256 ^ 31) with (256 * 256 ^ 30) in *. set (P := 256 ^ 30) in *.
  assert (0 < P) by reflexivity. unfold is_byte in Hb0.
  destruct (Z.eqb_spec c 0) as [E|E].
  - apply Z0 in E. destruct E as [Em Ev]. change (u8 255) with 255. rewrite Y', Em, Ev.
    destruct (Z.leb_spec 20 b0); cbn; split; try discriminate; intros; try split; try reflexivity; try lia.
  - change (u8 0) with 0. rewrite Z.land_0_l. cbn. split; [intros _|reflexivity]. split; [now rewrite L|].
    rewrite Y'. destruct (Z.eq_dec m 127) as [Em|Em]; [|nia].
    destruct (Z.eq_dec v (P - 1)) as [Ev|Ev]; [exfalso; apply E, Z0; split; assumption|]. nia.
Qed.

(** has_small_order compares the y field with the five values. *)
Lemma weak_diff_byte s w : bytes s -> bytes w -> 0 <= weak_diff s w < 256.
Proof.
  intros Hs Hw. unfold weak_diff. apply lor_byte.
  - apply (fold_lor_byte (fun j => Z.lxor (nth j s 0) (nth j w 0))); [lia|]. intros i _. apply lxor_byte; apply nth_byte; assumption.
  - apply lxor_byte; [rewrite land127; pose proof (Z.mod_pos_bound (nth 31 s 0) 128); lia|apply nth_byte; assumption].
Qed.

Lemma nth_eq_seq (a b : list Z) n : length a = n -> length b = n ->
  (Forall (fun i => nth i a 0 = nth i b 0) (seq 0 n) <-> a = b).
Proof.
  intros La Lb. split; [|intros ->; apply Forall_forall; reflexivity].
  intros H. apply nth_ext with (d := 0) (d' := 0); [congruence|]. intros i Hi. rewrite Forall_forall in H. apply H. apply in_seq. lia.
Qed.

Lemma weak_diff_zero s w : bytes s -> length s = 32%nat -> bytes w -> length w = 32%nat -> nth 31 w 0 < 128 ->
  (weak_diff s w = 0 <-> y_field s = le_val w).
Proof.
  intros Hs Ls Hw Lw H31. unfold weak_diff. rewrite Z.lor_eq_0_iff, (fold_lor_zero (fun j => Z.lxor (nth j s 0) (nth j w 0))), Z.lxor_eq_0_iff, land127.
  pose proof (nth_byte w 31 Hw) as Hw31.
  assert (Yw : le_val w = le_val (firstn 31 w) + 256 ^ 31 * nth 31 w 0).
  { assert (Y := y_field_split w Hw Lw). rewrite (Z.mod_small (nth 31 w 0)) in Y by lia. rewrite <- Y. unfold y_field.
    symmetry. apply Z.mod_small. pose proof (le_val_bound w Hw).
    split; [lia|]. assert (Y2 : le_val w = y_field w + 2 ^ 255 * (le_val w / 2 ^ 255)). { unfold y_field. pose proof (Z.div_mod (le_val w) (2 ^ 255) ltac:(discriminate)). lia. }
    assert (E : w = firstn 31 w ++ [nth 31 w 0]).
    { rewrite <- (firstn_skipn 31 w) at 1. f_equal. assert (L' : length (skipn 31 w) = 1%nat) by (rewrite skipn_length; lia).
      rewrite <- (firstn_skipn 31 w) at 2. rewrite app_nth2; rewrite firstn_length_le by lia; [|lia].
      destruct (skipn 31 w) as [|x [|]]; try discriminate. reflexivity. }
    rewrite E, le_val_app, firstn_length_le by lia. cbn [le_val].
    pose proof (le_val_bound (firstn 31 w) (bytes_firstn 31 w Hw)) as B. rewrite firstn_length_le in B by lia.
    change (2 ^ 255) with (128 * 256 ^ 31). change (Z.of_nat 31) with 31 in *. nia. }
  rewrite (y_field_split s Hs Ls), Yw.
  pose proof (le_val_bound (firstn 31 w) (bytes_firstn 31 w Hw)) as Bw. rewrite firstn_length_le in Bw by lia.
  pose proof (le_val_bound (firstn 31 s) (bytes_firstn 31 s Hs)) as Bs. rewrite firstn_length_le in Bs by lia.
  change (Z.of_nat 31) with 31 in *.
  assert (F : Forall (fun i => Z.lxor (nth i s 0) (nth i w 0) = 0) (seq 0 31) <-> firstn 31 s = firstn 31 w).
  { rewrite <- (nth_eq_seq (firstn 31 s) (firstn 31 w) 31) by (rewrite firstn_length_le; lia).
    assert (N : forall (l : list Z) i, (i < 31)%nat -> length l = 32%nat -> nth i (firstn 31 l) 0 = nth i l 0).
    { intros l i Hi Hl. rewrite <- (firstn_skipn 31 l) at 2. rewrite app_nth1; [reflexivity|]. rewrite firstn_length_le; lia. }
    rewrite !Forall_forall. split; intros H i Hi; pose proof (proj1 (in_seq 31 0 i) Hi) as Hi'; specialize (H i Hi).
    - rewrite !N by (assumption || lia). now apply Z.lxor_eq_0_iff.
    - rewrite !N in H by (assumption || lia). now apply Z.lxor_eq_0_iff. }
  rewrite F. split.
  - intros [[_ ->] ->]. reflexivity.
  - intros E. pose proof (Z.mod_pos_bound (nth 31 s 0) 128 ltac:(lia)).
    assert (0 < 256 ^ 31) by reflexivity.
    assert (le_val (firstn 31 s) = le_val (firstn 31 w) /\ nth 31 s 0 mod 128 = nth 31 w 0) as [E1 E2] by nia.
    split; [split; [reflexivity|]|assumption]. apply le_val_inj; [now apply bytes_firstn|now apply bytes_firstn| |assumption].
    rewrite !firstn_length_le; lia.
Qed.

Lemma bit8_mask d : 0 <= d < 256 -> Z.testbit ((d - 1) mod 65536) 8 = (d =? 0).
Proof.
  intros H. pose proof (mask_zero d H) as E.
  replace (Z.testbit ((d - 1) mod 65536) 8) with (Z.testbit (Z.shiftr ((d - 1) mod 65536) 8) 0) by (rewrite Z.shiftr_spec; [reflexivity|lia]).
  rewrite E. destruct (d =? 0); reflexivity.
Qed.

Lemma pt_small_order_ok s : bytes s -> length s = 32%nat ->
  (pt_small_order s = true <-> In (y_field s) (map le_val WEAK_KEYS)).
Proof.
  intros Hs Ls. unfold pt_small_order.
  assert (W : Forall (fun w => bytes w /\ length w = 32%nat /\ nth 31 w 0 < 128) WEAK_KEYS).
  { repeat (apply Forall_cons; [split; [repeat (constructor; [unfold is_byte; lia|]); constructor|split; [reflexivity|reflexivity]]|]). constructor. }
  set (k := fold_left _ _ 0).
  assert (E : (0 <? Z.land (Z.shiftr k 8) 1) = Z.testbit k 8).
  { change 1 with (Z.ones 1). rewrite Z.land_ones by lia. change (2 ^ 1) with 2.
    replace (Z.testbit k 8) with (Z.testbit (Z.shiftr k 8) 0) by (rewrite Z.shiftr_spec; [reflexivity|lia]).
    rewrite Z.bit0_odd. rewrite Zmod_odd. destruct (Z.odd (Z.shiftr k 8)); reflexivity. }
  rewrite E. unfold k. rewrite (fold_lor_bit (fun w => (weak_diff s w - 1) mod 65536)). rewrite Z.testbit_0_l. cbn [orb].
  rewrite existsb_exists, in_map_iff. rewrite Forall_forall in W.
  split; intros [w [H1 H2]]; exists w.
  - destruct (W w H1) as [Bw [Lw Hw]]. rewrite bit8_mask in H2 by (now apply weak_diff_byte). apply Z.eqb_eq in H2.
    split; [|assumption]. symmetry. now apply weak_diff_zero.
  - destruct (W w H2) as [Bw [Lw Hw]]. split; [assumption|]. rewrite bit8_mask by (now apply weak_diff_byte). apply Z.eqb_eq.
    apply weak_diff_zero; try assumption. now symmetry.
Qed.
