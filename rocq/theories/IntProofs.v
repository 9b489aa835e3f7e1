(** Lemmas about the model of integer.rs. *)
From Coq Require Import ZArith List Lia Znumtheory.
From Verif Require Import Base Bytes IntModel.
Import ListNotations.
Local Open Scope Z_scope.

Definition valid (i : Int) : Prop := 0 <= iv i < im i.

Lemma brem_pos (E : Type) a m : 0 < m -> @brem E a m = Ok (Z.rem a m).
Proof. intros H; unfold brem. destruct (Z.eqb_spec m 0); [lia|reflexivity]. Qed.

Lemma rem_nonneg a m : 0 <= a -> 0 < m -> Z.rem a m = a mod m.
Proof. intros; apply Z.rem_mod_nonneg; lia. Qed.

(** a rem m is congruent to a modulo m. *)
Lemma rem_mod a m : 0 < m -> Z.rem a m mod m = a mod m.
Proof.
  intros Hm. rewrite (Z.quot_rem' a m) at 2. rewrite Z.add_comm, Z.mul_comm, Z.mod_add; lia.
Qed.

Lemma rem_abs_bound a m : 0 < m -> - m < Z.rem a m < m.
Proof. intros Hm. pose proof (Z.rem_bound_abs a m ltac:(lia)). lia. Qed.

(** ** Arithmetic *)

Lemma int_add_ok a b : valid a -> 0 <= iv b ->
  int_add a b = Ok (mkInt ((iv a + iv b) mod im a) (im a) (ibo a)).
Proof.
  unfold valid; intros Ha Hb. unfold int_add. rewrite brem_pos by lia. simpl.
  rewrite rem_nonneg by lia. reflexivity.
Qed.

Lemma int_mul_ok a b : valid a -> 0 <= iv b ->
  int_mul a b = Ok (mkInt ((iv a * iv b) mod im a) (im a) (ibo a)).
Proof.
  unfold valid; intros Ha Hb. unfold int_mul. rewrite brem_pos by lia. simpl.
  rewrite rem_nonneg by nia. reflexivity.
Qed.

Lemma int_sub_ok i a b : 0 < im a ->
  int_sub i a b = Ok (mkInt ((iv a - iv b) mod im a) (im a) (ibo i)).
Proof.
  intros Hm. unfold int_sub. rewrite !brem_pos by lia. cbn [bindo].
  pose proof (rem_abs_bound (iv a - iv b) (im a) Hm). rewrite brem_pos by lia.
  rewrite rem_nonneg by lia.
  replace (Z.rem (iv a - iv b) (im a) + im a) with (Z.rem (iv a - iv b) (im a) + 1 * im a) by lia.
  rewrite Z.mod_add by lia. rewrite rem_mod by lia. reflexivity.
Qed.

Lemma int_neg_ok i a : valid a -> int_neg i a = mkInt ((- iv a) mod im a) (im a) (ibo i).
Proof.
  unfold valid; intros Ha. unfold int_neg. f_equal. destruct (Z.ltb_spec 0 (iv a)) as [H|H].
  - symmetry. replace (- iv a) with (im a - iv a + (-1) * im a) by lia. rewrite Z.mod_add by lia.
    apply Z.mod_small; lia.
  - replace (iv a) with 0 by lia. reflexivity.
Qed.

(** ** Extended Euclid *)

Lemma egcd_correct n a b k : 0 <= a -> 0 <= b < 2 ^ Z.of_nat k -> (2 * k < n)%nat ->
  let '(u, w) := egcd n a b in u * a + w * b = Z.gcd a b.
Proof.
  revert a b k; induction n as [n IH] using lt_wf_ind; intros a b k Ha Hb Hn.
  destruct n as [|n]; [lia|]. cbn [egcd].
  destruct (Z.eqb_spec b 0) as [->|Hb0]; [rewrite Z.gcd_0_r_nonneg by lia; lia|].
  pose proof (Z.mod_pos_bound a b ltac:(lia)) as Hr.
  pose proof (Z.div_mod a b Hb0) as Hdm.
  assert (Hg : Z.gcd b (a mod b) = Z.gcd a b).
  { rewrite Z.gcd_comm, Z.gcd_mod by lia. now rewrite Z.gcd_comm. }
  destruct n as [|n].
  { assert (k = 0%nat) by lia; subst k. simpl in Hb. lia. }
  cbn [egcd]. destruct (Z.eqb_spec (a mod b) 0) as [Hr0|Hr0].
  { rewrite <- Hg, Hr0, Z.gcd_0_r_nonneg by lia. lia. }
  assert (Hk : (0 < k)%nat). { destruct k; [simpl in Hb; lia | lia]. }
  assert (Hb2 : 0 <= b mod (a mod b) < 2 ^ Z.of_nat (k - 1)).
  { pose proof (Z.mod_pos_bound b (a mod b) ltac:(lia)) as Hr2. split; [lia|].
    assert (b mod (a mod b) <= b - a mod b).
    { pose proof (Z.div_mod b (a mod b) Hr0). assert (1 <= b / (a mod b)) by (apply Z.div_le_lower_bound; lia). nia. }
    replace (Z.of_nat k) with (Z.succ (Z.of_nat (k - 1))) in Hb by lia.
    rewrite Z.pow_succ_r in Hb by lia. lia. }
  specialize (IH n ltac:(lia) (a mod b) (b mod (a mod b)) (k - 1)%nat ltac:(lia) Hb2 ltac:(lia)).
  destruct (egcd n (a mod b) (b mod (a mod b))) as [u w].
  rewrite <- Hg. replace (Z.gcd b (a mod b)) with (Z.gcd (a mod b) (b mod (a mod b))).
  2:{ rewrite (Z.gcd_comm (a mod b)), Z.gcd_mod by lia. apply Z.gcd_comm. }
  rewrite <- IH. pose proof (Z.div_mod b (a mod b) Hr0) as Hdm2.
  set (r := a mod b) in *. set (q := a / b) in *. set (r2 := b mod r) in *. set (q2 := b / r) in *.
  replace a with (b * q + r) by lia. replace b with (r * q2 + r2) by lia. ring.
Qed.

Lemma mod_inverse_ok a m : 0 <= a -> 0 < m -> Z.gcd a m = 1 ->
  exists x, mod_inverse a m = Some x /\ 0 <= x < m /\ (x * a) mod m = 1 mod m.
Proof.
  intros Ha Hm Hg. unfold mod_inverse. destruct (Z.ltb_spec a 0); [lia|]. rewrite Hg. cbn [Z.eqb Pos.eqb].
  set (n := S _).
  assert (Hb : 0 <= m < 2 ^ Z.of_nat (Z.to_nat (Z.log2 (Z.abs m) + 1))).
  { split; [lia|]. rewrite Z2Nat.id by (pose proof (Z.log2_nonneg (Z.abs m)); lia).
    rewrite Z.abs_eq by lia. pose proof (Z.log2_spec m Hm). rewrite Z.add_1_r. lia. }
  pose proof (egcd_correct n a m _ Ha Hb ltac:(unfold n; lia)) as Heg.
  destruct (egcd n a m) as [u w] eqn:E. exists (u mod m). split; [reflexivity|].
  split; [apply Z.mod_pos_bound; lia|].
  rewrite Z.mul_mod_idemp_l by lia. rewrite Hg in Heg. rewrite <- Heg.
  rewrite Z.mod_add; lia.
Qed.

Lemma mod_inverse_none a m : 0 <= a -> Z.gcd a m <> 1 -> mod_inverse a m = None.
Proof.
  intros Ha Hg. unfold mod_inverse. destruct (Z.ltb_spec a 0); [lia|].
  destruct (Z.eqb_spec (Z.gcd a m) 1); [lia|reflexivity].
Qed.

(** ** Modular power *)

Lemma pos_powm_ok b e m : 0 < m -> pos_powm b e m = (b ^ Zpos e) mod m.
Proof.
  intros Hm. induction e as [e IH|e IH|]; cbn [pos_powm].
  - rewrite IH. rewrite Pos2Z.inj_xI, Z.pow_add_r, Z.pow_1_r, Z.pow_mul_r by lia.
    replace ((b ^ 2) ^ Z.pos e) with (b ^ Z.pos e * b ^ Z.pos e) by (rewrite <- Z.pow_mul_r, <- Z.pow_add_r by lia; f_equal; lia).
    rewrite (Z.mul_comm _ b). rewrite <- Z.mul_mod_idemp_r by lia.
    rewrite <- Z.mul_mod by lia. rewrite Z.mul_mod_idemp_r by lia. reflexivity.
  - rewrite IH. rewrite Pos2Z.inj_xO.
    replace (b ^ (2 * Z.pos e)) with (b ^ Z.pos e * b ^ Z.pos e) by (rewrite <- Z.pow_add_r by lia; f_equal; lia).
    rewrite <- Z.mul_mod by lia. reflexivity.
  - now rewrite Z.pow_1_r.
Qed.

Lemma modpow_ok (E : Type) b e m : 0 < m -> 0 <= e -> @modpow E b e m = Ok ((b ^ e) mod m).
Proof.
  intros Hm He. unfold modpow. destruct (Z.eqb_spec m 0); [lia|].
  destruct e as [|e|e]; [reflexivity| |lia]. now rewrite pos_powm_ok.
Qed.

(** ** Reductions *)

Lemma reduce64_nonneg v m : 0 <= v -> 0 < m -> reduce64 v m = Ok (v mod m).
Proof.
  intros Hv Hm. unfold reduce64. destruct (Z.ltb_spec v 0); [lia|].
  now rewrite brem_pos, rem_nonneg by lia.
Qed.

Lemma reduce64_neg v m : v < 0 -> 0 < m ->
  reduce64 v m = Ok (if v mod m =? 0 then m else v mod m).
Proof.
  intros Hv Hm. unfold reduce64. destruct (Z.ltb_spec v 0); [|lia].
  rewrite brem_pos by lia. cbn [bindo]. f_equal. rewrite Z.abs_eq by lia.
  pose proof (rem_abs_bound v m Hm). pose proof (rem_mod v m Hm) as Hc.
  assert (Z.rem v m <= 0). { destruct (Z.eq_dec (Z.rem v m) 0); [lia|].
     pose proof (Z.rem_sign_nz v m ltac:(lia) n). destruct (Z.rem v m); simpl in *; try lia. }
  destruct (Z.eqb_spec (v mod m) 0) as [Hv0|Hv0].
  - assert (Z.rem v m = 0); [|lia].
    destruct (Z.eq_dec (Z.rem v m) 0) as [|Hn]; [assumption|]. exfalso.
    rewrite Hv0 in Hc. apply (proj1 (Z.mod_divide (Z.rem v m) m ltac:(lia))) in Hc. destruct Hc as [k Hk].
    assert (Hk3 : k = 0 \/ 1 <= k \/ k <= -1) by lia. destruct Hk3 as [->|[Hk3|Hk3]]; nia.
  - rewrite <- Hc. symmetry. replace (Z.rem v m) with (Z.rem v m + m + (-1) * m) at 1 by lia.
    rewrite Z.mod_add by lia. apply Z.mod_small.
    destruct (Z.eq_dec (Z.rem v m) 0) as [Hz|]; [rewrite Hz, Z.mod_0_l in Hc by lia; lia | lia].
Qed.

(** ** Encodings *)

Lemma reverse_same dst src : length dst = length src -> reverse dst src = Ok (rev src).
Proof.
  intros H. unfold reverse. rewrite H. destruct (Nat.ltb_spec (length src) (length src)); [lia|].
  now rewrite firstn_all.
Qed.

Lemma marshal_size_spec i : 0 < im i ->
  (0 < int_marshal_size i)%nat /\ im i <= 256 ^ Z.of_nat (int_marshal_size i) - 1 /\
  256 ^ (Z.of_nat (int_marshal_size i) - 1) <= im i.
Proof.
  intros Hm. unfold int_marshal_size, bits_of. destruct (Z.eqb_spec (im i) 0); [lia|].
  rewrite Z.abs_eq by lia. pose proof (Z.log2_nonneg (im i)) as Hl.
  assert (Hd : (Z.log2 (im i) + 1 + 7) / 8 = Z.log2 (im i) / 8 + 1).
  { replace (Z.log2 (im i) + 1 + 7) with (Z.log2 (im i) + 1 * 8) by lia. now rewrite Z.div_add by lia. }
  rewrite Hd. assert (0 <= Z.log2 (im i) / 8) by (apply Z.div_pos; lia).
  pose proof (Z.div_mod (Z.log2 (im i)) 8 ltac:(lia)). pose proof (Z.mod_pos_bound (Z.log2 (im i)) 8 ltac:(lia)).
  pose proof (Z.log2_spec (im i) Hm) as [Hlo Hhi].
  rewrite Z2Nat.id by lia. split; [lia|].
  replace 256 with (2 ^ 8) by reflexivity. rewrite <- !Z.pow_mul_r by lia.
  split.
  - assert (2 ^ Z.succ (Z.log2 (im i)) <= 2 ^ (8 * (Z.log2 (im i) / 8 + 1))) by (apply Z.pow_le_mono_r; lia). lia.
  - assert (2 ^ (8 * (Z.log2 (im i) / 8 + 1 - 1)) <= 2 ^ Z.log2 (im i)) by (apply Z.pow_le_mono_r; lia). lia.
Qed.

Lemma valid_nbytes i : valid i -> (nbytes (iv i) <= int_marshal_size i)%nat.
Proof.
  unfold valid; intros Hv. destruct (marshal_size_spec i ltac:(lia)) as [Hp [Hu _]].
  apply nbytes_le_iff; [exact Hp|]. rewrite Z.abs_eq by lia. lia.
Qed.

Lemma little_endian_ok i min max : valid i ->
  little_endian i min max =
    if andb (negb (Nat.eqb max 0)) (Nat.ltb max (Nat.max (nbytes (iv i)) min)) then Err NotRepresentable
    else Ok (to_bytes_le (iv i)).
Proof.
  intros Hv. unfold little_endian. rewrite to_bytes_be_length.
  pose proof (valid_nbytes i Hv). rewrite Nat.min_r by lia.
  destruct (andb _ _); [reflexivity|]. rewrite reverse_same.
  - unfold to_bytes_be. now rewrite rev_involutive.
  - now rewrite repeat_length, to_bytes_be_length.
Qed.

Lemma int_marshal_be i : valid i -> ibo i = BigEndian ->
  int_marshal i = Ok (repeat 0 (int_marshal_size i - nbytes (iv i)) ++ to_bytes_be (iv i)).
Proof.
  intros Hv Hbo. unfold int_marshal. rewrite Hbo, to_bytes_be_length. pose proof (valid_nbytes i Hv).
  destruct (Nat.ltb_spec (int_marshal_size i) (nbytes (iv i))); [lia|reflexivity].
Qed.

Lemma int_marshal_le i : valid i -> ibo i = LittleEndian -> int_marshal i = Ok (to_bytes_le (iv i)).
Proof.
  intros Hv Hbo. unfold int_marshal. rewrite Hbo, little_endian_ok by assumption.
  pose proof (valid_nbytes i Hv). rewrite Nat.max_r by lia.
  destruct (Nat.ltb_spec (int_marshal_size i) (int_marshal_size i)); [lia|]. now rewrite Bool.andb_false_r.
Qed.

Lemma rev_repeat (A : Type) (x : A) n : rev (repeat x n) = repeat x n.
Proof.
  induction n as [|n IH]; [reflexivity|]. simpl. rewrite IH. clear IH.
  induction n as [|n IH]; simpl; [reflexivity|]. now rewrite IH.
Qed.

Lemma be_val_pad n l : be_val (repeat 0 n ++ l) = be_val l.
Proof.
  unfold be_val. rewrite rev_app_distr, le_val_app, rev_repeat, le_val_repeat0. lia.
Qed.

Lemma firstn_app_le (A : Type) n (l r : list A) : (length l <= n)%nat ->
  firstn n (l ++ r) = l ++ firstn (n - length l) r.
Proof. intros H. rewrite firstn_app, firstn_all2 by lia. reflexivity. Qed.

Lemma resize_val n l : bytes l -> le_val (resize n l) = le_val l mod 256 ^ Z.of_nat n.
Proof.
  intros Hb. unfold resize. destruct (Nat.le_gt_cases (length l) n) as [H|H].
  - rewrite firstn_app_le by lia. rewrite firstn_all2 by (rewrite repeat_length; lia).
    rewrite le_val_app, le_val_repeat0. rewrite Z.mod_small; [lia|].
    pose proof (le_val_bound l Hb).
    assert (256 ^ Z.of_nat (length l) <= 256 ^ Z.of_nat n) by (apply Z.pow_le_mono_r; lia). lia.
  - replace (n - length l)%nat with 0%nat by lia. cbn [repeat]. rewrite app_nil_r.
    rewrite <- (firstn_skipn n l) at 2. rewrite le_val_app, firstn_length, Nat.min_l by lia.
    rewrite Z.mul_comm, Z.mod_add by (pose proof (pow256_pos n); lia).
    rewrite Z.mod_small; [reflexivity|].
    assert (bytes (firstn n l)) as Hf by (now apply bytes_firstn).
    pose proof (le_val_bound _ Hf) as Hb2. rewrite firstn_length, Nat.min_l in Hb2 by lia. exact Hb2.
Qed.

Lemma resize_length n l : length (resize n l) = n.
Proof.
  unfold resize. rewrite firstn_length, app_length, repeat_length. lia.
Qed.

Lemma uint64_ok i : uint64 i = iv i mod 2 ^ 64.
Proof.
  unfold uint64. rewrite resize_val by apply to_bytes_le_bytes. rewrite to_bytes_le_val.
  change (256 ^ Z.of_nat 8) with (2 ^ 64). destruct (Z.ltb_spec (iv i) 0) as [H|H].
  - rewrite Z.abs_neq by lia.
    replace (2 ^ 64 - 1 - - iv i mod 2 ^ 64 + 1) with (- (- iv i mod 2 ^ 64) + 1 * 2 ^ 64) by lia.
    rewrite Z.mod_add by lia.
    replace (- (- iv i mod 2 ^ 64)) with (0 - (- iv i mod 2 ^ 64)) by lia.
    rewrite Zminus_mod_idemp_r. f_equal; lia.
  - now rewrite Z.abs_eq.
Qed.
