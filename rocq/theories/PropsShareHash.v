(** Properties C99 and C100: what the hash of a share binds; the derived order of scalars. *)
From Coq Require Import ZArith List Lia Bool.
From Verif Require Import Base Bytes IntModel ScModel ScProofs ScalarProofs FeModel Edwards Fp EdCurve GeModel GeProofs GeMul GeBase GeEnc PropsSc PointModel PointProofs PointCurve PropsPoint PropsSubgroup ShareHashModel.
Import ListNotations.
Local Open Scope Z_scope.
Opaque ext_write_bytes point_marshal.

(** A collision of the hash function. *)
Definition collision (H : list Z -> list Z) : Prop := exists x y, x <> y /\ H x = H y.

Lemma Ok_inj {E A} (a b : A) : @Ok E A a = Ok b -> a = b. Proof. congruence. Qed.
Lemma u32_len i : length (u32_cast_le i) = 4%nat. Proof. apply le_bytes_length. Qed.
Lemma u32_inj i j : u32_cast_le i = u32_cast_le j <-> i mod 2 ^ 32 = j mod 2 ^ 32.
Proof.
  unfold u32_cast_le. split; [|now intros ->]. intros E. apply (f_equal le_val) in E. pose proof (Z.mod_pos_bound i (2 ^ 32) eq_refl). pose proof (Z.mod_pos_bound j (2 ^ 32) eq_refl).
  rewrite !le_val_le_bytes_small in E by (change (256 ^ Z.of_nat 4) with (2 ^ 32); assumption). exact E.
Qed.
Lemma app_inj_len {A} (a b c d : list A) : length a = length b -> a ++ c = b ++ d -> a = b /\ c = d.
Proof.
  revert b. induction a as [|x a IH]; intros [|y b] L E; try discriminate L; [now split|]. cbn [app] in E. injection E as <- E. injection L as L.
  destruct (IH b L E) as [-> ->]. now split.
Qed.
Lemma hash_or_collision (H : list Z -> list Z) x y : H x = H y -> x = y \/ collision H.
Proof. intros E. destruct (list_eq_dec Z.eq_dec x y) as [->|N]; [now left|]. right. now exists x, y. Qed.

Lemma pri_hash_in H s : scalar32 (eps_v s) -> pri_hash H s = Ok (H (le_bytes 32 (le_val (eps_v s) mod order) ++ u32_cast_le (eps_i s))).
Proof. intros W. unfold pri_hash, scalar_marshal_to. rewrite (scalar_marshal_ok (eps_v s) W). reflexivity. Qed.

Lemma mod_iff n x y : 0 < n -> (x mod n = y mod n <-> (n | x - y)).
Proof.
  intros N. split.
  - intros E. apply Z.mod_divide; [lia|]. rewrite Zminus_mod, E, Z.sub_diag. apply Z.mod_0_l. lia.
  - intros [k E]. replace x with (y + k * n) by lia. apply Z.mod_add. lia.
Qed.
Lemma order_pos : 0 < order. Proof. reflexivity. Qed.
Lemma scalar_in x y : le_bytes 32 (x mod order) = le_bytes 32 (y mod order) <-> x mod order = y mod order.
Proof.
  split; [|now intros ->]. intros E. apply (f_equal le_val) in E. change order with ell in *. rewrite !le_val_mod in E. exact E.
Qed.

(** The hash of a private share never fails; two shares have equal hashes exactly when values and indices agree modulo the group
    order and 2^32, up to collisions of the hash function. *)
Theorem C99_private (H : list Z -> list Z) (s s' : ed_pri_share) : scalar32 (eps_v s) -> scalar32 (eps_v s') ->
  (exists h, pri_hash H s = Ok h) /\
  ((order | le_val (eps_v s) - le_val (eps_v s')) -> (2 ^ 32 | eps_i s - eps_i s') -> pri_hash H s = pri_hash H s') /\
  (pri_hash H s = pri_hash H s' -> ((order | le_val (eps_v s) - le_val (eps_v s')) /\ (2 ^ 32 | eps_i s - eps_i s')) \/ collision H).
Proof.
  intros W W'. rewrite (pri_hash_in H s W), (pri_hash_in H s' W').
  rewrite <- (mod_iff order _ _ order_pos), <- (mod_iff (2 ^ 32) _ _ eq_refl), <- scalar_in, <- u32_inj. split; [eexists; reflexivity|]. split.
  - intros -> ->. reflexivity.
  - intros E. apply Ok_inj in E. destruct (hash_or_collision H _ _ E) as [E'|C]; [left|now right]. apply app_inj_len in E'; [exact E'|]. now rewrite !le_bytes_length.
Qed.
Print Assumptions C99_private.

(** For indices below 2^32 and reduced values the hash binds the whole share, as the derived [==] compares it. *)
Theorem C99_private_binding (H : list Z -> list Z) (s s' : ed_pri_share) : scalar32 (eps_v s) -> scalar32 (eps_v s') ->
  le_val (eps_v s) < order -> le_val (eps_v s') < order -> 0 <= eps_i s < 2 ^ 32 -> 0 <= eps_i s' < 2 ^ 32 ->
  (pri_share_eqb s s' = true -> pri_hash H s = pri_hash H s') /\ (pri_hash H s = pri_hash H s' -> pri_share_eqb s s' = true \/ collision H).
Proof.
  intros W W' R R' I I'. split.
  - unfold pri_share_eqb, scalar_eq. rewrite andb_true_iff. intros [Ei Ev]. apply Z.eqb_eq in Ei. destruct (list_eq_dec Z.eq_dec (eps_v s) (eps_v s')) as [E|]; [|discriminate Ev].
    destruct s as [i v], s' as [i' v']. cbn [eps_i eps_v] in *. now subst.
  - intros E. apply (proj2 (proj2 (C99_private H s s' W W'))) in E as [[D D']|C]; [left|now right]. apply (mod_iff _ _ _ order_pos) in D. apply (mod_iff (2 ^ 32) _ _ eq_refl) in D'.
    pose proof (le_val_bound _ (proj1 W)) as B. pose proof (le_val_bound _ (proj1 W')) as B'. rewrite !Z.mod_small in D by lia. rewrite !Z.mod_small in D' by lia.
    unfold pri_share_eqb, scalar_eq. rewrite D', Z.eqb_refl. cbn [andb]. apply le_val_inj in D; [|exact (proj1 W)|exact (proj1 W')|now rewrite (proj2 W), (proj2 W')].
    destruct (list_eq_dec Z.eq_dec (eps_v s) (eps_v s')); [reflexivity|contradiction].
Qed.
Print Assumptions C99_private_binding.

(** Public shares: equal hashes exactly for equal points and indices that agree modulo 2^32. *)
Theorem C99_public (H : list Z -> list Z) (s s' : ed_pub_share) (P P' : epoint) : repr (eus_v s) P -> repr (eus_v s') P' ->
  (point_eqb (eus_v s) (eus_v s') = true -> (2 ^ 32 | eus_i s - eus_i s') -> pub_hash H s = pub_hash H s') /\
  (pub_hash H s = pub_hash H s' -> (point_eqb (eus_v s) (eus_v s') = true /\ (2 ^ 32 | eus_i s - eus_i s')) \/ collision H) /\
  (0 <= eus_i s < 2 ^ 32 -> 0 <= eus_i s' < 2 ^ 32 -> pub_hash H s = pub_hash H s' -> pub_share_eqb s s' = true \/ collision H).
Proof.
  intros R R'. rewrite <- (mod_iff (2 ^ 32) _ _ eq_refl), <- u32_inj, (C81_hash _ _ P P' R R'). unfold point_hash_input, pub_hash, point_marshal_to. cbn [app].
  assert (K : H (point_marshal (eus_v s) ++ u32_cast_le (eus_i s)) = H (point_marshal (eus_v s') ++ u32_cast_le (eus_i s')) ->
    (point_marshal (eus_v s) = point_marshal (eus_v s') /\ u32_cast_le (eus_i s) = u32_cast_le (eus_i s')) \/ collision H).
  { intros E. destruct (hash_or_collision H _ _ E) as [E'|C]; [left|now right]. apply app_inj_len in E'; [exact E'|].
    rewrite (marshal_ok _ P R), (marshal_ok _ P' R'), !enc_length. reflexivity. }
  split; [intros -> ->; reflexivity|]. split; [exact K|]. intros I I' E. destruct (K E) as [[Ev Ei]|C]; [left|now right].
  apply u32_inj in Ei. rewrite !Z.mod_small in Ei by assumption. unfold pub_share_eqb. rewrite Ei, Z.eqb_refl. cbn [andb]. apply (C81_hash _ _ P P' R R'). exact Ev.
Qed.
Print Assumptions C99_public.

(** Full statement: shares that differ under [==] have different hashes or give a collision.  False for an index of 2^32 or more
    (a usize holds it) and for an unreduced value: in both cases the hashed bytes are the same. *)
Theorem C99_refuted : exists s s' t t' : ed_pri_share, (scalar32 (eps_v s) /\ scalar32 (eps_v s') /\ scalar32 (eps_v t) /\ scalar32 (eps_v t')) /\
  (0 <= eps_i s < 2 ^ 64 /\ 0 <= eps_i s' < 2 ^ 64 /\ eps_i s <> eps_i s') /\ (eps_i t = eps_i t' /\ eps_v t <> eps_v t') /\
  forall H, pri_hash H s = pri_hash H s' /\ pri_hash H t = pri_hash H t'.
Proof.
  exists (EdPriShare 1 scalar_one), (EdPriShare (2 ^ 32 + 1) scalar_one), (EdPriShare 1 (le_bytes 32 1)), (EdPriShare 1 (le_bytes 32 (order + 1))). cbn [eps_i eps_v].
  assert (W : scalar32 scalar_one) by exact (wf_le_bytes 1). assert (W1 : scalar32 (le_bytes 32 1)) by exact (wf_le_bytes 1). assert (W2 : scalar32 (le_bytes 32 (order + 1))) by exact (wf_le_bytes (order + 1)).
  split; [split; [exact W|split; [exact W|split; [exact W1|exact W2]]]|]. split; [lia|]. split; [split; [reflexivity|]; intros E; vm_compute in E; discriminate E|].
  intros H. split; apply C99_private; cbn [eps_i eps_v]; try assumption.
  - exists 0. lia.
  - exists (-1). lia.
  - rewrite !le_val_le_bytes_small by (split; [discriminate|reflexivity]). exists (-1). lia.
  - exists 0. lia.
Qed.
Print Assumptions C99_refuted.
Example C99_nonvacuous : scalar32 scalar_one /\ le_val scalar_one < order /\ repr (point_base point_default) ebase /\
  pri_hash (fun x => x) (EdPriShare 258 scalar_one) = Ok (1 :: repeat 0 31 ++ [2; 1; 0; 0]).
Proof. split; [exact (wf_le_bytes 1)|]. split; [reflexivity|]. split; [apply base_ok|]. vm_compute. reflexivity. Qed.

(** *** The derived order of scalars *)
Lemma lex_antisym a : forall b, lex_cmp b a = CompOpp (lex_cmp a b).
Proof.
  induction a as [|x a IH]; intros [|y b]; cbn [lex_cmp]; try reflexivity. rewrite (Z.compare_antisym x y). destruct (Z.compare x y); cbn [CompOpp]; [apply IH|reflexivity|reflexivity].
Qed.
Lemma lex_trans a : forall b c, lex_cmp a b = Lt -> lex_cmp b c = Lt -> lex_cmp a c = Lt.
Proof.
  induction a as [|x a IH]; intros [|y b] [|z c]; cbn [lex_cmp]; try discriminate; try reflexivity.
  destruct (Z.compare_spec x y) as [->|H|H]; try discriminate.
  - destruct (Z.compare_spec y z) as [->|H'|H']; try discriminate; [|reflexivity]. apply IH.
  - intros _. destruct (Z.compare_spec y z) as [->|H'|H']; try discriminate; intros _; [rewrite (proj2 (Z.compare_lt_iff x z) H); reflexivity|].
    rewrite (proj2 (Z.compare_lt_iff x z)) by lia. reflexivity.
Qed.
(** A strict total order that agrees with [==]: sorting and ordered maps of scalars work... *)
Theorem C100_order (a b c : list Z) :
  (scalar_cmp a b = Eq <-> scalar_eq a b = true) /\ scalar_cmp b a = CompOpp (scalar_cmp a b) /\
  (scalar_cmp a b = Lt -> scalar_cmp b c = Lt -> scalar_cmp a c = Lt).
Proof.
  split; [|split; [apply lex_antisym|apply lex_trans]]. unfold scalar_eq, scalar_cmp. destruct (list_eq_dec Z.eq_dec a b) as [->|N]; [split; [reflexivity|intros _; apply lex_cmp_refl]|].
  split; [|discriminate]. intros E. contradiction (N (lex_cmp_eq a b E)).
Qed.
Print Assumptions C100_order.
(** ... decided by the least significant byte in which they differ... *)
Theorem C100_least_byte (l a b : list Z) (x y : Z) : x < y -> scalar_cmp (l ++ x :: a) (l ++ y :: b) = Lt.
Proof.
  intros H. unfold scalar_cmp. induction l as [|z l IH]; cbn [app lex_cmp]; [rewrite (proj2 (Z.compare_lt_iff x y) H); reflexivity|]. rewrite Z.compare_refl. exact IH.
Qed.
Print Assumptions C100_least_byte.
(** ... and so not the order of the numbers: 256 < 1. *)
Theorem C100_numeric_refuted : exists a b, scalar32 a /\ scalar32 b /\ le_val b < le_val a < order /\ scalar_cmp a b = Lt.
Proof.
  exists (le_bytes 32 256), (le_bytes 32 1). split; [exact (wf_le_bytes 256)|]. split; [exact (wf_le_bytes 1)|]. split; [|vm_compute; reflexivity].
  rewrite !le_val_le_bytes_small by (split; [discriminate|reflexivity]). split; reflexivity.
Qed.
Print Assumptions C100_numeric_refuted.
Example C100_nonvacuous : scalar_cmp (le_bytes 32 256) (le_bytes 32 1) = Lt /\ scalar_cmp (le_bytes 32 1) (le_bytes 32 3) = Lt /\ scalar_eq (le_bytes 32 7) (le_bytes 32 7) = true.
Proof. split; [vm_compute; reflexivity|]. split; vm_compute; reflexivity. Qed.
