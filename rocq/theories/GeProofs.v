(** ge.rs computes in the group of edwards25519: bounds of the limbs and refinement of the group operations. *)
From Coq Require Import ZArith String List Lia Bool Ring Field.
From Verif Require Import Base Bytes Limb ScLimbs ScModel ScProofs FeLimbs FeModel FeProofs Primes Group Edwards Fp EdCurve GeConsts GeModel.
Import ListNotations.
Local Open Scope Z_scope.

Definition fv (f : list Z) : Fp := of_Z (fval f).

(** ** Field operations *)

Definition loose2 : list Z -> Prop := feb (2 * TE) (2 * TO).
Definition loose3 : list Z -> Prop := feb (3 * TE) (3 * TO).

Lemma l3_loose f : loose3 f -> loose f.
Proof. apply feb_mono; unfold TE, LE, TO, LO; lia. Qed.
Lemma l2_l3 f : loose2 f -> loose3 f.
Proof. apply feb_mono; unfold TE, LE, TO, LO; lia. Qed.
Lemma t_l2 f : tight f -> loose2 f.
Proof. apply feb_mono; unfold TE, LE, TO, LO; lia. Qed.
Lemma l2_loose f : loose2 f -> loose f.
Proof. intros H. apply l3_loose. now apply l2_l3. Qed.
Lemma t_loose f : tight f -> loose f.
Proof. exact (tight_loose f). Qed.
Lemma tight_len f : tight f -> length f = 10%nat.
Proof. intros [H _]. exact H. Qed.
Lemma l2_len f : loose2 f -> length f = 10%nat.
Proof. intros [H _]. exact H. Qed.

Lemma mul_v f g : loose f -> loose g -> tight (fe_mul f g) /\ fv (fe_mul f g) = fmul (fv f) (fv g).
Proof. intros Hf Hg. destruct (fe_mul_ok f g Hf Hg) as [T E]. split; [exact T|]. unfold fv. rewrite <- of_mul. now apply of_Z_eq. Qed.
Lemma square_v f : loose f -> tight (fe_square f) /\ fv (fe_square f) = fmul (fv f) (fv f).
Proof. intros Hf. destruct (fe_square_ok f Hf) as [T E]. split; [exact T|]. unfold fv. rewrite <- of_mul. now apply of_Z_eq. Qed.
Lemma square2_v f : loose f -> tight (fe_square2 f) /\ fv (fe_square2 f) = fmul (fadd f1 f1) (fmul (fv f) (fv f)).
Proof.
  intros Hf. destruct (fe_square2_ok f Hf) as [T E]. split; [exact T|]. unfold fv, f1. rewrite <- of_mul, <- of_add, <- of_mul. now apply of_Z_eq.
Qed.
Lemma add_v f g : tight f -> tight g -> loose2 (fe_add f g) /\ fv (fe_add f g) = fadd (fv f) (fv g).
Proof.
  intros Hf Hg. destruct (fe_add_ok TE TO TE TO f g eq_refl eq_refl Hf Hg) as [T E]. split; [exact T|]. unfold fv. now rewrite E, of_add.
Qed.
Lemma sub_v f g : tight f -> tight g -> loose2 (fe_sub f g) /\ fv (fe_sub f g) = fsub (fv f) (fv g).
Proof.
  intros Hf Hg. destruct (fe_sub_ok TE TO TE TO f g eq_refl eq_refl Hf Hg) as [T E]. split; [exact T|]. unfold fv. now rewrite E, of_sub.
Qed.
Lemma add21_v f g : loose2 f -> tight g -> loose3 (fe_add f g) /\ fv (fe_add f g) = fadd (fv f) (fv g).
Proof.
  intros Hf Hg. destruct (fe_add_ok (2 * TE) (2 * TO) TE TO f g eq_refl eq_refl Hf Hg) as [T E]. split; [exact T|]. unfold fv. now rewrite E, of_add.
Qed.
Lemma sub21_v f g : loose2 f -> tight g -> loose3 (fe_sub f g) /\ fv (fe_sub f g) = fsub (fv f) (fv g).
Proof.
  intros Hf Hg. destruct (fe_sub_ok (2 * TE) (2 * TO) TE TO f g eq_refl eq_refl Hf Hg) as [T E]. split; [exact T|]. unfold fv. now rewrite E, of_sub.
Qed.
Lemma sub12_v f g : tight f -> loose2 g -> loose3 (fe_sub f g) /\ fv (fe_sub f g) = fsub (fv f) (fv g).
Proof.
  intros Hf Hg. destruct (fe_sub_ok TE TO (2 * TE) (2 * TO) f g eq_refl eq_refl Hf Hg) as [T E]. split; [exact T|]. unfold fv. now rewrite E, of_sub.
Qed.
Lemma neg_v f : tight f -> tight (fe_neg f) /\ fv (fe_neg f) = fopp (fv f).
Proof. intros Hf. destruct (fe_neg_ok TE TO f eq_refl eq_refl Hf) as [T E]. split; [exact T|]. unfold fv. now rewrite E, of_opp. Qed.
Lemma zero_v : tight fe_zero /\ fv fe_zero = f0.
Proof. destruct fe_zero_ok as [T E]. split; [revert T; apply feb_mono; unfold TE, TO; lia|]. reflexivity. Qed.
Lemma one_v : tight fe_one /\ fv fe_one = f1.
Proof. destruct fe_one_ok as [T E]. split; [revert T; apply feb_mono; unfold TE, TO; lia|]. reflexivity. Qed.

Fixpoint alt_boundb (e o : Z) (l : list Z) : bool :=
  match l with [] => true | x :: l' => (- e <=? x) && (x <=? e) && alt_boundb o e l' end.
Definition tightb (f : list Z) : bool := Nat.eqb (length f) 10 && alt_boundb TE TO f.
Lemma alt_boundP e o l : alt_boundb e o l = true -> alt_bound e o l.
Proof.
  revert e o; induction l as [|x l IH]; intros e o H; cbn [alt_boundb alt_bound] in *; [exact I|].
  apply andb_prop in H as [H1 H2]. apply andb_prop in H1 as [H1 H3]. apply Z.leb_le in H1. apply Z.leb_le in H3. split; [lia|now apply IH].
Qed.
Lemma tightP f : tightb f = true -> tight f.
Proof. intros H. apply andb_prop in H as [H1 H2]. split; [now apply Nat.eqb_eq|now apply alt_boundP]. Qed.

Lemma D_v : tight ED_D /\ fv ED_D = fd.
Proof. split; [apply tightP; reflexivity|]. apply of_Z_eq. vm_compute. reflexivity. Qed.
Lemma D2_v : tight ED_D2 /\ fv ED_D2 = fmul (fadd f1 f1) fd.
Proof. split; [apply tightP; reflexivity|]. apply fz_inj. vm_compute. reflexivity. Qed.
Lemma SQRT_M1_v : tight SQRT_M1 /\ fv SQRT_M1 = fi.
Proof. split; [apply tightP; reflexivity|]. apply of_Z_eq. vm_compute. reflexivity. Qed.

(** ** Representations *)

Definition proj_ok (p : proj) (P : epoint) : Prop :=
  (tight (pj_x p) /\ tight (pj_y p) /\ tight (pj_z p)) /\ proj_of (fv (pj_x p)) (fv (pj_y p)) (fv (pj_z p)) P.
Definition ext_ok (e : ext) (P : epoint) : Prop :=
  (tight (ge_x e) /\ tight (ge_y e) /\ tight (ge_z e) /\ tight (ge_t e)) /\
  ext_of (fv (ge_x e)) (fv (ge_y e)) (fv (ge_z e)) (fv (ge_t e)) P.
Definition comp_ok (c : comp) (P : epoint) : Prop :=
  (loose3 (cp_x c) /\ loose3 (cp_y c) /\ loose3 (cp_z c) /\ loose3 (cp_t c)) /\
  comp_of (fv (cp_x c)) (fv (cp_y c)) (fv (cp_z c)) (fv (cp_t c)) P.
Definition pre_ok (q : pre) (P : epoint) : Prop :=
  (tight (pr_yp q) /\ tight (pr_ym q) /\ tight (pr_xy2d q)) /\ cached_of (fv (pr_yp q)) (fv (pr_ym q)) f1 (fv (pr_xy2d q)) P.
Definition cached_ok (q : cached) (P : epoint) : Prop :=
  (loose2 (ca_yp q) /\ loose2 (ca_ym q) /\ tight (ca_z q) /\ tight (ca_t2d q)) /\
  cached_of (fv (ca_yp q)) (fv (ca_ym q)) (fv (ca_z q)) (fv (ca_t2d q)) P.

Ltac bound := first [assumption | apply t_loose; assumption | apply l2_loose; assumption | apply l3_loose; assumption].

Lemma proj_double_ok p P : proj_ok p P -> comp_ok (proj_double p) (eadd P P).
Proof.
  intros [[Tx [Ty Tz]] H]. apply double_comp in H. cbv zeta in H. unfold proj_double. cbv zeta.
  destruct (square_v (pj_x p) ltac:(bound)) as [T1 E1]. destruct (square_v (pj_y p) ltac:(bound)) as [T2 E2].
  destruct (square2_v (pj_z p) ltac:(bound)) as [T3 E3]. destruct (add_v _ _ Tx Ty) as [T4 E4].
  destruct (square_v _ (l2_loose _ T4)) as [T5 E5].
  destruct (add_v _ _ T2 T1) as [T6 E6]. destruct (sub_v _ _ T2 T1) as [T7 E7]. destruct (sub12_v _ _ T5 T6) as [T8 E8].
  destruct (sub12_v _ _ T3 T7) as [T9 E9].
  split; cbn [cp_x cp_y cp_z cp_t].
  - split; [exact T8|]. split; [now apply l2_l3|]. split; [now apply l2_l3|exact T9].
  - rewrite E8, E9, E7, E6, E5, E4, E3, E2, E1. exact H.
Qed.

Lemma ext_proj_ok e P : ext_ok e P -> proj_ok (ext_proj e) P.
Proof. intros [[Tx [Ty [Tz Tt]]] H]. split; [repeat (split; [assumption|]); assumption|]. now apply EdCurve.ext_proj in H. Qed.
Lemma ext_double_ok e P : ext_ok e P -> comp_ok (ext_double e) (eadd P P).
Proof. intros H. apply proj_double_ok. now apply ext_proj_ok. Qed.

Lemma to_extended_ok c P : comp_ok c P -> ext_ok (to_extended c) P.
Proof.
  intros [[Tx [Ty [Tz Tt]]] H]. apply comp_to_ext in H.
  apply l3_loose in Tx. apply l3_loose in Ty. apply l3_loose in Tz. apply l3_loose in Tt.
  destruct (mul_v _ _ Tx Tt) as [T1 E1]. destruct (mul_v _ _ Ty Tz) as [T2 E2]. destruct (mul_v _ _ Tz Tt) as [T3 E3]. destruct (mul_v _ _ Tx Ty) as [T4 E4].
  split; cbn [to_extended ge_x ge_y ge_z ge_t]; [repeat (split; [assumption|]); assumption|].
  rewrite E1, E2, E3, E4. exact H.
Qed.
Lemma to_projective_ok c P : comp_ok c P -> proj_ok (to_projective c) P.
Proof. intros H. apply to_extended_ok in H. apply ext_proj_ok in H. exact H. Qed.

Lemma write_cached_ok e P : ext_ok e P -> cached_ok (write_cached e) P.
Proof.
  intros [[Tx [Ty [Tz Tt]]] H]. destruct D2_v as [TD ED]. apply (to_cached _ _ _ _ _ _) with (1 := H) in ED.
  destruct (add_v _ _ Ty Tx) as [T1 E1]. destruct (sub_v _ _ Ty Tx) as [T2 E2]. destruct (mul_v (ge_t e) ED_D2 ltac:(bound) ltac:(bound)) as [T3 E3].
  split; cbn [write_cached ca_yp ca_ym ca_z ca_t2d]; [repeat (split; [assumption|]); assumption|].
  rewrite E1, E2, E3. exact ED.
Qed.

(** Both additions (and, through the negation of the second argument, both subtractions). *)
Lemma comp_add_ok p q P Q : ext_ok p P -> cached_ok q Q -> comp_ok (comp_add p q) (eadd P Q).
Proof.
  intros [[Tx [Ty [Tz Tt]]] H] [[Ta [Tb [Tc Td]]] H']. destruct (add_comp _ _ _ _ _ _ _ _ _ _ H H') as [_ R]. cbv zeta in R.
  unfold comp_add. cbv zeta.
  destruct (add_v _ _ Ty Tx) as [T1 E1]. destruct (sub_v _ _ Ty Tx) as [T2 E2].
  destruct (mul_v _ _ (l2_loose _ T1) (l2_loose _ Ta)) as [T3 E3]. destruct (mul_v _ _ (l2_loose _ T2) (l2_loose _ Tb)) as [T4 E4].
  destruct (mul_v _ _ (t_loose _ Td) (t_loose _ Tt)) as [T5 E5]. destruct (mul_v _ _ (t_loose _ Tz) (t_loose _ Tc)) as [T6 E6].
  destruct (add_v _ _ T6 T6) as [T7 E7]. destruct (sub_v _ _ T3 T4) as [T8 E8]. destruct (add_v _ _ T3 T4) as [T9 E9].
  destruct (add21_v _ _ T7 T5) as [T10 E10]. destruct (sub21_v _ _ T7 T5) as [T11 E11].
  split; cbn [cp_x cp_y cp_z cp_t].
  - split; [now apply l2_l3|]. split; [now apply l2_l3|]. split; assumption.
  - rewrite E8, E9, E10, E11, E7, E6, E5, E4, E3, E2, E1. exact R.
Qed.

Lemma comp_sub_ok p q P Q : ext_ok p P -> cached_ok q Q -> comp_ok (comp_sub p q) (eadd P (eneg Q)).
Proof.
  intros [[Tx [Ty [Tz Tt]]] H] [[Ta [Tb [Tc Td]]] H']. apply EdCurve.cached_neg in H'. destruct (add_comp _ _ _ _ _ _ _ _ _ _ H H') as [_ R]. cbv zeta in R.
  unfold comp_sub. cbv zeta.
  destruct (add_v _ _ Ty Tx) as [T1 E1]. destruct (sub_v _ _ Ty Tx) as [T2 E2].
  destruct (mul_v _ _ (l2_loose _ T1) (l2_loose _ Tb)) as [T3 E3]. destruct (mul_v _ _ (l2_loose _ T2) (l2_loose _ Ta)) as [T4 E4].
  destruct (mul_v _ _ (t_loose _ Td) (t_loose _ Tt)) as [T5 E5]. destruct (mul_v _ _ (t_loose _ Tz) (t_loose _ Tc)) as [T6 E6].
  destruct (add_v _ _ T6 T6) as [T7 E7]. destruct (sub_v _ _ T3 T4) as [T8 E8]. destruct (add_v _ _ T3 T4) as [T9 E9].
  destruct (sub21_v _ _ T7 T5) as [T10 E10]. destruct (add21_v _ _ T7 T5) as [T11 E11].
  split; cbn [cp_x cp_y cp_z cp_t].
  - split; [now apply l2_l3|]. split; [now apply l2_l3|]. split; assumption.
  - rewrite E8, E9, E10, E11, E7, E6, E5, E4, E3, E2, E1.
    replace (fsub (fadd (fmul (fv (ge_z p)) (fv (ca_z q))) (fmul (fv (ge_z p)) (fv (ca_z q)))) (fmul (fv (ca_t2d q)) (fv (ge_t p)))) with
      (fadd (fadd (fmul (fv (ge_z p)) (fv (ca_z q))) (fmul (fv (ge_z p)) (fv (ca_z q)))) (fmul (fopp (fv (ca_t2d q))) (fv (ge_t p)))) by ring.
    replace (fadd (fadd (fmul (fv (ge_z p)) (fv (ca_z q))) (fmul (fv (ge_z p)) (fv (ca_z q)))) (fmul (fv (ca_t2d q)) (fv (ge_t p)))) with
      (fsub (fadd (fmul (fv (ge_z p)) (fv (ca_z q))) (fmul (fv (ge_z p)) (fv (ca_z q)))) (fmul (fopp (fv (ca_t2d q))) (fv (ge_t p)))) by ring.
    exact R.
Qed.

Lemma mixed_add_ok p q P Q : ext_ok p P -> pre_ok q Q -> comp_ok (mixed_add p q) (eadd P Q).
Proof.
  intros [[Tx [Ty [Tz Tt]]] H] [[Ta [Tb Td]] H']. destruct (add_comp _ _ _ _ _ _ _ _ _ _ H H') as [_ R]. cbv zeta in R.
  unfold mixed_add. cbv zeta.
  destruct (add_v _ _ Ty Tx) as [T1 E1]. destruct (sub_v _ _ Ty Tx) as [T2 E2].
  destruct (mul_v _ _ (l2_loose _ T1) (t_loose _ Ta)) as [T3 E3]. destruct (mul_v _ _ (l2_loose _ T2) (t_loose _ Tb)) as [T4 E4].
  destruct (mul_v _ _ (t_loose _ Td) (t_loose _ Tt)) as [T5 E5].
  destruct (add_v _ _ Tz Tz) as [T7 E7]. destruct (sub_v _ _ T3 T4) as [T8 E8]. destruct (add_v _ _ T3 T4) as [T9 E9].
  destruct (add21_v _ _ T7 T5) as [T10 E10]. destruct (sub21_v _ _ T7 T5) as [T11 E11].
  split; cbn [cp_x cp_y cp_z cp_t].
  - split; [now apply l2_l3|]. split; [now apply l2_l3|]. split; assumption.
  - rewrite E8, E9, E10, E11, E7, E5, E4, E3, E2, E1. replace (fmul (fv (ge_z p)) f1) with (fv (ge_z p)) in R by ring. exact R.
Qed.

Lemma mixed_sub_ok p q P Q : ext_ok p P -> pre_ok q Q -> comp_ok (mixed_sub p q) (eadd P (eneg Q)).
Proof.
  intros [[Tx [Ty [Tz Tt]]] H] [[Ta [Tb Td]] H']. apply EdCurve.cached_neg in H'. destruct (add_comp _ _ _ _ _ _ _ _ _ _ H H') as [_ R]. cbv zeta in R.
  unfold mixed_sub. cbv zeta.
  destruct (add_v _ _ Ty Tx) as [T1 E1]. destruct (sub_v _ _ Ty Tx) as [T2 E2].
  destruct (mul_v _ _ (l2_loose _ T1) (t_loose _ Tb)) as [T3 E3]. destruct (mul_v _ _ (l2_loose _ T2) (t_loose _ Ta)) as [T4 E4].
  destruct (mul_v _ _ (t_loose _ Td) (t_loose _ Tt)) as [T5 E5].
  destruct (add_v _ _ Tz Tz) as [T7 E7]. destruct (sub_v _ _ T3 T4) as [T8 E8]. destruct (add_v _ _ T3 T4) as [T9 E9].
  destruct (sub21_v _ _ T7 T5) as [T10 E10]. destruct (add21_v _ _ T7 T5) as [T11 E11].
  split; cbn [cp_x cp_y cp_z cp_t].
  - split; [now apply l2_l3|]. split; [now apply l2_l3|]. split; assumption.
  - rewrite E8, E9, E10, E11, E7, E5, E4, E3, E2, E1. replace (fmul (fv (ge_z p)) f1) with (fv (ge_z p)) in R by ring.
    replace (fsub (fadd (fv (ge_z p)) (fv (ge_z p))) (fmul (fv (pr_xy2d q)) (fv (ge_t p)))) with
      (fadd (fadd (fv (ge_z p)) (fv (ge_z p))) (fmul (fopp (fv (pr_xy2d q))) (fv (ge_t p)))) by ring.
    replace (fadd (fadd (fv (ge_z p)) (fv (ge_z p))) (fmul (fv (pr_xy2d q)) (fv (ge_t p)))) with
      (fsub (fadd (fv (ge_z p)) (fv (ge_z p))) (fmul (fopp (fv (pr_xy2d q))) (fv (ge_t p)))) by ring.
    exact R.
Qed.

Lemma ext_zero_ok : ext_ok ext_zero e0.
Proof.
  destruct zero_v as [T0 E0]. destruct one_v as [T1 E1]. split; cbn [ext_zero ge_x ge_y ge_z ge_t]; [repeat (split; [assumption|]); assumption|].
  rewrite E0, E1. exact EdCurve.ext_zero.
Qed.
Lemma ext_neg_ok e P : ext_ok e P -> ext_ok (ext_neg e) (eneg P).
Proof.
  intros [[Tx [Ty [Tz Tt]]] H]. destruct (neg_v _ Tx) as [T1 E1]. destruct (neg_v _ Tt) as [T2 E2]. apply EdCurve.ext_neg in H.
  split; cbn [ext_neg ge_x ge_y ge_z ge_t]; [repeat (split; [assumption|]); assumption|]. rewrite E1, E2. exact H.
Qed.
Lemma cached_zero_ok : cached_ok cached_zero e0.
Proof.
  destruct zero_v as [T0 E0]. destruct one_v as [T1 E1]. split; cbn [cached_zero ca_yp ca_ym ca_z ca_t2d].
  - split; [now apply t_l2|]. split; [now apply t_l2|]. split; assumption.
  - rewrite E0, E1. exact EdCurve.cached_zero.
Qed.
Lemma pre_zero_ok : pre_ok pre_zero e0.
Proof.
  destruct zero_v as [T0 E0]. destruct one_v as [T1 E1]. split; cbn [pre_zero pr_yp pr_ym pr_xy2d]; [repeat (split; [assumption|]); assumption|].
  rewrite E0, E1. exact EdCurve.cached_zero.
Qed.
Lemma cached_neg_ok q P : cached_ok q P -> cached_ok (cached_neg q) (eneg P).
Proof.
  intros [[Ta [Tb [Tc Td]]] H]. destruct (neg_v _ Td) as [T E]. apply EdCurve.cached_neg in H.
  split; cbn [cached_neg ca_yp ca_ym ca_z ca_t2d]; [repeat (split; [assumption|]); assumption|]. rewrite E. exact H.
Qed.
Lemma pre_neg_ok q P : pre_ok q P -> pre_ok (pre_neg q) (eneg P).
Proof.
  intros [[Ta [Tb Td]] H]. destruct (neg_v _ Td) as [T E]. apply EdCurve.cached_neg in H.
  split; cbn [pre_neg pr_yp pr_ym pr_xy2d]; [repeat (split; [assumption|]); assumption|]. rewrite E. exact H.
Qed.

(** Conditional moves. *)
Lemma cached_cmove_ok t u P Q (b : bool) : cached_ok t P -> cached_ok u Q -> cached_cmove t u (if b then 1 else 0) = if b then u else t.
Proof.
  intros [[Ta [Tb [Tc Td]]] _] [[Ua [Ub [Uc Ud]]] _]. destruct t as [t1 t2 t3 t4], u as [u1 u2 u3 u4]. cbn [ca_yp ca_ym ca_z ca_t2d] in *.
  apply l2_len in Ta, Tb, Ua, Ub. apply tight_len in Tc, Td, Uc, Ud.
  unfold cached_cmove. cbn [ca_yp ca_ym ca_z ca_t2d]. destruct b.
  - now rewrite !c_move_1 by congruence.
  - now rewrite !c_move_0 by congruence.
Qed.
Lemma pre_cmove_ok t u P Q (b : bool) : pre_ok t P -> pre_ok u Q -> pre_cmove t u (if b then 1 else 0) = if b then u else t.
Proof.
  intros [[Ta [Tb Td]] _] [[Ua [Ub Ud]] _]. destruct t as [t1 t2 t4], u as [u1 u2 u4]. cbn [pr_yp pr_ym pr_xy2d] in *.
  apply tight_len in Ta, Tb, Ua, Ub, Td, Ud.
  unfold pre_cmove. cbn [pr_yp pr_ym pr_xy2d]. destruct b.
  - now rewrite !c_move_1 by congruence.
  - now rewrite !c_move_0 by congruence.
Qed.
