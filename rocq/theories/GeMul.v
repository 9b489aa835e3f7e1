(** Scalar multiplication of ge.rs: signed digits, table look-ups and the double-and-add loop. *)
From Coq Require Import ZArith String List Lia Bool.
From Verif Require Import Base Bytes Limb ScLimbs ScModel ScProofs FeLimbs FeModel FeProofs Primes Group Edwards Fp EdCurve GeConsts GeModel GeProofs.
Import ListNotations.
Local Open Scope Z_scope.

(** ** Signed digits *)

Fixpoint dval (l : list Z) : Z := match l with [] => 0 | x :: r => x + 16 * dval r end.

Lemma wrap8_id z : -128 <= z < 128 -> wrap8 z = z.
Proof. intros H. unfold wrap8. rewrite Z.mod_small by lia. lia. Qed.

Lemma nibbles_ok a : bytes a -> dval (nibbles a) = le_val a /\ Forall (fun x => 0 <= x < 16) (nibbles a) /\ length (nibbles a) = (2 * length a)%nat.
Proof.
  induction a as [|v a IH]; intros H; [repeat split; constructor|].
  inversion_clear H as [|? ? Hv Ha]. destruct (IH Ha) as [E [F L]]. unfold is_byte in Hv.
  cbn [nibbles flat_map app]. fold (nibbles a).
  assert (E1 : Z.land v 15 = v mod 16) by (change 15 with (Z.ones 4); rewrite Z.land_ones by lia; reflexivity).
  assert (E2 : Z.land (Z.shiftr v 4) 15 = v / 16).
  { change 15 with (Z.ones 4). rewrite Z.land_ones, Z.shiftr_div_pow2 by lia. change (2 ^ 4) with 16. apply Z.mod_small. split; [apply Z.div_pos; lia|].
    apply Z.div_lt_upper_bound; lia. }
  rewrite E1, E2. pose proof (Z.mod_pos_bound v 16 eq_refl). pose proof (Z.div_mod v 16 ltac:(discriminate)).
  assert (0 <= v / 16 < 16) by (split; [apply Z.div_pos; lia|apply Z.div_lt_upper_bound; lia]).
  split; [cbn [dval le_val]; rewrite E; lia|]. split; [constructor; [assumption|constructor; assumption]|]. cbn [length]. lia.
Qed.

Lemma recode_ok e : forall c, 0 <= c <= 1 -> Forall (fun x => 0 <= x < 16) e -> e <> [] ->
  dval (recode c e) = c + dval e /\ length (recode c e) = length e /\
  Forall (fun x => -8 <= x < 8) (removelast (recode c e)) /\ 0 <= last (recode c e) 0 <= 16.
Proof.
  induction e as [|x e IH]; intros c Hc Hf Hn; [congruence|]. inversion_clear Hf as [|? ? Hx He].
  destruct e as [|y e].
  - cbn [recode]. rewrite wrap8_id by lia. cbn [dval length removelast last]. repeat split; try lia. constructor.
  - change (recode c (x :: y :: e)) with
      (wrap8 (wrap8 (x + c) - wrap8 (Z.shiftl (Z.shiftr (wrap8 (wrap8 (x + c) + 8)) 4) 4)) :: recode (Z.shiftr (wrap8 (wrap8 (x + c) + 8)) 4) (y :: e)).
    rewrite (wrap8_id (x + c)) by lia. rewrite (wrap8_id (x + c + 8)) by lia. rewrite Z.shiftr_div_pow2, Z.shiftl_mul_pow2 by lia. change (2 ^ 4) with 16.
    set (q := (x + c + 8) / 16). pose proof (Z.div_mod (x + c + 8) 16 ltac:(discriminate)) as D. fold q in D.
    pose proof (Z.mod_pos_bound (x + c + 8) 16 eq_refl) as M. assert (Hq : 0 <= q <= 1) by lia.
    rewrite (wrap8_id (q * 16)) by lia. rewrite wrap8_id by lia.
    destruct (IH q Hq He ltac:(discriminate)) as [E [L [F B]]].
    assert (N : recode q (y :: e) <> []) by (intros Z; rewrite Z in L; discriminate L).
    change (dval (x + c - q * 16 :: recode q (y :: e))) with (x + c - q * 16 + 16 * dval (recode q (y :: e))).
    split; [rewrite E; cbn [dval]; lia|]. split; [cbn [length] in *; lia|].
    destruct (recode q (y :: e)) as [|z r]; [congruence|]. split; [|exact B].
    cbn [removelast] in F |- *. constructor; [lia|exact F].
Qed.

(** Sixty-four digits; the last one in closed form. *)
Definition S63 : Z := (16 ^ 63 - 1) / 15.
Definition top_digit (v : Z) : Z := (v + 8 * S63) / 2 ^ 252.

Lemma dval_app l x : dval (l ++ [x]) = dval l + 16 ^ Z.of_nat (length l) * x.
Proof.
  induction l as [|y l IH]; [cbn [app dval length Z.of_nat]; rewrite Z.pow_0_r; ring|]. cbn [app dval length]. rewrite IH, Nat2Z.inj_succ, Z.pow_succ_r by lia. ring.
Qed.
Lemma dval_range l : Forall (fun x => -8 <= x < 8) l -> -8 * (16 ^ Z.of_nat (length l) - 1) <= 15 * dval l <= 7 * (16 ^ Z.of_nat (length l) - 1).
Proof.
  induction 1 as [|x l H1 H2 IH]; [cbn; lia|]. cbn [dval length]. rewrite Nat2Z.inj_succ, Z.pow_succ_r by lia. lia.
Qed.

Lemma digits_ok a : bytes a -> length a = 32%nat ->
  exists ds, digits a = ds ++ [top_digit (le_val a)] /\ length ds = 63%nat /\ Forall (fun x => -8 <= x < 8) ds /\
    0 <= top_digit (le_val a) <= 16 /\ dval ds = le_val a - 2 ^ 252 * top_digit (le_val a).
Proof.
  intros Hb Hl. destruct (nibbles_ok a Hb) as [E [F L]]. rewrite Hl in L.
  assert (N : nibbles a <> []) by (intros Z; rewrite Z in L; discriminate L).
  destruct (recode_ok (nibbles a) 0 ltac:(lia) F N) as [E2 [L2 [F2 B2]]]. fold (digits a) in *.
  assert (N2 : digits a <> []) by (intros Z; rewrite Z, L in L2; discriminate L2).
  pose proof (app_removelast_last 0 N2) as S. set (ds := removelast (digits a)) in *. set (t := last (digits a) 0) in *.
  assert (L3 : length ds = 63%nat). { apply (f_equal (@length Z)) in S. rewrite app_length, L2, L in S. cbn [length] in S. lia. }
  pose proof (dval_range ds F2) as R. rewrite S, dval_app, L3, E in E2. rewrite L3 in R.
  change (16 ^ Z.of_nat 63) with (2 ^ 252) in *.
  assert (Et : t = top_digit (le_val a)).
  { unfold top_digit. apply (Z.div_unique _ _ t (dval ds + 8 * S63)).
    - left. change (16 ^ 63) with (2 ^ 252) in *. assert (15 * S63 = 2 ^ 252 - 1) by reflexivity. lia.
    - lia. }
  exists ds. rewrite <- Et. repeat (split; [assumption|]). lia.
Qed.

(** The multiplier that is really applied: the top digit has no table entry when it exceeds 8. *)
Definition effective (v : Z) : Z := if top_digit v <=? 8 then v else v - 2 ^ 252 * top_digit v.

Lemma effective_id v : 0 <= v < 2 ^ 255 -> effective v = v.
Proof.
  intros H. unfold effective, top_digit. replace (_ <=? 8) with true; [reflexivity|]. symmetry. apply Z.leb_le.
  assert (15 * S63 = 2 ^ 252 - 1) by reflexivity.
  apply Z.lt_succ_r. apply Z.div_lt_upper_bound; lia.
Qed.

(** ** Table look-ups *)

Definition cwf (c : cached) : Prop := length (ca_yp c) = 10%nat /\ length (ca_ym c) = 10%nat /\ length (ca_z c) = 10%nat /\ length (ca_t2d c) = 10%nat.
Definition pwf (c : pre) : Prop := length (pr_yp c) = 10%nat /\ length (pr_ym c) = 10%nat /\ length (pr_xy2d c) = 10%nat.
Lemma cached_cwf c P : cached_ok c P -> cwf c.
Proof. intros [[H1 [H2 [H3 H4]]] _]. apply l2_len in H1, H2. apply tight_len in H3, H4. repeat split; assumption. Qed.
Lemma pre_pwf c P : pre_ok c P -> pwf c.
Proof. intros [[H1 [H2 H3]] _]. apply tight_len in H1, H2, H3. repeat split; assumption. Qed.
Lemma ccm0 t u : cwf t -> cwf u -> cached_cmove t u 0 = t.
Proof.
  intros [H1 [H2 [H3 H4]]] [H5 [H6 [H7 H8]]]. unfold cached_cmove. rewrite !c_move_0 by congruence. now destruct t.
Qed.
Lemma ccm1 t u : cwf t -> cwf u -> cached_cmove t u 1 = u.
Proof.
  intros [H1 [H2 [H3 H4]]] [H5 [H6 [H7 H8]]]. unfold cached_cmove. rewrite !c_move_1 by congruence. now destruct u.
Qed.
Lemma pcm0 t u : pwf t -> pwf u -> pre_cmove t u 0 = t.
Proof. intros [H1 [H2 H4]] [H5 [H6 H8]]. unfold pre_cmove. rewrite !c_move_0 by congruence. now destruct t. Qed.
Lemma pcm1 t u : pwf t -> pwf u -> pre_cmove t u 1 = u.
Proof. intros [H1 [H2 H4]] [H5 [H6 H8]]. unfold pre_cmove. rewrite !c_move_1 by congruence. now destruct u. Qed.

(** What the constant-time selection returns. *)
Definition pick {A} (z : A) (ai : list A) (b : Z) : A :=
  match b with Z0 => z | _ => nth (Z.to_nat (Z.abs b - 1)) ai z end.

Ltac consts f := repeat match goal with |- context [f ?a ?b] => let v := eval vm_compute in (f a b) in change (f a b) with v end.
Ltac const1 f := repeat match goal with |- context [f ?a] => let v := eval vm_compute in (f a) in change (f a) with v end.

Ltac ccm N := repeat match goal with
  | |- context [cached_cmove ?t ?u 0] => rewrite (ccm0 t u) by (first [assumption | apply N; assumption])
  | |- context [cached_cmove ?t ?u 1] => rewrite (ccm1 t u) by (first [assumption | apply N; assumption]) end.
Ltac pcm N := repeat match goal with
  | |- context [pre_cmove ?t ?u 0] => rewrite (pcm0 t u) by (first [assumption | apply N; assumption])
  | |- context [pre_cmove ?t ?u 1] => rewrite (pcm1 t u) by (first [assumption | apply N; assumption]) end.

Lemma cases25 (Q : Z -> Prop) : Forall Q [-8; -7; -6; -5; -4; -3; -2; -1; 0; 1; 2; 3; 4; 5; 6; 7; 8; 9; 10; 11; 12; 13; 14; 15; 16] ->
  forall b, -8 <= b <= 16 -> Q b.
Proof.
  intros H b Hb. apply (proj1 (Forall_forall _ _) H).
  assert (E : b = -8 \/ b = -7 \/ b = -6 \/ b = -5 \/ b = -4 \/ b = -3 \/ b = -2 \/ b = -1 \/ b = 0 \/ b = 1 \/ b = 2 \/ b = 3 \/ b = 4 \/ b = 5 \/
    b = 6 \/ b = 7 \/ b = 8 \/ b = 9 \/ b = 10 \/ b = 11 \/ b = 12 \/ b = 13 \/ b = 14 \/ b = 15 \/ b = 16) by lia.
  cbn [In]. lia.
Qed.

Lemma sel_cached_pick ai b : length ai = 8%nat -> Forall cwf ai -> -8 <= b <= 16 ->
  sel_cached ai b = if b <? 0 then cached_neg (pick cached_zero ai b) else pick cached_zero ai b.
Proof.
  intros L F. destruct ai as [|c0 [|c1 [|c2 [|c3 [|c4 [|c5 [|c6 [|c7 [|? ?]]]]]]]]]; try discriminate L.
  assert (F0 : cwf cached_zero) by (exact (cached_cwf _ _ cached_zero_ok)).
  assert (N : forall c, cwf c -> cwf (cached_neg c)).
  { intros c [H1 [H2 [H3 H4]]]. repeat split; cbn [cached_neg ca_yp ca_ym ca_z ca_t2d]; try assumption. unfold fe_neg. now rewrite map_length. }
  repeat match goal with H : Forall _ (_ :: _) |- _ => inversion_clear H end.
  revert b. apply cases25.
  repeat (constructor; [unfold sel_cached; cbv zeta; const1 ge_abs; const1 ge_negative;
    cbn [combine fold_left fst snd]; consts ge_equal; ccm N; reflexivity|]).
  constructor.
Qed.

Lemma sel_pre_pick ai b : length ai = 8%nat -> Forall pwf ai -> -8 <= b <= 16 ->
  sel_pre ai b = if b <? 0 then pre_neg (pick pre_zero ai b) else pick pre_zero ai b.
Proof.
  intros L F. destruct ai as [|c0 [|c1 [|c2 [|c3 [|c4 [|c5 [|c6 [|c7 [|? ?]]]]]]]]]; try discriminate L.
  assert (F0 : pwf pre_zero) by (exact (pre_pwf _ _ pre_zero_ok)).
  assert (N : forall c, pwf c -> pwf (pre_neg c)).
  { intros c [H1 [H2 H4]]. repeat split; cbn [pre_neg pr_yp pr_ym pr_xy2d]; try assumption. unfold fe_neg. now rewrite map_length. }
  repeat match goal with H : Forall _ (_ :: _) |- _ => inversion_clear H end.
  revert b. apply cases25.
  repeat (constructor; [unfold sel_pre; cbv zeta; const1 ge_abs; const1 ge_negative;
    cbn [combine fold_left fst snd]; consts ge_equal; pcm N; reflexivity|]).
  constructor.
Qed.

Notation mul := (zmul edg).
Lemma emul_add y z P : mul (y + z) P = eadd (mul y P) (mul z P).
Proof. exact (zmul_add edg y z P). Qed.
Lemma emul_opp z P : mul (- z) P = eneg (mul z P).
Proof. exact (zmul_opp edg z P). Qed.
Lemma emul_1 P : mul 1 P = P.
Proof. exact (zmul_1 edg P). Qed.
Lemma emul_mul y z P : mul (y * z) P = mul y (mul z P).
Proof. exact (zmul_mul edg y z P). Qed.
Lemma emul_0 P : mul 0 P = e0.
Proof. reflexivity. Qed.
Lemma emul_2 P : eadd P P = mul 2 P.
Proof. change 2 with (1 + 1). now rewrite emul_add, emul_1. Qed.

Definition table_ok (ai : list cached) (P : epoint) : Prop :=
  length ai = 8%nat /\ forall k, (k < 8)%nat -> cached_ok (nth k ai cached_zero) (mul (Z.of_nat k + 1) P).
Definition row_ok (ai : list pre) (P : epoint) : Prop :=
  length ai = 8%nat /\ forall k, (k < 8)%nat -> pre_ok (nth k ai pre_zero) (mul (Z.of_nat k + 1) P).

Definition eff8 (b : Z) : Z := if b <=? 8 then b else 0.

Lemma sel_cached_ok ai P b : table_ok ai P -> -8 <= b <= 16 -> cached_ok (sel_cached ai b) (mul (eff8 b) P).
Proof.
  intros [L H] Hb. rewrite sel_cached_pick; [|exact L| |exact Hb].
  2:{ apply Forall_forall. intros c Hc. apply (In_nth _ _ cached_zero) in Hc. destruct Hc as [k [Hk E]]. rewrite L in Hk. rewrite <- E. apply (cached_cwf _ _ (H k Hk)). }
  assert (Q : forall b, 0 < b <= 8 -> cached_ok (nth (Z.to_nat (b - 1)) ai cached_zero) (mul b P)).
  { intros x Hx. specialize (H (Z.to_nat (x - 1)) ltac:(lia)). rewrite Z2Nat.id in H by lia. replace (x - 1 + 1) with x in H by lia. exact H. }
  unfold eff8. destruct b as [|b|b].
  - cbn. exact cached_zero_ok.
  - replace (Z.pos b <? 0) with false by reflexivity. cbn [pick Z.abs]. destruct (Z.leb_spec (Z.pos b) 8) as [B|B].
    + apply Q. lia.
    + rewrite nth_overflow by lia. exact cached_zero_ok.
  - replace (Z.neg b <? 0) with true by reflexivity. cbn [pick Z.abs]. replace (Z.neg b <=? 8) with true by reflexivity.
    change (Z.neg b) with (- Z.pos b). rewrite emul_opp. apply cached_neg_ok. apply Q. lia.
Qed.

Lemma sel_pre_ok ai P b : row_ok ai P -> -8 <= b <= 16 -> pre_ok (sel_pre ai b) (mul (eff8 b) P).
Proof.
  intros [L H] Hb. rewrite sel_pre_pick; [|exact L| |exact Hb].
  2:{ apply Forall_forall. intros c Hc. apply (In_nth _ _ pre_zero) in Hc. destruct Hc as [k [Hk E]]. rewrite L in Hk. rewrite <- E. apply (pre_pwf _ _ (H k Hk)). }
  assert (Q : forall b, 0 < b <= 8 -> pre_ok (nth (Z.to_nat (b - 1)) ai pre_zero) (mul b P)).
  { intros x Hx. specialize (H (Z.to_nat (x - 1)) ltac:(lia)). rewrite Z2Nat.id in H by lia. replace (x - 1 + 1) with x in H by lia. exact H. }
  unfold eff8. destruct b as [|b|b].
  - cbn. exact pre_zero_ok.
  - replace (Z.pos b <? 0) with false by reflexivity. cbn [pick Z.abs]. destruct (Z.leb_spec (Z.pos b) 8) as [B|B].
    + apply Q. lia.
    + rewrite nth_overflow by lia. exact pre_zero_ok.
  - replace (Z.neg b <? 0) with true by reflexivity. cbn [pick Z.abs]. replace (Z.neg b <=? 8) with true by reflexivity.
    change (Z.neg b) with (- Z.pos b). rewrite emul_opp. apply pre_neg_ok. apply Q. lia.
Qed.

Lemma mult_table_ok n ap P : ext_ok ap P -> forall c j, cached_ok c (mul j P) ->
  length (mult_table n ap c) = S n /\ forall k, (k <= n)%nat -> cached_ok (nth k (mult_table n ap c) cached_zero) (mul (Z.of_nat k + j) P).
Proof.
  intros HP. induction n as [|n IH]; intros c j Hc.
  - split; [reflexivity|]. intros k Hk. replace k with 0%nat by lia. exact Hc.
  - assert (Hc' : cached_ok (write_cached (to_extended (comp_add ap c))) (mul (1 + j) P)).
    { apply write_cached_ok, to_extended_ok. rewrite emul_add, emul_1. now apply comp_add_ok. }
    destruct (IH _ _ Hc') as [L H]. split; [cbn [mult_table length]; now rewrite L|].
    intros [|k] Hk; [exact Hc|]. cbn [mult_table nth]. replace (Z.of_nat (S k) + j) with (Z.of_nat k + (1 + j)) by lia. apply H. lia.
Qed.

Lemma double3_ok t Q : comp_ok t Q -> comp_ok (proj_double3 t) (mul 8 Q).
Proof.
  intros H. unfold proj_double3. change 8 with (2 * (2 * 2)). rewrite !emul_mul, <- !emul_2.
  repeat (apply proj_double_ok, to_projective_ok). exact H.
Qed.

Lemma mult_round_ok ai P t m d : table_ok ai P -> -8 <= d <= 16 -> comp_ok t (mul m P) -> comp_ok (mult_round ai t d) (mul (eff8 d + 16 * m) P).
Proof.
  intros HT Hd Ht. unfold mult_round. cbv zeta. rewrite Z.add_comm, emul_add. apply comp_add_ok; [|now apply sel_cached_ok].
  apply to_extended_ok. change 16 with (2 * 8). rewrite <- Z.mul_assoc, emul_mul, <- emul_2. apply proj_double_ok, to_projective_ok.
  rewrite emul_mul. now apply double3_ok.
Qed.

Lemma mult_fold_ok ai P ds : table_ok ai P -> Forall (fun x => -8 <= x < 8) ds -> forall t m, comp_ok t (mul m P) ->
  comp_ok (fold_left (mult_round ai) ds t) (mul (fold_left (fun m d => d + 16 * m) ds m) P).
Proof.
  intros HT. induction 1 as [|d ds Hd Hds IH]; intros t m Ht; [exact Ht|]. cbn [fold_left]. apply IH.
  replace d with (eff8 d) at 2 by (unfold eff8; destruct (Z.leb_spec d 8); lia). apply mult_round_ok; [exact HT|lia|exact Ht].
Qed.

Lemma horner_rev l : forall m, fold_left (fun m d => d + 16 * m) (rev l) m = dval l + 16 ^ Z.of_nat (length l) * m.
Proof.
  induction l as [|x l IH]; intros m; [cbn [rev fold_left dval length Z.of_nat]; rewrite Z.pow_0_r; ring|].
  cbn [rev length dval]. rewrite fold_left_app, IH. cbn [fold_left]. rewrite Nat2Z.inj_succ, Z.pow_succ_r by lia. ring.
Qed.

Theorem ge_scalar_mult_ok a ap P : bytes a -> length a = 32%nat -> ext_ok ap P -> ext_ok (ge_scalar_mult a ap) (mul (effective (le_val a)) P).
Proof.
  intros Hb Hl HP. unfold ge_scalar_mult. cbv zeta. destruct (digits_ok a Hb Hl) as [ds [E [L [F [B V]]]]]. rewrite E, rev_app_distr. cbn [rev app].
  assert (HT : table_ok (mult_table 7 ap (write_cached ap)) P).
  { destruct (mult_table_ok 7 ap P HP (write_cached ap) 1) as [L1 H1]; [rewrite emul_1; now apply write_cached_ok|].
    split; [exact L1|]. intros k Hk. apply H1. lia. }
  apply to_extended_ok.
  assert (F' : Forall (fun x => -8 <= x < 8) (rev ds)).
  { apply Forall_forall. intros x Hx. apply in_rev in Hx. exact (proj1 (Forall_forall _ _) F x Hx). }
  assert (H0 : comp_ok (comp_add ext_zero (sel_cached (mult_table 7 ap (write_cached ap)) (top_digit (le_val a)))) (mul (eff8 (top_digit (le_val a))) P)).
  { rewrite <- (eadd_0 (mul _ P)). apply comp_add_ok; [exact ext_zero_ok|]. apply sel_cached_ok; [exact HT|lia]. }
  pose proof (mult_fold_ok _ P (rev ds) HT F' _ _ H0) as R. rewrite horner_rev, L, V in R. change (16 ^ Z.of_nat 63) with (2 ^ 252) in R.
  unfold effective. unfold eff8 in R. destruct (top_digit (le_val a) <=? 8).
  - replace (le_val a - 2 ^ 252 * top_digit (le_val a) + 2 ^ 252 * top_digit (le_val a)) with (le_val a) in R by lia. exact R.
  - rewrite Z.mul_0_r, Z.add_0_r in R. exact R.
Qed.
