(** Multiplication by the base point (ge.rs [ge_scalar_mult_base]) and the order of the base point. *)
From Coq Require Import ZArith String List Lia Bool Ring Field.
From Verif Require Import Base Bytes Limb ScLimbs ScModel ScProofs FeLimbs FeModel FeProofs Primes Group Edwards Fp EdCurve GeConsts GeModel GeProofs GeMul GeBase.
Import ListNotations.
Local Open Scope Z_scope.

Fixpoint d256 (l : list Z) : Z := match l with [] => 0 | x :: r => x + 256 * d256 r end.

Lemma eadd_e0 P : eadd P e0 = P.
Proof. change (gadd edg P (g0 edg) = P). apply gadd_0_r. Qed.
Lemma eadd_assoc P Q R : eadd P (eadd Q R) = eadd (eadd P Q) R.
Proof. exact (gadd_assoc edg P Q R). Qed.

Lemma base_round_ok h Q r P d : ext_ok h Q -> row_ok r P -> -8 <= d <= 16 -> ext_ok (base_round h (r, d)) (eadd Q (mul (eff8 d) P)).
Proof. intros Hh Hr Hd. unfold base_round. cbn [fst snd]. apply to_extended_ok. apply mixed_add_ok; [exact Hh|]. now apply sel_pre_ok. Qed.

Lemma base_fold_ok rs : forall P ds h Q, rows_ok rs P -> length rs = length ds -> Forall (fun d => -8 <= d <= 16) ds -> ext_ok h Q ->
  ext_ok (fold_left base_round (combine rs ds) h) (eadd Q (mul (d256 (map eff8 ds)) P)).
Proof.
  induction rs as [|r rs IH]; intros P [|d ds] h Q Hr Hl Hd Hh; try discriminate Hl.
  - cbn [combine fold_left map d256]. rewrite emul_0, eadd_e0. exact Hh.
  - inversion Hr as [|? ? ? Hr1 Hr2]; subst. inversion Hd as [|? ? Hd1 Hd2]; subst. cbn [combine fold_left map d256].
    rewrite emul_add, eadd_assoc. rewrite (Z.mul_comm 256), emul_mul. apply IH; [exact Hr2|cbn in Hl; lia|exact Hd2|]. now apply base_round_ok.
Qed.

Lemma odds_evens_val l : Nat.Even (length l) -> dval l = d256 (evens l) + 16 * d256 (odds l).
Proof.
  intros [n Hn]. revert l Hn. induction n as [|n IH]; intros l Hn; [destruct l; [reflexivity|cbn in Hn; lia]|].
  destruct l as [|x [|y l]]; [reflexivity|cbn in Hn; lia|]. cbn [dval evens odds d256]. rewrite (IH l) by (cbn in Hn; lia). lia.
Qed.
Lemma odds_evens_len l n : length l = (2 * n)%nat -> length (odds l) = n /\ length (evens l) = n.
Proof.
  revert l. induction n as [|n IH]; intros l Hn; [destruct l; [auto|cbn in Hn; lia]|].
  destruct l as [|x [|y l]]; [cbn in Hn; lia|cbn in Hn; lia|]. cbn in Hn. destruct (IH l ltac:(lia)) as [H1 H2]. cbn. lia.
Qed.
Lemma odds_map f l : odds (map f l) = map f (odds l) /\ evens (map f l) = map f (evens l).
Proof.
  enough (H : forall n l, (length l <= n)%nat -> odds (map f l) = map f (odds l) /\ evens (map f l) = map f (evens l)) by now apply (H (length l)).
  induction n as [|n IH]; intros l' Hl; [destruct l'; [auto|cbn in Hl; lia]|].
  destruct l' as [|x [|y l']]; [auto|auto|]. cbn [map odds evens]. destruct (IH l' ltac:(cbn in Hl; lia)) as [-> ->]. auto.
Qed.
Lemma odds_forall (Q : Z -> Prop) l : Forall Q l -> Forall Q (odds l) /\ Forall Q (evens l).
Proof.
  enough (H : forall n l, (length l <= n)%nat -> Forall Q l -> Forall Q (odds l) /\ Forall Q (evens l)) by now apply (H (length l)).
  induction n as [|n IH]; intros l' Hl H; [destruct l'; [auto|cbn in Hl; lia]|].
  destruct l' as [|x [|y l']]; [auto|cbn; auto|]. inversion H as [|? ? H1 H2]; subst. inversion H2 as [|? ? H3 H4]; subst.
  destruct (IH l' ltac:(cbn in Hl; lia) H4) as [H5 H6]. cbn [odds evens]. split; constructor; assumption.
Qed.
Theorem ge_scalar_mult_base_ok a : bytes a -> length a = 32%nat -> ext_ok (ge_scalar_mult_base a) (mul (effective (le_val a)) ebase).
Proof.
  intros Hb Hl. unfold ge_scalar_mult_base. cbv zeta. destruct (digits_ok a Hb Hl) as [ds [E [L [F [B V]]]]].
  assert (L64 : length (digits a) = (2 * 32)%nat) by (rewrite E, app_length, L; reflexivity).
  assert (FD : Forall (fun d => -8 <= d <= 16) (digits a)).
  { rewrite E. apply Forall_app. split; [apply (Forall_impl _ (P := fun x => -8 <= x < 8)); [lia|exact F]|]. constructor; [lia|constructor]. }
  destruct (odds_evens_len _ _ L64) as [Lo Le]. destruct (odds_forall _ _ FD) as [Fo Fe].
  assert (LT : length base_table = 32%nat) by (vm_compute; reflexivity).
  pose proof (base_fold_ok base_table ebase (odds (digits a)) ext_zero e0 table_ok_base ltac:(lia) Fo ext_zero_ok) as H1.
  rewrite eadd_0 in H1. set (h := fold_left base_round (combine base_table (odds (digits a))) ext_zero) in *.
  set (m := d256 (map eff8 (odds (digits a)))) in *.
  assert (H2 : ext_ok (to_extended (proj_double3 (ext_double h))) (mul 16 (mul m ebase))).
  { apply to_extended_ok. change 16 with (8 * 2). rewrite emul_mul. apply double3_ok. rewrite <- emul_2. now apply ext_double_ok. }
  pose proof (base_fold_ok base_table ebase (evens (digits a)) _ _ table_ok_base ltac:(lia) Fe H2) as H3.
  rewrite <- emul_mul, <- emul_add in H3.
  destruct (odds_map eff8 (digits a)) as [Mo Me]. unfold m in H3. rewrite <- Mo, <- Me, Z.add_comm, <- odds_evens_val in H3 by (exists 32%nat; rewrite map_length; exact L64).
  set (res := fold_left base_round (combine base_table (evens (digits a))) _) in *. clearbody res. rewrite E, map_app in H3. cbn [map] in H3. replace (map eff8 ds) with ds in H3.
  2: { clear - F. induction F as [|x l Hx Hl IH]; [reflexivity|]. cbn [map]. rewrite <- IH. f_equal. unfold eff8. destruct (Z.leb_spec x 8); [reflexivity|lia]. }
  rewrite dval_app, L, V in H3. change (16 ^ Z.of_nat 63) with (2 ^ 252) in H3.
  unfold effective. unfold eff8 in H3. destruct (top_digit (le_val a) <=? 8).
  - replace (le_val a - 2 ^ 252 * top_digit (le_val a) + 2 ^ 252 * top_digit (le_val a)) with (le_val a) in H3 by lia. exact H3.
  - rewrite Z.mul_0_r, Z.add_0_r in H3. exact H3.
Qed.

(** ** The order of the base point, by computation with the same table *)

Record zext := Zext { wx : Z; wy : Z; wz : Z; wt : Z }.
Definition zext_of (w : zext) (P : epoint) : Prop := ext_of (of_Z (wx w)) (of_Z (wy w)) (of_Z (wz w)) (of_Z (wt w)) P.
Definition zmadd (w : zext) (a b t : Z) : zext :=
  let u := zm (wy w + wx w) a in let v := zm (wy w - wx w) b in let c := zm t (wt w) in let dd := 2 * wz w in
  let cx := u - v in let cy := u + v in let cz := dd + c in let ct := dd - c in
  Zext (zm cx ct) (zm cy cz) (zm cz ct) (zm cx cy).
Lemma zmadd_ok w a b t P Q : zext_of w P -> cached_of (of_Z a) (of_Z b) f1 (of_Z t) Q -> zext_of (zmadd w a b t) (eadd P Q).
Proof.
  intros Hw Hc. destruct (add_comp _ _ _ _ _ _ _ _ _ _ Hw Hc) as [_ C]. apply comp_to_ext in C.
  unfold zext_of, zmadd. cbv zeta. cbn [wx wy wz wt].
  rewrite !zm_ok, !of_sub, !of_add, !zm_ok, !of_mul, !of_add, !of_sub, two_f2.
  replace (fadd (fmul (of_Z (wz w)) f1) (fmul (of_Z (wz w)) f1)) with (fmul (fadd f1 f1) (of_Z (wz w))) in C by ring. exact C.
Qed.
(** Add d times the point of the row. *)
Definition zstep (w : zext) (rd : list pre * Z) : zext :=
  let (r, d) := rd in
  if d =? 0 then w
  else let q := nth (Z.to_nat (Z.abs d - 1)) r pre_zero in
       if 0 <? d then zmadd w (fval (pr_yp q)) (fval (pr_ym q)) (fval (pr_xy2d q))
       else zmadd w (fval (pr_ym q)) (fval (pr_yp q)) (- fval (pr_xy2d q)).
Lemma zstep_ok w r d P Q : zext_of w Q -> row_ok r P -> -8 <= d <= 8 -> zext_of (zstep w (r, d)) (eadd Q (mul d P)).
Proof.
  intros Hw [Lr Hr] Hd. unfold zstep. destruct (Z.eqb_spec d 0) as [->|N]; [rewrite emul_0, eadd_e0; exact Hw|].
  destruct (Hr (Z.to_nat (Z.abs d - 1)) ltac:(lia)) as [_ C]. replace (Z.of_nat (Z.to_nat (Z.abs d - 1)) + 1) with (Z.abs d) in C by lia.
  set (q := nth _ r pre_zero) in *. unfold fv in C. destruct (Z.ltb_spec 0 d) as [Hp|Hn].
  - rewrite Z.abs_eq in C by lia. now apply zmadd_ok.
  - rewrite Z.abs_neq in C by lia. apply EdCurve.cached_neg in C. rewrite emul_opp in C.
    replace (eneg (eneg (mul d P))) with (mul d P) in C by (symmetry; exact (gneg_neg edg (mul d P))).
    rewrite <- of_opp in C. now apply zmadd_ok.
Qed.
Lemma zfold_ok rs : forall P ds w Q, rows_ok rs P -> length rs = length ds -> Forall (fun d => -8 <= d <= 8) ds -> zext_of w Q ->
  zext_of (fold_left zstep (combine rs ds) w) (eadd Q (mul (d256 ds) P)).
Proof.
  induction rs as [|r rs IH]; intros P [|d ds] w Q Hr Hl Hd Hw; try discriminate Hl.
  - cbn [combine fold_left map d256]. rewrite emul_0, eadd_e0. exact Hw.
  - inversion Hr as [|? ? ? Hr1 Hr2]; subst. inversion Hd as [|? ? Hd1 Hd2]; subst. cbn [combine fold_left d256].
    rewrite emul_add, eadd_assoc. rewrite (Z.mul_comm 256), emul_mul. apply IH; [exact Hr2|cbn in Hl; lia|exact Hd2|]. now apply zstep_ok.
Qed.

(** ℓ = L0 + 16 L1 with base-256 digit lists L0 and L1. *)
Definition ord_digits : list Z := Eval vm_compute in digits ((fix f (n : nat) (v : Z) := match n with O => [] | S n => v mod 256 :: f n (v / 256) end) 32%nat ell).
Definition ord_even : list Z := Eval vm_compute in evens ord_digits.
Definition ord_odd : list Z := Eval vm_compute in odds ord_digits.
Definition zneut : zext := Zext 0 1 1 0.
Lemma zneut_ok : zext_of zneut e0.
Proof. unfold zext_of, zneut. cbn [wx wy wz wt e0 ex ey]. change (of_Z 0) with f0. change (of_Z 1) with f1. split; [exact f1_nz|]. cbn [e0 ex ey]. split; [ring|split; ring]. Qed.
Definition zdbl4 (w : zext) : Z * Z * Z := zdbl (zdbl (zdbl (zdbl (wx w, wy w, wz w)))).
(** 16 L1 B = - L0 B. *)
Definition opp_check (p : Z * Z * Z) (w : zext) : bool :=
  let '(x, y, z) := p in chk_eq (zm x (wz w)) (- zm (wx w) z) && chk_eq (zm y (wz w)) (zm (wy w) z).
Definition zodd : zext := fold_left zstep (combine base_table ord_odd) zneut.
Definition zeven : zext := fold_left zstep (combine base_table ord_even) zneut.
Lemma ord_check_true : opp_check (zdbl4 zodd) zeven = true.
Proof. vm_compute. reflexivity. Qed.

Lemma cross_eq a b z w : z <> f0 -> w <> f0 -> fmul (fmul a z) w = fmul (fmul b w) z -> a = b.
Proof.
  intros Nz Nw H. apply fsub_0. transitivity (fdiv (fsub (fmul (fmul a z) w) (fmul (fmul b w) z)) (fmul z w)); [field; split; assumption|].
  rewrite H. field. split; assumption.
Qed.
Lemma opp_coords x y z X Y W P Q : z <> f0 -> W <> f0 -> x = fmul (ex P) z -> y = fmul (ey P) z -> X = fmul (ex Q) W -> Y = fmul (ey Q) W ->
  fmul x W = fopp (fmul X z) -> fmul y W = fmul Y z -> P = eneg Q.
Proof.
  intros Nz Nw Ex Ey Fx Fy H1 H2. rewrite Ex, Fx in H1. rewrite Ey, Fy in H2.
  apply ep_inj; cbn [eneg ex ey].
  - apply (cross_eq _ _ z W Nz Nw). rewrite H1. ring.
  - apply (cross_eq _ _ z W Nz Nw). rewrite H2. ring.
Qed.
Lemma opp_check_and x y z w : opp_check (x, y, z) w = true -> chk_eq (zm x (wz w)) (- zm (wx w) z) = true /\ chk_eq (zm y (wz w)) (zm (wy w) z) = true.
Proof. unfold opp_check. intros H. apply andb_prop in H. exact H. Qed.
Lemma opp_check_ok x y z w P Q : zproj (x, y, z) P -> zext_of w Q -> opp_check (x, y, z) w = true -> P = eneg Q.
Proof.
  intros [Nz [Ex Ey]] [Nw [Fx [Fy _]]] H. destruct (opp_check_and _ _ _ _ H) as [H1 H2]. pose proof (chk_eq_ok _ _ H1) as E1. pose proof (chk_eq_ok _ _ H2) as E2.
  rewrite of_opp, !zm_ok in E1. rewrite !zm_ok in E2. exact (opp_coords _ _ _ _ _ _ _ _ Nz Nw Ex Ey Fx Fy E1 E2).
Qed.
Lemma opp_check_ok' p w P Q : zproj p P -> zext_of w Q -> opp_check p w = true -> P = eneg Q.
Proof. destruct p as [[x y] z]. apply opp_check_ok. Qed.
Lemma zdbl4_ok w P : zext_of w P -> zproj (zdbl4 w) (mul 16 P).
Proof.
  intros H. change 16 with (2 * (2 * (2 * 2))). rewrite !emul_mul, <- !emul_2. unfold zdbl4. repeat apply zdbl_ok. unfold zproj. exact (EdCurve.ext_proj _ _ _ _ _ H).
Qed.
Lemma zodd_ok : zext_of zodd (mul (d256 ord_odd) ebase).
Proof.
  rewrite <- (eadd_0 (mul _ _)). apply zfold_ok; [exact table_ok_base|vm_compute; reflexivity| |exact zneut_ok].
  apply Forall_forall. intros d Hd. unfold ord_odd in Hd. cbn [In] in Hd. lia.
Qed.
Lemma zeven_ok : zext_of zeven (mul (d256 ord_even) ebase).
Proof.
  rewrite <- (eadd_0 (mul _ _)). apply zfold_ok; [exact table_ok_base|vm_compute; reflexivity| |exact zneut_ok].
  apply Forall_forall. intros d Hd. unfold ord_even in Hd. cbn [In] in Hd. lia.
Qed.
Lemma ell_split : ell = 16 * d256 ord_odd + d256 ord_even.
Proof. vm_compute. reflexivity. Qed.
Theorem order_base : mul ell ebase = e0.
Proof.
  rewrite ell_split, emul_add, emul_mul. rewrite (opp_check_ok' _ _ _ _ (zdbl4_ok _ _ zodd_ok) zeven_ok ord_check_true).
  exact (gadd_neg_l edg _).
Qed.
