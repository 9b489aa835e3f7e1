(** The base point, the precomputed table of constants.rs and multiplication by the base point. *)
From Coq Require Import ZArith String List Lia Bool Ring Field.
From Verif Require Import Base Bytes Limb ScLimbs ScModel ScProofs FeLimbs FeModel FeProofs Primes Group Edwards Fp EdCurve GeConsts GeModel GeProofs GeMul.
Import ListNotations.
Local Open Scope Z_scope.

(** ** Fast arithmetic modulo p on integers, for the checks by computation *)

Definition mask255 : Z := Eval vm_compute in 2 ^ 255 - 1.
Definition fold255 (x : Z) : Z := Z.land x mask255 + 19 * Z.shiftr x 255.
Definition zr (x : Z) : Z := fold255 (fold255 x).
Definition zm (x y : Z) : Z := zr (kara 3 128 x y).
Definition chk_eq (x y : Z) : bool := let d := fold255 (zr (x - y)) in (d =? 0) || (d =? prime_p).
Definition zhalf (x : Z) : Z := if Z.even x then Z.div2 x else Z.div2 (x + prime_p).

Lemma fold255_ok x : of_Z (fold255 x) = of_Z x.
Proof.
  unfold fold255. apply of_Z_eq. change mask255 with (Z.ones 255).
  rewrite Z.land_ones by discriminate. rewrite Z.shiftr_div_pow2 by discriminate.
  rewrite (Z.div_mod x (2 ^ 255)) at 3 by discriminate.
  replace (2 ^ 255 * (x / 2 ^ 255) + x mod 2 ^ 255) with (x mod 2 ^ 255 + 19 * (x / 2 ^ 255) + (x / 2 ^ 255) * prime_p)
    by (change prime_p with (2 ^ 255 - 19); ring).
  symmetry. apply Z_mod_plus_full.
Qed.
Lemma zr_ok x : of_Z (zr x) = of_Z x.
Proof. unfold zr. rewrite !fold255_ok. reflexivity. Qed.
Lemma zm_ok x y : of_Z (zm x y) = fmul (of_Z x) (of_Z y).
Proof. unfold zm. rewrite zr_ok, kara_ok by discriminate. apply of_mul. Qed.
Lemma chk_eq_ok x y : chk_eq x y = true -> of_Z x = of_Z y.
Proof.
  unfold chk_eq. cbv zeta. intros H. apply fsub_0. rewrite <- of_sub, <- zr_ok, <- fold255_ok.
  apply orb_prop in H as [H|H]; apply Z.eqb_eq in H; rewrite H; [reflexivity|]. apply of_Z_eq. reflexivity.
Qed.
Lemma dz_fd : of_Z 37095705934669439343138083508754565189542113879843219016388785533085940283555 = fd. Proof. reflexivity. Qed.
Lemma one_f1 : of_Z 1 = f1. Proof. reflexivity. Qed.
Lemma two_f2 : of_Z 2 = fadd f1 f1. Proof. apply fz_inj. vm_compute. reflexivity. Qed.
Lemma zhalf_ok x : fmul (of_Z (zhalf x)) (fadd f1 f1) = of_Z x.
Proof.
  rewrite <- two_f2, <- of_mul. unfold zhalf. destruct (Z.even x) eqn:E.
  - f_equal. rewrite Z.mul_comm. rewrite <- (Z.add_0_r (2 * _)). pose proof (Z.div2_odd x) as H. rewrite <- Z.negb_even, E in H. symmetry. exact H.
  - assert (E' : Z.even (x + prime_p) = true) by (rewrite Z.even_add, E; reflexivity).
    pose proof (Z.div2_odd (x + prime_p)) as H. rewrite <- Z.negb_even, E' in H. change (Z.b2z (negb true)) with 0 in H.
    rewrite Z.mul_comm. replace (2 * Z.div2 (x + prime_p)) with (x + 1 * prime_p) by lia. apply of_Z_eq. apply Z_mod_plus_full.
Qed.
Opaque zr zm.

(** ** The base point (RFC 8032, 5.1): y = 4/5, x even *)

Definition base_x : Z := 15112221349535400772501151409588531511454012693041857206046113283949847762202.
Definition base_y : Z := 46316835694926478169428394003475163141307993866256225615783033603165251855960.
Lemma ebase_on : on_curveb (of_Z base_x) (of_Z base_y) = true.
Proof. vm_compute. reflexivity. Qed.
Definition ebase : epoint := EP (of_Z base_x) (of_Z base_y) ebase_on.
Lemma ebase_y : fmul (of_Z 5) (ey ebase) = of_Z 4.
Proof. apply fz_inj. vm_compute. reflexivity. Qed.
Lemma ebase_x_even : Z.even (fz (ex ebase)) = true.
Proof. vm_compute. reflexivity. Qed.
Lemma ebase_nz : ebase <> e0.
Proof. intros E. apply (f_equal (fun P => fz (ex P))) in E. vm_compute in E. discriminate E. Qed.

(** constants.rs 70-87 [BASEEXT]. *)
Definition baseext : ext := Ext BASEEXT_x BASEEXT_y BASEEXT_z BASEEXT_t.
Lemma baseext_ok : ext_ok baseext ebase.
Proof.
  split; [repeat (split; [apply tightP; reflexivity|]); apply tightP; reflexivity|].
  unfold ext_of, baseext. cbn [ge_x ge_y ge_z ge_t].
  split; [intros E; apply (f_equal fz) in E; vm_compute in E; discriminate E|].
  split; [apply fz_inj; vm_compute; reflexivity|]. split; apply fz_inj; vm_compute; reflexivity.
Qed.

(** ** The table *)

Definition dz : Z := 37095705934669439343138083508754565189542113879843219016388785533085940283555.

Definition is_pt (q : Z * Z) (P : epoint) : Prop := of_Z (fst q) = ex P /\ of_Z (snd q) = ey P.

(** The numbers of a table entry (y + x, y - x, 2dxy) and from them x, y and x*y. *)
Record zent := Zent { za : Z; zb : Z; zt : Z; zx : Z; zy : Z; zs : Z }.
Definition entry (q : pre) : zent :=
  let a := fval (pr_yp q) in let b := fval (pr_ym q) in
  let x := zhalf (a - b) in let y := zhalf (a + b) in
  Zent a b (fval (pr_xy2d q)) x y (zm x y).
Definition ent_pt (e : zent) : Z * Z := (zx e, zy e).
Definition ent_ok (e : zent) (P : epoint) : Prop :=
  ext_of (of_Z (zx e)) (of_Z (zy e)) f1 (of_Z (zs e)) P /\ cached_of (of_Z (za e)) (of_Z (zb e)) f1 (of_Z (zt e)) P.

Definition chk_entry (q : pre) (e : zent) : bool :=
  tightb (pr_yp q) && tightb (pr_ym q) && tightb (pr_xy2d q) && chk_eq (zt e) (2 * zm dz (zs e)).
Definition chk_add (p q r : zent) : bool :=
  let a := zm (za p) (za q) in
  let b := zm (zb p) (zb q) in
  let c := zm (zt q) (zs p) in
  chk_eq (a - b) (zm (zx r) (2 + c)) && chk_eq (a + b) (zm (zy r) (2 - c)).

Lemma f2_cancel a b : fmul a (fadd f1 f1) = fmul b (fadd f1 f1) -> a = b.
Proof.
  intros H. apply fsub_0. transitivity (fdiv (fsub (fmul a (fadd f1 f1)) (fmul b (fadd f1 f1))) (fadd f1 f1)); [field; exact f2_nz|].
  rewrite H. field. exact f2_nz.
Qed.
Lemma chk_entry_ok q P : is_pt (ent_pt (entry q)) P -> chk_entry q (entry q) = true -> pre_ok q P /\ ent_ok (entry q) P.
Proof.
  intros [Ex Ey] H. unfold chk_entry in H. apply andb_prop in H as [H H4]. apply andb_prop in H as [H H3]. apply andb_prop in H as [H1 H2].
  apply chk_eq_ok in H4. unfold entry, ent_pt in *. cbv zeta in *. cbn [fst snd za zb zt zx zy zs] in *.
  rewrite of_mul, !zm_ok, Ex, Ey, two_f2 in H4. change (of_Z dz) with fd in H4.
  pose proof (zhalf_ok (fval (pr_yp q) - fval (pr_ym q))) as Hx. rewrite of_sub, Ex in Hx.
  pose proof (zhalf_ok (fval (pr_yp q) + fval (pr_ym q))) as Hy. rewrite of_add, Ey in Hy.
  fold (fv (pr_yp q)) (fv (pr_ym q)) in Hx, Hy. fold (fv (pr_xy2d q)) in H4.
  assert (C : cached_of (fv (pr_yp q)) (fv (pr_ym q)) f1 (fv (pr_xy2d q)) P).
  { split; [exact f1_nz|]. split; [|split].
    - apply f2_cancel. transitivity (fadd (fsub (fv (pr_yp q)) (fv (pr_ym q))) (fadd (fv (pr_yp q)) (fv (pr_ym q)))); [ring|]. rewrite <- Hx, <- Hy. ring.
    - apply f2_cancel. transitivity (fsub (fadd (fv (pr_yp q)) (fv (pr_ym q))) (fsub (fv (pr_yp q)) (fv (pr_ym q)))); [ring|]. rewrite <- Hx, <- Hy. ring.
    - rewrite H4. ring. }
  split; [split; [|exact C]|split; [|exact C]].
  - repeat (split; [now apply tightP|]); now apply tightP.
  - cbn [zx zy zs]. rewrite zm_ok, Ex, Ey. split; [exact f1_nz|]. split; [ring|split; ring].
Qed.

Lemma comp_cancel X Y Z T x y P : comp_of X Y Z T P -> X = fmul x Z -> Y = fmul y T -> x = ex P /\ y = ey P.
Proof.
  intros [N1 [N2 [-> ->]]] Hx Hy. split; apply fsub_0.
  - transitivity (fdiv (fsub (fmul x Z) (fmul (ex P) Z)) Z); [field; exact N1|]. rewrite <- Hx. field. exact N1.
  - transitivity (fdiv (fsub (fmul y T) (fmul (ey P) T)) T); [field; exact N2|]. rewrite <- Hy. field. exact N2.
Qed.

Lemma ent_sum e P : ent_ok e P -> of_Z (za e) = fadd (of_Z (zy e)) (of_Z (zx e)) /\ of_Z (zb e) = fsub (of_Z (zy e)) (of_Z (zx e)).
Proof. intros [[_ [-> [-> _]]] [_ [-> [-> _]]]]. split; ring. Qed.

Lemma chk_add_ok p q r P Q : ent_ok p P -> ent_ok q Q -> chk_add p q r = true -> is_pt (ent_pt r) (eadd P Q).
Proof.
  intros Hp Hq H. unfold chk_add in H. cbv zeta in H. apply andb_prop in H as [H1 H2].
  apply chk_eq_ok in H1. apply chk_eq_ok in H2.
  rewrite of_sub, !zm_ok, !of_add, zm_ok, two_f2 in H1. rewrite of_add, !zm_ok, of_sub, zm_ok, two_f2 in H2.
  destruct (ent_sum _ _ Hp) as [Sa Sb]. rewrite Sa, Sb in H1, H2.
  destruct (add_comp _ _ _ _ _ _ _ _ _ _ (proj1 Hp) (proj2 Hq)) as [_ C].
  replace (fadd (fmul f1 f1) (fmul f1 f1)) with (fadd f1 f1) in C by ring.
  exact (comp_cancel _ _ _ _ _ _ _ C H1 H2).
Qed.

(** Projective doubling. *)
Definition zdbl (p : Z * Z * Z) : Z * Z * Z :=
  let '(x, y, z) := p in
  let xx := zm x x in let yy := zm y y in let zz2 := 2 * zm z z in
  let s := zm (x + y) (x + y) in
  let cx := s - (yy + xx) in let cy := yy + xx in let cz := yy - xx in let ct := zz2 - cz in
  (zm cx ct, zm cy cz, zm cz ct).
Definition zproj (p : Z * Z * Z) (P : epoint) : Prop := let '(x, y, z) := p in proj_of (of_Z x) (of_Z y) (of_Z z) P.
Lemma zdbl_ok p P : zproj p P -> zproj (zdbl p) (eadd P P).
Proof.
  destruct p as [[x y] z]. unfold zproj, zdbl. intros H. cbv zeta.
  apply double_comp in H. cbv zeta in H. apply comp_to_proj in H.
  rewrite !zm_ok, !of_sub, !of_add, !of_mul, !zm_ok, !of_add. rewrite two_f2. exact H.
Qed.
Definition zdbl5 (p : Z * Z * Z) := zdbl (zdbl (zdbl (zdbl (zdbl p)))).
Lemma zdbl5_ok p P : zproj p P -> zproj (zdbl5 p) (mul 32 P).
Proof.
  intros H. change 32 with (2 * (2 * (2 * (2 * 2)))). rewrite !emul_mul, <- !emul_2. unfold zdbl5. repeat apply zdbl_ok. exact H.
Qed.
Lemma zproj_pt p P : is_pt p P -> zproj (fst p, snd p, 1) P.
Proof. intros [Ex Ey]. unfold zproj, proj_of. rewrite one_f1. split; [exact f1_nz|]. rewrite Ex, Ey. split; ring. Qed.
(** [q] is the point with fractions [p]. *)
Definition chk_proj (p : Z * Z * Z) (q : Z * Z) : bool :=
  let '(x, y, z) := p in chk_eq x (zm (fst q) z) && chk_eq y (zm (snd q) z).
Lemma chk_proj_ok p q P : zproj p P -> chk_proj p q = true -> is_pt q P.
Proof.
  destruct p as [[x y] z]. unfold zproj, chk_proj. intros [N [Hx Hy]] H. apply andb_prop in H as [H1 H2].
  apply chk_eq_ok in H1. apply chk_eq_ok in H2. rewrite zm_ok in H1, H2.
  apply (comp_cancel (of_Z x) (of_Z y) (of_Z z) (of_Z z)); [|exact H1|exact H2]. split; [exact N|]. split; [exact N|]. split; assumption.
Qed.

(** A row: entries (with their points) 1P .. 8P. *)
Fixpoint chk_row (e0 : zent) (l : list (pre * zent)) : bool :=
  match l with
  | (q, e) :: l' => chk_entry q e && match l' with (_, e') :: _ => chk_add e e0 e' | [] => true end && chk_row e0 l'
  | [] => true
  end.
Definition with_pts (r : list pre) : list (pre * zent) := map (fun q => (q, entry q)) r.

Lemma chk_row_cons e0 q r : chk_row e0 (with_pts (q :: r)) =
  chk_entry q (entry q) && match r with q' :: _ => chk_add (entry q) e0 (entry q') | [] => true end && chk_row e0 (with_pts r).
Proof. destruct r; reflexivity. Qed.
Opaque chk_entry chk_add chk_proj entry zdbl5.

Lemma chk_row_ok e0 P : ent_ok e0 P -> forall r j, chk_row e0 (with_pts r) = true ->
  match r with q :: _ => is_pt (ent_pt (entry q)) (mul j P) | [] => True end ->
  forall k, (k < length r)%nat -> pre_ok (nth k r pre_zero) (mul (Z.of_nat k + j) P) /\ ent_ok (entry (nth k r pre_zero)) (mul (Z.of_nat k + j) P).
Proof.
  intros H0. induction r as [|q r IH]; intros j H Hq k Hk; [cbn in Hk; lia|].
  rewrite chk_row_cons in H. apply andb_prop in H as [H H2]. apply andb_prop in H as [H1 H3].
  pose proof (chk_entry_ok q _ Hq H1) as He.
  destruct k as [|k]; [rewrite Z.add_0_l; cbn [nth]; exact He|].
  cbn [nth]. replace (Z.of_nat (S k) + j) with (Z.of_nat k + (j + 1)) by lia. apply IH; [exact H2| |cbn [length] in Hk; lia].
  destruct r as [|q' r]; [exact I|]. rewrite emul_add, emul_1. exact (chk_add_ok _ _ _ _ _ (proj2 He) H0 H3).
Qed.

(** All rows: each has eight entries, and the next starts at 256 times the first. *)
Fixpoint chk_rows (l : list (list (pre * zent))) : bool :=
  match l with
  | r :: l' =>
      match r with
      | (_, e0) :: _ =>
          Nat.eqb (length r) 8 && chk_row e0 r &&
          match l' with
          | ((_, e1) :: _) :: _ => match nth_error r 7 with Some (_, e7) => chk_proj (zdbl5 (zx e7, zy e7, 1)) (ent_pt e1) | None => false end
          | [] :: _ => false
          | [] => true
          end && chk_rows l'
      | [] => false
      end
  | [] => true
  end.

Inductive rows_ok : list (list pre) -> epoint -> Prop :=
| rows_nil P : rows_ok [] P
| rows_cons r rs P : row_ok r P -> rows_ok rs (mul 256 P) -> rows_ok (r :: rs) P.

Lemma chk_rows_ok rs : forall P, chk_rows (map with_pts rs) = true ->
  match rs with (q :: _) :: _ => is_pt (ent_pt (entry q)) P | _ => True end -> rows_ok rs P.
Proof.
  induction rs as [|r rs IH]; intros P H Hq; [constructor|].
  cbn [map chk_rows] in H. destruct r as [|q r]; [discriminate H|]. set (R := q :: r) in *.
  change (with_pts R) with ((q, entry q) :: with_pts r) in H. cbv match in H. change ((q, entry q) :: with_pts r) with (with_pts R) in H.
  apply andb_prop in H as [H H4]. apply andb_prop in H as [H H3]. apply andb_prop in H as [H1 H2].
  apply Nat.eqb_eq in H1. unfold with_pts in H1. rewrite map_length in H1.
  assert (Hq1 : is_pt (ent_pt (entry q)) (mul 1 P)) by (rewrite emul_1; exact Hq).
  assert (He : ent_ok (entry q) P).
  { unfold R in H2. rewrite chk_row_cons in H2. apply andb_prop in H2 as [H2 _]. apply andb_prop in H2 as [H2 _]. exact (proj2 (chk_entry_ok q P Hq H2)). }
  pose proof (chk_row_ok (entry q) P He R 1 H2 Hq1) as HR. rewrite H1 in HR.
  constructor.
  - split; [exact H1|]. intros k Hk. exact (proj1 (HR k Hk)).
  - apply IH; [exact H4|]. destruct rs as [|[|q' r'] rs]; [exact I|discriminate H3|].
    cbn [map with_pts] in H3. destruct (HR 7%nat ltac:(lia)) as [_ H7].
    assert (E7 : nth_error (with_pts R) 7 = Some (nth 7 R pre_zero, entry (nth 7 R pre_zero))).
    { unfold with_pts. apply (map_nth_error (fun q0 => (q0, entry q0))). apply nth_error_nth'. lia. }
    rewrite E7 in H3.
    replace (mul 256 P) with (mul 32 (mul (Z.of_nat 7 + 1) P)) by (rewrite <- emul_mul; reflexivity).
    refine (chk_proj_ok _ _ _ (zdbl5_ok _ _ _) H3). apply (zproj_pt (ent_pt (entry (nth 7 R pre_zero)))).
    destruct H7 as [[_ [E1 [E2 _]]] _]. unfold is_pt, ent_pt. cbn [fst snd]. rewrite E1, E2. split; ring.
Qed.

Lemma table_check : chk_rows (map with_pts base_table) = true.
Proof. vm_compute. reflexivity. Qed.
Lemma table_first : is_pt (ent_pt (entry (nth 0 (nth 0 base_table []) pre_zero))) ebase.
Proof. split; apply fz_inj; vm_compute; reflexivity. Qed.
Theorem table_ok_base : rows_ok base_table ebase.
Proof. apply chk_rows_ok; [exact table_check|]. exact table_first. Qed.
