(** Correctness of the field element code of fe.rs (see FeLimbs.v, FeModel.v). *)
From Coq Require Import ZArith String List Lia Bool.
From Verif Require Import Base Bytes Limb ScLimbs ScModel ScProofs FeLimbs FeModel Primes.
Import ListNotations.
Local Open Scope Z_scope.

(** ** Values and bounds *)

Definition fweights : list Z := [2 ^ 0; 2 ^ 26; 2 ^ 51; 2 ^ 77; 2 ^ 102; 2 ^ 128; 2 ^ 153; 2 ^ 179; 2 ^ 204; 2 ^ 230].

Fixpoint dot (ws fs : list Z) : Z :=
  match ws, fs with w :: ws', f :: fs' => w * f + dot ws' fs' | _, _ => 0 end.

Definition fval (f : list Z) : Z := dot fweights f.

Fixpoint alt_bound (e o : Z) (l : list Z) : Prop :=
  match l with [] => True | x :: l' => (- e <= x <= e) /\ alt_bound o e l' end.

Definition feb (e o : Z) (f : list Z) : Prop := length f = 10%nat /\ alt_bound e o f.

(** Bounds of the inputs and of the outputs of the multiplications. *)
Definition LE : Z := 110729625.
Definition LO : Z := 55364812.
Definition TE : Z := 33889976.
Definition TO : Z := 16944988.
Definition loose : list Z -> Prop := feb LE LO.
Definition tight : list Z -> Prop := feb TE TO.

Fixpoint alt_rng (e o : Z) (xs : list string) : list (string * (Z * Z)) :=
  match xs with [] => [] | x :: xs' => (x, (- e, e)) :: alt_rng o e xs' end.

Lemma alt_rng_in r xs : forall e o, alt_bound e o (map r xs) -> in_ranges r (alt_rng e o xs).
Proof.
  induction xs as [|x xs IH]; intros e o H; cbn [map alt_bound alt_rng] in *; constructor; [exact (proj1 H)|].
  apply IH. exact (proj2 H).
Qed.

Lemma alt_rng_out r xs : forall e o, in_ranges r (alt_rng e o xs) -> alt_bound e o (map r xs).
Proof.
  induction xs as [|x xs IH]; intros e o H; cbn [map alt_bound alt_rng] in *; [exact I|].
  inversion_clear H as [|? ? H1 H2]. split; [exact H1|]. now apply IH.
Qed.

Lemma wval_dot r xs : forall ws, wval r (combine xs ws) = dot ws (map r xs).
Proof. induction xs as [|x xs IH]; intros [|w ws]; cbn [combine wval map dot]; try reflexivity. now rewrite IH. Qed.

Lemma alt_bound_mono e o e' o' l : e <= e' -> o <= o' -> alt_bound e o l -> alt_bound e' o' l.
Proof.
  revert e o e' o'; induction l as [|x l IH]; intros e o e' o' He Ho H; cbn [alt_bound] in *; [exact I|].
  destruct H as [H1 H2]. split; [lia|]. now apply (IH o e).
Qed.

Lemma feb_mono e o e' o' f : e <= e' -> o <= o' -> feb e o f -> feb e' o' f.
Proof. intros He Ho [H1 H2]. split; [exact H1|]. now apply (alt_bound_mono e o). Qed.

Lemma tight_loose f : tight f -> loose f.
Proof. apply feb_mono; unfold TE, LE, TO, LO; lia. Qed.

(** ** Multiplications *)

Local Open Scope string_scope.
Definition wts (p : string) : list (string * Z) := combine (names10 p) fweights.

Lemma mul_check : check prime_p (init (List.app (alt_rng LE LO (names10 "f")) (alt_rng LE LO (names10 "g")))) fe_mul_prog (wts "out")
  (SMul (SLin (wts "f")) (SLin (wts "g"))) (alt_rng TE TO (names10 "out")) = true.
Proof. vm_compute. reflexivity. Qed.

Lemma square_check : check prime_p (init (alt_rng LE LO (names10 "f"))) fe_square_prog (wts "out")
  (SMul (SLin (wts "f")) (SLin (wts "f"))) (alt_rng TE TO (names10 "out")) = true.
Proof. vm_compute. reflexivity. Qed.

Lemma square2_check : check prime_p (init (alt_rng LE LO (names10 "f"))) fe_square2_prog (wts "out")
  (SScale 2 (SMul (SLin (wts "f")) (SLin (wts "f")))) (alt_rng TE TO (names10 "out")) = true.
Proof. vm_compute. reflexivity. Qed.

Definition env1 (p : string) (f : list Z) : env := binds (names10 p) f (fun _ => 0).
Definition env2 (f g : list Z) : env := binds (names10 "f") f (env1 "g" g).
Local Close Scope string_scope.

Lemma env1_map p f : length f = 10%nat -> nodupb (names10 p) = true -> map (env1 p f) (names10 p) = f.
Proof. intros H N. apply map_binds; [now rewrite H|]. now apply nodupb_ok. Qed.

Lemma env2_f f g : length f = 10%nat -> map (env2 f g) (names10 "f") = f.
Proof. intros H. apply map_binds; [now rewrite H|]. now apply nodupb_ok. Qed.

Lemma env2_g f g : length g = 10%nat -> map (env2 f g) (names10 "g") = g.
Proof.
  intros H. transitivity (map (env1 "g" g) (names10 "g")); [|now apply env1_map].
  apply map_ext_in. intros y Hy. apply binds_other. intros Hy2.
  cbn in Hy, Hy2. repeat (destruct Hy as [<-|Hy]; [repeat (destruct Hy2 as [Hy2|Hy2]; [discriminate|]); contradiction|]). contradiction.
Qed.

Lemma env2_ranges f g : loose f -> loose g ->
  in_ranges (env2 f g) (alt_rng LE LO (names10 "f") ++ alt_rng LE LO (names10 "g")).
Proof.
  intros [Lf Bf] [Lg Bg]. apply Forall_app. split; apply alt_rng_in; [rewrite env2_f|rewrite env2_g]; assumption.
Qed.

Lemma env1_ranges p f : nodupb (names10 p) = true -> loose f -> in_ranges (env1 p f) (alt_rng LE LO (names10 p)).
Proof. intros N [Lf Bf]. apply alt_rng_in. now rewrite env1_map. Qed.

Lemma outs_length (r : env) p : length (map r (names10 p)) = 10%nat.
Proof. reflexivity. Qed.

Lemma outs_tight r : in_ranges r (alt_rng TE TO (names10 "out")) -> tight (map r (names10 "out")).
Proof. intros H. split; [reflexivity|]. now apply alt_rng_out. Qed.

Theorem fe_mul_ok f g : loose f -> loose g -> tight (fe_mul f g) /\ fval (fe_mul f g) mod prime_p = (fval f * fval g) mod prime_p.
Proof.
  intros Hf Hg. destruct (check_ok prime_p _ _ _ _ _ (env2 f g) ltac:(discriminate) (env2_ranges f g Hf Hg) mul_check) as [V R].
  split; [now apply outs_tight|]. unfold wts in V. rewrite wval_dot in V. cbn [sval] in V. rewrite !wval_dot in V.
  rewrite env2_f in V by apply Hf. rewrite env2_g in V by apply Hg.
  apply mod_of_divide; [reflexivity|exact V].
Qed.

Theorem fe_square_ok f : loose f -> tight (fe_square f) /\ fval (fe_square f) mod prime_p = (fval f * fval f) mod prime_p.
Proof.
  intros Hf. destruct (check_ok prime_p _ _ _ _ _ (env1 "f" f) ltac:(discriminate) (env1_ranges "f" f eq_refl Hf) square_check) as [V R].
  split; [now apply outs_tight|]. unfold wts in V. rewrite wval_dot in V. cbn [sval] in V. rewrite !wval_dot in V.
  rewrite env1_map in V; [|apply Hf|reflexivity].
  apply mod_of_divide; [reflexivity|exact V].
Qed.

Theorem fe_square2_ok f : loose f -> tight (fe_square2 f) /\ fval (fe_square2 f) mod prime_p = (2 * (fval f * fval f)) mod prime_p.
Proof.
  intros Hf. destruct (check_ok prime_p _ _ _ _ _ (env1 "f" f) ltac:(discriminate) (env1_ranges "f" f eq_refl Hf) square2_check) as [V R].
  split; [now apply outs_tight|]. unfold wts in V. rewrite wval_dot in V. cbn [sval] in V. rewrite !wval_dot in V.
  rewrite env1_map in V; [|apply Hf|reflexivity].
  apply mod_of_divide; [reflexivity|exact V].
Qed.

Theorem fe_mul_safe f g : loose f -> loose g -> safe_run (env2 f g) fe_mul_prog.
Proof. intros Hf Hg. exact (check_safe _ _ _ _ _ _ _ (env2_ranges f g Hf Hg) mul_check). Qed.
Theorem fe_square_safe f : loose f -> safe_run (env1 "f" f) fe_square_prog.
Proof. intros Hf. exact (check_safe _ _ _ _ _ _ _ (env1_ranges "f" f eq_refl Hf) square_check). Qed.
Theorem fe_square2_safe f : loose f -> safe_run (env1 "f" f) fe_square2_prog.
Proof. intros Hf. exact (check_safe _ _ _ _ _ _ _ (env1_ranges "f" f eq_refl Hf) square2_check). Qed.

(** ** Additions *)

Ltac ten f L := destruct f as [|?f0 [|?f1 [|?f2 [|?f3 [|?f4 [|?f5 [|?f6 [|?f7 [|?f8 [|?f9 [|? ?]]]]]]]]]]]; try discriminate L.

Lemma wrap32 z : - 2 ^ 31 <= z < 2 ^ 31 -> wrap I32 z = z.
Proof. intros H. apply wrap_id. exact H. Qed.

Theorem fe_add_ok e1 o1 e2 o2 f g : e1 + e2 < 2 ^ 31 -> o1 + o2 < 2 ^ 31 -> feb e1 o1 f -> feb e2 o2 g ->
  feb (e1 + e2) (o1 + o2) (fe_add f g) /\ fval (fe_add f g) = fval f + fval g.
Proof.
  intros He Ho [Lf Bf] [Lg Bg]. ten f Lf. ten g Lg. cbn [alt_bound] in Bf, Bg.
  unfold feb, fval, fe_add, fe_map2. cbn [combine map fst snd length alt_bound dot fweights].
  rewrite !wrap32 by lia. split; [split; [reflexivity|lia]|ring].
Qed.

Theorem fe_sub_ok e1 o1 e2 o2 f g : e1 + e2 < 2 ^ 31 -> o1 + o2 < 2 ^ 31 -> feb e1 o1 f -> feb e2 o2 g ->
  feb (e1 + e2) (o1 + o2) (fe_sub f g) /\ fval (fe_sub f g) = fval f - fval g.
Proof.
  intros He Ho [Lf Bf] [Lg Bg]. ten f Lf. ten g Lg. cbn [alt_bound] in Bf, Bg.
  unfold feb, fval, fe_sub, fe_map2. cbn [combine map fst snd length alt_bound dot fweights].
  rewrite !wrap32 by lia. split; [split; [reflexivity|lia]|ring].
Qed.

Theorem fe_neg_ok e o f : e < 2 ^ 31 -> o < 2 ^ 31 -> feb e o f -> feb e o (fe_neg f) /\ fval (fe_neg f) = - fval f.
Proof.
  intros He Ho [Lf Bf]. ten f Lf. cbn [alt_bound] in Bf.
  unfold feb, fval, fe_neg. cbn [combine map fst snd length alt_bound dot fweights].
  rewrite !wrap32 by lia. split; [split; [reflexivity|lia]|ring].
Qed.

Lemma c_move_0 f g : length f = length g -> fe_c_move f g 0 = f.
Proof.
  unfold fe_c_move. change (wrap I32 (- 0)) with 0. revert g; induction f as [|x f IH]; intros [|y g] H; try discriminate; [reflexivity|].
  cbn [combine map fst snd]. rewrite Z.land_0_l, Z.lxor_0_r. apply (f_equal (cons x)). apply IH. now injection H.
Qed.

Lemma c_move_1 f g : length f = length g -> fe_c_move f g 1 = g.
Proof.
  unfold fe_c_move. change (wrap I32 (- (1))) with (-1). revert g; induction f as [|x f IH]; intros [|y g] H; try discriminate; [reflexivity|].
  cbn [combine map fst snd]. rewrite Z.land_m1_l, <- Z.lxor_assoc, Z.lxor_nilpotent, Z.lxor_0_l. apply (f_equal (cons y)). apply IH. now injection H.
Qed.

Lemma fe_zero_ok : feb 0 0 fe_zero /\ fval fe_zero = 0.
Proof. split; [split; [reflexivity|cbn; lia]|reflexivity]. Qed.
Lemma fe_one_ok : feb 1 0 fe_one /\ fval fe_one = 1.
Proof. split; [split; [reflexivity|cbn; lia]|reflexivity]. Qed.

(** ** From bytes *)

Definition fb_bnds : list (Z * Z) :=
  [(0, 2 ^ 32 - 1); (0, 2 ^ 30 - 64); (0, 2 ^ 29 - 32); (0, 2 ^ 27 - 8); (0, 2 ^ 26 - 4);
   (0, 2 ^ 32 - 1); (0, 2 ^ 31 - 128); (0, 2 ^ 29 - 32); (0, 2 ^ 28 - 16); (0, 2 ^ 25 - 4)].
Definition fb_rng : list (string * (Z * Z)) := combine (names10 "h") fb_bnds.

Lemma rng_in r xs : forall bs, Forall2 (fun v b => fst b <= v <= snd b) (map r xs) bs -> in_ranges r (combine xs bs).
Proof.
  induction xs as [|x xs IH]; intros [|b bs] H; try (now constructor). cbn [map] in H. inversion_clear H as [|? ? ? ? H1 H2].
  constructor; [exact H1|]. now apply IH.
Qed.

Lemma fb_check : check prime_p (init fb_rng) fe_from_bytes_prog (wts "out") (SLin (wts "h")) (alt_rng TE TO (names10 "out")) = true.
Proof. vm_compute. reflexivity. Qed.

Lemma fe_limbs_ok src : bytes src -> length src = 32%nat ->
  in_ranges (env1 "h" (fe_limbs src)) fb_rng /\ fval (fe_limbs src) = le_val src mod 2 ^ 255.
Proof.
  intros Hb Hl. unfold fe_limbs.
  rewrite !load4_val, !load3_val by (first [rewrite ?skipn_length; lia | try apply bytes_skipn; exact Hb]).
  do 32 (destruct src as [|?b src]; [discriminate Hl|]). destruct src; [|discriminate Hl]. clear Hl. cbn [skipn].
  unfold bytes in Hb. repeat match goal with H : Forall is_byte (_ :: _) |- _ => let H1 := fresh "B" in let H2 := fresh "F" in
    pose proof (Forall_inv H) as H1; pose proof (Forall_inv_tail H) as H2; clear H; unfold is_byte in H1 end.
  cbn [firstn le_val].
  change 8388607 with (Z.ones 23). rewrite Z.land_ones by lia. rewrite !Z.shiftl_mul_pow2 by lia.
  set (x := b28 + 256 * (b29 + 256 * (b30 + 256 * 0))).
  assert (M : 0 <= x mod 2 ^ 23 < 2 ^ 23) by (apply Z.mod_pos_bound; lia).
  assert (D : x = 2 ^ 23 * (x / 2 ^ 23) + x mod 2 ^ 23) by (apply Z.div_mod; lia).
  assert (Dp : 0 <= x / 2 ^ 23) by (apply Z.div_pos; unfold x; lia).
  set (y := x mod 2 ^ 23) in *. set (z := x / 2 ^ 23) in *. clearbody y z.
  rewrite !(wrap_id I64) by (cbn [half]; lia).
  split.
  - unfold fb_rng. apply rng_in. rewrite env1_map by reflexivity. unfold fb_bnds.
    repeat (constructor; [cbn [fst snd]; lia|]). constructor.
  - unfold fval. cbn [dot fweights]. apply (Z.mod_unique_pos _ _ z); unfold x in D; lia.
Qed.

Theorem fe_from_bytes_ok src : bytes src -> length src = 32%nat ->
  tight (fe_from_bytes src) /\ fval (fe_from_bytes src) mod prime_p = (le_val src mod 2 ^ 255) mod prime_p.
Proof.
  intros Hb Hl. destruct (fe_limbs_ok src Hb Hl) as [R E].
  destruct (check_ok prime_p _ _ _ _ _ _ ltac:(discriminate) R fb_check) as [V O].
  split; [now apply outs_tight|]. unfold wts in V. rewrite wval_dot in V. cbn [sval] in V. rewrite wval_dot in V.
  rewrite env1_map in V; [|reflexivity|reflexivity]. fold (fval (fe_limbs src)) in V. rewrite E in V.
  apply mod_of_divide; [reflexivity|exact V].
Qed.

Theorem fe_from_bytes_safe src : bytes src -> length src = 32%nat -> safe_run (env1 "h" (fe_limbs src)) fe_from_bytes_prog.
Proof. intros Hb Hl. destruct (fe_limbs_ok src Hb Hl) as [R E]. exact (check_safe _ _ _ _ _ _ _ R fb_check). Qed.

(** ** To bytes *)

Lemma div_nest x y m n : 0 < m -> 0 < n -> (x + y / m) / n = (x * m + y) / (m * n).
Proof. intros Hm Hn. rewrite <- Z.div_div by lia. f_equal. rewrite Z.div_add_l by lia. reflexivity. Qed.

Lemma div_nest2 x y a b c : 0 <= a -> 0 <= b -> c = a + b -> (x + y / 2 ^ a) / 2 ^ b = (x * 2 ^ a + y) / 2 ^ c.
Proof. intros Ha Hb ->. rewrite Z.pow_add_r by lia. apply div_nest; apply Z.pow_pos_nonneg; lia. Qed.

Definition q_of (h : list Z) : Z := (fval h + (19 * nth 9 h 0 + 2 ^ 24) / 2 ^ 25) / 2 ^ 255.

Lemma q_step h q w : - 2 ^ 30 <= h <= 2 ^ 30 -> - 2 ^ 10 <= q <= 2 ^ 10 -> 25 <= w ->
  wrap I32 (h + q) = h + q /\ - 2 ^ 10 <= (h + q) / 2 ^ w <= 2 ^ 10.
Proof.
  intros Hh Hq Hw. split; [apply wrap32; lia|]. assert (2 ^ 25 <= 2 ^ w) by (apply Z.pow_le_mono_r; lia).
  split; [apply Z.div_le_lower_bound; nia | apply Z.div_le_upper_bound; nia].
Qed.

Definition qprog (l : list (string * Z)) : list stmt :=
  map (fun xw => Asg "q" (Shr (Add I32 (V (fst xw)) (V "q")) (snd xw))) l.

Lemma qprog_val l : forall r, forallb (fun xw => negb (String.eqb (fst xw) "q")) l = true ->
  exec r (qprog l) "q"%string = fold_left (fun q xw => wrap I32 (r (fst xw) + q) / 2 ^ snd xw) l (r "q"%string).
Proof.
  induction l as [|[x w] l IH]; intros r H; [reflexivity|]. cbn [forallb fst] in H. apply andb_prop in H. destruct H as [_ H].
  change (exec r (qprog ((x, w) :: l))) with (exec (upd r "q" (wrap I32 (r x + r "q"%string) / 2 ^ w)) (qprog l)).
  rewrite IH by exact H. cbn [fold_left fst snd]. unfold upd at 2. rewrite String.eqb_refl.
  generalize (wrap I32 (r x + r "q"%string) / 2 ^ w) as v. intros v. generalize v at 2 3 as u. clear IH.
  induction l as [|[y w'] l IH]; intros u; [reflexivity|]. cbn [fold_left forallb fst snd] in *. apply andb_prop in H. destruct H as [H1 H2].
  unfold upd at 2. apply negb_true_iff in H1. rewrite H1. now apply IH.
Qed.

Lemma q_val r : alt_bound LE LO (map r (names10 "h")) -> exec r fe_to_bytes_q "q"%string = q_of (map r (names10 "h")).
Proof.
  intros B. cbn [names10 map String.append alt_bound] in B. unfold LE, LO in B.
  change fe_to_bytes_q with (Asg "q" (Shr (Add I32 (Mul I32 (K 19) (V "h9")) (K 16777216)) 25) ::
    qprog (combine (names10 "h") [26; 25; 26; 25; 26; 25; 26; 25; 26; 25]))%string.
  cbn [exec]. rewrite qprog_val by reflexivity. cbn [fold_left combine names10 map String.append fst snd].
  cbv [upd]. cbn [String.eqb Ascii.eqb Bool.eqb]. cbn [eval].
  unfold q_of, fval. cbn [names10 map String.append nth dot fweights].
  generalize dependent (r "h0"%string). intros h0. generalize dependent (r "h1"%string). intros h1.
  generalize dependent (r "h2"%string). intros h2. generalize dependent (r "h3"%string). intros h3.
  generalize dependent (r "h4"%string). intros h4. generalize dependent (r "h5"%string). intros h5.
  generalize dependent (r "h6"%string). intros h6. generalize dependent (r "h7"%string). intros h7.
  generalize dependent (r "h8"%string). intros h8. generalize dependent (r "h9"%string). intros h9 B.
  rewrite (wrap32 (19 * h9)) by lia. rewrite (wrap32 (19 * h9 + _)) by lia. change 16777216 with (2 ^ 24).
  set (q0 := (19 * h9 + 2 ^ 24) / 2 ^ 25).
  assert (B0 : - 2 ^ 10 <= q0 <= 2 ^ 10) by (unfold q0; split; [apply Z.div_le_lower_bound; lia|apply Z.div_le_upper_bound; lia]).
  clearbody q0.
  destruct (q_step h0 q0 26 ltac:(lia) B0 ltac:(lia)) as [E1 B1]. rewrite E1.
  destruct (q_step h1 _ 25 ltac:(lia) B1 ltac:(lia)) as [E2 B2]. rewrite E2.
  destruct (q_step h2 _ 26 ltac:(lia) B2 ltac:(lia)) as [E3 B3]. rewrite E3.
  destruct (q_step h3 _ 25 ltac:(lia) B3 ltac:(lia)) as [E4 B4]. rewrite E4.
  destruct (q_step h4 _ 26 ltac:(lia) B4 ltac:(lia)) as [E5 B5]. rewrite E5.
  destruct (q_step h5 _ 25 ltac:(lia) B5 ltac:(lia)) as [E6 B6]. rewrite E6.
  destruct (q_step h6 _ 26 ltac:(lia) B6 ltac:(lia)) as [E7 B7]. rewrite E7.
  destruct (q_step h7 _ 25 ltac:(lia) B7 ltac:(lia)) as [E8 B8]. rewrite E8.
  destruct (q_step h8 _ 26 ltac:(lia) B8 ltac:(lia)) as [E9 B9]. rewrite E9.
  destruct (q_step h9 _ 25 ltac:(lia) B9 ltac:(lia)) as [E10 B10]. rewrite E10.
  rewrite (div_nest2 h1 _ 26 25 51), (div_nest2 h2 _ 51 26 77), (div_nest2 h3 _ 77 25 102), (div_nest2 h4 _ 102 26 128), (div_nest2 h5 _ 128 25 153), (div_nest2 h6 _ 153 26 179), (div_nest2 h7 _ 179 25 204), (div_nest2 h8 _ 204 26 230), (div_nest2 h9 _ 230 25 255) by lia.
  apply (f_equal (fun x => x / 2 ^ 255)). ring.
Qed.

Lemma exec_frame p : forall r x, forallb (fun s => match s with Asg y _ => negb (String.eqb x y) end) p = true -> exec r p x = r x.
Proof.
  induction p as [|[y e] p IH]; intros r x H; [reflexivity|]. cbn [forallb] in H. apply andb_prop in H. destruct H as [H1 H2].
  cbn [exec]. rewrite IH by exact H2. unfold upd. apply negb_true_iff in H1. now rewrite H1.
Qed.

(** The quotient is the right one. *)
Lemma q_right h : loose h -> 0 <= fval h - prime_p * q_of h < prime_p.
Proof.
  intros [L B]. ten h L. cbn [alt_bound] in B. unfold LE, LO in B. unfold q_of. cbn [nth].
  set (q0 := (19 * f9 + 2 ^ 24) / 2 ^ 25).
  assert (E0 : 2 ^ 25 * q0 <= 19 * f9 + 2 ^ 24 < 2 ^ 25 * q0 + 2 ^ 25).
  { pose proof (Z.div_mod (19 * f9 + 2 ^ 24) (2 ^ 25) ltac:(lia)). pose proof (Z.mod_pos_bound (19 * f9 + 2 ^ 24) (2 ^ 25) ltac:(lia)). unfold q0. lia. }
  clearbody q0.
  assert (Hv : exists low, fval [f0; f1; f2; f3; f4; f5; f6; f7; f8; f9] = low + 2 ^ 230 * f9 /\ - 2 ^ 231 <= low <= 2 ^ 231).
  { exists (fval [f0; f1; f2; f3; f4; f5; f6; f7; f8]). unfold fval. cbn [dot fweights]. split; [ring|lia]. }
  destruct Hv as [low [-> Bl]]. set (q := (low + 2 ^ 230 * f9 + q0) / 2 ^ 255).
  assert (E1 : 2 ^ 255 * q <= low + 2 ^ 230 * f9 + q0 < 2 ^ 255 * q + 2 ^ 255).
  { pose proof (Z.div_mod (low + 2 ^ 230 * f9 + q0) (2 ^ 255) ltac:(lia)). pose proof (Z.mod_pos_bound (low + 2 ^ 230 * f9 + q0) (2 ^ 255) ltac:(lia)). unfold q. lia. }
  clearbody q. change prime_p with (2 ^ 255 - 19). lia.
Qed.

Lemma q_range h : loose h -> -2 <= q_of h <= 1.
Proof.
  intros H. pose proof (q_right h H) as Q. destruct H as [L B]. ten h L. cbn [alt_bound] in B. unfold LE, LO in B.
  revert Q. generalize (q_of [f0; f1; f2; f3; f4; f5; f6; f7; f8; f9]). intros q Q. unfold fval in Q. cbn [dot fweights] in Q.
  change prime_p with (2 ^ 255 - 19) in Q. lia.
Qed.

Fixpoint pos_rng (e o : Z) (xs : list string) : list (string * (Z * Z)) :=
  match xs with [] => [] | x :: xs' => (x, (0, e)) :: pos_rng o e xs' end.

Lemma tb_check : check 0 (init (alt_rng LE LO (names10 "h") ++ [("q"%string, (-2, 1))])) fe_to_bytes_c (wts "h" ++ [("carry9"%string, 2 ^ 255)])
  (SAdd (SLin (wts "h")) (SScale 19 (SLin [("q"%string, 1)]))) (pos_rng (2 ^ 26 - 1) (2 ^ 25 - 1) (names10 "h")) = true.
Proof. vm_compute. reflexivity. Qed.

(** *** Packing *)

Lemma mix a b s : 0 <= s <= 8 -> 0 <= a < 2 ^ s -> u8 (Z.lor a (wrap I32 (Z.shiftl b s))) = a + 2 ^ s * (b mod 2 ^ (8 - s)).
Proof.
  intros Hs Ha. unfold u8, wrap. cbn [half]. rewrite Z.shiftl_mul_pow2 by lia.
  set (k := (b * 2 ^ s + 2 ^ 31) / (2 * 2 ^ 31)).
  assert (E : (b * 2 ^ s + 2 ^ 31) mod (2 * 2 ^ 31) - 2 ^ 31 = Z.shiftl (b - k * 2 ^ (32 - s)) s).
  { rewrite Z.mod_eq by lia. fold k. rewrite Z.shiftl_mul_pow2 by lia.
    assert (E : 2 ^ (32 - s) * 2 ^ s = 2 * 2 ^ 31) by (rewrite <- Z.pow_add_r by lia; replace (32 - s + s) with 32 by lia; reflexivity).
    replace ((b - k * 2 ^ (32 - s)) * 2 ^ s) with (b * 2 ^ s - k * (2 ^ (32 - s) * 2 ^ s)) by ring. rewrite E. ring. }
  rewrite E, lor_add by lia. replace 256 with (2 ^ s * 2 ^ (8 - s)) by (rewrite <- Z.pow_add_r by lia; replace (s + (8 - s)) with 8 by lia; reflexivity).
  assert (P1 : 0 < 2 ^ s) by (apply Z.pow_pos_nonneg; lia). assert (P2 : 0 < 2 ^ (8 - s)) by (apply Z.pow_pos_nonneg; lia).
  rewrite Z.rem_mul_r by lia. rewrite Z.mod_add, Z.div_add by lia. rewrite Z.mod_small, Z.div_small by lia. rewrite Z.add_0_l.
  replace (b - k * 2 ^ (32 - s)) with (b + (- k * 2 ^ 24) * 2 ^ (8 - s)).
  2:{ replace (32 - s) with (24 + (8 - s)) by lia. rewrite Z.pow_add_r by lia. ring. }
  rewrite Z.mod_add by lia. reflexivity.
Qed.

Lemma digit8 x k : 0 <= k -> x / 2 ^ k = u8 (Z.shiftr x k) + 256 * (x / 2 ^ (k + 8)).
Proof.
  intros Hk. unfold u8. rewrite Z.shiftr_div_pow2 by lia. rewrite Z.pow_add_r by lia. rewrite <- Z.div_div by (try lia; apply Z.pow_pos_nonneg; lia).
  change (2 ^ 8) with 256. pose proof (Z.div_mod (x / 2 ^ k) 256 ltac:(lia)). lia.
Qed.

Lemma low_part x k : 0 <= k -> x = x mod 2 ^ k + 2 ^ k * (x / 2 ^ k).
Proof. intros Hk. pose proof (Z.div_mod x (2 ^ k) ltac:(apply Z.pow_nonzero; lia)). lia. Qed.

Lemma shr_bound x a b : 0 <= b -> 0 <= a -> 0 <= x < 2 ^ (a + b) -> 0 <= Z.shiftr x a < 2 ^ b.
Proof.
  intros Hb Ha H. rewrite Z.shiftr_div_pow2 by lia. rewrite Z.pow_add_r in H by lia.
  split; [apply Z.div_pos; [lia|apply Z.pow_pos_nonneg; lia]|apply Z.div_lt_upper_bound; [apply Z.pow_pos_nonneg; lia|lia]].
Qed.

Lemma u8_shr0 x : u8 x = u8 (Z.shiftr x 0).
Proof. now rewrite Z.shiftr_0_r. Qed.

Lemma u8_byte x : is_byte (u8 x).
Proof. unfold u8, is_byte. apply Z.mod_pos_bound. lia. Qed.

Lemma fe_bytes_ok h0 h1 h2 h3 h4 h5 h6 h7 h8 h9 :
  0 <= h0 < 2 ^ 26 -> 0 <= h1 < 2 ^ 25 -> 0 <= h2 < 2 ^ 26 -> 0 <= h3 < 2 ^ 25 -> 0 <= h4 < 2 ^ 26 ->
  0 <= h5 < 2 ^ 25 -> 0 <= h6 < 2 ^ 26 -> 0 <= h7 < 2 ^ 25 -> 0 <= h8 < 2 ^ 26 -> 0 <= h9 < 2 ^ 25 ->
  bytes (fe_bytes h0 h1 h2 h3 h4 h5 h6 h7 h8 h9) /\
  le_val (fe_bytes h0 h1 h2 h3 h4 h5 h6 h7 h8 h9) = fval [h0; h1; h2; h3; h4; h5; h6; h7; h8; h9].
Proof.
  intros H0 H1 H2 H3 H4 H5 H6 H7 H8 H9. split.
  { unfold fe_bytes, bytes. repeat (constructor; [apply u8_byte|]). constructor. }
  unfold fe_bytes.
  rewrite (mix (Z.shiftr h0 24) h1 2), (mix (Z.shiftr h1 22) h2 3), (mix (Z.shiftr h2 21) h3 5), (mix (Z.shiftr h3 19) h4 6),
    (mix (Z.shiftr h5 24) h6 1), (mix (Z.shiftr h6 23) h7 3), (mix (Z.shiftr h7 21) h8 4), (mix (Z.shiftr h8 20) h9 6)
    by (first [lia | apply shr_bound; [lia|lia|assumption]]).
  change (8 - 2) with 6. change (8 - 3) with 5. change (8 - 5) with 3. change (8 - 6) with 2. change (8 - 1) with 7. change (8 - 4) with 4.
  rewrite (u8_shr0 h0), (u8_shr0 h5).
  rewrite (Z.shiftr_div_pow2 h0 24), (Z.shiftr_div_pow2 h1 22), (Z.shiftr_div_pow2 h2 21), (Z.shiftr_div_pow2 h3 19),
    (Z.shiftr_div_pow2 h5 24), (Z.shiftr_div_pow2 h6 23), (Z.shiftr_div_pow2 h7 21), (Z.shiftr_div_pow2 h8 20) by lia.
  unfold fval. cbn [le_val dot fweights].
  pose proof (digit8 h0 0 ltac:(lia)). pose proof (digit8 h0 8 ltac:(lia)). pose proof (digit8 h0 16 ltac:(lia)).
  pose proof (low_part h1 6 ltac:(lia)). pose proof (digit8 h1 6 ltac:(lia)). pose proof (digit8 h1 14 ltac:(lia)).
  pose proof (low_part h2 5 ltac:(lia)). pose proof (digit8 h2 5 ltac:(lia)). pose proof (digit8 h2 13 ltac:(lia)).
  pose proof (low_part h3 3 ltac:(lia)). pose proof (digit8 h3 3 ltac:(lia)). pose proof (digit8 h3 11 ltac:(lia)).
  pose proof (low_part h4 2 ltac:(lia)). pose proof (digit8 h4 2 ltac:(lia)). pose proof (digit8 h4 10 ltac:(lia)). pose proof (digit8 h4 18 ltac:(lia)).
  pose proof (digit8 h5 0 ltac:(lia)). pose proof (digit8 h5 8 ltac:(lia)). pose proof (digit8 h5 16 ltac:(lia)).
  pose proof (low_part h6 7 ltac:(lia)). pose proof (digit8 h6 7 ltac:(lia)). pose proof (digit8 h6 15 ltac:(lia)).
  pose proof (low_part h7 5 ltac:(lia)). pose proof (digit8 h7 5 ltac:(lia)). pose proof (digit8 h7 13 ltac:(lia)).
  pose proof (low_part h8 4 ltac:(lia)). pose proof (digit8 h8 4 ltac:(lia)). pose proof (digit8 h8 12 ltac:(lia)).
  pose proof (low_part h9 2 ltac:(lia)). pose proof (digit8 h9 2 ltac:(lia)). pose proof (digit8 h9 10 ltac:(lia)). pose proof (digit8 h9 18 ltac:(lia)).
  assert (h4 / 2 ^ (18 + 8) = 0) by (apply Z.div_small; lia). assert (h9 / 2 ^ (18 + 8) = 0) by (apply Z.div_small; lia).
  rewrite (Z.pow_0_r 2) in *. rewrite !Z.div_1_r in *.
  cbn [Z.add Z.sub Z.opp Z.pos_sub Pos.add Pos.succ Pos.pred_double Pos.add_carry] in *.
  clear H0 H1 H2 H3 H4 H5 H6 H7 H8 H9. lia.
Qed.

Lemma fval_pos_bound (r : env) : in_ranges r (pos_rng (2 ^ 26 - 1) (2 ^ 25 - 1) (names10 "h")) -> 0 <= fval (map r (names10 "h")) < 2 ^ 255.
Proof.
  intros H. cbn [names10 map String.append pos_rng] in H. unfold in_ranges in H.
  repeat match goal with H : Forall _ (_ :: _) |- _ => let H1 := fresh "B" in pose proof (Forall_inv H) as H1; apply Forall_inv_tail in H; cbn [fst snd] in H1 end.
  unfold fval. cbn [names10 map String.append dot fweights]. lia.
Qed.

Lemma store_ok (r : env) : in_ranges r (pos_rng (2 ^ 26 - 1) (2 ^ 25 - 1) (names10 "h")) -> fe_store r = le_bytes 32 (fval (map r (names10 "h"))).
Proof.
  intros H. pose proof (fval_pos_bound r H) as V. cbn [names10 map String.append pos_rng] in H. unfold in_ranges in H.
  repeat match goal with H : Forall _ (_ :: _) |- _ => let H1 := fresh "B" in pose proof (Forall_inv H) as H1; apply Forall_inv_tail in H; cbn [fst snd] in H1 end.
  unfold fe_store. cbn [names10 map String.append] in V |- *.
  destruct (fe_bytes_ok (r "h0") (r "h1") (r "h2") (r "h3") (r "h4") (r "h5") (r "h6") (r "h7") (r "h8") (r "h9"))%string as [Hb Hv]; try lia.
  apply le_val_inj; [exact Hb|apply le_bytes_bytes|now rewrite le_bytes_length|].
  rewrite Hv. symmetry. apply le_val_le_bytes_small. change (256 ^ Z.of_nat 32) with (2 ^ 256). lia.
Qed.

Lemma tb_ranges h : loose h -> in_ranges (exec (env1 "h" h) fe_to_bytes_q) (alt_rng LE LO (names10 "h") ++ [("q"%string, (-2, 1))]).
Proof.
  intros H. destruct (H) as [L B].
  assert (M : map (exec (env1 "h" h) fe_to_bytes_q) (names10 "h") = map (env1 "h" h) (names10 "h")).
  { apply map_ext_in. intros x Hx. apply exec_frame. cbn in Hx. repeat (destruct Hx as [<-|Hx]; [reflexivity|]). contradiction. }
  apply Forall_app. split.
  - apply alt_rng_in. rewrite M, env1_map by (assumption || reflexivity). exact B.
  - constructor; [|constructor]. cbn [fst snd]. rewrite q_val by (rewrite env1_map by (assumption || reflexivity); exact B).
    rewrite env1_map by (assumption || reflexivity). now apply q_range.
Qed.

Theorem fe_to_bytes_ok h : loose h -> fe_to_bytes h = le_bytes 32 (fval h mod prime_p).
Proof.
  intros H. destruct (H) as [L B]. pose proof (tb_ranges h H) as R.
  unfold fe_to_bytes. fold (env1 "h" h). rewrite exec_app.
  assert (Q : exec (env1 "h" h) fe_to_bytes_q "q"%string = q_of h).
  { rewrite q_val by (rewrite env1_map by (assumption || reflexivity); exact B). now rewrite env1_map by (assumption || reflexivity). }
  assert (M : map (exec (env1 "h" h) fe_to_bytes_q) (names10 "h") = h).
  { rewrite <- (env1_map "h" h) at 2 by (assumption || reflexivity). apply map_ext_in. intros x Hx. apply exec_frame.
    cbn in Hx. repeat (destruct Hx as [<-|Hx]; [reflexivity|]). contradiction. }
  generalize dependent (exec (env1 "h" h) fe_to_bytes_q). intros r R Q M.
  destruct (check_ok _ _ _ _ _ _ r (Z.le_refl 0) R tb_check) as [V O]. apply div0_eq in V.
  generalize dependent (exec r fe_to_bytes_c). intros r' V O.
  assert (W : forall l1 l2, wval r' (l1 ++ l2) = wval r' l1 + wval r' l2).
  { induction l1 as [|[x w] l1 IH]; intros l2; cbn [app wval]; [reflexivity|]. rewrite IH. ring. }
  rewrite W in V. unfold wts in V. cbn [sval] in V. rewrite !wval_dot in V. cbn [wval] in V. rewrite M, Q in V.
  fold (fval h) in V. fold (fval (map r' (names10 "h"))) in V.
  rewrite (store_ok r' O). apply (f_equal (le_bytes 32)).
  pose proof (fval_pos_bound r' O) as P. pose proof (q_right h H) as E. symmetry.
  assert (C : r' "carry9"%string = q_of h) by (change prime_p with (2 ^ 255 - 19) in E; lia).
  rewrite C in V. symmetry. apply (Z.mod_unique_pos _ _ (q_of h)); change prime_p with (2 ^ 255 - 19) in *; lia.
Qed.

Lemma q_safe r : alt_bound LE LO (map r (names10 "h")) -> safe_run r fe_to_bytes_q.
Proof.
  intros B. cbn [names10 map String.append alt_bound] in B.
  assert (A : arun (init (alt_rng LE LO (names10 "h"))) fe_to_bytes_q <> None) by (vm_compute; discriminate).
  destruct (arun _ fe_to_bytes_q) as [st|] eqn:E; [|congruence].
  eapply arun_safe; [|exact E]. apply init_ok. apply alt_rng_in. exact B.
Qed.

Theorem fe_to_bytes_safe h : loose h -> safe_run (env1 "h" h) (fe_to_bytes_q ++ fe_to_bytes_c).
Proof.
  intros H. destruct (H) as [L B]. apply safe_run_app.
  - apply q_safe. rewrite env1_map by (assumption || reflexivity). exact B.
  - exact (check_safe _ _ _ _ _ _ _ (tb_ranges h H) tb_check).
Qed.

(** ** Sign and zero test *)

Theorem fe_is_negative_ok f : loose f -> fe_is_negative f = (fval f mod prime_p) mod 2.
Proof.
  intros H. unfold fe_is_negative. rewrite fe_to_bytes_ok by exact H. cbn [le_bytes nth]. change 1 with (Z.ones 1). rewrite Z.land_ones by lia.
  change (2 ^ 1) with 2. change 256 with (2 * 128). rewrite Z.rem_mul_r by lia. rewrite Z.mul_comm, Z.mod_add by lia. apply Z.mod_mod. lia.
Qed.

Lemma lor_fold_0 l : forall a, fold_left Z.lor l a = 0 <-> a = 0 /\ Forall (fun x => x = 0) l.
Proof.
  induction l as [|x l IH]; intros a; cbn [fold_left]; [split; [intros ->; split; [reflexivity|constructor]|tauto]|].
  rewrite IH. rewrite Z.lor_eq_0_iff. split.
  - intros [[Ha Hx] Hl]. split; [exact Ha|]. now constructor.
  - intros [Ha Hl]. inversion_clear Hl. tauto.
Qed.

Lemma lor_fold_byte l : forall a, bytes l -> is_byte a -> is_byte (fold_left Z.lor l a).
Proof.
  induction l as [|x l IH]; intros a Hl Ha; cbn [fold_left]; [exact Ha|]. inversion_clear Hl as [|? ? Hx Hl']. apply IH; [exact Hl'|].
  unfold is_byte in *. split; [apply Z.lor_nonneg; lia|].
  destruct (Z.eq_dec (Z.lor a x) 0) as [->|N]; [lia|]. apply (Z.log2_lt_pow2 _ 8); [pose proof (proj2 (Z.lor_nonneg a x) ltac:(lia)); lia|].
  rewrite Z.log2_lor by lia. apply Z.max_lub_lt.
  - destruct (Z.eq_dec a 0) as [->|]; [cbn; lia|]. apply Z.log2_lt_pow2; lia.
  - destruct (Z.eq_dec x 0) as [->|]; [cbn; lia|]. apply Z.log2_lt_pow2; lia.
Qed.

Lemma fold_bits_ok x : is_byte x -> fold_bits x = if x =? 0 then 0 else 1.
Proof.
  intros H. assert (A : forallb (fun k => fold_bits (Z.of_nat k) =? (if Z.of_nat k =? 0 then 0 else 1)) (seq 0 256) = true) by (vm_compute; reflexivity).
  rewrite forallb_forall in A. specialize (A (Z.to_nat x)). unfold is_byte in H.
  rewrite Z2Nat.id in A by lia. apply Z.eqb_eq. apply A. apply in_seq. lia.
Qed.

Lemma le_val_0 l : bytes l -> le_val l = 0 <-> Forall (fun x => x = 0) l.
Proof.
  induction l as [|x l IH]; intros Hb; [split; [constructor|reflexivity]|]. inversion_clear Hb as [|? ? Hx Hl]. cbn [le_val]. unfold is_byte in Hx.
  pose proof (le_val_bound l Hl). split.
  - intros E. constructor; [lia|]. apply IH; [exact Hl|lia].
  - intros F. inversion_clear F as [|? ? F1 F2]. apply IH in F2; [lia|exact Hl].
Qed.

Theorem fe_is_non_zero_ok f : loose f -> fe_is_non_zero f = if fval f mod prime_p =? 0 then 0 else 1.
Proof.
  intros H. unfold fe_is_non_zero. rewrite fe_to_bytes_ok by exact H. set (v := fval f mod prime_p).
  assert (V : 0 <= v < 2 ^ 255) by (pose proof (Z.mod_pos_bound (fval f) prime_p eq_refl); change prime_p with (2 ^ 255 - 19) in *; unfold v; lia).
  clearbody v. rewrite fold_bits_ok.
  2:{ apply lor_fold_byte; [apply le_bytes_bytes|unfold is_byte; lia]. }
  destruct (Z.eqb_spec (fold_left Z.lor (le_bytes 32 v) 0) 0) as [E|E]; destruct (Z.eqb_spec v 0) as [F|F]; try reflexivity; exfalso.
  - apply (proj1 (lor_fold_0 _ _)) in E. destruct E as [_ E]. apply (proj2 (le_val_0 _ (le_bytes_bytes 32 v))) in E.
    rewrite le_val_le_bytes_small in E by (change (256 ^ Z.of_nat 32) with (2 ^ 256); lia). contradiction.
  - apply E. apply (proj2 (lor_fold_0 _ _)). split; [reflexivity|]. apply (proj1 (le_val_0 _ (le_bytes_bytes 32 v))).
    rewrite le_val_le_bytes_small by (change (256 ^ Z.of_nat 32) with (2 ^ 256); lia). exact F.
Qed.

(** ** Exponentiation chains *)

Definition pw (z : Z) (e : Z) (t : list Z) : Prop := tight t /\ 0 <= e /\ fval t mod prime_p = z ^ e mod prime_p.

Lemma pw_sq z e t : pw z e t -> pw z (2 * e) (fe_square t).
Proof.
  intros [T [He E]]. destruct (fe_square_ok t (tight_loose t T)) as [T' V]. split; [exact T'|]. split; [lia|].
  rewrite V, Z.mul_mod by discriminate. rewrite E, <- Z.mul_mod by discriminate. rewrite <- Z.pow_add_r by lia. f_equal. f_equal. lia.
Qed.

Lemma pw_mul z e1 e2 t1 t2 : pw z e1 t1 -> pw z e2 t2 -> pw z (e1 + e2) (fe_mul t1 t2).
Proof.
  intros [T1 [H1 E1]] [T2 [H2 E2]]. destruct (fe_mul_ok t1 t2 (tight_loose _ T1) (tight_loose _ T2)) as [T' V].
  split; [exact T'|]. split; [lia|]. rewrite V, Z.mul_mod by discriminate. rewrite E1, E2, <- Z.mul_mod by discriminate.
  rewrite <- Z.pow_add_r by lia. reflexivity.
Qed.

Lemma pw_sqn z n : forall e t, pw z e t -> pw z (e * 2 ^ Z.of_nat n) (sqr_n n t).
Proof.
  unfold sqr_n. induction n as [|n IH]; intros e t H; [cbn [Nat.iter]; now rewrite Z.mul_1_r|].
  cbn [Nat.iter nat_rect]. replace (e * 2 ^ Z.of_nat (S n)) with (2 * (e * 2 ^ Z.of_nat n)); [apply pw_sq, IH, H|].
  replace (Z.of_nat (S n)) with (1 + Z.of_nat n) by lia. rewrite Z.pow_add_r by lia. change (2 ^ 1) with 2. ring.
Qed.

(** The first steps have the (possibly only loose) input as a factor. *)
Lemma pw_sq1 f : loose f -> pw (fval f) 2 (fe_square f).
Proof. intros H. destruct (fe_square_ok f H) as [T V]. split; [exact T|]. split; [lia|]. rewrite V. f_equal. ring. Qed.
Lemma pw_mul_l f e t : loose f -> pw (fval f) e t -> pw (fval f) (1 + e) (fe_mul f t).
Proof.
  intros H [T [He E]]. destruct (fe_mul_ok f t H (tight_loose t T)) as [T' V]. split; [exact T'|]. split; [lia|].
  rewrite V, <- Z.mul_mod_idemp_r, E, Z.mul_mod_idemp_r by discriminate. rewrite Z.pow_add_r by lia. now rewrite Z.pow_1_r.
Qed.
Lemma pw_mul_r f e t : loose f -> pw (fval f) e t -> pw (fval f) (e + 1) (fe_mul t f).
Proof.
  intros H [T [He E]]. destruct (fe_mul_ok t f (tight_loose t T) H) as [T' V]. split; [exact T'|]. split; [lia|].
  rewrite V, <- Z.mul_mod_idemp_l, E, Z.mul_mod_idemp_l by discriminate. rewrite Z.pow_add_r by lia. now rewrite Z.pow_1_r.
Qed.

Lemma pw_sqs z n e t : pw z e t -> pw z (e * 2 ^ Z.of_nat (S n)) (sqr_n n (fe_square t)).
Proof.
  intros H. replace (e * 2 ^ Z.of_nat (S n)) with ((2 * e) * 2 ^ Z.of_nat n); [now apply pw_sqn, pw_sq|].
  replace (Z.of_nat (S n)) with (1 + Z.of_nat n) by lia. rewrite Z.pow_add_r by lia. change (2 ^ 1) with 2. ring.
Qed.

Theorem fe_invert_ok f : loose f -> pw (fval f) (prime_p - 2) (fe_invert f).
Proof.
  intros H. unfold fe_invert.
  pose proof (pw_sq1 f H) as A. set (t0 := fe_square f) in *. clearbody t0. cbv zeta.
  pose proof (pw_sqs _ 1 _ _ A) as A1. set (t1 := sqr_n 1 (fe_square t0)) in *. clearbody t1.
  pose proof (pw_mul_l f _ _ H A1) as A2. set (t2 := fe_mul f t1) in *. clearbody t2. clear A1.
  pose proof (pw_mul _ _ _ _ _ A A2) as A3. set (t3 := fe_mul t0 t2) in *. clearbody t3. clear A.
  pose proof (pw_mul _ _ _ _ _ A2 (pw_sq _ _ _ A3)) as A4. set (t4 := fe_mul t2 (fe_square t3)) in *. clearbody t4. clear A2.
  pose proof (pw_mul _ _ _ _ _ (pw_sqs _ 4 _ _ A4) A4) as A5. set (t5 := fe_mul (sqr_n 4 (fe_square t4)) t4) in *. clearbody t5. clear A4.
  pose proof (pw_mul _ _ _ _ _ (pw_sqs _ 9 _ _ A5) A5) as A6. set (t6 := fe_mul (sqr_n 9 (fe_square t5)) t5) in *. clearbody t6.
  pose proof (pw_mul _ _ _ _ _ (pw_sqs _ 19 _ _ A6) A6) as A7. set (t7 := fe_mul (sqr_n 19 (fe_square t6)) t6) in *. clearbody t7. clear A6.
  pose proof (pw_mul _ _ _ _ _ (pw_sqs _ 9 _ _ A7) A5) as A8. set (t8 := fe_mul (sqr_n 9 (fe_square t7)) t5) in *. clearbody t8. clear A7 A5.
  pose proof (pw_mul _ _ _ _ _ (pw_sqs _ 49 _ _ A8) A8) as A9. set (t9 := fe_mul (sqr_n 49 (fe_square t8)) t8) in *. clearbody t9.
  pose proof (pw_mul _ _ _ _ _ (pw_sqs _ 99 _ _ A9) A9) as A10. set (t10 := fe_mul (sqr_n 99 (fe_square t9)) t9) in *. clearbody t10. clear A9.
  pose proof (pw_mul _ _ _ _ _ (pw_sqs _ 49 _ _ A10) A8) as A11. set (t11 := fe_mul (sqr_n 49 (fe_square t10)) t8) in *. clearbody t11. clear A10 A8.
  pose proof (pw_mul _ _ _ _ _ (pw_sqs _ 4 _ _ A11) A3) as A12.
  match type of A12 with pw _ ?e _ => replace (prime_p - 2) with e by (vm_compute; reflexivity) end. exact A12.
Qed.

Theorem fe_pow22523_ok f : loose f -> pw (fval f) (2 ^ 252 - 3) (fe_pow22523 f).
Proof.
  intros H. unfold fe_pow22523.
  pose proof (pw_sq1 f H) as A. set (t0 := fe_square f) in *. clearbody t0. cbv zeta.
  pose proof (pw_sqs _ 1 _ _ A) as A1. set (t1 := sqr_n 1 (fe_square t0)) in *. clearbody t1.
  pose proof (pw_mul_l f _ _ H A1) as A2. set (t2 := fe_mul f t1) in *. clearbody t2. clear A1.
  pose proof (pw_sq _ _ _ (pw_mul _ _ _ _ _ A A2)) as A3. set (t3 := fe_square (fe_mul t0 t2)) in *. clearbody t3. clear A.
  pose proof (pw_mul _ _ _ _ _ A2 A3) as A4. set (t4 := fe_mul t2 t3) in *. clearbody t4. clear A2 A3.
  pose proof (pw_mul _ _ _ _ _ (pw_sqs _ 4 _ _ A4) A4) as A5. set (t5 := fe_mul (sqr_n 4 (fe_square t4)) t4) in *. clearbody t5. clear A4.
  pose proof (pw_mul _ _ _ _ _ (pw_sqs _ 9 _ _ A5) A5) as A6. set (t6 := fe_mul (sqr_n 9 (fe_square t5)) t5) in *. clearbody t6.
  pose proof (pw_mul _ _ _ _ _ (pw_sqs _ 19 _ _ A6) A6) as A7. set (t7 := fe_mul (sqr_n 19 (fe_square t6)) t6) in *. clearbody t7. clear A6.
  pose proof (pw_mul _ _ _ _ _ (pw_sqs _ 9 _ _ A7) A5) as A8. set (t8 := fe_mul (sqr_n 9 (fe_square t7)) t5) in *. clearbody t8. clear A7 A5.
  pose proof (pw_mul _ _ _ _ _ (pw_sqs _ 49 _ _ A8) A8) as A9. set (t9 := fe_mul (sqr_n 49 (fe_square t8)) t8) in *. clearbody t9.
  pose proof (pw_mul _ _ _ _ _ (pw_sqs _ 99 _ _ A9) A9) as A10. set (t10 := fe_mul (sqr_n 99 (fe_square t9)) t9) in *. clearbody t10. clear A9.
  pose proof (pw_mul _ _ _ _ _ (pw_sqs _ 49 _ _ A10) A8) as A11. set (t11 := fe_mul (sqr_n 49 (fe_square t10)) t8) in *. clearbody t11. clear A10 A8.
  pose proof (pw_mul_r f _ _ H (pw_sqs _ 1 _ _ A11)) as A12.
  match type of A12 with pw _ ?e _ => replace (2 ^ 252 - 3) with e by (vm_compute; reflexivity) end. exact A12.
Qed.
