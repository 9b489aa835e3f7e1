(** C81-C84: ordering of points, streamed marshalling, points outside the prime-order subgroup. *)
From Coq Require Import ZArith String List Lia Bool Znumtheory ssrbool.
From Verif Require Import Base Bytes Limb ScLimbs IntModel RandModel RandProofs ScModel ScProofs FeLimbs FeModel FeProofs Primes Group Edwards Fp EdCurve
  GeConsts GeModel GeProofs GeMul GeBase GeBaseMul GeEnc GeVar EdOrder EdModel EdBytes PropsSc EdSpec PointModel PointProofs PointCurve EdPolyModel PropsPoint.
Import ListNotations.
Local Open Scope Z_scope.
Opaque ge_scalar_mult ge_scalar_mult_base ge_scalar_mult_vartime ext_set_bytes ext_write_bytes to_extended comp_add comp_sub write_cached ext_neg
  ext_double proj_double to_projective mixed_add mixed_sub.

(** ** C81 *)

Lemma lex_cmp_eq a : forall b, lex_cmp a b = Eq -> a = b.
Proof.
  induction a as [|x a IH]; intros [|y b]; cbn [lex_cmp]; try discriminate; [reflexivity|].
  destruct (Z.compare_spec x y) as [->|H|H]; try discriminate. intros E. f_equal. now apply IH.
Qed.
Lemma lex_cmp_refl a : lex_cmp a a = Eq.
Proof. induction a as [|x a IH]; cbn [lex_cmp]; [reflexivity|]. now rewrite Z.compare_refl. Qed.
Lemma set_bytes_shape self s b e : length s = 32%nat -> ext_set_bytes self s = (b, e) -> ge_y e = fe_from_bytes s /\ ge_z e = fe_one.
Proof.
  Transparent ext_set_bytes. intros L. unfold ext_set_bytes. rewrite L. cbn [Nat.eqb negb]. set (y := fe_from_bytes s). clearbody y.
  destruct (root_cand y) as [[u x] w]. Opaque ext_set_bytes.
  destruct (_ =? 1); [destruct (_ =? 1)|]; intros E; apply pair_equal_spec in E as [_ <-]; split; reflexivity.
Qed.

(** Equal points are fed to a hasher as the same bytes, and points that compare as equal are equal... *)
Theorem C81_hash (p q : point) (P Q : epoint) : repr p P -> repr q Q ->
  (point_eqb p q = true <-> point_hash_input p = point_hash_input q).
Proof.
  intros HP HQ. rewrite (eqb_ok p q P Q HP HQ). unfold point_hash_input. rewrite (marshal_ok p P HP), (marshal_ok q Q HQ).
  split; [now intros ->|apply enc_inj].
Qed.
Print Assumptions C81_hash.
Lemma repr_len p P : repr p P -> length (ge_x (p_ge p)) = 10%nat /\ length (ge_y (p_ge p)) = 10%nat /\ length (ge_z (p_ge p)) = 10%nat /\ length (ge_t (p_ge p)) = 10%nat.
Proof. intros [[H1 [H2 [H3 H4]]] _]. split; [exact (proj1 H1)|]. split; [exact (proj1 H2)|]. split; [exact (proj1 H3)|exact (proj1 H4)]. Qed.
Lemma app_inj10 (a b c d : list Z) : length a = 10%nat -> length b = 10%nat -> a ++ c = b ++ d -> a = b /\ c = d.
Proof.
  intros La Lb E. pose proof (f_equal (firstn 10) E) as F. pose proof (f_equal (skipn 10) E) as G.
  rewrite <- La in F at 1. rewrite <- Lb in F at 1. rewrite <- La in G at 1. rewrite <- Lb in G at 1.
  rewrite !firstn_app, !Nat.sub_diag, !firstn_O, !app_nil_r, !firstn_all in F.
  rewrite !skipn_app, !Nat.sub_diag, !skipn_O, !skipn_all in G. split; assumption.
Qed.
Theorem cmp_eq p q P Q : repr p P -> repr q Q -> (point_cmp p q = Eq <-> p = q).
Proof.
  intros HP HQ. split; [|intros ->; apply lex_cmp_refl]. intros H. apply lex_cmp_eq in H. unfold point_limbs in H.
  destruct (repr_len p P HP) as [A1 [A2 [A3 A4]]]. destruct (repr_len q Q HQ) as [B1 [B2 [B3 B4]]].
  apply (app_inj10 _ _ _ _ A1 B1) in H as [E1 H]. apply (app_inj10 _ _ _ _ A2 B2) in H as [E2 H]. apply (app_inj10 _ _ _ _ A3 B3) in H as [E3 H].
  apply (app_inj10 _ _ _ _ A4 B4) in H as [E4 H]. destruct p as [[x y z t] v], q as [[x' y' z' t'] v']. cbn [p_ge p_vt ge_x ge_y ge_z ge_t] in *.
  subst. f_equal. destruct v, v'; try reflexivity; discriminate (f_equal (hd 0) H).
Qed.
Theorem C81_order_partial (p q : point) (P Q : epoint) : repr p P -> repr q Q -> point_cmp p q = Eq -> point_eqb p q = true.
Proof. intros HP HQ H. apply (cmp_eq p q P Q HP HQ) in H as <-. apply (eqb_ok p p P P HP HP). reflexivity. Qed.
Print Assumptions C81_order_partial.
(** ... but equal points need not compare as equal: the base point and the point decoded from its encoding are equal
    under [==], and one is smaller than the other under the derived order. *)
Theorem C81_refuted : exists p q : point, p = point_base point_default /\ point_unmarshal point_default (point_marshal p) = (Ok tt, q) /\
  point_eqb p q = true /\ point_cmp p q <> Eq.
Proof.
  set (p := point_base point_default). assert (HP : repr p ebase) by apply base_ok.
  pose proof (unmarshal_ok point_default (enc ebase) (enc_bytes ebase)) as H. unfold point_unmarshal in *.
  destruct (ext_set_bytes (p_ge point_default) (enc ebase)) as [[|] e] eqn:X.
  - destruct H as [P [HQ [D _]]]. assert (EP : P = ebase) by exact (decodes_unique _ _ _ D (enc_decodes ebase)). subst P.
    exists p, (Pt e (p_vt point_default)). split; [reflexivity|]. split; [rewrite (marshal_ok p ebase HP), X; reflexivity|].
    split; [apply (eqb_ok _ _ _ _ HP HQ); reflexivity|].
    rewrite (cmp_eq _ _ _ _ HP HQ). intros E. apply (f_equal (fun q => ge_z (p_ge q))) in E. cbn [p_ge] in E.
    rewrite (proj2 (set_bytes_shape _ _ _ _ (enc_length ebase) X)) in E. discriminate (f_equal (hd 0) E).
  - exfalso. apply (proj2 H ebase (enc_length ebase)). apply enc_decodes.
Qed.
Print Assumptions C81_refuted.
Example C81_nonvacuous : repr (point_base point_default) ebase /\ repr (rep ebase) ebase /\ point_eqb (point_base point_default) (rep ebase) = true.
Proof.
  pose proof (base_ok point_default) as H1. pose proof (rep_ok ebase) as H2. split; [exact H1|]. split; [exact H2|].
  apply (eqb_ok _ _ _ _ H1 H2). reflexivity.
Qed.

(** ** C82 *)

(** What [marshal_to] appends is read back by [unmarshal_from], whatever was written before and whatever follows. *)
Theorem C82_points (self p : point) (P : epoint) (w r : list Z) : repr p P ->
  (exists b, point_marshal_to p w = w ++ b /\ length b = point_marshal_size /\
     exists q, point_unmarshal_from self (b ++ r) = (Ok tt, q, r) /\ repr q P /\ point_eqb p q = true).
Proof.
  intros HP. exists (enc P). unfold point_marshal_to. rewrite (marshal_ok p P HP). split; [reflexivity|]. split; [apply enc_length|].
  unfold point_unmarshal_from. pose proof (enc_length P) as L. change point_marshal_size with 32%nat.
  destruct (Nat.ltb_spec (length (enc P ++ r)) 32) as [B|_]; [rewrite app_length, L in B; lia|].
  rewrite firstn_app, skipn_app, L, Nat.sub_diag, firstn_O, skipn_O, app_nil_r, skipn_all2, firstn_all2 by (rewrite L; reflexivity).
  cbn [app]. pose proof (unmarshal_ok self (enc P) (enc_bytes P)) as H. destruct (point_unmarshal self (enc P)) as [[[]|e| |] q]; try contradiction.
  - destruct H as [Q [HQ [D _]]]. assert (EQ : Q = P) by exact (decodes_unique _ _ _ D (enc_decodes P)). subst Q.
    exists q. split; [reflexivity|]. split; [exact HQ|]. now apply (eqb_ok p q P P HP HQ).
  - exfalso. apply (proj2 H P L). apply enc_decodes.
Qed.
Print Assumptions C82_points.
Theorem C82_scalars (self s : list Z) (w r : list Z) : scalar32 s ->
  (exists b, scalar_marshal_to s w = Ok (w ++ b) /\ length b = 32%nat /\
     exists v, scalar_unmarshal_from self (b ++ r) = (Ok tt, v, r) /\ encodes v (le_val s)).
Proof.
  intros Hs. destruct (C26_marshal s Hs) as [b [E Hb]]. exists b. unfold scalar_marshal_to. rewrite E. cbn [bindo]. split; [reflexivity|].
  destruct (proj1 Hb) as [_ L]. split; [exact L|]. unfold scalar_unmarshal_from.
  destruct (Nat.ltb_spec (length (b ++ r)) 32) as [B|_]; [rewrite app_length, L in B; lia|].
  rewrite firstn_app, skipn_app, L, Nat.sub_diag, firstn_O, skipn_O, app_nil_r, skipn_all2, firstn_all2 by (rewrite L; reflexivity).
  unfold scalar_unmarshal. rewrite L. cbn [Nat.eqb negb app]. exists b. split; [reflexivity|exact Hb].
Qed.
Print Assumptions C82_scalars.
(** Fewer than 32 bytes left: an I/O error and the receiver as before.  Any other failure of a point is a 32-byte string that
    decodes to no point; then the receiver has been overwritten with limbs that stand for no point of the curve. *)
Theorem C82_failure (self : point) (r : list Z) : Forall (fun x => 0 <= x < 256) r ->
  match point_unmarshal_from self r with
  | (Ok _, p, r') => exists P, repr p P /\ decodes (firstn 32 r) P /\ r = firstn 32 r ++ r' /\ length (firstn 32 r) = 32%nat
  | (Err IoError, p, _) => (length r < 32)%nat /\ p = self
  | (Err InvalidInput, p, r') => (forall P, ~ decodes (firstn 32 r) P) /\ (forall P, ~ repr p P) /\ r = firstn 32 r ++ r' /\ length (firstn 32 r) = 32%nat
  | _ => False
  end.
Proof.
  intros Hr. unfold point_unmarshal_from. change point_marshal_size with 32%nat. destruct (Nat.ltb_spec (length r) 32) as [L|L]; [split; [exact L|reflexivity]|].
  assert (L32 : length (firstn 32 r) = 32%nat) by (rewrite firstn_length; lia).
  assert (B : bytes (firstn 32 r)) by (rewrite <- (firstn_skipn 32 r) in Hr; exact (proj1 (proj1 (Forall_app _ _ _) Hr))).
  pose proof (unmarshal_ok self (firstn 32 r) B) as H. pose proof (set_bytes_ok (p_ge self) (firstn 32 r) B L32) as Sb.
  pose proof (set_bytes_shape (p_ge self) (firstn 32 r)) as Sh. pose proof (from_bytes_v _ B L32) as FB.
  unfold point_unmarshal in *. destruct (ext_set_bytes (p_ge self) (firstn 32 r)) as [[|] e].
  - destruct H as [P [H1 [H2 _]]]. exists P. split; [exact H1|]. split; [exact H2|]. split; [symmetry; apply firstn_skipn|exact L32].
  - split; [intros P; exact (proj2 H P L32)|]. split; [|split; [symmetry; apply firstn_skipn|exact L32]].
    intros P [_ [_ [_ [Ey _]]]]. cbn [p_ge] in Ey. destruct (Sh false e L32 eq_refl) as [E1 E2]. rewrite E1, E2 in Ey.
    rewrite (proj2 FB), (proj2 one_v) in Ey. apply (Sb P). rewrite Ey. ring.
Qed.
Print Assumptions C82_failure.
(** y = 2 is the y-coordinate of no point, so the string 2, 0, ..., 0 is rejected; and the receiver, which held the base
    point, holds no point any more. *)
Lemma euler2 : (powm (fz (fmul (of_Z 3) (fadd (fmul (of_Z 4) fd) f1))) phalf prime_p =? prime_p - 1) = true.
Proof. vm_compute. reflexivity. Qed.
Lemma fz_fpow a n : fz (fpow a n) = fz a ^ n mod prime_p. Proof. reflexivity. Qed.
Lemma m1_not_1 : prime_p - 1 <> fz f1. Proof. discriminate. Qed.
Lemma nz2 : fmul (of_Z 3) (fadd (fmul (of_Z 4) fd) f1) <> f0.
Proof. intros H. apply (f_equal fz) in H. revert H. vm_compute. discriminate. Qed.
Lemma not_y2 P : ey P <> of_Z 2.
Proof.
  intros E. pose proof (proj1 (on_curve_x _ _) (ep_on P)) as H. rewrite E in H. set (x := ex P) in *. clearbody x.
  replace (fmul (of_Z 2) (of_Z 2)) with (of_Z 4) in H by (apply fz_inj; reflexivity).
  replace (fsub (of_Z 4) f1) with (of_Z 3) in H by (apply fz_inj; reflexivity).
  pose proof euler2 as Eu. set (v := fadd (fmul (of_Z 4) fd) f1) in *.
  assert (Hs : fmul (of_Z 3) v = fmul (fmul v x) (fmul v x)) by (rewrite <- H; ring).
  rewrite Hs in Eu. apply Z.eqb_eq in Eu. rewrite powm_ok in Eu by reflexivity.
  assert (N : fmul v x <> f0).
  { intros E0. rewrite E0 in Hs. assert (Z0 : fmul (of_Z 3) v = f0) by (rewrite Hs; ring). exact (nz2 Z0). }
  pose proof (sq_half _ N) as Q. apply (f_equal fz) in Q. rewrite fz_fpow in Q. rewrite Eu in Q. exact (m1_not_1 Q).
Qed.
Example C82_nonvacuous : exists q, repr (point_base point_default) ebase /\
  point_unmarshal_from (point_base point_default) (2 :: repeat 0 31 ++ [9]) = (Err InvalidInput, q, [9]) /\ forall P, ~ repr q P.
Proof.
  set (r := 2 :: repeat 0 31 ++ [9]). assert (B : Forall (fun x => 0 <= x < 256) r) by (repeat (constructor; [lia|]); constructor).
  pose proof (C82_failure (point_base point_default) r B) as H. destruct (point_unmarshal_from (point_base point_default) r) as [[[u|[|]| |] q] r']; try contradiction.
  - exfalso. destruct H as [P [_ [[E _] _]]]. apply (not_y2 P). rewrite E. apply fz_inj. vm_compute. reflexivity.
  - exists q. destruct H as [_ [H1 [H2 _]]]. split; [apply base_ok|]. split; [|exact H1].
    apply (f_equal (skipn 32)) in H2. cbn [r skipn repeat app firstn] in H2. now subst r'.
  - exfalso. destruct H as [H _]. vm_compute in H. lia.
Qed.

(** ** C83 *)

(** Decoding accepts every point of the curve, inside the prime-order subgroup or not. *)
Theorem C83_whole_curve (P : epoint) (self : point) : exists p, point_unmarshal self (enc P) = (Ok tt, p) /\ repr p P.
Proof.
  pose proof (unmarshal_ok self (enc P) (enc_bytes P)) as H. destruct (point_unmarshal self (enc P)) as [[[]|e| |] p]; try contradiction.
  - destruct H as [Q [H1 [D _]]]. rewrite (decodes_unique _ _ _ D (enc_decodes P)) in H1. exists p. split; [reflexivity|exact H1].
  - exfalso. apply (proj2 H P (enc_length P)). apply enc_decodes.
Qed.
Print Assumptions C83_whole_curve.
(** l P = 0 exactly for the multiples of the base point. *)
Theorem C83_subgroup (P : epoint) : mul order P = e0 <-> exists j, 0 <= j < order /\ P = mul j ebase.
Proof. exact (prime_multiples P). Qed.
Print Assumptions C83_subgroup.
Lemma half_y P : ey (eadd P half) = fopp (ey P).
Proof. cbn [ey eadd ex half]. unfold law_y. apply div_eq; [exact (law_dm _ _ _ _ (ep_on P) half_on)|]. ring. Qed.
Lemma half_out : mul order (eadd ebase half) <> e0 /\ mul 8 (eadd ebase half) <> e0.
Proof.
  assert (M : forall j, mul j (eadd ebase half) = eadd (mul j ebase) (mul j half)) by (intros j; exact (zmul_gadd edg j ebase half)).
  assert (H2 : mul 2 half = e0) by (rewrite mul2; exact half_2).
  assert (Hev : forall j, mul (2 * j) half = e0) by (intros j; rewrite Z.mul_comm, (emul_mul j 2 half), H2; exact (zmul_g0 edg j)).
  assert (B8 : mul 8 ebase <> e0) by exact (proj2 (proj2 (proj2 C32_exact_nonvacuous))).
  split; rewrite M.
  - rewrite (proj2 (base_order order)) by (exists 1; reflexivity). rewrite EdCurve.eadd_0. change order with (2 * (order / 2) + 1).
    rewrite (emul_add (2 * (order / 2)) 1 half).
    rewrite Hev, (zmul_1 edg half : mul 1 half = half), EdCurve.eadd_0. exact half_nz.
  - change 8 with (2 * 4) at 2. rewrite Hev. rewrite (eadd_comm (mul 8 ebase) e0), EdCurve.eadd_0. exact B8.
Qed.
(** A string that is accepted by [unmarshal_binary], [is_canonical] and [has_small_order] and still decodes to a point
    outside the prime-order subgroup: the encoding of B + T, T of order 2. *)
Theorem C83_refuted : exists b p P, point_unmarshal point_default b = (Ok tt, p) /\ repr p P /\ pt_is_canonical b = true /\
  pt_small_order b = false /\ mul order P <> e0.
Proof.
  set (P := eadd ebase half). destruct (C83_whole_curve P point_default) as [p [E HP]]. exists (enc P), p, P.
  split; [exact E|]. split; [exact HP|]. split; [|split].
  - apply pt_is_canonical_ok; [apply enc_bytes|]. split; [apply enc_length|]. rewrite y_field_enc. unfold P. rewrite half_y. vm_compute. reflexivity.
  - destruct (pt_small_order (enc P)) eqn:S; [|reflexivity]. exfalso. apply small_enc in S. exact (proj2 half_out S).
  - exact (proj1 half_out).
Qed.
Print Assumptions C83_refuted.

(** ** C84 *)

(** sum of x^k C_k for k counted from [k]. *)
Fixpoint psum (x k : Z) (cs : list epoint) : epoint :=
  match cs with [] => e0 | c :: cs' => eadd (mul (x ^ k) c) (psum x (k + 1) cs') end.
Lemma psum_shift x cs : forall k, 0 <= k -> psum x (k + 1) cs = mul x (psum x k cs).
Proof.
  induction cs as [|c cs IH]; intros k Hk; cbn [psum].
  - symmetry. exact (zmul_g0 edg x).
  - rewrite IH by lia. rewrite (zmul_gadd edg x (mul (x ^ k) c) (psum x (k + 1) cs) : mul x (eadd _ _) = eadd (mul x (mul (x ^ k) c)) (mul x (psum x (k + 1) cs))).
    f_equal. rewrite <- (emul_mul x (x ^ k) c). f_equal. rewrite Z.pow_add_r by lia. lia.
Qed.
Definition base_of (b : option point) (B : epoint) : Prop := match b with None => B = ebase | Some p => repr p B end.
Theorem C84_eval (commits : list point) (Cs : list epoint) (i : Z) : Forall2 repr commits Cs -> Cs <> [] -> 0 <= i < 2 ^ 63 - 1 ->
  exists p, ed_pub_eval commits i = Ok p /\ repr p (psum (1 + i) 0 Cs).
Proof.
  intros HC NE Hi. unfold ed_pub_eval. destruct commits as [|c0 cs0] eqn:EC; [inversion HC; subst; contradiction|]. rewrite <- EC in *. clear EC c0 cs0.
  assert (I1 : i64_of i = i) by (unfold i64_of; rewrite Z.mod_small; lia).
  assert (I2 : i64_of (1 + i) = 1 + i) by (unfold i64_of; rewrite Z.mod_small; lia). rewrite I1, I2.
  destruct (C27_setters_partial (repeat 0 32) (1 + i) [] (conj (bytes_repeat0 32) eq_refl) ltac:(lia) ltac:(constructor)) as [[xi [x [E [_ [_ Hx]]]]] _].
  rewrite E. cbn [bindo]. destruct (Hx eq_refl) as [[Bx Lx] [Rx Dx]]. eexists. split; [reflexivity|].
  assert (Vx : le_val xi = 1 + i).
  { destruct Dx as [k Dk]. assert (k = 0) by (unfold order in *; nia). lia. }
  clear E Hx. revert NE. rewrite <- fold_left_rev_right, rev_involutive.
  induction HC as [|c C cs Cs' Hc HC IH]; intros NE; [contradiction|]. cbn [fold_right psum]. rewrite (Z.pow_0_r).
  rewrite (zmul_1 edg C : mul 1 C = C). rewrite (psum_shift (1 + i) Cs' 0) by lia.
  unfold pub_step at 1. cbv zeta. rewrite eadd_comm. apply add_ok; [|exact Hc].
  set (v := fold_right _ _ cs) in *. set (P := psum (1 + i) 0 Cs') in *. assert (HV : repr v P).
  2:{ pose proof (mul_some_ok v xi v P Bx Lx ltac:(rewrite Vx; lia) HV) as M. rewrite Vx in M. exact M. }
  subst v P. destruct Cs' as [|C' Cs'']; [inversion HC; subst; cbn [fold_right psum]; apply null_ok|]. apply IH. discriminate.
Qed.
Print Assumptions C84_eval.
(** The check accepts a share exactly when v B is the value of the commitments at 1 + i. *)
Theorem C84_check (commits : list point) (Cs : list epoint) (b : option point) (B : epoint) (i : Z) (v : list Z) :
  Forall2 repr commits Cs -> Cs <> [] -> base_of b B -> 0 <= i < 2 ^ 63 - 1 -> scalar32 v -> le_val v < 2 ^ 255 ->
  exists r, ed_pub_check commits b i v = Ok r /\ (r = true <-> mul (le_val v) B = psum (1 + i) 0 Cs).
Proof.
  intros HC NE HB Hi [Bv Lv] Hv. destruct (C84_eval commits Cs i HC NE Hi) as [p [E HP]]. unfold ed_pub_check. rewrite E. cbn [bindo]. eexists. split; [reflexivity|].
  assert (HQ : repr (point_mul point_default v b) (mul (le_val v) B)).
  { destruct b as [q|]; cbn [base_of] in HB; [apply mul_some_ok; assumption|subst B; apply mul_base_small; assumption]. }
  rewrite (eqb_ok _ _ _ _ HP HQ). split; intros H; symmetry; exact H.
Qed.
Print Assumptions C84_check.
(** Commitments with a component of order 2: the shares at the indices 0 and 2 (x = 1, 3) of the polynomial 5 + 7 x pass the check, they interpolate to
    5, and commits[0] is the commitment of no secret; the honest share at index 1 is refused. *)
Theorem C84_refuted : exists (commits : list point) (C0 C1 : epoint), Forall2 repr commits [C0; C1] /\
  ed_pub_check commits None 0 (le_bytes 32 12) = Ok true /\ ed_pub_check commits None 2 (le_bytes 32 26) = Ok true /\
  ed_pub_check commits None 1 (le_bytes 32 19) = Ok false /\ (3 * 12 - 1 * 26 = 2 * 5) /\ (forall s, mul s ebase <> C0).
Proof.
  set (C0 := eadd (mul 5 ebase) half). set (C1 := eadd (mul 7 ebase) half).
  assert (HC : Forall2 repr [rep C0; rep C1] [C0; C1]) by (repeat (constructor; [apply rep_ok|]); constructor).
  exists [rep C0; rep C1], C0, C1. split; [exact HC|].
  assert (H2 : mul 2 half = e0) by (rewrite mul2; exact half_2).
  assert (Add : forall x, psum x 0 [C0; C1] = eadd (mul (5 + 7 * x) ebase) (mul (1 + x) half)).
  { intros x. cbn [psum]. change (0 + 1) with 1. rewrite Z.pow_0_r, Z.pow_1_r. unfold C0, C1.
    rewrite (zmul_gadd edg 1 (mul 5 ebase) half : mul 1 (eadd (mul 5 ebase) half) = eadd (mul 1 (mul 5 ebase)) (mul 1 half)).
    rewrite (zmul_gadd edg x (mul 7 ebase) half : mul x (eadd (mul 7 ebase) half) = eadd (mul x (mul 7 ebase)) (mul x half)).
    rewrite <- (emul_mul x 7 ebase). rewrite (zmul_1 edg (mul 5 ebase) : mul 1 (mul 5 ebase) = mul 5 ebase).
    rewrite (emul_add 5 (7 * x) ebase).
    rewrite (emul_add 1 x half).
    rewrite (Z.mul_comm x 7). set (a := mul 5 ebase). set (b := mul 7 ebase). set (c := mul (7 * x) ebase). set (d := mul 1 half). set (e := mul x half).
    rewrite (eadd_comm (eadd c e) e0), EdCurve.eadd_0. rewrite !GeBaseMul.eadd_assoc. f_equal. rewrite <- !GeBaseMul.eadd_assoc. f_equal. apply eadd_comm. }
  assert (Par : forall k, mul (2 * k) half = e0) by (intros k; rewrite Z.mul_comm, (emul_mul k 2 half), H2; exact (zmul_g0 edg k)).
  assert (Neq : forall s c, mul s ebase <> eadd (mul c ebase) half).
  { intros s c E. apply (f_equal (mul order)) in E. rewrite (zmul_gadd edg order (mul c ebase) half : mul order (eadd (mul c ebase) half) = eadd (mul order (mul c ebase)) (mul order half)) in E.
    rewrite (emul_comm_mul order s), (emul_comm_mul order c), (proj2 (base_order order)) in E by (exists 1; reflexivity).
    rewrite (zmul_g0 edg s : mul s e0 = e0), (zmul_g0 edg c : mul c e0 = e0), EdCurve.eadd_0 in E. change order with (2 * (order / 2) + 1) in E.
    rewrite emul_add, Par, emul_1, EdCurve.eadd_0 in E. symmetry in E. exact (half_nz E). }
  assert (S32 : forall n, scalar32 (le_bytes 32 n)) by (intros n; split; [apply le_bytes_bytes|apply le_bytes_length]).
  assert (V : forall n, 0 <= n < 2 ^ 64 -> le_val (le_bytes 32 n) = n /\ le_val (le_bytes 32 n) < 2 ^ 255).
  { intros n Hn. assert (E : le_val (le_bytes 32 n) = n) by (apply le_val_le_bytes_small; lia). rewrite E. split; [reflexivity|lia]. }
  assert (Chk : forall i n, 0 <= i < 2 ^ 32 -> 0 <= n < 2 ^ 64 -> exists r, ed_pub_check [rep C0; rep C1] None i (le_bytes 32 n) = Ok r /\
     (r = true <-> mul n ebase = eadd (mul (5 + 7 * (1 + i)) ebase) (mul (1 + (1 + i)) half))).
  { intros i n Hi Hn. destruct (V n Hn) as [V1 V2].
    destruct (C84_check [rep C0; rep C1] [C0; C1] None ebase i (le_bytes 32 n) HC ltac:(discriminate) eq_refl ltac:(lia) (S32 n) V2) as [r [E H]].
    exists r. split; [exact E|]. rewrite H, V1, Add. reflexivity. }
  split; [|split; [|split; [|split; [reflexivity|]]]].
  - destruct (Chk 0 12 ltac:(lia) ltac:(lia)) as [r [E H]]. rewrite E. f_equal. apply H. change (1 + (1 + 0)) with (2 * 1). rewrite Par, eadd_comm, EdCurve.eadd_0. reflexivity.
  - destruct (Chk 2 26 ltac:(lia) ltac:(lia)) as [r [E H]]. rewrite E. f_equal. apply H. change (1 + (1 + 2)) with (2 * 2). rewrite Par, eadd_comm, EdCurve.eadd_0. reflexivity.
  - destruct (Chk 1 19 ltac:(lia) ltac:(lia)) as [[|] [E H]]; [exfalso|exact E]. pose proof (proj1 H eq_refl) as Q.
    change (1 + (1 + 1)) with (2 * 1 + 1) in Q. rewrite (emul_add (2 * 1) 1 half), Par, emul_1, EdCurve.eadd_0 in Q. exact (Neq _ _ Q).
  - intros s E. exact (Neq s 5 E).
Qed.
Print Assumptions C84_refuted.
