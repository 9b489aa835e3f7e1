(** The scalars modulo l and the prime-order subgroup of the curve, with the operations computed by the code of scalar.rs and
    point.rs, and their laws: a field and a vector space over it. *)
From Coq Require Import ZArith Znumtheory String List Lia Bool Eqdep_dec ssrbool.
From Verif Require Import Base Bytes Limb ScLimbs IntModel ScModel ScProofs Primes Group Fp EdCurve GeMul GeBase GeBaseMul GeEnc EdOrder EdModel EdBytes PropsSc EdSpec
  PointModel PointProofs PointCurve.
Import ListNotations.
Local Open Scope Z_scope.

(** *** Scalars *)
Record fl := mkFl { lz : Z; lz_rng : (lz mod ell =? lz) = true }.
Lemma ell_nz : ell <> 0. Proof. discriminate. Qed.
Lemma modl_rng z : ((z mod ell) mod ell =? z mod ell) = true.
Proof. apply Z.eqb_eq. apply Z.mod_mod. exact ell_nz. Qed.
Definition of_l (z : Z) : fl := mkFl (z mod ell) (modl_rng z).
Lemma lz_inj a b : lz a = lz b -> a = b.
Proof. destruct a as [x Hx], b as [y Hy]. cbn [lz]. intros E. subst y. f_equal. apply UIP_dec. apply bool_dec. Qed.
Lemma lz_mod a : lz a mod ell = lz a. Proof. apply Z.eqb_eq. apply lz_rng. Qed.
Lemma lz_bound a : 0 <= lz a < ell. Proof. rewrite <- lz_mod. apply Z.mod_pos_bound. reflexivity. Qed.
Lemma of_l_lz a : of_l (lz a) = a. Proof. apply lz_inj. apply lz_mod. Qed.
Lemma of_l_eq x y : of_l x = of_l y <-> (ell | x - y).
Proof.
  split.
  - intros E. apply (f_equal lz) in E. cbn [lz of_l] in E. apply Z.mod_divide; [exact ell_nz|]. rewrite Zminus_mod, E, Z.sub_diag. reflexivity.
  - intros D. apply lz_inj. cbn [lz of_l]. apply Z.mod_divide in D; [|exact ell_nz]. rewrite <- (Z.sub_add y x). rewrite <- Zplus_mod_idemp_l, D. reflexivity.
Qed.

(** The 32 bytes of a reduced scalar, and the scalar that 32 bytes stand for. *)
Definition lbytes (a : fl) : list Z := le_bytes 32 (lz a).
Definition lof (b : list Z) : fl := of_l (le_val b).
Lemma ell_256 : ell <= 256 ^ Z.of_nat 32. Proof. discriminate. Qed.
Lemma lbytes_val a : le_val (lbytes a) = lz a.
Proof. apply le_val_le_bytes_small. pose proof (lz_bound a). pose proof ell_256. lia. Qed.
Lemma lbytes_32 a : scalar32 (lbytes a). Proof. split; [apply le_bytes_bytes|apply le_bytes_length]. Qed.
Lemma ell_255 : ell < 2 ^ 255. Proof. reflexivity. Qed.
Lemma lbytes_small a : le_val (lbytes a) < 2 ^ 255. Proof. rewrite lbytes_val. pose proof (lz_bound a). pose proof ell_255. lia. Qed.
Lemma lof_lbytes a : lof (lbytes a) = a. Proof. unfold lof. rewrite lbytes_val. apply of_l_lz. Qed.
Lemma lof_encodes r x : encodes r x -> lof r = of_l x.
Proof. intros [_ [_ D]]. apply of_l_eq. exact D. Qed.

(** scalar.rs 132-142 [add], [mul]; 216-221 [neg]; 155-158 [zero], 179-183 [one]; 192-214 [inv]. *)
Definition ladd (a b : fl) : fl := lof (scalar_add (lbytes a) (lbytes b)).
Definition lopp (a : fl) : fl := lof (scalar_neg (lbytes a)).
Definition lmul (a b : fl) : fl := lof (scalar_mul (lbytes a) (lbytes b)).
Definition l0 : fl := lof scalar_zero.
Definition l1 : fl := lof scalar_one.
Definition linv (a : fl) : fl := match scalar_inv (lbytes a) with Ok i => lof i | _ => l0 end.

Lemma l0E : l0 = of_l 0. Proof. apply lz_inj. vm_compute. reflexivity. Qed.
Lemma l1E : l1 = of_l 1. Proof. apply lz_inj. vm_compute. reflexivity. Qed.
Lemma laddE a b : ladd a b = of_l (lz a + lz b).
Proof. destruct (C23_arithmetic _ _ _ (lbytes_32 a) (lbytes_32 b) (lbytes_32 a)) as [H _]. unfold ladd. rewrite (lof_encodes _ _ H), !lbytes_val. reflexivity. Qed.
Lemma lmulE a b : lmul a b = of_l (lz a * lz b).
Proof. destruct (C23_arithmetic _ _ _ (lbytes_32 a) (lbytes_32 b) (lbytes_32 a)) as [_ [_ [H _]]]. unfold lmul. rewrite (lof_encodes _ _ H), !lbytes_val. reflexivity. Qed.
Lemma loppE a : lopp a = of_l (- lz a).
Proof. destruct (C23_arithmetic _ _ _ (lbytes_32 a) (lbytes_32 a) (lbytes_32 a)) as [_ [_ [_ [H _]]]]. unfold lopp. rewrite (lof_encodes _ _ H), lbytes_val. reflexivity. Qed.
Lemma of_l_dvd z k : (ell | lz (of_l z) * k - z * k).
Proof. cbn [lz of_l]. exists (- (z / ell) * k). pose proof (Z.div_mod z ell ell_nz). nia. Qed.
Lemma dvd1 z : (ell | lz (of_l z) - z). Proof. pose proof (of_l_dvd z 1) as H. now rewrite !Z.mul_1_r in H. Qed.

Lemma ladd_assoc a b c : ladd a (ladd b c) = ladd (ladd a b) c.
Proof.
  rewrite !laddE. apply of_l_eq. replace (_ - _) with ((lz (of_l (lz b + lz c)) - (lz b + lz c)) - (lz (of_l (lz a + lz b)) - (lz a + lz b))) by ring.
  apply Z.divide_sub_r; apply dvd1.
Qed.
Lemma ladd_comm a b : ladd a b = ladd b a. Proof. rewrite !laddE. f_equal. ring. Qed.
Lemma ladd_0 a : ladd l0 a = a. Proof. rewrite laddE, l0E. change (lz (of_l 0)) with 0. apply of_l_lz. Qed.
Lemma ladd_opp a : ladd (lopp a) a = l0.
Proof. rewrite laddE, loppE, l0E. apply of_l_eq. replace (_ - _) with (lz (of_l (- lz a)) - (- lz a)) by ring. apply dvd1. Qed.
Lemma lmul_assoc a b c : lmul a (lmul b c) = lmul (lmul a b) c.
Proof.
  rewrite !lmulE. apply of_l_eq.
  replace (_ - _) with ((lz (of_l (lz b * lz c)) * lz a - lz b * lz c * lz a) - (lz (of_l (lz a * lz b)) * lz c - lz a * lz b * lz c)) by ring.
  apply Z.divide_sub_r; apply of_l_dvd.
Qed.
Lemma lmul_comm a b : lmul a b = lmul b a. Proof. rewrite !lmulE. f_equal. ring. Qed.
Lemma lmul_1 a : lmul l1 a = a. Proof. rewrite lmulE, l1E. change (lz (of_l 1)) with 1. rewrite Z.mul_1_l. apply of_l_lz. Qed.
Lemma lmul_add a b c : lmul (ladd a b) c = ladd (lmul a c) (lmul b c).
Proof.
  rewrite !lmulE, !laddE. apply of_l_eq.
  replace (_ - _) with ((lz (of_l (lz a + lz b)) * lz c - (lz a + lz b) * lz c) - (lz (of_l (lz a * lz c)) - lz a * lz c) - (lz (of_l (lz b * lz c)) - lz b * lz c)) by ring.
  apply Z.divide_sub_r; [apply Z.divide_sub_r; [apply of_l_dvd|apply dvd1]|apply dvd1].
Qed.
Lemma l1_nz : l1 <> l0. Proof. rewrite l1E, l0E. intros E. discriminate (f_equal lz E). Qed.
Lemma l_zero a : a = l0 <-> (order | lz a).
Proof.
  rewrite l0E. split; [intros ->; exists 0; reflexivity|]. intros D. apply lz_inj. change (lz (of_l 0)) with 0. pose proof (lz_bound a) as B.
  destruct D as [k E]. change order with ell in E. assert (k = 0) by nia. lia.
Qed.
Lemma linv_l a : a <> l0 -> lmul (linv a) a = l1.
Proof.
  intros N. destruct (C24_inverse _ _ (lbytes_32 a) (lbytes_32 a)) as [i [d [E [_ [_ [Ri [_ [_ [H _]]]]]]]]]. unfold linv. rewrite E.
  rewrite lbytes_val in H. destruct H as [H _]; [intros D; apply N; now apply l_zero|]. rewrite lmulE, l1E. apply of_l_eq.
  cbn [lz lof of_l]. rewrite Z.mod_small; [exact H|exact Ri].
Qed.
Lemma linv_0 : linv l0 = l0.
Proof.
  destruct (C24_inverse _ _ (lbytes_32 l0) (lbytes_32 l0)) as [i [d [E [_ [_ [_ [_ [_ [_ H]]]]]]]]]. unfold linv. rewrite E.
  rewrite lbytes_val in H. destruct H as [H _]; [now apply l_zero|]. unfold lof. rewrite H. symmetry. exact l0E.
Qed.
(** [scalar().set_int64(n)]. *)
Lemma set_int64_l v : - 2 ^ 63 <= v < 2 ^ 63 -> exists r, scalar_set_int64 (repeat 0 32) v = Ok r /\ lof r = of_l v.
Proof.
  intros Hv. destruct (C27_setters_partial (repeat 0 32) v [] (conj (bytes_repeat0 32) eq_refl) Hv ltac:(constructor)) as [[r [x [E [_ [_ Hx]]]]] _].
  exists r. split; [exact E|]. exact (lof_encodes _ _ (Hx eq_refl)).
Qed.
(** [scalar.div(a, b)]. *)
Lemma div_l a b : exists d, scalar_div (lbytes a) (lbytes b) = Ok d /\ lof d = lmul a (linv b).
Proof.
  destruct (C24_inverse _ _ (lbytes_32 b) (lbytes_32 a)) as [i [d [E [Ed [Si [Ri [Sd [Rd [H H0]]]]]]]]]. exists d. split; [exact Ed|].
  unfold linv. rewrite E. rewrite !lbytes_val in *. destruct (Zdivide_dec order (lz b)) as [D|D].
  - destruct (H0 D) as [Hi Hd]. rewrite lmulE. unfold lof. rewrite Hi, Hd. change (lz (of_l 0)) with 0. now rewrite Z.mul_0_r.
  - destruct (H D) as [Hi Hd]. rewrite lmulE. unfold lof at 1. apply of_l_eq. cbn [lz lof of_l]. rewrite (Z.mod_small (le_val i)) by exact Ri.
    destruct (Zdivide_dec order (le_val d - lz a * le_val i)) as [Q|Q]; [exact Q|]. exfalso. apply Q.
    assert (G : (order | lz b * (le_val d - lz a * le_val i))).
    { replace (lz b * _) with ((le_val d * lz b - lz a) - lz a * (le_val i * lz b - 1)) by ring. apply Z.divide_sub_r; [exact Hd|]. now apply Z.divide_mul_r. }
    apply prime_mult in G; [destruct G; [contradiction|assumption]|exact ell_prime].
Qed.

(** *** The prime-order subgroup *)
Definition ep_eqb (P Q : epoint) : bool := (fz (ex P) =? fz (ex Q)) && (fz (ey P) =? fz (ey Q)).
Lemma ep_eqbP P Q : ep_eqb P Q = true <-> P = Q.
Proof.
  unfold ep_eqb. split; [|intros ->; rewrite !Z.eqb_refl; reflexivity]. intros H. apply andb_prop in H as [H1 H2].
  apply Z.eqb_eq in H1. apply Z.eqb_eq in H2. apply ep_inj; now apply fz_inj.
Qed.
Definition insub (P : epoint) : bool := ep_eqb (mul ell P) e0.
Lemma insubP P : insub P = true <-> mul ell P = e0. Proof. apply ep_eqbP. Qed.
Record sub := mkSub { sp : epoint; sp_in : insub sp = true }.
Lemma sp_inj P Q : sp P = sp Q -> P = Q.
Proof. destruct P as [x Hx], Q as [y Hy]. cbn [sp]. intros E. subst y. f_equal. apply UIP_dec. apply bool_dec. Qed.
Lemma sp_0 P : mul ell (sp P) = e0. Proof. apply insubP. apply sp_in. Qed.

Lemma in_add P Q : insub (padd ed25519 (sp P) (sp Q)) = true.
Proof.
  apply insubP. rewrite ed_add. rewrite (zmul_gadd edg ell (sp P) (sp Q) : mul ell (eadd (sp P) (sp Q)) = eadd (mul ell (sp P)) (mul ell (sp Q))).
  rewrite !sp_0. apply EdCurve.eadd_0.
Qed.
Lemma in_neg P : insub (pneg ed25519 (sp P)) = true.
Proof. apply insubP. rewrite ed_neg. rewrite (zmul_gneg edg ell (sp P) : mul ell (eneg (sp P)) = eneg (mul ell (sp P))), sp_0. exact (gneg_0 edg). Qed.
Lemma in_0 : insub (pzero ed25519) = true. Proof. apply insubP. rewrite ed_zero. exact (zmul_g0 edg ell). Qed.
Lemma in_base : insub (pbase ed25519) = true. Proof. apply insubP. rewrite ed_base. apply base_order. exists 1. reflexivity. Qed.
Lemma pmul_l a P : pmul ed25519 (lbytes a) P = mul (lz a) P.
Proof. rewrite ed_mul by apply lbytes_32. rewrite effective_id, lbytes_val; [reflexivity|]. pose proof (lz_bound a). pose proof ell_255. rewrite lbytes_val. lia. Qed.
Lemma in_scale a P : insub (pmul ed25519 (lbytes a) (sp P)) = true.
Proof. apply insubP. rewrite pmul_l, emul_comm_mul, sp_0. exact (zmul_g0 edg (lz a)). Qed.
(** point.rs 179-224 on the subgroup. *)
Definition gadd (P Q : sub) : sub := mkSub _ (in_add P Q).
Definition gopp (P : sub) : sub := mkSub _ (in_neg P).
Definition gnull : sub := mkSub _ in_0.
Definition gbase : sub := mkSub _ in_base.
Definition gscale (a : fl) (P : sub) : sub := mkSub _ (in_scale a P).

Lemma gadd_assoc P Q R : gadd P (gadd Q R) = gadd (gadd P Q) R. Proof. apply sp_inj. exact (ed_assoc (sp P) (sp Q) (sp R)). Qed.
Lemma gadd_comm P Q : gadd P Q = gadd Q P. Proof. apply sp_inj. exact (ed_comm (sp P) (sp Q)). Qed.
Lemma gadd_null P : gadd gnull P = P. Proof. apply sp_inj. exact (ed_0 (sp P)). Qed.
Lemma gadd_gopp P : gadd (gopp P) P = gnull. Proof. rewrite gadd_comm. apply sp_inj. exact (ed_opp (sp P)). Qed.
Lemma mul_mod j k P : (ell | j - k) -> mul j (sp P) = mul k (sp P).
Proof.
  intros [q E]. replace j with (q * ell + k) by lia. rewrite emul_add, emul_mul, sp_0. rewrite (zmul_g0 edg q : mul q e0 = e0). apply EdCurve.eadd_0.
Qed.
Lemma gscale_mul a b P : gscale a (gscale b P) = gscale (lmul a b) P.
Proof. apply sp_inj. cbn [gscale sp]. rewrite !pmul_l, <- emul_mul. symmetry. apply mul_mod. rewrite lmulE. apply dvd1. Qed.
Lemma gscale_1 P : gscale l1 P = P.
Proof. apply sp_inj. cbn [gscale sp]. rewrite pmul_l, l1E. change (lz (of_l 1)) with 1. apply emul_1. Qed.
Lemma gscale_gadd a P Q : gscale a (gadd P Q) = gadd (gscale a P) (gscale a Q).
Proof. apply sp_inj. cbn [gscale gadd sp]. rewrite !pmul_l, !ed_add. exact (zmul_gadd edg (lz a) (sp P) (sp Q)). Qed.
Lemma gscale_ladd a b P : gscale (ladd a b) P = gadd (gscale a P) (gscale b P).
Proof. apply sp_inj. cbn [gscale gadd sp]. rewrite !pmul_l, ed_add, <- emul_add. apply mul_mod. rewrite laddE. apply dvd1. Qed.
Lemma sp_gbase : sp gbase = ebase. Proof. exact ed_base. Qed.
Lemma sp_gnull : sp gnull = e0. Proof. exact ed_zero. Qed.
Lemma gbase_nz : gbase <> gnull.
Proof. intros E. apply ebase_nz. rewrite <- sp_gbase, <- sp_gnull. exact (f_equal sp E). Qed.
Lemma pmul_base_l a : pmul_base ed25519 (lbytes a) = mul (lz a) ebase.
Proof.
  destruct (lbytes_32 a) as [Hb Hl]. rewrite (ed_mul_base (lbytes a) Hb Hl). rewrite lbytes_val, effective_id; [reflexivity|].
  pose proof (lz_bound a). pose proof ell_255. lia.
Qed.
Lemma gscale_base a : sp (gscale a gbase) = pmul_base ed25519 (lbytes a).
Proof. rewrite pmul_base_l. transitivity (mul (lz a) (pbase ed25519)); [exact (pmul_l a (pbase ed25519))|]. rewrite ed_base. reflexivity. Qed.

(** Both are countable. *)
Lemma fl_nat a : of_l (Z.of_nat (Z.to_nat (lz a))) = a.
Proof. rewrite Z2Nat.id by apply lz_bound. apply of_l_lz. Qed.
Definition sub_code (P : sub) : nat * nat := (Z.to_nat (fz (ex (sp P))), Z.to_nat (fz (ey (sp P)))).
Definition sub_decode (n : nat * nat) : option sub :=
  match bool_dec (on_curveb (of_Z (Z.of_nat (fst n))) (of_Z (Z.of_nat (snd n)))) true with
  | left H => match bool_dec (insub (EP _ _ H)) true with left H' => Some (mkSub _ H') | right _ => None end
  | right _ => None
  end.
Lemma sub_codeK P : sub_decode (sub_code P) = Some P.
Proof.
  unfold sub_decode, sub_code. cbn [fst snd]. rewrite !Z2Nat.id by apply fz_bound. rewrite !of_Z_fz.
  destruct (bool_dec _ true) as [H|N].
  - assert (EP' : EP (ex (sp P)) (ey (sp P)) H = sp P) by (apply ep_inj; reflexivity).
    destruct (bool_dec _ true) as [H'|N']; [f_equal; apply sp_inj; exact EP'|]. exfalso. apply N'. rewrite EP'. apply sp_in.
  - exfalso. apply N. apply on_curveP. apply ep_on.
Qed.

Lemma of_l_succ n : ladd (of_l (Z.of_nat n)) l1 = of_l (Z.of_nat (n + 1)%nat).
Proof.
  rewrite laddE, l1E. change (lz (of_l 1)) with 1. apply of_l_eq. rewrite Nat2Z.inj_add. change (Z.of_nat 1) with 1.
  replace (lz (of_l (Z.of_nat n)) + 1 - (Z.of_nat n + 1)) with (lz (of_l (Z.of_nat n)) - Z.of_nat n) by ring. apply dvd1.
Qed.
Lemma of_l_ell : of_l (Z.of_nat (Z.to_nat ell)) = l0.
Proof. rewrite Z2Nat.id by discriminate. rewrite l0E. apply of_l_eq. exists 1. ring. Qed.
Lemma ell_gt1 : is_true (Nat.leb 2 (Z.to_nat ell)).
Proof. apply Nat.leb_le. apply (proj1 (Z2Nat.inj_le 2 ell ltac:(discriminate) ltac:(discriminate))). discriminate. Qed.
Lemma ell_gt2 : is_true (Nat.leb 3 (Z.to_nat ell)).
Proof. apply Nat.leb_le. apply (proj1 (Z2Nat.inj_le 3 ell ltac:(discriminate) ltac:(discriminate))). discriminate. Qed.
Lemma of_l_2 : of_l (Z.of_nat 2) <> l0.
Proof. rewrite l0E. intros E. discriminate (f_equal lz E). Qed.
Lemma ell_divisors q d : (q * d)%nat = Z.to_nat ell -> d = 1%nat \/ d = Z.to_nat ell.
Proof.
  intros E. apply (f_equal Z.of_nat) in E. rewrite Nat2Z.inj_mul, Z2Nat.id in E by discriminate.
  assert (D : (Z.of_nat d | ell)) by (exists (Z.of_nat q); symmetry; exact E).
  destruct (prime_divisors ell ell_prime (Z.of_nat d) D) as [H|[H|[H|H]]].
  - pose proof (Nat2Z.is_nonneg d). lia.
  - left. lia.
  - right. apply (f_equal Z.to_nat) in H. rewrite Nat2Z.id in H. exact H.
  - exfalso. pose proof (Nat2Z.is_nonneg d). pose proof (lz_bound l1). lia.
Qed.
