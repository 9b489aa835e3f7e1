(** Encoding and decoding of points (ge.rs [write_bytes], [to_bytes], [set_bytes]). *)
From Coq Require Import ZArith String List Lia Bool Ring Field.
From Verif Require Import Base Bytes Limb ScLimbs ScModel ScProofs FeLimbs FeModel FeProofs Primes Group Edwards Fp EdCurve GeConsts GeModel GeProofs.
Import ListNotations.
Local Open Scope Z_scope.

(** The encoding of RFC 8032, 5.1.2: y with the parity of x in the top bit. *)
Definition enc (P : epoint) : list Z := le_bytes 32 (fz (ey P) + 2 ^ 255 * (fz (ex P) mod 2)).
(** [s] encodes [P], possibly not canonically: y is read modulo p, and the sign bit is free when x = 0. *)
Definition ycoord (s : list Z) : Fp := of_Z (le_val s mod 2 ^ 255).
Definition sign_bit (s : list Z) : Z := le_val s / 2 ^ 255.
Definition decodes (s : list Z) (P : epoint) : Prop := ey P = ycoord s /\ (ex P = f0 \/ fz (ex P) mod 2 = sign_bit s).

Lemma parity_opp x : x <> f0 -> fz (fopp x) mod 2 = 1 - fz x mod 2.
Proof.
  intros N. assert (Nz : fz x <> 0) by (intros E; apply N; now apply fz_0). pose proof (fz_bound x) as B.
  assert (E : fz (fopp x) = prime_p - fz x).
  { change (fz (fopp x)) with ((- fz x) mod prime_p). symmetry. apply (Z.mod_unique_pos _ _ (-1)); lia. }
  rewrite E. change prime_p with (2 ^ 255 - 19) in *. pose proof (Z.div_mod (fz x) 2 ltac:(lia)) as D. pose proof (Z.mod_pos_bound (fz x) 2 ltac:(lia)) as R.
  symmetry. apply (Z.mod_unique_pos _ _ (2 ^ 254 - 10 - fz x / 2)); lia.
Qed.

Lemma den_v y : fadd (fmul (fmul y y) fd) f1 <> f0.
Proof.
  intros E. assert (Ny : y <> f0). { intros ->. apply f1_nz. rewrite <- E. ring. }
  apply (fd_ns (fdiv fi y)). apply fsub_0.
  transitivity (fdiv (fsub (fmul fi fi) (fmul (fmul y y) fd)) (fmul y y)); [field; exact Ny|].
  rewrite fi_sq. transitivity (fopp (fdiv (fadd (fmul (fmul y y) fd) f1) (fmul y y))); [field; exact Ny|]. rewrite E. field. exact Ny.
Qed.
(** The curve equation solved for x^2. *)
Lemma on_curve_x x y : on_curve x y <-> fmul (fadd (fmul (fmul y y) fd) f1) (fmul x x) = fsub (fmul y y) f1.
Proof.
  unfold on_curve. split; intros H.
  - transitivity (fsub (fsub (fadd f1 (fmul (fmul (fmul (fmul fd x) x) y) y)) f1) (fopp (fmul x x))); [ring|]. rewrite <- H. ring.
  - transitivity (fadd (fsub (fsub (fmul y y) f1) (fmul x x)) f1); [ring|]. rewrite <- H. ring.
Qed.
Lemma same_y P Q : ey P = ey Q -> ex P = ex Q \/ ex P = fopp (ex Q).
Proof.
  intros E. pose proof (proj1 (on_curve_x _ _) (ep_on P)) as HP. pose proof (proj1 (on_curve_x _ _) (ep_on Q)) as HQ. rewrite <- E in HQ.
  apply sq_eq. pose proof (den_v (ey P)) as N. set (v := fadd _ f1) in *. rewrite <- HQ in HP.
  apply fsub_0. transitivity (fdiv (fsub (fmul v (fmul (ex P) (ex P))) (fmul v (fmul (ex Q) (ex Q)))) v); [field; exact N|]. rewrite HP. field. exact N.
Qed.
Lemma decodes_unique s P Q : decodes s P -> decodes s Q -> P = Q.
Proof.
  intros [E1 S1] [E2 S2]. assert (E : ey P = ey Q) by congruence. apply ep_inj; [|exact E].
  assert (O0 : fopp f0 = f0) by ring.
  destruct (same_y P Q E) as [X|X]; [exact X|]. destruct (fp_dec (ex Q) f0) as [Z|N]; [rewrite X, Z; exact O0|].
  assert (NP : ex P <> f0). { intros Z. apply N. transitivity (fopp (ex P)); [rewrite X; ring|rewrite Z; exact O0]. }
  destruct S1 as [S1|S1]; [contradiction|]. destruct S2 as [S2|S2]; [contradiction|].
  pose proof (parity_opp (ex Q) N) as H. rewrite <- X in H. pose proof (Z.mod_pos_bound (fz (ex Q)) 2 ltac:(lia)). lia.
Qed.

Lemma enc_val P : le_val (enc P) = fz (ey P) + 2 ^ 255 * (fz (ex P) mod 2).
Proof.
  unfold enc. apply le_val_le_bytes_small. change (256 ^ Z.of_nat 32) with (2 ^ 256).
  pose proof (fz_bound (ey P)) as B. pose proof (Z.mod_pos_bound (fz (ex P)) 2 ltac:(lia)). change prime_p with (2 ^ 255 - 19) in B. lia.
Qed.
Lemma enc_bytes P : bytes (enc P). Proof. apply le_bytes_bytes. Qed.
Lemma enc_length P : length (enc P) = 32%nat. Proof. apply le_bytes_length. Qed.
Lemma enc_parts P : le_val (enc P) mod 2 ^ 255 = fz (ey P) /\ sign_bit (enc P) = fz (ex P) mod 2.
Proof.
  unfold sign_bit. rewrite enc_val. pose proof (fz_bound (ey P)) as B. change prime_p with (2 ^ 255 - 19) in B. split; symmetry.
  - apply (Z.mod_unique_pos _ _ (fz (ex P) mod 2)); lia.
  - apply (Z.div_unique_pos _ _ _ (fz (ey P))); lia.
Qed.
Lemma enc_decodes P : decodes (enc P) P.
Proof. destruct (enc_parts P) as [E1 E2]. split; [unfold ycoord; rewrite E1, of_Z_fz; reflexivity|right; now symmetry]. Qed.
Lemma enc_inj P Q : enc P = enc Q -> P = Q.
Proof. intros E. apply (decodes_unique (enc P)); [apply enc_decodes|rewrite E; apply enc_decodes]. Qed.

(** ** write_bytes *)

Lemma invert_v f : loose f -> tight (fe_invert f) /\ fv (fe_invert f) = finv (fv f).
Proof.
  intros H. destruct (fe_invert_ok f H) as [T [_ E]]. split; [exact T|]. rewrite finv_pow. unfold fv. rewrite <- of_pow. now apply of_Z_eq.
Qed.
Lemma fv_val f : fval f mod prime_p = fz (fv f). Proof. reflexivity. Qed.

Lemma xor_top_ok v b : 0 <= v < 2 ^ 255 -> 0 <= b <= 1 -> xor_top (le_bytes 32 v) (u8 (Z.shiftl b 7)) = le_bytes 32 (v + 2 ^ 255 * b).
Proof.
  intros Hv Hb. unfold xor_top.
  set (l := le_bytes 32 v). assert (Hl : length l = 32%nat) by apply le_bytes_length. assert (Bl : bytes l) by apply le_bytes_bytes.
  assert (El : le_val l = v) by (apply le_val_le_bytes_small; change (256 ^ Z.of_nat 32) with (2 ^ 256); lia).
  clearbody l. assert (S : l = firstn 31 l ++ [nth 31 l 0]).
  { rewrite <- (firstn_skipn 31 l) at 1. f_equal. clear - Hl. do 32 (destruct l as [|? l]; [discriminate Hl|]). destruct l; [reflexivity|discriminate Hl]. }
  assert (F : length (firstn 31 l) = 31%nat) by (rewrite firstn_length; lia).
  assert (Bf : bytes (firstn 31 l)) by (rewrite S in Bl; apply Forall_app in Bl; tauto).
  assert (Bt : is_byte (nth 31 l 0)) by (rewrite S in Bl; apply Forall_app in Bl; destruct Bl as [_ Bl]; now inversion Bl).
  set (f := firstn 31 l) in *. set (t := nth 31 l 0) in *. clearbody f t. subst l.
  rewrite le_val_app, F in El. cbn [le_val] in El. change (256 ^ Z.of_nat 31) with (2 ^ 248) in El.
  pose proof (le_val_bound f Bf) as Bv. rewrite F in Bv. change (256 ^ Z.of_nat 31) with (2 ^ 248) in Bv. unfold is_byte in Bt.
  assert (Ht : t < 128) by lia.
  assert (X : Z.lxor t (u8 (Z.shiftl b 7)) = t + 128 * b).
  { assert (b = 0 \/ b = 1) as [->| ->] by lia; [change (u8 (Z.shiftl 0 7)) with 0; rewrite Z.lxor_0_r; lia|].
    change (u8 (Z.shiftl 1 7)) with 128. change (128 * 1) with 128. symmetry. apply Z.add_nocarry_lxor.
    change 128 with (2 ^ 7). apply Z.bits_inj'. intros n Hn. rewrite Z.land_spec, Z.bits_0. destruct (Z.eq_dec n 7) as [->|Nn].
    - rewrite Z.testbit_eqb by lia. rewrite Z.div_small by (change (2 ^ 7) with 128; lia). reflexivity.
    - rewrite (Z.pow2_bits_false 7 n) by lia. apply andb_false_r. }
  apply le_val_inj.
  - apply Forall_app. split; [exact Bf|]. constructor; [|constructor]. rewrite X. unfold is_byte. lia.
  - apply le_bytes_bytes.
  - rewrite le_bytes_length, app_length, F. reflexivity.
  - rewrite le_val_app, F. cbn [le_val]. change (256 ^ Z.of_nat 31) with (2 ^ 248). rewrite X.
    rewrite le_val_le_bytes_small by (change (256 ^ Z.of_nat 32) with (2 ^ 256); lia). lia.
Qed.

Lemma frac_bytes_ok x y z P : tight x -> tight y -> tight z -> proj_of (fv x) (fv y) (fv z) P -> frac_bytes x y z = enc P.
Proof.
  intros Tx Ty Tz [N [Ex Ey]]. unfold frac_bytes. cbv zeta. destruct (invert_v z (t_loose _ Tz)) as [Ti Ei].
  destruct (mul_v x (fe_invert z) (t_loose _ Tx) (t_loose _ Ti)) as [T1 E1]. destruct (mul_v y (fe_invert z) (t_loose _ Ty) (t_loose _ Ti)) as [T2 E2].
  rewrite fe_to_bytes_ok by now apply t_loose. rewrite fe_is_negative_ok by now apply t_loose. rewrite !fv_val, E1, E2, Ei, Ex, Ey.
  replace (fmul (fmul (ex P) (fv z)) (finv (fv z))) with (ex P) by (field; exact N).
  replace (fmul (fmul (ey P) (fv z)) (finv (fv z))) with (ey P) by (field; exact N).
  apply xor_top_ok.
  - pose proof (fz_bound (ey P)) as B. change prime_p with (2 ^ 255 - 19) in B. lia.
  - pose proof (Z.mod_pos_bound (fz (ex P)) 2 ltac:(lia)). lia.
Qed.
Theorem write_bytes_ok e P : ext_ok e P -> ext_write_bytes e = enc P.
Proof. intros [[Tx [Ty [Tz Tt]]] H]. exact (frac_bytes_ok _ _ _ P Tx Ty Tz (EdCurve.ext_proj _ _ _ _ _ H)). Qed.
Theorem proj_to_bytes_ok p P : proj_ok p P -> proj_to_bytes p = enc P.
Proof. intros [[Tx [Ty Tz]] H]. exact (frac_bytes_ok _ _ _ P Tx Ty Tz H). Qed.

(** ** set_bytes *)

Lemma pow_v f : loose f -> tight (fe_pow22523 f) /\ fv (fe_pow22523 f) = fpow (fv f) (2 ^ 252 - 3).
Proof.
  intros H. destruct (fe_pow22523_ok f H) as [T [_ E]]. split; [exact T|]. unfold fv. rewrite <- of_pow. now apply of_Z_eq.
Qed.
Lemma add12_v f g : tight f -> loose2 g -> loose3 (fe_add f g) /\ fv (fe_add f g) = fadd (fv f) (fv g).
Proof.
  intros Hf Hg. destruct (fe_add_ok TE TO (2 * TE) (2 * TO) f g eq_refl eq_refl Hf Hg) as [T E]. split; [exact T|]. unfold fv. now rewrite E, of_add.
Qed.
Lemma non_zero_v f : loose f -> (fe_is_non_zero f =? 1) = negb (fz (fv f) =? 0).
Proof. intros H. rewrite fe_is_non_zero_ok by exact H. rewrite fv_val. destruct (fz (fv f) =? 0); reflexivity. Qed.
Lemma from_bytes_v s : bytes s -> length s = 32%nat -> tight (fe_from_bytes s) /\ fv (fe_from_bytes s) = ycoord s.
Proof. intros Hb Hl. destruct (fe_from_bytes_ok s Hb Hl) as [T E]. split; [exact T|]. unfold fv, ycoord. now apply of_Z_eq. Qed.

(** The square-root candidate: with k = (p - 5) / 8 and t = u v^7, x = t^k v^3 u satisfies v x^2 = u t^((p-1)/4). *)
Definition rootx (u v : Fp) : Fp :=
  let v3 := fmul (fmul v v) v in fmul (fmul (fpow (fmul (fmul (fmul v3 v3) v) u) (2 ^ 252 - 3)) v3) u.
Definition troot (u v : Fp) : Fp := fmul (fmul (fmul (fmul (fmul v v) v) (fmul (fmul v v) v)) v) u.
Definition quart : Z := 2 * (2 ^ 252 - 3) + 1.
Lemma rootx_sq u v : fmul (fmul (rootx u v) (rootx u v)) v = fmul u (fpow (troot u v) quart).
Proof.
  unfold rootx, quart. cbv zeta. fold (troot u v). rewrite fpow_add, fpow_1 by lia.
  replace (2 * (2 ^ 252 - 3)) with ((2 ^ 252 - 3) + (2 ^ 252 - 3)) by lia. rewrite fpow_add by lia.
  generalize (fpow (troot u v) (2 ^ 252 - 3)). intros w. unfold troot. ring.
Qed.
Lemma quart_half t : fmul (fpow t quart) (fpow t quart) = fpow t (Z.pos phalf).
Proof. rewrite <- fpow_add by (unfold quart; lia). f_equal. Qed.
Lemma half_sq t : t <> f0 -> fpow t (Z.pos phalf) = f1 \/ fpow t (Z.pos phalf) = fopp f1.
Proof.
  intros N. apply sq_eq. transitivity f1; [|ring]. rewrite <- fpow_add by lia. change (Z.pos phalf + Z.pos phalf) with (prime_p - 1). now apply fpow_fermat.
Qed.
Lemma m1_nz : fopp f1 <> f1.
Proof. intros E. apply f2_nz. transitivity (fsub f1 (fopp f1)); [ring|rewrite E; ring]. Qed.
(** Neither quotient of v x^2 by u is 1 or -1: u/v is not a square. *)
Lemma no_root u v : v <> f0 -> u <> f0 -> fpow (troot u v) quart <> f1 -> fpow (troot u v) quart <> fopp f1 -> forall x, fmul v (fmul x x) <> u.
Proof.
  intros Nv Nu N1 N2 x E.
  assert (Nx : x <> f0). { intros ->. apply Nu. rewrite <- E. ring. }
  set (v4 := fmul (fmul v v) (fmul v v)). assert (Nv4 : v4 <> f0) by (unfold v4; apply fmul_nz; apply fmul_nz; exact Nv).
  assert (Et : troot u v = fmul (fmul v4 x) (fmul v4 x)) by (unfold troot, v4; rewrite <- E; ring).
  assert (H : fpow (troot u v) (Z.pos phalf) = f1) by (rewrite Et; apply sq_half; now apply fmul_nz).
  rewrite <- quart_half in H. destruct (sq_eq (fpow (troot u v) quart) f1) as [C|C]; [rewrite H; ring|contradiction|contradiction].
Qed.

Lemma sign_nth s : bytes s -> length s = 32%nat -> Z.shiftr (nth 31 s 0) 7 = sign_bit s /\ 0 <= sign_bit s <= 1.
Proof.
  intros Bl Hl.
  assert (S : s = firstn 31 s ++ [nth 31 s 0]).
  { rewrite <- (firstn_skipn 31 s) at 1. f_equal. clear - Hl. do 32 (destruct s as [|? s]; [discriminate Hl|]). destruct s; [reflexivity|discriminate Hl]. }
  assert (F : length (firstn 31 s) = 31%nat) by (rewrite firstn_length; lia).
  assert (Bf : bytes (firstn 31 s)) by (rewrite S in Bl; apply Forall_app in Bl; tauto).
  assert (Bt : is_byte (nth 31 s 0)) by (rewrite S in Bl; apply Forall_app in Bl; destruct Bl as [_ Bl']; now inversion Bl').
  assert (El : le_val s = le_val (firstn 31 s) + 2 ^ 248 * nth 31 s 0).
  { rewrite S at 1. rewrite le_val_app, F. cbn [le_val]. change (256 ^ Z.of_nat 31) with (2 ^ 248). lia. }
  pose proof (le_val_bound _ Bf) as Bv. rewrite F in Bv. change (256 ^ Z.of_nat 31) with (2 ^ 248) in Bv.
  unfold sign_bit. rewrite El. set (f := le_val (firstn 31 s)) in *. set (t := nth 31 s 0) in *. clearbody f t. clear - Bt Bv. unfold is_byte in Bt.
  rewrite Z.shiftr_div_pow2 by lia. change (2 ^ 7) with 128. pose proof (Z.div_mod t 128 ltac:(lia)) as D. pose proof (Z.mod_pos_bound t 128 ltac:(lia)) as R.
  assert (E : (f + 2 ^ 248 * t) / 2 ^ 255 = t / 128) by (symmetry; apply (Z.div_unique_pos _ _ _ (f + 2 ^ 248 * (t mod 128))); lia).
  rewrite E. split; [reflexivity|]. lia.
Qed.

Definition set_bytes_post (self : ext) (s : list Z) (r : bool * ext) : Prop :=
  match r with
  | (true, e) => exists P, ext_ok e P /\ decodes s P
  | (false, _) => forall P, ey P <> ycoord s
  end.

(** The two exits of set_bytes once a root is found. *)
Lemma fix_sign_ok s x y u v : bytes s -> length s = 32%nat -> tight x -> tight y -> fv y = ycoord s ->
  u = fsub (fmul (fv y) (fv y)) f1 -> v = fadd (fmul (fmul (fv y) (fv y)) fd) f1 -> fmul v (fmul (fv x) (fv x)) = u ->
  exists P, ext_ok (fix_sign s x y) P /\ decodes s P.
Proof.
  intros Hb Hl Tx Ty Ey Hu Hv Hr. destruct (sign_nth s Hb Hl) as [Es Bs]. unfold fix_sign. rewrite Es. rewrite fe_is_negative_ok by now apply t_loose. rewrite fv_val.
  set (x' := if negb _ then fe_neg x else x). cbv zeta.
  assert (H' : tight x' /\ fmul v (fmul (fv x') (fv x')) = u /\ (fv x' = f0 \/ fz (fv x') mod 2 = sign_bit s)).
  { unfold x'. destruct (Z.eqb_spec (fz (fv x) mod 2) (sign_bit s)) as [E|N]; cbn [negb]; [split; [exact Tx|split; [exact Hr|now right]]|].
    destruct (neg_v x Tx) as [Tn En]. split; [exact Tn|]. rewrite En. split; [rewrite <- Hr; ring|].
    destruct (fp_dec (fv x) f0) as [Z0|Nz]; [left; rewrite Z0; ring|right]. rewrite parity_opp by exact Nz.
    pose proof (Z.mod_pos_bound (fz (fv x)) 2 ltac:(lia)). lia. }
  clearbody x'. destruct H' as [Tx' [Hr' Hs']].
  assert (On : on_curve (fv x') (fv y)) by (apply on_curve_x; rewrite <- Hu, <- Hv; exact Hr').
  exists (EP (fv x') (fv y) (proj2 (on_curveP _ _) On)). destruct (mul_v x' y (t_loose _ Tx') (t_loose _ Ty)) as [Tt Et]. destruct one_v as [T1 E1].
  split; [|split; [exact Ey|exact Hs']]. split; cbn [ge_x ge_y ge_z ge_t].
  - split; [exact Tx'|]. split; [exact Ty|]. split; [exact T1|exact Tt].
  - unfold ext_of. cbn [ex ey]. rewrite E1, Et. split; [exact f1_nz|]. split; [ring|split; ring].
Qed.

Lemma root_cand_ok y : tight y ->
  let '(u, x, w) := root_cand y in
  let U := fsub (fmul (fv y) (fv y)) f1 in let V := fadd (fmul (fmul (fv y) (fv y)) fd) f1 in
  loose2 u /\ tight x /\ tight w /\ fv u = U /\ fv x = rootx U V /\ fv w = fmul (fmul (fv x) (fv x)) V.
Proof.
  intros Ty. unfold root_cand. cbv zeta.
  destruct (square_v y (t_loose _ Ty)) as [Tu0 Eu0]. set (u0 := fe_square y) in *. clearbody u0.
  destruct D_v as [TD ED]. destruct one_v as [T1 E1].
  destruct (mul_v u0 ED_D (t_loose _ Tu0) (t_loose _ TD)) as [Tv0 Ev0]. set (v0 := fe_mul u0 ED_D) in *. clearbody v0.
  destruct (sub_v u0 fe_one Tu0 T1) as [Lu Eu]. set (u := fe_sub u0 fe_one) in *. clearbody u.
  destruct (add_v v0 fe_one Tv0 T1) as [Lv Ev]. set (v := fe_add v0 fe_one) in *. clearbody v.
  destruct (square_v v (l2_loose _ Lv)) as [Tv2 Ev2]. set (v2 := fe_square v) in *. clearbody v2.
  destruct (mul_v v2 v (t_loose _ Tv2) (l2_loose _ Lv)) as [Tv3 Ev3]. set (v3 := fe_mul v2 v) in *. clearbody v3.
  destruct (square_v v3 (t_loose _ Tv3)) as [Ta Ea]. set (a := fe_square v3) in *. clearbody a.
  destruct (mul_v a v (t_loose _ Ta) (l2_loose _ Lv)) as [Ta2 Ea2]. set (a2 := fe_mul a v) in *. clearbody a2.
  destruct (mul_v a2 u (t_loose _ Ta2) (l2_loose _ Lu)) as [Ta3 Ea3]. set (a3 := fe_mul a2 u) in *. clearbody a3.
  destruct (pow_v a3 (t_loose _ Ta3)) as [Ta4 Ea4]. set (a4 := fe_pow22523 a3) in *. clearbody a4.
  destruct (mul_v a4 v3 (t_loose _ Ta4) (t_loose _ Tv3)) as [Ta5 Ea5]. set (a5 := fe_mul a4 v3) in *. clearbody a5.
  destruct (mul_v a5 u (t_loose _ Ta5) (l2_loose _ Lu)) as [Tx Ex]. set (x := fe_mul a5 u) in *. clearbody x.
  destruct (square_v x (t_loose _ Tx)) as [Tx2 Ex2]. set (x2 := fe_square x) in *. clearbody x2.
  destruct (mul_v x2 v (t_loose _ Tx2) (l2_loose _ Lv)) as [Tw Ew]. set (w := fe_mul x2 v) in *. clearbody w.
  rewrite E1, Eu0 in Eu. rewrite E1, Ev0, ED, Eu0 in Ev. rewrite <- Eu, <- Ev.
  split; [exact Lu|]. split; [exact Tx|]. split; [exact Tw|]. split; [reflexivity|].
  split; [|rewrite Ew, Ex2; reflexivity]. unfold rootx. cbv zeta. rewrite Ex, Ea5, Ea4, Ea3, Ea2, Ea, Ev3, Ev2. reflexivity.
Qed.

Theorem set_bytes_ok self s : bytes s -> length s = 32%nat -> set_bytes_post self s (ext_set_bytes self s).
Proof.
  intros Hb Hl. unfold ext_set_bytes. rewrite Hl. cbn [Nat.eqb negb].
  destruct (from_bytes_v s Hb Hl) as [Ty Ey]. set (y := fe_from_bytes s) in *. clearbody y. cbv zeta.
  pose proof (root_cand_ok y Ty) as RC. destruct (root_cand y) as [[u x] w]. cbv zeta in RC. destruct RC as [Lu [Tx [Tw [Eu [Ex Ew]]]]].
  destruct (sub12_v w u Tw Lu) as [Lc1 Ec1]. destruct (add12_v w u Tw Lu) as [Lc2 Ec2].
  rewrite (non_zero_v _ (l3_loose _ Lc1)), (non_zero_v _ (l3_loose _ Lc2)), Ec1, Ec2. clear Ec1 Ec2 Lc1 Lc2.
  pose proof (den_v (fv y)) as Nv. set (V := fadd (fmul (fmul (fv y) (fv y)) fd) f1) in *. set (U := fsub (fmul (fv y) (fv y)) f1) in *.
  assert (Rt : fmul (fmul (fv x) (fv x)) V = fmul U (fpow (troot U V) quart)) by (rewrite Ex; apply rootx_sq).
  rewrite Eu, Ew, Rt. pose proof (no_root U V Nv) as NR. set (c := fpow (troot U V) quart) in *. clearbody c.
  destruct (Z.eqb_spec (fz (fsub (fmul U c) U)) 0) as [Z1|Z1]; cbn [negb].
  - apply fz_0, fsub_0 in Z1. cbn [set_bytes_post]. apply (fix_sign_ok s x y U V Hb Hl Tx Ty Ey eq_refl eq_refl).
    transitivity (fmul (fmul (fv x) (fv x)) V); [ring|]. rewrite Rt. exact Z1.
  - destruct (Z.eqb_spec (fz (fadd (fmul U c) U)) 0) as [Z2|Z2]; cbn [negb].
    + destruct SQRT_M1_v as [Ti Ei]. destruct (mul_v x SQRT_M1 (t_loose _ Tx) (t_loose _ Ti)) as [Txi Exi]. rewrite Ei in Exi.
      set (xi := fe_mul x SQRT_M1) in *. clearbody xi. cbn [set_bytes_post].
      apply (fix_sign_ok s xi y U V Hb Hl Txi Ty Ey eq_refl eq_refl). rewrite Exi. apply fz_0 in Z2.
      transitivity (fmul (fmul (fmul (fv x) (fv x)) V) (fmul fi fi)); [ring|]. rewrite fi_sq, Rt. apply fsub_0.
      transitivity (fopp (fadd (fmul U c) U)); [ring|]. rewrite Z2. ring.
    + cbn [set_bytes_post]. intros P EP.
      assert (Nu : U <> f0). { intros E. apply Z1. rewrite E. apply fz_0. ring. }
      apply (NR Nu) with (x := ex P).
      * intros E. apply Z1. rewrite E. apply fz_0. ring.
      * intros E. apply Z2. rewrite E. apply fz_0. ring.
      * pose proof (proj1 (on_curve_x _ _) (ep_on P)) as H. rewrite EP, <- Ey in H. exact H.
Qed.
Lemma set_bytes_len self s : length s <> 32%nat -> ext_set_bytes self s = (false, self).
Proof. intros H. unfold ext_set_bytes. apply Nat.eqb_neq in H. rewrite H. reflexivity. Qed.
