(** The point operations of EdModel made from the code of point.rs: a point of the curve is given to the code in one
    representation (limbs of x, y, 1, xy), and what the code returns is read as a point again.  [repr_independent]-style
    lemmas of PointProofs say that every other representation gives the same.  The record satisfies the laws of EdSpec. *)
From Coq Require Import ZArith String List Lia Bool Sumbool Ring Field Znumtheory ssrbool.
From Verif Require Import Base Bytes Limb ScLimbs IntModel RandModel RandProofs ScModel ScProofs FeLimbs FeModel FeProofs Primes Group Edwards Fp EdCurve
  GeConsts GeModel GeProofs GeMul GeBase GeBaseMul GeEnc GeVar EdOrder EdModel EdBytes PropsSc EdSpec PointModel PointProofs.
Import ListNotations.
Local Open Scope Z_scope.

Opaque ge_scalar_mult ge_scalar_mult_base ge_scalar_mult_vartime ext_set_bytes ext_write_bytes to_extended comp_add comp_sub write_cached ext_neg.

(** Limbs of a field element. *)
Definition fe_of (a : Fp) : fe := fe_from_bytes (le_bytes 32 (fz a)).
Definition rep (P : epoint) : point := Pt (Ext (fe_of (ex P)) (fe_of (ey P)) fe_one (fe_of (fmul (ex P) (ey P)))) false.
(** The point that coordinates stand for (the neutral one when they stand for none). *)
Definition pt_of (p : point) : epoint :=
  let e := p_ge p in
  let x := fdiv (fv (ge_x e)) (fv (ge_z e)) in
  let y := fdiv (fv (ge_y e)) (fv (ge_z e)) in
  match Sumbool.sumbool_of_bool (on_curveb x y) with left H => EP x y H | right _ => e0 end.

Lemma fe_of_ok a : tight (fe_of a) /\ fv (fe_of a) = a.
Proof.
  destruct (from_bytes_v (le_bytes 32 (fz a)) (le_bytes_bytes _ _) (le_bytes_length _ _)) as [T E]. split; [exact T|].
  unfold fe_of. rewrite E. unfold ycoord. pose proof (fz_bound a) as B. change prime_p with (2 ^ 255 - 19) in B.
  rewrite le_val_le_bytes_small by (change (256 ^ Z.of_nat 32) with (2 ^ 256); lia). rewrite Z.mod_small by lia. apply of_Z_fz.
Qed.
Lemma rep_ok P : repr (rep P) P.
Proof.
  destruct (fe_of_ok (ex P)) as [T1 E1]. destruct (fe_of_ok (ey P)) as [T2 E2]. destruct (fe_of_ok (fmul (ex P) (ey P))) as [T3 E3]. destruct one_v as [T4 E4].
  unfold repr, rep. cbn [p_ge]. split; cbn [ge_x ge_y ge_z ge_t]; [repeat (split; [assumption|]); assumption|].
  rewrite E1, E2, E3, E4. split; [exact f1_nz|]. split; [ring|]. split; ring.
Qed.
Lemma pt_of_ok p P : repr p P -> pt_of p = P.
Proof.
  intros [_ [N [E1 [E2 _]]]]. unfold pt_of. cbv zeta. set (e := p_ge p) in *.
  assert (X : fdiv (fv (ge_x e)) (fv (ge_z e)) = ex P) by (rewrite E1; field; exact N).
  assert (Y : fdiv (fv (ge_y e)) (fv (ge_z e)) = ey P) by (rewrite E2; field; exact N).
  destruct (Sumbool.sumbool_of_bool _) as [H|H].
  - apply ep_inj; [exact X|exact Y].
  - exfalso. rewrite X, Y, (e_on P) in H. discriminate H.
Qed.

(** point.rs, through [rep] and [pt_of]. *)
Definition ed25519 : curve := {|
  pt := epoint;
  pzero := pt_of (point_null point_default);
  padd := fun P Q => pt_of (point_add point_default (rep P) (rep Q));
  pneg := fun P => pt_of (point_neg point_default (rep P));
  pbase := pt_of (point_base point_default);
  pmul := fun s P => pt_of (point_mul point_default s (Some (rep P)));
  pmul_base := fun s => pt_of (point_mul point_default s None);
  penc := fun P => point_marshal (rep P);
  pdec := fun b => match point_unmarshal point_default b with (Ok _, p) => Some (pt_of p) | _ => None end;
  peq := fun P Q => point_eqb (rep P) (rep Q)
|}.

Lemma ed_zero : pzero ed25519 = e0. Proof. exact (pt_of_ok _ _ (null_ok _)). Qed.
Lemma ed_add P Q : padd ed25519 P Q = eadd P Q. Proof. exact (pt_of_ok _ _ (add_ok _ _ _ _ _ (rep_ok P) (rep_ok Q))). Qed.
Lemma ed_neg P : pneg ed25519 P = eneg P. Proof. exact (pt_of_ok _ _ (neg_ok _ _ _ (rep_ok P))). Qed.
Lemma ed_base : pbase ed25519 = ebase. Proof. exact (pt_of_ok _ _ (base_ok _)). Qed.
Lemma ed_mul s P : bytes s -> length s = 32%nat -> pmul ed25519 s P = mul (effective (le_val s)) P.
Proof. intros Hb Hl. exact (pt_of_ok _ _ (mul_ct_ok point_default s _ _ eq_refl Hb Hl (rep_ok P))). Qed.
Lemma ed_mul_base s : bytes s -> length s = 32%nat -> pmul_base ed25519 s = mul (effective (le_val s)) ebase.
Proof. intros Hb Hl. exact (pt_of_ok _ _ (mul_none_ok point_default s Hb Hl)). Qed.
Lemma ed_enc P : penc ed25519 P = enc P. Proof. exact (marshal_ok _ _ (rep_ok P)). Qed.
Lemma ed_eq P Q : peq ed25519 P Q = true <-> P = Q. Proof. exact (eqb_ok _ _ _ _ (rep_ok P) (rep_ok Q)). Qed.
Lemma ed_dec b P : bytes b -> (pdec ed25519 b = Some P <-> length b = 32%nat /\ decodes b P).
Proof.
  intros Hb. unfold ed25519. cbn [pdec]. pose proof (unmarshal_ok point_default b Hb) as U.
  destruct (point_unmarshal point_default b) as [[u|e| |] p]; try contradiction.
  - destruct U as [Q [HQ [D [L _]]]]. rewrite (pt_of_ok p Q HQ). split; [intros E; injection E as <-; auto|].
    intros [_ D']. exact (f_equal Some (decodes_unique b Q P D D')).
  - destruct U as [_ U]. split; [discriminate|]. intros [L D]. exfalso. exact (U P L D).
Qed.
Lemma ed_dec_len b P : pdec ed25519 b = Some P -> length b = 32%nat.
Proof.
  unfold ed25519. cbn [pdec]. destruct (Nat.eq_dec (length b) 32) as [L|L]; [auto|].
  assert (U : point_unmarshal point_default b = (Err InvalidInput, point_default)).
  { unfold point_unmarshal. rewrite (set_bytes_len (p_ge point_default) b L). reflexivity. }
  rewrite U. discriminate.
Qed.

(** Multiples depend on the addition only. *)
Lemma zmul_ext (X Y : agroup) (f : ag X -> ag Y) (f0 : f (g0 X) = g0 Y) (fa : forall a b, f (gadd X a b) = gadd Y (f a) (f b))
  (fn : forall a, f (gneg X a) = gneg Y (f a)) z a : f (zmul X z a) = zmul Y z (f a).
Proof.
  assert (N : forall n, f (nmul X n a) = nmul Y n (f a)).
  { induction n as [|n IH]; cbn [nmul]; [exact f0|]. now rewrite fa, IH. }
  destruct z; cbn [zmul]; [exact f0|apply N|]. now rewrite fn, N.
Qed.

Lemma ed_assoc a b c : padd ed25519 a (padd ed25519 b c) = padd ed25519 (padd ed25519 a b) c.
Proof. rewrite !ed_add. apply EdCurve.eadd_assoc. Qed.
Lemma ed_comm a b : padd ed25519 a b = padd ed25519 b a.
Proof. rewrite !ed_add. apply EdCurve.eadd_comm. Qed.
Lemma ed_0 a : padd ed25519 (pzero ed25519) a = a.
Proof. rewrite ed_add, ed_zero. apply EdCurve.eadd_0. Qed.
Lemma ed_opp a : padd ed25519 a (pneg ed25519 a) = pzero ed25519.
Proof. rewrite ed_add, ed_neg, ed_zero. apply EdCurve.eadd_neg. Qed.
Definition ed_group : agroup := AGroup (pt ed25519) (pzero ed25519) (padd ed25519) (pneg ed25519) ed_assoc ed_comm ed_0 ed_opp.
Lemma ed_zmul z P : zmul ed_group z P = mul z P.
Proof. exact (zmul_ext ed_group edg (fun x => x) ed_zero ed_add ed_neg z P). Qed.

Lemma ed_small P : pt_small_order (penc ed25519 P) = true <-> zmul ed_group 8 P = pzero ed25519.
Proof. rewrite ed_enc, ed_zmul, ed_zero. apply small_enc. Qed.
Lemma ed_dec_enc b P : bytes b -> pdec ed25519 b = Some P -> pt_is_canonical b = true -> pt_small_order (penc ed25519 P) = false -> penc ed25519 P = b.
Proof.
  intros Hb D C S. rewrite ed_enc in *. apply (ed_dec b P Hb) in D as [L D]. apply (pt_is_canonical_ok b Hb) in C as [_ C].
  apply decodes_canonical; try assumption; [change prime_p with (2 ^ 255 - 19); lia|].
  intros X. assert (T : pt_small_order (enc P) = true); [|congruence]. apply small_enc. apply small_y. destruct (zero_x P X) as [E|E]; auto.
Qed.

Theorem ed25519_ok : curve_ok ed25519.
Proof.
  refine {| co_assoc := ed_assoc; co_comm := ed_comm; co_0 := ed_0; co_neg := ed_opp |}; fold ed_group.
  - intros s P [Hb Hl] Hs. rewrite ed_zmul, (ed_mul s P Hb Hl), effective_id; [reflexivity|]. split; [apply le_val_bound; exact Hb|exact Hs].
  - intros s [Hb Hl] Hs. rewrite ed_zmul, ed_base, (ed_mul_base s Hb Hl), effective_id; [reflexivity|]. split; [apply le_val_bound; exact Hb|exact Hs].
  - rewrite ed_zmul, ed_base, ed_zero. exact order_base.
  - rewrite ed_base, ed_zero. exact ebase_nz.
  - exact ed_eq.
  - intros P. rewrite ed_enc. split; [apply enc_bytes|apply enc_length].
  - intros P. rewrite ed_enc. apply ed_dec; [apply enc_bytes|]. split; [apply enc_length|apply enc_decodes].
  - exact ed_dec_len.
  - exact ed_small.
  - exact ed_dec_enc.
Qed.
