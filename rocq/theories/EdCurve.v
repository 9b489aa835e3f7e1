(** The group of the curve edwards25519 (RFC 8032, 5.1): the solutions of  - x^2 + y^2 = 1 + d x^2 y^2  modulo 2^255 - 19 with
    the Edwards addition law, as a commutative group, and its projective representations.  Nothing of the modelled code is in
    this file. *)
From Coq Require Import ZArith Lia Bool Eqdep_dec Ring Field.
From Verif Require Import Primes Group Edwards Fp.
Local Open Scope Z_scope.
Local Open Scope fp_scope.

Definition on_curve (x y : Fp) : Prop := y * y - x * x = 1 + fd * x * x * y * y.
Definition on_curveb (x y : Fp) : bool := Z.eqb (fz (y * y - x * x)) (fz (1 + fd * x * x * y * y)).
Lemma on_curveP x y : on_curveb x y = true <-> on_curve x y.
Proof. unfold on_curveb, on_curve. rewrite Z.eqb_eq. split; [apply fz_inj|now intros ->]. Qed.

(** Points. *)
Record epoint := EP { ex : Fp; ey : Fp; e_on : on_curveb ex ey = true }.

Lemma ep_inj P Q : ex P = ex Q -> ey P = ey Q -> P = Q.
Proof. destruct P as [x y H], Q as [x' y' H']. cbn [ex ey]. intros -> ->. f_equal. apply UIP_dec. apply bool_dec. Qed.
Lemma ep_on P : on_curve (ex P) (ey P).
Proof. apply on_curveP. apply e_on. Qed.

Definition law_x (x1 y1 x2 y2 : Fp) : Fp := (x1 * y2 + x2 * y1) / (1 + fd * x1 * x2 * y1 * y2).
Definition law_y (x1 y1 x2 y2 : Fp) : Fp := (y1 * y2 + x1 * x2) / (1 - fd * x1 * x2 * y1 * y2).

Lemma law_on x1 y1 x2 y2 : on_curve x1 y1 -> on_curve x2 y2 -> on_curve (law_x x1 y1 x2 y2) (law_y x1 y1 x2 y2).
Proof. exact (closed _ _ _ _ _ _ _ _ _ fp_field fp_dec fd fi fi_sq f2_nz fd_ns x1 y1 x2 y2). Qed.
Lemma law_dp x1 y1 x2 y2 : on_curve x1 y1 -> on_curve x2 y2 -> 1 + fd * x1 * x2 * y1 * y2 <> 0.
Proof. exact (den_p _ _ _ _ _ _ _ _ _ fp_field fp_dec fd fi fi_sq f2_nz fd_ns x1 y1 x2 y2). Qed.
Lemma law_dm x1 y1 x2 y2 : on_curve x1 y1 -> on_curve x2 y2 -> 1 - fd * x1 * x2 * y1 * y2 <> 0.
Proof. exact (den_m _ _ _ _ _ _ _ _ _ fp_field fp_dec fd fi fi_sq f2_nz fd_ns x1 y1 x2 y2). Qed.

Definition eadd (P Q : epoint) : epoint :=
  EP (law_x (ex P) (ey P) (ex Q) (ey Q)) (law_y (ex P) (ey P) (ex Q) (ey Q))
     (proj2 (on_curveP _ _) (law_on _ _ _ _ (ep_on P) (ep_on Q))).
Lemma e0_on : on_curve 0 1. Proof. unfold on_curve. ring. Qed.
Definition e0 : epoint := EP 0 1 (proj2 (on_curveP _ _) e0_on).
Lemma eneg_on x y : on_curve x y -> on_curve (- x) y.
Proof. exact (on_neg _ _ _ _ _ _ _ _ _ fp_field fd x y). Qed.
Definition eneg (P : epoint) : epoint := EP (- ex P) (ey P) (proj2 (on_curveP _ _) (eneg_on _ _ (ep_on P))).

Lemma eadd_assoc P Q R : eadd P (eadd Q R) = eadd (eadd P Q) R.
Proof.
  pose proof (assoc _ _ _ _ _ _ _ _ _ fp_field fp_dec fd fi fi_sq f2_nz fd_ns _ _ _ _ _ _ (ep_on P) (ep_on Q) (ep_on R)) as [A B].
  apply ep_inj; cbn [ex ey eadd]; [exact A|exact B].
Qed.
Lemma eadd_comm P Q : eadd P Q = eadd Q P.
Proof.
  apply ep_inj; cbn [ex ey eadd].
  - exact (addx_comm _ _ _ _ _ _ _ _ _ fp_field fd _ _ _ _).
  - exact (addy_comm _ _ _ _ _ _ _ _ _ fp_field fd _ _ _ _).
Qed.
Lemma eadd_0 P : eadd e0 P = P.
Proof.
  pose proof (add_zero _ _ _ _ _ _ _ _ _ fp_field fd (ex P) (ey P)) as [A B].
  apply ep_inj; cbn [ex ey eadd e0]; [exact A|exact B].
Qed.
Lemma eadd_neg P : eadd P (eneg P) = e0.
Proof.
  pose proof (add_neg _ _ _ _ _ _ _ _ _ fp_field fp_dec fd fi fi_sq f2_nz fd_ns _ _ (ep_on P)) as [A B].
  apply ep_inj; cbn [ex ey eadd e0 eneg]; [exact A|exact B].
Qed.

(** The group. *)
Definition edg : agroup := AGroup epoint e0 eadd eneg eadd_assoc eadd_comm eadd_0 eadd_neg.

(** Representations by fractions, as in the comment ge.rs 1-8: x = X/Z, y = Y/Z, with XY = ZT in the extended one; x = X/Z,
    y = Y/T in the completed one; (y+x, y-x, 2dxy) scaled by Z in the cached one. *)
Definition proj_of (X Y Z : Fp) (P : epoint) : Prop := Z <> 0 /\ X = ex P * Z /\ Y = ey P * Z.
Definition ext_of (X Y Z T : Fp) (P : epoint) : Prop := Z <> 0 /\ X = ex P * Z /\ Y = ey P * Z /\ T = ex P * ey P * Z.
Definition comp_of (X Y Z T : Fp) (P : epoint) : Prop := Z <> 0 /\ T <> 0 /\ X = ex P * Z /\ Y = ey P * T.
Definition cached_of (A B Z T : Fp) (P : epoint) : Prop :=
  Z <> 0 /\ A = (ey P + ex P) * Z /\ B = (ey P - ex P) * Z /\ T = (1 + 1) * fd * (ex P * ey P) * Z.

Lemma ext_proj X Y Z T P : ext_of X Y Z T P -> proj_of X Y Z P.
Proof. intros [H1 [H2 [H3 _]]]. now repeat split. Qed.

Lemma ext_unique X Y Z T P Q : ext_of X Y Z T P -> ext_of X Y Z T Q -> P = Q.
Proof.
  intros [N [H1 [H2 _]]] [_ [H3 [H4 _]]]. apply ep_inj; apply fsub_0.
  - transitivity ((ex P * Z - ex Q * Z) / Z); [field; exact N|]. rewrite <- H1, <- H3. field. exact N.
  - transitivity ((ey P * Z - ey Q * Z) / Z); [field; exact N|]. rewrite <- H2, <- H4. field. exact N.
Qed.

Lemma comp_to_ext X Y Z T P : comp_of X Y Z T P -> ext_of (X * T) (Y * Z) (Z * T) (X * Y) P.
Proof.
  intros [N1 [N2 [-> ->]]]. split; [now apply fmul_nz|]. split; [ring|]. split; ring.
Qed.
Lemma comp_to_proj X Y Z T P : comp_of X Y Z T P -> proj_of (X * T) (Y * Z) (Z * T) P.
Proof. intros H. apply comp_to_ext in H. now apply ext_proj in H. Qed.

Ltac nz := repeat (match goal with |- fmul _ _ <> _ => apply fmul_nz end); assumption.

Lemma div_mul a b : b <> 0 -> a = a / b * b.
Proof. intros N. field. exact N. Qed.

Lemma add_comp X Y Z T A B Z2 T2 P Q : ext_of X Y Z T P -> cached_of A B Z2 T2 Q ->
  let a := (Y + X) * A in let b := (Y - X) * B in let c := T2 * T in let dd := Z * Z2 + Z * Z2 in
  comp_of (a - b) (b + a) (dd + c) (dd - c) (eadd P Q) /\ comp_of (a - b) (a + b) (dd + c) (dd - c) (eadd P Q).
Proof.
  intros [N1 [-> [-> ->]]] [N2 [-> [-> ->]]]. cbv zeta.
  pose proof (law_dp _ _ _ _ (ep_on P) (ep_on Q)) as Dp. pose proof (law_dm _ _ _ _ (ep_on P) (ep_on Q)) as Dm.
  set (x1 := ex P) in *. set (y1 := ey P) in *. set (x2 := ex Q) in *. set (y2 := ey Q) in *.
  assert (Ep : Z * Z2 + Z * Z2 + (1 + 1) * fd * (x2 * y2) * Z2 * (x1 * y1 * Z) = (1 + 1) * Z * Z2 * (1 + fd * x1 * x2 * y1 * y2)) by ring.
  assert (Em : Z * Z2 + Z * Z2 - (1 + 1) * fd * (x2 * y2) * Z2 * (x1 * y1 * Z) = (1 + 1) * Z * Z2 * (1 - fd * x1 * x2 * y1 * y2)) by ring.
  pose proof f2_nz as N3. rewrite Ep, Em.
  assert (H : comp_of ((y1 * Z + x1 * Z) * ((y2 + x2) * Z2) - (y1 * Z - x1 * Z) * ((y2 - x2) * Z2))
    ((y1 * Z - x1 * Z) * ((y2 - x2) * Z2) + (y1 * Z + x1 * Z) * ((y2 + x2) * Z2))
    ((1 + 1) * Z * Z2 * (1 + fd * x1 * x2 * y1 * y2)) ((1 + 1) * Z * Z2 * (1 - fd * x1 * x2 * y1 * y2)) (eadd P Q)).
  { split; [nz|]. split; [nz|].
    cbn [eadd ex ey]. unfold law_x, law_y. fold x1 x2 y1 y2. split; field; assumption. }
  split; [exact H|]. destruct H as [H1 [H2 [H3 H4]]]. repeat split; try assumption. rewrite <- H4. ring.
Qed.

(** Subtraction swaps the two cached coordinates and the sign of the last. *)
Lemma cached_neg A B Z T P : cached_of A B Z T P -> cached_of B A Z (- T) (eneg P).
Proof. intros [N [-> [-> ->]]]. split; [exact N|]. cbn [eneg ex ey]. repeat split; ring. Qed.

Lemma double_comp X Y Z P : proj_of X Y Z P ->
  let xx := X * X in let yy := Y * Y in let zz2 := (1 + 1) * (Z * Z) in let s := (X + Y) * (X + Y) in
  comp_of (s - (yy + xx)) (yy + xx) (yy - xx) (zz2 - (yy - xx)) (eadd P P).
Proof.
  intros [N [-> ->]]. cbv zeta.
  pose proof (law_dp _ _ _ _ (ep_on P) (ep_on P)) as Dp. pose proof (law_dm _ _ _ _ (ep_on P) (ep_on P)) as Dm.
  pose proof (ep_on P) as C. unfold on_curve in C.
  set (x := ex P) in *. set (y := ey P) in *.
  assert (Ep : y * Z * (y * Z) - x * Z * (x * Z) = Z * Z * (1 + fd * x * x * y * y)).
  { transitivity (Z * Z * (y * y - x * x)); [ring|]. rewrite C. ring. }
  assert (Em : (1 + 1) * (Z * Z) - (y * Z * (y * Z) - x * Z * (x * Z)) = Z * Z * (1 - fd * x * x * y * y)).
  { rewrite Ep. ring. }
  rewrite Em, Ep.
  split; [nz|]. split; [nz|].
  cbn [eadd ex ey]. unfold law_x, law_y. fold x y. split; field; assumption.
Qed.

Lemma to_cached X Y Z T D2 P : ext_of X Y Z T P -> D2 = (1 + 1) * fd -> cached_of (Y + X) (Y - X) Z (T * D2) P.
Proof. intros [N [-> [-> ->]]] ->. split; [exact N|]. repeat split; ring. Qed.

Lemma ext_zero : ext_of 0 1 1 0 e0.
Proof. split; [exact f1_nz|]. cbn [e0 ex ey]. repeat split; ring. Qed.
Lemma ext_neg X Y Z T P : ext_of X Y Z T P -> ext_of (- X) Y Z (- T) (eneg P).
Proof. intros [N [-> [-> ->]]]. split; [exact N|]. cbn [eneg ex ey]. repeat split; ring. Qed.
Lemma cached_zero : cached_of 1 1 1 0 e0.
Proof. split; [exact f1_nz|]. cbn [e0 ex ey]. repeat split; ring. Qed.
