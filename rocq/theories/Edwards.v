(** The twisted Edwards curve  - x^2 + y^2 = 1 + d x^2 y^2  over a field in which -1 is a square and d is not: the addition law
    is defined everywhere, closed, associative and commutative.  Nothing of the modelled code is in this file.  The polynomial
    identities behind closure and associativity carry explicit cofactors of the curve equations and are checked by [ring]. *)
From Coq Require Import Ring Field Bool.

Section Edwards.
Variables (F : Type) (F0 F1 : F) (Fadd Fmul Fsub : F -> F -> F) (Fopp : F -> F) (Fdiv : F -> F -> F) (Finv : F -> F).
Hypothesis fth : field_theory F0 F1 Fadd Fmul Fsub Fopp Fdiv Finv (@eq F).
Hypothesis Fdec : forall a b : F, {a = b} + {a <> b}.
Declare Scope F_scope.
Delimit Scope F_scope with F.
Local Open Scope F_scope.
Notation "0" := F0 : F_scope. Notation "1" := F1 : F_scope.
Infix "+" := Fadd : F_scope. Infix "*" := Fmul : F_scope. Infix "-" := Fsub : F_scope. Infix "/" := Fdiv : F_scope.
Notation "- x" := (Fopp x) : F_scope.
Add Field Ff : fth.

Variables (d i : F).
Hypothesis i2 : i * i = - (1).
Hypothesis two_nz : 1 + 1 <> 0.
Hypothesis d_ns : forall s, s * s <> d.

Lemma mul_0 a b : a * b = 0 -> a = 0 \/ b = 0.
Proof.
  intros H. destruct (Fdec a 0) as [E|N]; [now left|right].
  replace b with ((a * b) / a) by (field; exact N). rewrite H. field. exact N.
Qed.
Lemma mul_nz a b : a <> 0 -> b <> 0 -> a * b <> 0.
Proof. intros Ha Hb H. destruct (mul_0 _ _ H); contradiction. Qed.
Lemma sub_0 a b : a - b = 0 -> a = b.
Proof. intros H. replace a with ((a - b) + b) by ring. rewrite H. ring. Qed.
Lemma eq_sub a b : a = b -> a - b = 0.
Proof. intros ->. ring. Qed.
Lemma one_nz : 1 <> 0.
Proof. exact (F_1_neq_0 fth). Qed.
Lemma d_nz : d <> 0.
Proof. intros E. apply (d_ns 0). rewrite E. ring. Qed.

Definition on (x y : F) : Prop := y * y - x * x = 1 + d * x * x * y * y.

Lemma on_0 x y : on x y <-> y * y - x * x - 1 - d * x * x * y * y = 0.
Proof.
  unfold on. split; intros H; [apply eq_sub in H; rewrite <- H; ring|]. apply sub_0. rewrite <- H. ring.
Qed.

(** The product of the two denominators never vanishes. *)
Lemma complete x1 y1 x2 y2 : on x1 y1 -> on x2 y2 -> let e := d * x1 * x2 * y1 * y2 in e * e <> 1.
Proof.
  intros H1 H2 e He.
  assert (S : forall j, j * j = - (1) -> (j * x1 + e * y1) * (j * x1 + e * y1) = d * ((x1 * y1) * (y2 + j * x2)) * ((x1 * y1) * (y2 + j * x2))).
  { intros j Hj.
    transitivity ((j * j) * x1 * x1 + (e * e) * y1 * y1 + (1 + 1) * j * e * x1 * y1); [ring|]. rewrite Hj, He.
    transitivity (d * x1 * x1 * y1 * y1 + 1 + (1 + 1) * j * e * x1 * y1).
    { transitivity ((y1 * y1 - x1 * x1) + (1 + 1) * j * e * x1 * y1); [ring|]. rewrite H1. ring. }
    rewrite <- He at 1.
    transitivity (d * x1 * x1 * y1 * y1 * (1 + d * x2 * x2 * y2 * y2) + (1 + 1) * j * e * x1 * y1); [unfold e; ring|].
    rewrite <- H2.
    transitivity (d * x1 * x1 * y1 * y1 * (y2 * y2 + (- (1)) * x2 * x2 + (1 + 1) * j * x2 * y2)); [unfold e; ring|].
    rewrite <- Hj. ring. }
  assert (Q : forall j, j * j = - (1) -> y2 + j * x2 <> 0 -> x1 * y1 <> 0 -> False).
  { intros j Hj N1 N2. specialize (S j Hj). assert (N : x1 * y1 * (y2 + j * x2) <> 0) by now apply mul_nz.
    apply (d_ns ((j * x1 + e * y1) / (x1 * y1 * (y2 + j * x2)))).
    assert (N2' := N2). assert (Nx : x1 <> 0) by (intros E; apply N2'; rewrite E; ring). assert (Ny : y1 <> 0) by (intros E; apply N2'; rewrite E; ring).
    transitivity (((j * x1 + e * y1) * (j * x1 + e * y1)) / ((x1 * y1 * (y2 + j * x2)) * (x1 * y1 * (y2 + j * x2)))).
    { field. repeat split; assumption. }
    rewrite S. field. repeat split; assumption. }
  assert (Nz : x1 * y1 <> 0).
  { intros E. apply one_nz. rewrite <- He. unfold e. transitivity ((x1 * y1) * (d * x2 * y2) * (x1 * y1) * (d * x2 * y2)); [ring|]. rewrite E. ring. }
  destruct (Fdec (y2 + i * x2) 0) as [E1|N1]; [|exact (Q i i2 N1 Nz)].
  assert (i2' : (- i) * (- i) = - (1)) by (rewrite <- i2; ring).
  destruct (Fdec (y2 + (- i) * x2) 0) as [E2|N2]; [|exact (Q (- i) i2' N2 Nz)].
  assert (Y : (1 + 1) * y2 = 0) by (transitivity ((y2 + i * x2) + (y2 + (- i) * x2)); [ring|rewrite E1, E2; ring]).
  destruct (mul_0 _ _ Y) as [E|E]; [contradiction|].
  apply one_nz. rewrite <- He. unfold e. rewrite E. ring.
Qed.

Lemma den_p x1 y1 x2 y2 : on x1 y1 -> on x2 y2 -> 1 + d * x1 * x2 * y1 * y2 <> 0.
Proof.
  intros H1 H2 E. apply (complete x1 y1 x2 y2 H1 H2). cbv zeta.
  assert (E' : d * x1 * x2 * y1 * y2 = - (1)) by (apply sub_0; rewrite <- E; ring). rewrite E'. ring.
Qed.
Lemma den_m x1 y1 x2 y2 : on x1 y1 -> on x2 y2 -> 1 - d * x1 * x2 * y1 * y2 <> 0.
Proof.
  intros H1 H2 E. apply (complete x1 y1 x2 y2 H1 H2). cbv zeta. symmetry in E.
  assert (E' : d * x1 * x2 * y1 * y2 = 1) by (symmetry; apply sub_0; rewrite E; ring). rewrite E'. ring.
Qed.

Definition addx x1 y1 x2 y2 := (x1 * y2 + x2 * y1) / (1 + d * x1 * x2 * y1 * y2).
Definition addy x1 y1 x2 y2 := (y1 * y2 + x1 * x2) / (1 - d * x1 * x2 * y1 * y2).

Lemma closure_cert x1 y1 x2 y2 : let e := d * x1 * x2 * y1 * y2 in let A := x1 * y2 + x2 * y1 in let B := y1 * y2 + x1 * x2 in
  B * B * (1 + e) * (1 + e) - A * A * (1 - e) * (1 - e) - (1 - e * e) * (1 - e * e) - d * A * A * B * B =
  (
    d*d*d*x1*x1*y1*y1*x2*x2*x2*x2*y2*y2*y2*y2 - d*d*x1*x1*x2*x2*x2*x2*y2*y2*y2*y2 + d*d*y1*y1*x2*x2*x2*x2*y2*y2*y2*y2
    - d*d*x2*x2*x2*x2*y2*y2*y2*y2 - d*x1*x1*x2*x2*x2*x2*y2*y2 + d*x1*x1*x2*x2*y2*y2*y2*y2 + d*y1*y1*x2*x2*x2*x2*y2*y2
    - d*y1*y1*x2*x2*y2*y2*y2*y2 - (1+1)*d*x2*x2*x2*x2*y2*y2*y2*y2 - (1+1)*d*x2*x2*y2*y2 - (1+1)*x2*x2*x2*x2*y2*y2 +
    x2*x2*x2*x2 + (1+1)*x2*x2*y2*y2*y2*y2 - (1+1+1+1)*x2*x2*y2*y2 + y2*y2*y2*y2) * (y1*y1 - x1*x1 - 1 - d*x1*x1*y1*y1)
  +
  (
    d*x1*x1*x1*x1*x2*x2*y2*y2 + (1+1)*d*x1*x1*x2*x2*y2*y2 + d*y1*y1*y1*y1*x2*x2*y2*y2 - (1+1)*d*y1*y1*x2*x2*y2*y2 +
    d*x2*x2*y2*y2 + (1+1)*x1*x1*x2*x2*y2*y2 - x1*x1*x2*x2 + x1*x1*y2*y2 - (1+1)*y1*y1*x2*x2*y2*y2 + y1*y1*x2*x2 -
    y1*y1*y2*y2 + (1+1)*x2*x2*y2*y2 - x2*x2 + y2*y2 + 1) * (y2*y2 - x2*x2 - 1 - d*x2*x2*y2*y2).
Proof. cbv zeta. ring. Qed.

Lemma closed x1 y1 x2 y2 : on x1 y1 -> on x2 y2 -> on (addx x1 y1 x2 y2) (addy x1 y1 x2 y2).
Proof.
  intros H1 H2. pose proof (den_p _ _ _ _ H1 H2) as Np. pose proof (den_m _ _ _ _ H1 H2) as Nm.
  apply on_0. apply on_0 in H1. apply on_0 in H2. pose proof (closure_cert x1 y1 x2 y2) as C. cbv zeta in C. rewrite H1, H2 in C.
  unfold addx, addy. set (e := d * x1 * x2 * y1 * y2) in *. set (A := x1 * y2 + x2 * y1) in *. set (B := y1 * y2 + x1 * x2) in *.
  transitivity ((B * B * (1 + e) * (1 + e) - A * A * (1 - e) * (1 - e) - (1 - e * e) * (1 - e * e) - d * A * A * B * B) /
    ((1 + e) * (1 + e) * (1 - e) * (1 - e))).
  { field. split; assumption. }
  rewrite C. field. split; assumption.
Qed.

Lemma addx_comm x1 y1 x2 y2 : addx x1 y1 x2 y2 = addx x2 y2 x1 y1.
Proof. unfold addx. f_equal; ring. Qed.
Lemma addy_comm x1 y1 x2 y2 : addy x1 y1 x2 y2 = addy x2 y2 x1 y1.
Proof. unfold addy. f_equal; ring. Qed.

Lemma assoc_x_cert x1 y1 x2 y2 x3 y3 :
  let e := d * x1 * x2 * y1 * y2 in let A := x1 * y2 + x2 * y1 in let B := y1 * y2 + x1 * x2 in
  let e' := d * x2 * x3 * y2 * y3 in let A' := x2 * y3 + x3 * y2 in let B' := y2 * y3 + x2 * x3 in
  (A * y3 * (1 - e) + B * x3 * (1 + e)) * (1 - e' * e' + d * A' * B' * x1 * y1) -
  (A' * y1 * (1 - e') + B' * x1 * (1 + e')) * (1 - e * e + d * A * B * x3 * y3) =
  (
    0 - d*d*x1*x2*x2*x2*x2*y2*y2*y2*x3*x3*y3 - d*d*x1*x2*x2*x2*y2*y2*y2*y2*x3*y3*y3 +
    d*d*y1*x2*x2*x2*x2*y2*y2*y2*x3*y3*y3 + d*d*y1*x2*x2*x2*y2*y2*y2*y2*x3*x3*y3 - d*x1*x2*x2*x2*x2*y2*x3*x3*y3 -
    d*x1*x2*x2*x2*y2*y2*x3*x3*x3 - d*x1*x2*x2*x2*y2*y2*x3 + d*x1*x2*x2*y2*y2*y2*y3*y3*y3 - d*x1*x2*x2*y2*y2*y2*y3 +
    d*x1*x2*y2*y2*y2*y2*x3*y3*y3 + d*y1*x2*x2*x2*x2*y2*x3*y3*y3 + d*y1*x2*x2*x2*y2*y2*y3*y3*y3 -
    d*y1*x2*x2*x2*y2*y2*y3 - d*y1*x2*x2*y2*y2*y2*x3*x3*x3 - d*y1*x2*x2*y2*y2*y2*x3 - d*y1*x2*y2*y2*y2*y2*x3*x3*y3) * (y1*y1 - x1*x1 - 1 - d*x1*x1*y1*y1)
  +
  (
    d*d*x1*x1*y1*x2*x2*y2*x3*x3*x3*y3*y3 - d*d*x1*x1*y1*x2*y2*y2*x3*x3*y3*y3*y3 -
    d*d*x1*y1*y1*x2*x2*y2*x3*x3*y3*y3*y3 + d*d*x1*y1*y1*x2*y2*y2*x3*x3*x3*y3*y3 + d*x1*x1*x1*x2*x2*y2*x3*x3*y3 +
    d*x1*x1*x1*x2*y2*y2*x3*y3*y3 + d*x1*x1*x1*x2*x3*x3*x3*y3*y3 + d*x1*x1*x1*y2*x3*x3*y3*y3*y3 -
    d*x1*x1*y1*x2*x2*y2*x3*y3*y3 - d*x1*x1*y1*x2*y2*y2*x3*x3*y3 + d*x1*x1*y1*x2*x3*x3*y3*y3*y3 +
    d*x1*x1*y1*y2*x3*x3*x3*y3*y3 - d*x1*y1*y1*x2*x2*y2*x3*x3*y3 - d*x1*y1*y1*x2*y2*y2*x3*y3*y3 -
    d*x1*y1*y1*x2*x3*x3*x3*y3*y3 - d*x1*y1*y1*y2*x3*x3*y3*y3*y3 + d*x1*x2*x2*y2*x3*x3*y3 + d*x1*x2*y2*y2*x3*y3*y3 +
    d*x1*x2*x3*x3*x3*y3*y3 + d*x1*y2*x3*x3*y3*y3*y3 + d*y1*y1*y1*x2*x2*y2*x3*y3*y3 + d*y1*y1*y1*x2*y2*y2*x3*x3*y3 -
    d*y1*y1*y1*x2*x3*x3*y3*y3*y3 - d*y1*y1*y1*y2*x3*x3*x3*y3*y3 - d*y1*x2*x2*y2*x3*y3*y3 - d*y1*x2*y2*y2*x3*x3*y3 +
    d*y1*x2*x3*x3*y3*y3*y3 + d*y1*y2*x3*x3*x3*y3*y3 + x1*x1*x1*x2*x3*x3*x3 - x1*x1*x1*x2*x3*y3*y3 + x1*x1*x1*x2*x3 +
    x1*x1*x1*y2*x3*x3*y3 - x1*x1*x1*y2*y3*y3*y3 + x1*x1*x1*y2*y3 + x1*x1*y1*x2*x3*x3*y3 - x1*x1*y1*x2*y3*y3*y3 +
    x1*x1*y1*x2*y3 + x1*x1*y1*y2*x3*x3*x3 - x1*x1*y1*y2*x3*y3*y3 + x1*x1*y1*y2*x3 - x1*y1*y1*x2*x3*x3*x3 +
    x1*y1*y1*x2*x3*y3*y3 - x1*y1*y1*x2*x3 - x1*y1*y1*y2*x3*x3*y3 + x1*y1*y1*y2*y3*y3*y3 - x1*y1*y1*y2*y3 +
    x1*x2*x3*x3*x3 - x1*x2*x3*y3*y3 + x1*x2*x3 + x1*y2*x3*x3*y3 - x1*y2*y3*y3*y3 + x1*y2*y3 - y1*y1*y1*x2*x3*x3*y3 +
    y1*y1*y1*x2*y3*y3*y3 - y1*y1*y1*x2*y3 - y1*y1*y1*y2*x3*x3*x3 + y1*y1*y1*y2*x3*y3*y3 - y1*y1*y1*y2*x3 +
    y1*x2*x3*x3*y3 - y1*x2*y3*y3*y3 + y1*x2*y3 + y1*y2*x3*x3*x3 - y1*y2*x3*y3*y3 + y1*y2*x3) * (y2*y2 - x2*x2 - 1 - d*x2*x2*y2*y2)
  +
  (
    0 - d*x1*x1*y1*x2*x2*y2*x3 + d*x1*x1*y1*x2*y2*y2*y3 + d*x1*y1*y1*x2*x2*y2*y3 - d*x1*y1*y1*x2*y2*y2*x3 -
    x1*x1*x1*x2*x2*x2*x3 - x1*x1*x1*x2*x2*y2*y3 + x1*x1*x1*x2*y2*y2*x3 - x1*x1*x1*x2*x3 + x1*x1*x1*y2*y2*y2*y3 -
    x1*x1*x1*y2*y3 - x1*x1*y1*x2*x2*x2*y3 - x1*x1*y1*x2*x2*y2*x3 + x1*x1*y1*x2*y2*y2*y3 - x1*x1*y1*x2*y3 +
    x1*x1*y1*y2*y2*y2*x3 - x1*x1*y1*y2*x3 + x1*y1*y1*x2*x2*x2*x3 + x1*y1*y1*x2*x2*y2*y3 - x1*y1*y1*x2*y2*y2*x3 +
    x1*y1*y1*x2*x3 - x1*y1*y1*y2*y2*y2*y3 + x1*y1*y1*y2*y3 - x1*x2*x2*x2*x3 - x1*x2*x2*y2*y3 + x1*x2*y2*y2*x3 -
    x1*x2*x3 + x1*y2*y2*y2*y3 - x1*y2*y3 + y1*y1*y1*x2*x2*x2*y3 + y1*y1*y1*x2*x2*y2*x3 - y1*y1*y1*x2*y2*y2*y3 +
    y1*y1*y1*x2*y3 - y1*y1*y1*y2*y2*y2*x3 + y1*y1*y1*y2*x3 - y1*x2*x2*x2*y3 - y1*x2*x2*y2*x3 + y1*x2*y2*y2*y3 -
    y1*x2*y3 + y1*y2*y2*y2*x3 - y1*y2*x3) * (y3*y3 - x3*x3 - 1 - d*x3*x3*y3*y3).
Proof. cbv zeta. ring. Qed.

Lemma assoc_y_cert x1 y1 x2 y2 x3 y3 :
  let e := d * x1 * x2 * y1 * y2 in let A := x1 * y2 + x2 * y1 in let B := y1 * y2 + x1 * x2 in
  let e' := d * x2 * x3 * y2 * y3 in let A' := x2 * y3 + x3 * y2 in let B' := y2 * y3 + x2 * x3 in
  (B * y3 * (1 + e) + A * x3 * (1 - e)) * (1 - e' * e' - d * A' * B' * x1 * y1) -
  (B' * y1 * (1 + e') + A' * x1 * (1 - e')) * (1 - e * e - d * A * B * x3 * y3) =
  (
    d*d*x1*x2*x2*x2*x2*y2*y2*y2*x3*y3*y3 + d*d*x1*x2*x2*x2*y2*y2*y2*y2*x3*x3*y3 -
    d*d*y1*x2*x2*x2*x2*y2*y2*y2*x3*x3*y3 - d*d*y1*x2*x2*x2*y2*y2*y2*y2*x3*y3*y3 + d*x1*x2*x2*x2*x2*y2*x3*y3*y3 +
    d*x1*x2*x2*x2*y2*y2*y3*y3*y3 - d*x1*x2*x2*x2*y2*y2*y3 - d*x1*x2*x2*y2*y2*y2*x3*x3*x3 - d*x1*x2*x2*y2*y2*y2*x3 -
    d*x1*x2*y2*y2*y2*y2*x3*x3*y3 - d*y1*x2*x2*x2*x2*y2*x3*x3*y3 - d*y1*x2*x2*x2*y2*y2*x3*x3*x3 -
    d*y1*x2*x2*x2*y2*y2*x3 + d*y1*x2*x2*y2*y2*y2*y3*y3*y3 - d*y1*x2*x2*y2*y2*y2*y3 + d*y1*x2*y2*y2*y2*y2*x3*y3*y3) * (y1*y1 - x1*x1 - 1 - d*x1*x1*y1*y1)
  +
  (
    d*d*x1*x1*y1*x2*x2*y2*x3*x3*y3*y3*y3 - d*d*x1*x1*y1*x2*y2*y2*x3*x3*x3*y3*y3 -
    d*d*x1*y1*y1*x2*x2*y2*x3*x3*x3*y3*y3 + d*d*x1*y1*y1*x2*y2*y2*x3*x3*y3*y3*y3 - d*x1*x1*x1*x2*x2*y2*x3*y3*y3 -
    d*x1*x1*x1*x2*y2*y2*x3*x3*y3 + d*x1*x1*x1*x2*x3*x3*y3*y3*y3 + d*x1*x1*x1*y2*x3*x3*x3*y3*y3 +
    d*x1*x1*y1*x2*x2*y2*x3*x3*y3 + d*x1*x1*y1*x2*y2*y2*x3*y3*y3 + d*x1*x1*y1*x2*x3*x3*x3*y3*y3 +
    d*x1*x1*y1*y2*x3*x3*y3*y3*y3 + d*x1*y1*y1*x2*x2*y2*x3*y3*y3 + d*x1*y1*y1*x2*y2*y2*x3*x3*y3 -
    d*x1*y1*y1*x2*x3*x3*y3*y3*y3 - d*x1*y1*y1*y2*x3*x3*x3*y3*y3 - d*x1*x2*x2*y2*x3*y3*y3 - d*x1*x2*y2*y2*x3*x3*y3 +
    d*x1*x2*x3*x3*y3*y3*y3 + d*x1*y2*x3*x3*x3*y3*y3 - d*y1*y1*y1*x2*x2*y2*x3*x3*y3 - d*y1*y1*y1*x2*y2*y2*x3*y3*y3 -
    d*y1*y1*y1*x2*x3*x3*x3*y3*y3 - d*y1*y1*y1*y2*x3*x3*y3*y3*y3 + d*y1*x2*x2*y2*x3*x3*y3 + d*y1*x2*y2*y2*x3*y3*y3 +
    d*y1*x2*x3*x3*x3*y3*y3 + d*y1*y2*x3*x3*y3*y3*y3 + x1*x1*x1*x2*x3*x3*y3 - x1*x1*x1*x2*y3*y3*y3 + x1*x1*x1*x2*y3 +
    x1*x1*x1*y2*x3*x3*x3 - x1*x1*x1*y2*x3*y3*y3 + x1*x1*x1*y2*x3 + x1*x1*y1*x2*x3*x3*x3 - x1*x1*y1*x2*x3*y3*y3 +
    x1*x1*y1*x2*x3 + x1*x1*y1*y2*x3*x3*y3 - x1*x1*y1*y2*y3*y3*y3 + x1*x1*y1*y2*y3 - x1*y1*y1*x2*x3*x3*y3 +
    x1*y1*y1*x2*y3*y3*y3 - x1*y1*y1*x2*y3 - x1*y1*y1*y2*x3*x3*x3 + x1*y1*y1*y2*x3*y3*y3 - x1*y1*y1*y2*x3 +
    x1*x2*x3*x3*y3 - x1*x2*y3*y3*y3 + x1*x2*y3 + x1*y2*x3*x3*x3 - x1*y2*x3*y3*y3 + x1*y2*x3 - y1*y1*y1*x2*x3*x3*x3 +
    y1*y1*y1*x2*x3*y3*y3 - y1*y1*y1*x2*x3 - y1*y1*y1*y2*x3*x3*y3 + y1*y1*y1*y2*y3*y3*y3 - y1*y1*y1*y2*y3 +
    y1*x2*x3*x3*x3 - y1*x2*x3*y3*y3 + y1*x2*x3 + y1*y2*x3*x3*y3 - y1*y2*y3*y3*y3 + y1*y2*y3) * (y2*y2 - x2*x2 - 1 - d*x2*x2*y2*y2)
  +
  (
    0 - d*x1*x1*y1*x2*x2*y2*y3 + d*x1*x1*y1*x2*y2*y2*x3 + d*x1*y1*y1*x2*x2*y2*x3 - d*x1*y1*y1*x2*y2*y2*y3 -
    x1*x1*x1*x2*x2*x2*y3 - x1*x1*x1*x2*x2*y2*x3 + x1*x1*x1*x2*y2*y2*y3 - x1*x1*x1*x2*y3 + x1*x1*x1*y2*y2*y2*x3 -
    x1*x1*x1*y2*x3 - x1*x1*y1*x2*x2*x2*x3 - x1*x1*y1*x2*x2*y2*y3 + x1*x1*y1*x2*y2*y2*x3 - x1*x1*y1*x2*x3 +
    x1*x1*y1*y2*y2*y2*y3 - x1*x1*y1*y2*y3 + x1*y1*y1*x2*x2*x2*y3 + x1*y1*y1*x2*x2*y2*x3 - x1*y1*y1*x2*y2*y2*y3 +
    x1*y1*y1*x2*y3 - x1*y1*y1*y2*y2*y2*x3 + x1*y1*y1*y2*x3 - x1*x2*x2*x2*y3 - x1*x2*x2*y2*x3 + x1*x2*y2*y2*y3 -
    x1*x2*y3 + x1*y2*y2*y2*x3 - x1*y2*x3 + y1*y1*y1*x2*x2*x2*x3 + y1*y1*y1*x2*x2*y2*y3 - y1*y1*y1*x2*y2*y2*x3 +
    y1*y1*y1*x2*x3 - y1*y1*y1*y2*y2*y2*y3 + y1*y1*y1*y2*y3 - y1*x2*x2*x2*x3 - y1*x2*x2*y2*y3 + y1*x2*y2*y2*x3 -
    y1*x2*x3 + y1*y2*y2*y2*y3 - y1*y2*y3) * (y3*y3 - x3*x3 - 1 - d*x3*x3*y3*y3).
Proof. cbv zeta. ring. Qed.

(** The two denominators of (P1 + P2) + P3, cleared. *)
Lemma den3 x1 y1 x2 y2 x3 y3 : on x1 y1 -> on x2 y2 -> on x3 y3 ->
  let e := d * x1 * x2 * y1 * y2 in let A := x1 * y2 + x2 * y1 in let B := y1 * y2 + x1 * x2 in
  1 - e * e + d * A * B * x3 * y3 <> 0 /\ 1 - e * e - d * A * B * x3 * y3 <> 0 /\
  addx (addx x1 y1 x2 y2) (addy x1 y1 x2 y2) x3 y3 = (A * y3 * (1 - e) + B * x3 * (1 + e)) / (1 - e * e + d * A * B * x3 * y3) /\
  addy (addx x1 y1 x2 y2) (addy x1 y1 x2 y2) x3 y3 = (B * y3 * (1 + e) + A * x3 * (1 - e)) / (1 - e * e - d * A * B * x3 * y3).
Proof.
  intros H1 H2 H3 e A B. pose proof (den_p _ _ _ _ H1 H2) as Np. pose proof (den_m _ _ _ _ H1 H2) as Nm.
  pose proof (closed _ _ _ _ H1 H2) as H12. pose proof (den_p _ _ _ _ H12 H3) as Np3. pose proof (den_m _ _ _ _ H12 H3) as Nm3.
  unfold addx, addy in *. fold e A B in Np, Nm, Np3, Nm3 |- *.
  assert (Ep : 1 - e * e + d * A * B * x3 * y3 = (1 + e) * (1 - e) * (1 + d * (A / (1 + e)) * x3 * (B / (1 - e)) * y3)) by (field; split; assumption).
  assert (Em : 1 - e * e - d * A * B * x3 * y3 = (1 + e) * (1 - e) * (1 - d * (A / (1 + e)) * x3 * (B / (1 - e)) * y3)) by (field; split; assumption).
  assert (Dp : 1 - e * e + d * A * B * x3 * y3 <> 0) by (rewrite Ep; repeat apply mul_nz; assumption).
  assert (Dm : 1 - e * e - d * A * B * x3 * y3 <> 0) by (rewrite Em; repeat apply mul_nz; assumption).
  split; [exact Dp|]. split; [exact Dm|].
  split.
  - transitivity (((A * y3 * (1 - e) + B * x3 * (1 + e)) / ((1 + e) * (1 - e))) / (1 + d * (A / (1 + e)) * x3 * (B / (1 - e)) * y3)).
    + f_equal. field. split; assumption.
    + rewrite Ep. set (X := 1 + d * (A / (1 + e)) * x3 * (B / (1 - e)) * y3) in *. field. repeat split; assumption.
  - transitivity (((B * y3 * (1 + e) + A * x3 * (1 - e)) / ((1 + e) * (1 - e))) / (1 - d * (A / (1 + e)) * x3 * (B / (1 - e)) * y3)).
    + f_equal. field. split; assumption.
    + rewrite Em. set (X := 1 - d * (A / (1 + e)) * x3 * (B / (1 - e)) * y3) in *. field. repeat split; assumption.
Qed.

Lemma div_eq a b u v : b <> 0 -> v <> 0 -> a * v - u * b = 0 -> a / b = u / v.
Proof.
  intros Hb Hv H. apply sub_0. transitivity ((a * v - u * b) / (b * v)); [field; split; assumption|]. rewrite H. field. split; assumption.
Qed.

Theorem assoc x1 y1 x2 y2 x3 y3 : on x1 y1 -> on x2 y2 -> on x3 y3 ->
  addx x1 y1 (addx x2 y2 x3 y3) (addy x2 y2 x3 y3) = addx (addx x1 y1 x2 y2) (addy x1 y1 x2 y2) x3 y3 /\
  addy x1 y1 (addx x2 y2 x3 y3) (addy x2 y2 x3 y3) = addy (addx x1 y1 x2 y2) (addy x1 y1 x2 y2) x3 y3.
Proof.
  intros H1 H2 H3. rewrite (addx_comm x1 y1 (addx x2 y2 x3 y3)), (addy_comm x1 y1 (addx x2 y2 x3 y3)).
  destruct (den3 _ _ _ _ _ _ H1 H2 H3) as [Dp [Dm [Ex Ey]]]. destruct (den3 _ _ _ _ _ _ H2 H3 H1) as [Dp' [Dm' [Ex' Ey']]].
  cbv zeta in *. rewrite Ex, Ey, Ex', Ey'. apply on_0 in H1. apply on_0 in H2. apply on_0 in H3.
  split; symmetry; apply div_eq; try assumption.
  - rewrite assoc_x_cert, H1, H2, H3. ring.
  - rewrite assoc_y_cert, H1, H2, H3. ring.
Qed.

Lemma on_zero : on 0 1.
Proof. unfold on. ring. Qed.
Lemma on_neg x y : on x y -> on (- x) y.
Proof. unfold on. intros H. transitivity (y * y - x * x); [ring|]. rewrite H. ring. Qed.
Lemma add_zero x y : addx 0 1 x y = x /\ addy 0 1 x y = y.
Proof. unfold addx, addy. pose proof one_nz. split; field; intros E; apply H; rewrite <- E; ring. Qed.
Lemma add_neg x y : on x y -> addx x y (- x) y = 0 /\ addy x y (- x) y = 1.
Proof.
  intros H. pose proof (den_p _ _ _ _ H (on_neg _ _ H)) as Np. pose proof (den_m _ _ _ _ H (on_neg _ _ H)) as Nm.
  unfold addx, addy. split.
  - replace (x * y + - x * y) with 0 by ring. field. exact Np.
  - replace (y * y + x * - x) with (1 - d * x * - x * y * y); [field; exact Nm|].
    unfold on in H. transitivity (1 + d * x * x * y * y); [ring|]. rewrite <- H. ring.
Qed.
End Edwards.
