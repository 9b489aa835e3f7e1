(** Commutative groups with integer multiples: the mathematical setting of the signature and key-agreement layers.
    Nothing of the modelled code is in this file. *)
From Coq Require Import ZArith Lia.
Local Open Scope Z_scope.

Record agroup := AGroup {
  ag : Type;
  g0 : ag;
  gadd : ag -> ag -> ag;
  gneg : ag -> ag;
  gadd_assoc : forall a b c, gadd a (gadd b c) = gadd (gadd a b) c;
  gadd_comm : forall a b, gadd a b = gadd b a;
  gadd_0_l : forall a, gadd g0 a = a;
  gadd_neg_r : forall a, gadd a (gneg a) = g0
}.

Section G.
Variable X : agroup.
Notation T := (ag X).
Infix "+g" := (gadd X) (at level 50, left associativity).
Notation "0g" := (g0 X).

Lemma gadd_0_r a : a +g 0g = a.
Proof. rewrite gadd_comm. apply gadd_0_l. Qed.
Lemma gadd_neg_l a : gneg X a +g a = 0g.
Proof. rewrite gadd_comm. apply gadd_neg_r. Qed.
Lemma gadd_cancel_l a b c : a +g b = a +g c -> b = c.
Proof.
  intros E. rewrite <- (gadd_0_l X b), <- (gadd_neg_l a), <- gadd_assoc, E, gadd_assoc, gadd_neg_l, gadd_0_l. reflexivity.
Qed.
Lemma gadd_cancel_r a b c : b +g a = c +g a -> b = c.
Proof. rewrite !(gadd_comm X _ a). apply gadd_cancel_l. Qed.
Lemma gneg_unique a b : a +g b = 0g -> b = gneg X a.
Proof. intros E. apply (gadd_cancel_l a). now rewrite E, gadd_neg_r. Qed.
Lemma gneg_0 : gneg X 0g = 0g.
Proof. symmetry. apply gneg_unique. apply gadd_0_l. Qed.
Lemma gneg_neg a : gneg X (gneg X a) = a.
Proof. symmetry. apply gneg_unique. apply gadd_neg_l. Qed.
Lemma gadd_swap a b c d : (a +g b) +g (c +g d) = (a +g c) +g (b +g d).
Proof. rewrite !gadd_assoc. f_equal. rewrite <- !gadd_assoc. f_equal. apply gadd_comm. Qed.
Lemma gneg_add a b : gneg X (a +g b) = gneg X a +g gneg X b.
Proof. symmetry. apply gneg_unique. now rewrite gadd_swap, !gadd_neg_r, gadd_0_l. Qed.
Lemma gsub_0 a b : a +g gneg X b = 0g -> a = b.
Proof. intros E. apply (gadd_cancel_r (gneg X b)). now rewrite E, gadd_neg_r. Qed.

(** n-fold sum. *)
Fixpoint nmul (n : nat) (a : T) : T := match n with O => 0g | S n' => a +g nmul n' a end.
Definition zmul (z : Z) (a : T) : T :=
  match z with
  | Z0 => 0g
  | Zpos p => nmul (Pos.to_nat p) a
  | Zneg p => gneg X (nmul (Pos.to_nat p) a)
  end.

Lemma nmul_add n m a : nmul (n + m) a = nmul n a +g nmul m a.
Proof. induction n as [|n IH]; cbn; [now rewrite gadd_0_l|]. rewrite IH. apply gadd_assoc. Qed.
Lemma nmul_gadd n a b : nmul n (a +g b) = nmul n a +g nmul n b.
Proof. induction n as [|n IH]; cbn; [now rewrite gadd_0_l|]. rewrite IH. apply gadd_swap. Qed.
Lemma nmul_0 n : nmul n 0g = 0g.
Proof. induction n as [|n IH]; cbn; [reflexivity|]. now rewrite IH, gadd_0_l. Qed.
Lemma nmul_neg n a : nmul n (gneg X a) = gneg X (nmul n a).
Proof. induction n as [|n IH]; cbn; [now rewrite gneg_0|]. now rewrite IH, gneg_add. Qed.

Lemma zmul_nat n a : zmul (Z.of_nat n) a = nmul n a.
Proof. destruct n; [reflexivity|]. cbn [zmul Z.of_nat]. now rewrite SuccNat2Pos.id_succ. Qed.
Lemma zmul_of_nat_neg n a : zmul (- Z.of_nat n) a = gneg X (nmul n a).
Proof. destruct n; [cbn; now rewrite gneg_0|]. cbn [zmul Z.opp Z.of_nat]. now rewrite SuccNat2Pos.id_succ. Qed.
Lemma zmul_0 a : zmul 0 a = 0g. Proof. reflexivity. Qed.
Lemma zmul_1 a : zmul 1 a = a. Proof. cbn. apply gadd_0_r. Qed.

Lemma zmul_opp z a : zmul (- z) a = gneg X (zmul z a).
Proof. destruct z; cbn; [now rewrite gneg_0|reflexivity|now rewrite gneg_neg]. Qed.

Lemma zmul_succ z a : zmul (z + 1) a = a +g zmul z a.
Proof.
  destruct (Z_le_gt_dec 0 z) as [H|H].
  - rewrite <- (Z2Nat.id z) by lia. replace (Z.of_nat (Z.to_nat z) + 1) with (Z.of_nat (S (Z.to_nat z))) by lia.
    now rewrite !zmul_nat.
  - set (n := Z.to_nat (- z - 1)). replace z with (- Z.of_nat (S n)) by lia. replace (- Z.of_nat (S n) + 1) with (- Z.of_nat n) by lia.
    rewrite !zmul_of_nat_neg. cbn. rewrite gneg_add, gadd_assoc, gadd_neg_r, gadd_0_l. reflexivity.
Qed.

Lemma zmul_add_nat n z a : zmul (Z.of_nat n + z) a = nmul n a +g zmul z a.
Proof.
  induction n as [|n IH]; [cbn; now rewrite gadd_0_l|].
  replace (Z.of_nat (S n) + z) with (Z.of_nat n + z + 1) by lia. rewrite zmul_succ, IH. cbn. apply gadd_assoc.
Qed.
Lemma zmul_add y z a : zmul (y + z) a = zmul y a +g zmul z a.
Proof.
  destruct (Z_le_gt_dec 0 y) as [H|H].
  - rewrite <- (Z2Nat.id y) by lia. now rewrite zmul_add_nat, zmul_nat.
  - replace y with (- Z.of_nat (Z.to_nat (- y))) by lia. set (n := Z.to_nat (- y)).
    replace (- Z.of_nat n + z) with (- (Z.of_nat n + - z)) by lia.
    rewrite zmul_opp, zmul_add_nat, gneg_add, zmul_opp, gneg_neg, zmul_of_nat_neg. reflexivity.
Qed.
Lemma zmul_sub y z a : zmul (y - z) a = zmul y a +g gneg X (zmul z a).
Proof. unfold Z.sub. now rewrite zmul_add, zmul_opp. Qed.
Lemma zmul_gadd z a b : zmul z (a +g b) = zmul z a +g zmul z b.
Proof. destruct z; cbn; [now rewrite gadd_0_l|apply nmul_gadd|]. now rewrite nmul_gadd, gneg_add. Qed.
Lemma zmul_g0 z : zmul z 0g = 0g.
Proof. destruct z; cbn; rewrite ?nmul_0, ?gneg_0; reflexivity. Qed.
Lemma zmul_gneg z a : zmul z (gneg X a) = gneg X (zmul z a).
Proof. destruct z; cbn; [now rewrite gneg_0|apply nmul_neg|]. now rewrite nmul_neg. Qed.
Lemma zmul_mul_nat n z a : zmul (Z.of_nat n * z) a = nmul n (zmul z a).
Proof.
  induction n as [|n IH]; [reflexivity|].
  replace (Z.of_nat (S n) * z) with (z + Z.of_nat n * z) by lia. rewrite zmul_add, IH. reflexivity.
Qed.
Lemma zmul_mul y z a : zmul (y * z) a = zmul y (zmul z a).
Proof.
  destruct (Z_le_gt_dec 0 y) as [H|H].
  - rewrite <- (Z2Nat.id y) by lia. now rewrite zmul_mul_nat, zmul_nat.
  - replace y with (- Z.of_nat (Z.to_nat (- y))) by lia. set (n := Z.to_nat (- y)).
    replace (- Z.of_nat n * z) with (- (Z.of_nat n * z)) by lia.
    now rewrite !zmul_opp, zmul_mul_nat, zmul_nat.
Qed.

(** Multiples of an element of known order. *)
Lemma zmul_mod m z a : m <> 0 -> zmul m a = 0g -> zmul (z mod m) a = zmul z a.
Proof.
  intros Hm E. rewrite (Z.div_mod z m Hm) at 2. now rewrite zmul_add, Z.mul_comm, zmul_mul, E, zmul_g0, gadd_0_l.
Qed.
Lemma zmul_cong m y z a : m <> 0 -> zmul m a = 0g -> (m | y - z) -> zmul y a = zmul z a.
Proof.
  intros Hm E [k D]. apply gsub_0. rewrite <- zmul_sub, D, zmul_mul, E. apply zmul_g0.
Qed.
Lemma zmul_gcd y z a : zmul y a = 0g -> zmul z a = 0g -> zmul (Z.gcd y z) a = 0g.
Proof.
  intros E1 E2. destruct (Z.gcd_bezout y z (Z.gcd y z) eq_refl) as [u [v B]].
  rewrite <- B, zmul_add, !zmul_mul, E1, E2, !zmul_g0. apply gadd_0_l.
Qed.
End G.
