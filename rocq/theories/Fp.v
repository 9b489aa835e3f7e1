(** The field of integers modulo p = 2^255 - 19, and the constants of the curve edwards25519 (RFC 8032, 5.1).  Nothing of the
    modelled code is in this file. *)
From Coq Require Import ZArith Znumtheory Lia Bool Eqdep_dec Ring Field.
From Verif Require Import Primes.
Local Open Scope Z_scope.

Record Fp := mkFp { fz : Z; fz_rng : (fz mod prime_p =? fz) = true }.

Lemma p_pos : 0 < prime_p. Proof. reflexivity. Qed.
Lemma p_nz : prime_p <> 0. Proof. discriminate. Qed.
Lemma modp_rng z : ((z mod prime_p) mod prime_p =? z mod prime_p) = true.
Proof. apply Z.eqb_eq. apply Z.mod_mod. exact p_nz. Qed.
Definition of_Z (z : Z) : Fp := mkFp (z mod prime_p) (modp_rng z).

Lemma fz_inj a b : fz a = fz b -> a = b.
Proof.
  destruct a as [x Hx], b as [y Hy]. cbn [fz]. intros E. subst y. f_equal. apply UIP_dec. apply bool_dec.
Qed.
Lemma fz_mod a : fz a mod prime_p = fz a.
Proof. apply Z.eqb_eq. apply fz_rng. Qed.
Lemma fz_bound a : 0 <= fz a < prime_p.
Proof. rewrite <- fz_mod. apply Z.mod_pos_bound. exact p_pos. Qed.
Lemma of_Z_fz a : of_Z (fz a) = a.
Proof. apply fz_inj. apply fz_mod. Qed.
Lemma of_Z_eq x y : of_Z x = of_Z y <-> x mod prime_p = y mod prime_p.
Proof. split; [intros E; exact (f_equal fz E)|]. intros E. apply fz_inj. exact E. Qed.
Lemma of_Z_mod x : of_Z (x mod prime_p) = of_Z x.
Proof. apply of_Z_eq. apply Z.mod_mod. exact p_nz. Qed.

Definition fadd a b := of_Z (fz a + fz b).
Definition fmul a b := of_Z (fz a * fz b).
Definition fsub a b := of_Z (fz a - fz b).
Definition fopp a := of_Z (- fz a).
Definition pm2 : positive := Eval vm_compute in Z.to_pos (prime_p - 2).
Definition finv a := of_Z (powm (fz a) pm2 prime_p).
Definition fdiv a b := fmul a (finv b).
Definition f0 := of_Z 0.
Definition f1 := of_Z 1.

Declare Scope fp_scope.
Delimit Scope fp_scope with fp.
Infix "+" := fadd : fp_scope. Infix "*" := fmul : fp_scope. Infix "-" := fsub : fp_scope. Infix "/" := fdiv : fp_scope.
Notation "- x" := (fopp x) : fp_scope.
Notation "0" := f0 : fp_scope. Notation "1" := f1 : fp_scope.

Lemma of_add x y : of_Z (x + y) = fadd (of_Z x) (of_Z y).
Proof. apply of_Z_eq. cbn [fz of_Z]. apply Zplus_mod. Qed.
Lemma of_mul x y : of_Z (x * y) = fmul (of_Z x) (of_Z y).
Proof. apply of_Z_eq. cbn [fz of_Z]. apply Zmult_mod. Qed.
Lemma of_sub x y : of_Z (x - y) = fsub (of_Z x) (of_Z y).
Proof. apply of_Z_eq. cbn [fz of_Z]. apply Zminus_mod. Qed.
Lemma of_opp x : of_Z (- x) = fopp (of_Z x).
Proof. apply of_Z_eq. cbn [fz of_Z]. change (- x) with (0 - x). change (- (x mod prime_p)) with (0 - x mod prime_p). now rewrite Zminus_mod_idemp_r. Qed.

Ltac toZ a := rewrite <- (of_Z_fz a).
Lemma fp_ring : ring_theory f0 f1 fadd fmul fsub fopp (@eq Fp).
Proof.
  constructor; intros; repeat match goal with x : Fp |- _ => rewrite <- (of_Z_fz x); generalize (fz x); clear x; intros x end;
    unfold f0, f1; rewrite <- ?of_opp, <- ?of_sub, <- ?of_mul, <- ?of_add, <- ?of_mul, <- ?of_add; f_equal; ring.
Qed.

Lemma fz_0 a : fz a = 0 <-> a = f0.
Proof. split; [intros E; apply fz_inj; rewrite E; reflexivity|intros ->; reflexivity]. Qed.

Lemma finv_l a : a <> f0 -> fmul (finv a) a = f1.
Proof.
  intros N. unfold finv. rewrite powm_ok by exact p_pos. rewrite of_Z_mod. rewrite <- (of_Z_fz a) at 2. rewrite <- of_mul.
  apply of_Z_eq. replace (fz a ^ Z.pos pm2 * fz a) with (fz a ^ (prime_p - 1)).
  - change (1 mod prime_p) with 1. apply fermat; [exact prime_25519|]. rewrite fz_mod. intros E. apply N. now apply fz_0.
  - replace (prime_p - 1) with (Z.succ (Z.pos pm2)) by reflexivity. rewrite Z.pow_succ_r by discriminate. apply Z.mul_comm.
Qed.

Lemma fp_field : field_theory f0 f1 fadd fmul fsub fopp fdiv finv (@eq Fp).
Proof.
  constructor.
  - exact fp_ring.
  - intros E. apply (f_equal fz) in E. discriminate E.
  - reflexivity.
  - exact finv_l.
Qed.

Definition fp_dec (a b : Fp) : {a = b} + {a <> b}.
Proof.
  destruct (Z.eq_dec (fz a) (fz b)) as [E|N]; [left; now apply fz_inj|right; intros E; apply N; now rewrite E].
Defined.

Add Field fpf : fp_field.

(** Powers. *)
Definition fpow (a : Fp) (e : Z) : Fp := of_Z (fz a ^ e).
Lemma of_pow x e : of_Z (x ^ e) = fpow (of_Z x) e.
Proof. apply of_Z_eq. cbn [fz of_Z]. symmetry. apply pow_mod. exact p_pos. Qed.
Lemma fpow_add a m n : 0 <= m -> 0 <= n -> fpow a (m + n) = fmul (fpow a m) (fpow a n).
Proof. intros Hm Hn. unfold fpow. now rewrite Z.pow_add_r, of_mul. Qed.
Lemma fpow_mul a m n : 0 <= m -> 0 <= n -> fpow a (m * n) = fpow (fpow a m) n.
Proof. intros Hm Hn. unfold fpow at 1. rewrite Z.pow_mul_r by assumption. rewrite of_pow. reflexivity. Qed.
Lemma fpow_1 a : fpow a 1 = a.
Proof. unfold fpow. now rewrite Z.pow_1_r, of_Z_fz. Qed.
Lemma fpow_2 a : fpow a 2 = fmul a a.
Proof. change 2 with (1 + 1). now rewrite fpow_add, fpow_1 by lia. Qed.
Lemma fpow_0 a : fpow a 0 = f1.
Proof. reflexivity. Qed.
Lemma fpow_mull a b n : 0 <= n -> fpow (fmul a b) n = fmul (fpow a n) (fpow b n).
Proof.
  intros Hn. unfold fpow. rewrite <- of_mul, <- Z.pow_mul_l. change (fz (fmul a b)) with ((fz a * fz b) mod prime_p).
  apply of_Z_eq. apply pow_mod. exact p_pos.
Qed.
Lemma fpow_one n : 0 <= n -> fpow f1 n = f1.
Proof. intros Hn. unfold fpow. change (fz f1) with 1. now rewrite Z.pow_1_l. Qed.
Lemma fpow_zero n : 0 < n -> fpow f0 n = f0.
Proof. intros Hn. unfold fpow. change (fz f0) with 0. now rewrite Z.pow_0_l. Qed.
Lemma fpow_fermat a : a <> f0 -> fpow a (prime_p - 1) = f1.
Proof.
  intros N. apply of_Z_eq. change (1 mod prime_p) with 1. apply fermat; [exact prime_25519|]. rewrite fz_mod. intros E. apply N. now apply fz_0.
Qed.
Lemma finv_pow a : finv a = fpow a (prime_p - 2).
Proof. unfold finv, fpow. rewrite powm_ok by exact p_pos. rewrite of_Z_mod. reflexivity. Qed.

Lemma fmul_0 a b : fmul a b = f0 -> a = f0 \/ b = f0.
Proof.
  intros H. destruct (fp_dec a f0) as [E|N]; [now left|right].
  replace b with (fdiv (fmul a b) a) by (field; exact N). rewrite H. field. exact N.
Qed.
Lemma fmul_nz a b : a <> f0 -> b <> f0 -> fmul a b <> f0.
Proof. intros Ha Hb H. destruct (fmul_0 _ _ H); contradiction. Qed.
Lemma fsub_0 a b : fsub a b = f0 -> a = b.
Proof. intros H. replace a with (fadd (fsub a b) b) by ring. rewrite H. ring. Qed.
Lemma f1_nz : f1 <> f0.
Proof. intros E. apply (f_equal fz) in E. discriminate E. Qed.
Lemma f2_nz : fadd f1 f1 <> f0.
Proof. intros E. apply (f_equal fz) in E. discriminate E. Qed.
Lemma sq_eq a b : fmul a a = fmul b b -> a = b \/ a = fopp b.
Proof.
  intros E. assert (H : fmul (fsub a b) (fsub a (fopp b)) = f0) by (transitivity (fsub (fmul a a) (fmul b b)); [ring|rewrite E; ring]).
  destruct (fmul_0 _ _ H) as [H'|H']; apply fsub_0 in H'; auto.
Qed.

(** The square root of -1 and the curve constant d = -121665/121666. *)
Definition fi : Fp := of_Z 19681161376707505956807079304988542015446066515923890162744021073123829784752.
Definition fd : Fp := of_Z 37095705934669439343138083508754565189542113879843219016388785533085940283555.

Lemma fi_sq : fmul fi fi = fopp f1.
Proof. apply fz_inj. vm_compute. reflexivity. Qed.
Lemma fd_def : fmul fd (of_Z 121666) = of_Z (-121665).
Proof. apply fz_inj. vm_compute. reflexivity. Qed.

Definition phalf : positive := Eval vm_compute in Z.to_pos ((prime_p - 1) / 2).
Lemma fd_euler : (powm (fz fd) phalf prime_p =? prime_p - 1) = true.
Proof. vm_compute. reflexivity. Qed.

Lemma sq_half s : s <> f0 -> fpow (fmul s s) (Z.pos phalf) = f1.
Proof.
  intros N. rewrite <- fpow_2, <- fpow_mul by lia. change (2 * Z.pos phalf) with (prime_p - 1). now apply fpow_fermat.
Qed.
Lemma fd_ns s : fmul s s <> fd.
Proof.
  intros E. assert (N : s <> f0). { intros Z. subst s. apply (f_equal fz) in E. vm_compute in E. discriminate E. }
  pose proof (sq_half s N) as H. rewrite E in H. unfold fpow in H. apply of_Z_eq in H.
  pose proof fd_euler as Q. apply Z.eqb_eq in Q. rewrite powm_ok in Q by exact p_pos. rewrite Q in H. discriminate H.
Qed.
