(** The group of edwards25519 is cyclic of order 8 l: the multiples of a point of order 8 l are half of what fits between
    0 and 2p, and a point has at most two partners with its y coordinate.  Nothing of the modelled code is in the
    statements. *)
From Coq Require Import ZArith List Lia Bool Ring Field Znumtheory.
From Verif Require Import Base Bytes ScProofs Primes Group Edwards Fp EdCurve GeMul GeBase GeBaseMul GeEnc.
Import ListNotations.
Local Open Scope Z_scope.

(** ** Counting *)

Lemma pigeon (m : nat) : forall (n : nat) (f : nat -> Z), (forall i, (i < n)%nat -> 0 <= f i < Z.of_nat m) ->
  (forall i j, (i < n)%nat -> (j < n)%nat -> f i = f j -> i = j) -> (n <= m)%nat.
Proof.
  intros n f R I.
  assert (N : NoDup (map (fun i => Z.to_nat (f i)) (seq 0 n))).
  { assert (G : forall l, NoDup l -> (forall i, In i l -> (i < n)%nat) -> NoDup (map (fun i => Z.to_nat (f i)) l)).
    { induction l as [|x l IH]; intros Hn Hl; cbn [map]; [constructor|]. inversion_clear Hn as [|? ? Hx Hn']. constructor.
      - rewrite in_map_iff. intros [j [E Hj]]. apply Hx. assert (Lj := Hl j (or_intror Hj)). assert (Lx := Hl x (or_introl eq_refl)).
        replace x with j; [exact Hj|]. apply I; [exact Lj|exact Lx|]. pose proof (R j Lj). pose proof (R x Lx). lia.
      - apply IH; [exact Hn'|]. intros i Hi. apply Hl. now right. }
    apply G; [apply seq_NoDup|]. intros i Hi. apply in_seq in Hi. lia. }
  assert (Inc : incl (map (fun i => Z.to_nat (f i)) (seq 0 n)) (seq 0 m)).
  { intros y Hy. apply in_map_iff in Hy as [i [<- Hi]]. apply in_seq in Hi. apply in_seq. pose proof (R i ltac:(lia)). lia. }
  pose proof (NoDup_incl_length N Inc) as L. rewrite map_length, !seq_length in L. exact L.
Qed.
Lemma zpigeon (n m : Z) (f : Z -> Z) : 0 <= n -> 0 <= m -> (forall i, 0 <= i < n -> 0 <= f i < m) ->
  (forall i j, 0 <= i < n -> 0 <= j < n -> f i = f j -> i = j) -> n <= m.
Proof.
  intros Hn Hm R I.
  assert (L : (Z.to_nat n <= Z.to_nat m)%nat); [|lia].
  apply (pigeon (Z.to_nat m) (Z.to_nat n) (fun i => f (Z.of_nat i))).
  - intros i Hi. rewrite Z2Nat.id by exact Hm. apply R. lia.
  - intros i j Hi Hj E. apply Nat2Z.inj. apply I; [lia|lia|exact E].
Qed.

(** A number below 2p for each point. *)
Definition code (P : epoint) : Z := 2 * fz (ey P) + fz (ex P) mod 2.
Lemma code_range P : 0 <= code P < 2 * prime_p.
Proof. unfold code. pose proof (fz_bound (ey P)). pose proof (Z.mod_pos_bound (fz (ex P)) 2 eq_refl). lia. Qed.
Lemma code_inj P Q : code P = code Q -> P = Q.
Proof.
  unfold code. intros E. pose proof (Z.mod_pos_bound (fz (ex P)) 2 eq_refl). pose proof (Z.mod_pos_bound (fz (ex Q)) 2 eq_refl).
  apply enc_inj. unfold enc. apply (f_equal (le_bytes 32)). assert (fz (ey P) = fz (ey Q)) by lia. lia.
Qed.

(** ** A point of order 8 *)

Definition ty : Fp := of_Z 2707385501144840649318225287225658788936804267575313519463743609750303402022.
Lemma ty_eq : fmul fd (fmul (fmul ty ty) (fmul ty ty)) = fsub f1 (fmul (fadd f1 f1) (fmul ty ty)).
Proof. apply fz_inj. vm_compute. reflexivity. Qed.
Lemma ty_nz : ty <> f0.
Proof. intros E. apply fz_0 in E. revert E. vm_compute. discriminate. Qed.
Lemma ty_nz1 : fz ty <> 1. Proof. vm_compute. discriminate. Qed.
Lemma tors_on : on_curve (fmul fi ty) ty.
Proof.
  unfold on_curve. pose proof fi_sq as S. pose proof ty_eq as E.
  transitivity (fsub (fmul ty ty) (fmul (fmul fi fi) (fmul ty ty))); [ring|].
  transitivity (fadd f1 (fmul (fmul fi fi) (fmul fd (fmul (fmul ty ty) (fmul ty ty))))); [|ring]. rewrite S, E. ring.
Qed.
Definition tors : epoint := EP (fmul fi ty) ty (proj2 (on_curveP _ _) tors_on).

Lemma div_eq a b c : b <> f0 -> a = fmul c b -> fdiv a b = c.
Proof. intros N ->. field. exact N. Qed.
Lemma ring1 : fadd f1 f0 <> f0. Proof. replace (fadd f1 f0) with f1 by ring. exact f1_nz. Qed.

(** (i, 0) and (0, -1). *)
Lemma quarter_on : on_curve fi f0.
Proof. unfold on_curve. transitivity (fopp (fmul fi fi)); [ring|]. rewrite fi_sq. ring. Qed.
Definition quarter : epoint := EP fi f0 (proj2 (on_curveP _ _) quarter_on).
Lemma half_on : on_curve f0 (fopp f1). Proof. unfold on_curve. ring. Qed.
Definition half : epoint := EP f0 (fopp f1) (proj2 (on_curveP _ _) half_on).

Lemma tors_2 : eadd tors tors = quarter.
Proof.
  pose proof fi_sq as S. pose proof ty_eq as E.
  assert (N : fmul (fadd f1 f1) (fmul ty ty) <> f0) by (apply fmul_nz; [exact f2_nz|apply fmul_nz; exact ty_nz]).
  apply ep_inj; cbn [ex ey eadd tors quarter]; unfold law_x, law_y; apply div_eq.
  - replace (fadd f1 _) with (fmul (fadd f1 f1) (fmul ty ty)); [exact N|].
    transitivity (fadd f1 (fmul (fmul fi fi) (fmul fd (fmul (fmul ty ty) (fmul ty ty))))); [|ring]. rewrite S, E. ring.
  - transitivity (fmul fi (fmul (fadd f1 f1) (fmul ty ty))); [ring|]. f_equal.
    transitivity (fadd f1 (fmul (fmul fi fi) (fmul fd (fmul (fmul ty ty) (fmul ty ty))))); [|ring]. rewrite S, E. ring.
  - exact (law_dm _ _ _ _ tors_on tors_on).
  - transitivity (fadd (fmul ty ty) (fmul (fmul fi fi) (fmul ty ty))); [ring|]. rewrite S. ring.
Qed.
Lemma quarter_2 : eadd quarter quarter = half.
Proof.
  pose proof fi_sq as S. apply ep_inj; cbn [ex ey eadd quarter half]; unfold law_x, law_y; apply div_eq.
  - exact (law_dp _ _ _ _ quarter_on quarter_on).
  - ring.
  - exact (law_dm _ _ _ _ quarter_on quarter_on).
  - transitivity (fmul fi fi); [ring|]. rewrite S. ring.
Qed.
Lemma half_2 : eadd half half = e0.
Proof.
  apply ep_inj; cbn [ex ey eadd half e0]; unfold law_x, law_y; apply div_eq; try ring;
    [exact (law_dp _ _ _ _ half_on half_on)|exact (law_dm _ _ _ _ half_on half_on)].
Qed.
Lemma half_nz : half <> e0.
Proof. intros E. apply (f_equal ey) in E. cbn [ey half e0] in E. exact (m1_nz E). Qed.

Lemma mul2 P : mul 2 P = eadd P P. Proof. symmetry. apply emul_2. Qed.
Lemma mul_2_tors : mul 2 tors = quarter. Proof. rewrite mul2. exact tors_2. Qed.
Lemma mul_4_tors : mul 4 tors = half.
Proof. change 4 with (2 * 2). rewrite emul_mul, mul_2_tors, mul2. exact quarter_2. Qed.
Lemma mul_8_tors : mul 8 tors = e0.
Proof. change 8 with (2 * 4). rewrite emul_mul, mul_4_tors, mul2. exact half_2. Qed.

Lemma gcd8 j : (8 | j) \/ (Z.gcd j 8 | 4).
Proof.
  destruct (Z.gcd_divide_r j 8) as [k Hk]. pose proof (Z.gcd_nonneg j 8) as N.
  assert (G : Z.gcd j 8 = 1 \/ Z.gcd j 8 = 2 \/ Z.gcd j 8 = 4 \/ Z.gcd j 8 = 8).
  { assert (Z.gcd j 8 <= 8) by (apply Z.divide_pos_le; [lia|exists k; exact Hk]). assert (Z.gcd j 8 <> 0) by (intros E0; rewrite E0 in Hk; lia). assert (Z.gcd j 8 = 1 \/ Z.gcd j 8 = 2 \/ Z.gcd j 8 = 3 \/ Z.gcd j 8 = 4 \/ Z.gcd j 8 = 5 \/
      Z.gcd j 8 = 6 \/ Z.gcd j 8 = 7 \/ Z.gcd j 8 = 8) by lia.
    revert Hk. intuition (try lia). all: exfalso; lia. }
  destruct G as [E|[E|[E|E]]]; [right; rewrite E|right; rewrite E|right; rewrite E|left; rewrite <- E; apply Z.gcd_divide_l].
  - exists 4; lia.
  - exists 2; lia.
  - exists 1; lia.
Qed.
Lemma tors_order j : mul j tors = e0 <-> (8 | j).
Proof.
  split.
  - intros H. destruct (gcd8 j) as [D|[k Hk]]; [exact D|]. exfalso. apply half_nz. rewrite <- mul_4_tors, Hk, emul_mul.
    rewrite (zmul_gcd edg j 8 tors H mul_8_tors). apply (zmul_g0 edg).
  - intros [k ->]. rewrite emul_mul, mul_8_tors. apply (zmul_g0 edg).
Qed.

(** ** The order of the base point and of base + tors *)

Lemma ell_prime : prime ell. Proof. exact prime_order. Qed.
Lemma base_order j : mul j ebase = e0 <-> (ell | j).
Proof.
  split.
  - intros H. destruct (Zdivide_dec ell j) as [D|D]; [exact D|]. exfalso. apply ebase_nz.
    assert (G : Z.gcd j ell = 1).
    { apply Zgcd_1_rel_prime. apply rel_prime_sym. exact (prime_rel_prime ell ell_prime j D). }
    rewrite <- (emul_1 ebase), <- G. exact (zmul_gcd edg j ell ebase H order_base).
  - intros [k ->]. rewrite emul_mul, order_base. apply (zmul_g0 edg).
Qed.

Definition egen : epoint := eadd ebase tors.
Lemma mul_egen j : mul j egen = eadd (mul j ebase) (mul j tors). Proof. exact (zmul_gadd edg j ebase tors). Qed.
Lemma ell_8 : rel_prime 8 ell.
Proof. apply Zgcd_1_rel_prime. vm_compute. reflexivity. Qed.
Lemma egen_order j : mul j egen = e0 <-> (8 * ell | j).
Proof.
  split.
  - intros H.
    assert (L : (ell | j)).
    { apply (Gauss ell 8 j); [|apply rel_prime_sym; exact ell_8]. apply base_order.
      assert (H8 : mul 8 (mul j egen) = e0) by (rewrite H; apply (zmul_g0 edg)). rewrite <- emul_mul, mul_egen in H8.
      rewrite (proj2 (tors_order (8 * j)) ltac:(exists j; lia)) in H8. rewrite eadd_e0 in H8. exact H8. }
    assert (T : (8 | j)).
    { apply tors_order. rewrite mul_egen, (proj2 (base_order j) L) in H. rewrite <- H. symmetry. apply EdCurve.eadd_0. }
    destruct L as [a Ha]. destruct (Gauss 8 ell a) as [b Hb]; [rewrite Z.mul_comm, <- Ha; exact T|exact ell_8|]. exists b. lia.
  - intros [k ->]. rewrite emul_mul. replace (mul (8 * ell) egen) with e0; [apply (zmul_g0 edg)|].
    rewrite mul_egen, (proj2 (base_order (8 * ell)) ltac:(exists 8; lia)), (proj2 (tors_order (8 * ell)) ltac:(exists ell; lia)). symmetry. apply EdCurve.eadd_0.
Qed.

(** ** Every point is a multiple of egen *)

Lemma sub_e0 P Q : eadd P (eneg Q) = e0 -> P = Q.
Proof. exact (gsub_0 edg P Q). Qed.
Lemma emul_sub j k P : mul (j - k) P = eadd (mul j P) (eneg (mul k P)).
Proof. exact (zmul_sub edg j k P). Qed.
Lemma egen_mul_inj i j : 0 <= i < 8 * ell -> 0 <= j < 8 * ell -> mul i egen = mul j egen -> i = j.
Proof.
  intros Hi Hj E. assert (D : (8 * ell | i - j)).
  { apply egen_order. rewrite emul_sub, E. apply EdCurve.eadd_neg. }
  destruct D as [k Hk]. assert (k = 0) by nia. lia.
Qed.
(** A logarithm is found by search in a finite range. *)
Lemma log_dec P : {exists k, 0 <= k < 8 * ell /\ P = mul k egen} + {forall k, 0 <= k < 8 * ell -> P <> mul k egen}.
Proof.
  assert (G : forall n : nat, {exists k, 0 <= k < Z.of_nat n /\ P = mul k egen} + {forall k, 0 <= k < Z.of_nat n -> P <> mul k egen}).
  { induction n as [|n IH]; [right; lia|]. destruct IH as [Y|N]; [left; destruct Y as [k [Hk E]]; exists k; split; [lia|exact E]|].
    destruct (Z.eq_dec (code P) (code (mul (Z.of_nat n) egen))) as [E|E].
    - left. exists (Z.of_nat n). split; [lia|]. now apply code_inj.
    - right. intros k Hk EP. destruct (Z.eq_dec k (Z.of_nat n)) as [->|Nk]; [apply E; now rewrite <- EP|]. apply (N k); [lia|exact EP]. }
  specialize (G (Z.to_nat (8 * ell))). rewrite Z2Nat.id in G by discriminate. exact G.
Qed.
Theorem cyclic P : exists k, 0 <= k < 8 * ell /\ P = mul k egen.
Proof.
  destruct (log_dec P) as [Y|N]; [exact Y|]. exfalso.
  set (f := fun i => code (if i <? 8 * ell then mul i egen else eadd P (mul (i - 8 * ell) egen))).
  assert (L : 2 * (8 * ell) <= 2 * prime_p).
  { apply (zpigeon _ _ f).
    - discriminate.
    - discriminate.
    - intros i _. apply code_range.
    - intros i j Hi Hj E. unfold f in E. apply code_inj in E.
      destruct (Z.ltb_spec i (8 * ell)) as [Li|Li], (Z.ltb_spec j (8 * ell)) as [Lj|Lj].
      + apply egen_mul_inj; [lia|lia|exact E].
      + exfalso. apply (N ((i - (j - 8 * ell)) mod (8 * ell))); [apply Z.mod_pos_bound; reflexivity|].
        rewrite (zmul_mod edg (8 * ell)) by (discriminate || (apply egen_order; exists 1; lia)). rewrite emul_sub, E.
        symmetry. rewrite <- eadd_assoc, EdCurve.eadd_neg. apply eadd_e0.
      + exfalso. apply (N ((j - (i - 8 * ell)) mod (8 * ell))); [apply Z.mod_pos_bound; reflexivity|].
        rewrite (zmul_mod edg (8 * ell)) by (discriminate || (apply egen_order; exists 1; lia)). rewrite emul_sub, <- E.
        symmetry. rewrite <- eadd_assoc, EdCurve.eadd_neg. apply eadd_e0.
      + apply (gadd_cancel_l edg) in E. assert (i - 8 * ell = j - 8 * ell) by (apply egen_mul_inj; [lia|lia|exact E]). lia. }
  revert L. vm_compute. intros L. now apply L.
Qed.

(** The cofactor and the order annihilate everything. *)
Theorem full_order P : mul (8 * ell) P = e0.
Proof.
  destruct (cyclic P) as [k [_ ->]]. rewrite <- emul_mul, Z.mul_comm, emul_mul, (proj2 (egen_order (8 * ell)) ltac:(exists 1; lia)).
  apply (zmul_g0 edg).
Qed.
(** The points killed by 8 are the multiples of tors, those killed by l the multiples of the base point. *)
Lemma emul_comm_mul a b P : mul a (mul b P) = mul b (mul a P).
Proof. now rewrite <- !emul_mul, Z.mul_comm. Qed.
Theorem small_multiples P : mul 8 P = e0 <-> exists j, 0 <= j < 8 /\ P = mul j tors.
Proof.
  split.
  - intros H. destruct (cyclic P) as [k [_ E]].
    assert (D : (ell | k)).
    { rewrite E, <- emul_mul in H. apply egen_order in H. destruct H as [a Ha]. exists a. lia. }
    destruct D as [a Ha]. exists (a * ell mod 8). split; [apply Z.mod_pos_bound; reflexivity|].
    rewrite (zmul_mod edg 8) by (discriminate || exact mul_8_tors). rewrite E, Ha, mul_egen, (proj2 (base_order (a * ell)) ltac:(exists a; lia)).
    apply EdCurve.eadd_0.
  - intros [j [_ ->]]. rewrite emul_comm_mul, mul_8_tors. apply (zmul_g0 edg).
Qed.
Theorem prime_multiples P : mul ell P = e0 <-> exists j, 0 <= j < ell /\ P = mul j ebase.
Proof.
  split.
  - intros H. destruct (cyclic P) as [k [_ E]].
    assert (D : (8 | k)).
    { rewrite E, <- emul_mul in H. apply egen_order in H. destruct H as [a Ha]. exists a. apply (Z.mul_reg_l _ _ ell); [discriminate|lia]. }
    destruct D as [a Ha]. exists (a * 8 mod ell). split; [apply Z.mod_pos_bound; reflexivity|].
    rewrite (zmul_mod edg ell) by (discriminate || exact order_base). rewrite E, Ha, mul_egen, (proj2 (tors_order (a * 8)) ltac:(exists a; lia)).
    apply eadd_e0.
  - intros [j [_ ->]]. rewrite emul_comm_mul, order_base. apply (zmul_g0 edg).
Qed.
