(** C120: the Jacobi symbol. *)
From Coq Require Import ZArith Znumtheory Lia List.
From Verif Require Import Base Bytes IntModel JacobiModel.
From mathcomp Require Import all_ssreflect zify.
Set Implicit Arguments.
Unset Strict Implicit.
Unset Printing Implicit Defensive.
Local Open Scope Z_scope.

(** ** Specification *)
Definition square_mod (m a : Z) : Prop := exists x, (m | x * x - a).

Lemma mod_eq_div a b m : 0 < m -> a mod m = b mod m <-> (m | a - b).
Proof.
move=> h; split.
- move=> e; apply/Z.mod_divide; first by lia. by rewrite Zminus_mod e Z.sub_diag.
- case=> k e; have -> : a = b + k * m by lia. by rewrite Z_mod_plus_full.
Qed.
Lemma legendreP a p : (0 < p)%N ->
  (legendre a p = 0 /\ (Z.of_nat p | a)) \/ (legendre a p = 1 /\ ~ (Z.of_nat p | a) /\ square_mod (Z.of_nat p) a) \/
  (legendre a p = -1 /\ ~ square_mod (Z.of_nat p) a).
Proof.
move=> hp; rewrite /legendre; set P := Z.of_nat p; have hP : 0 < P by lia.
case: Z.eqb_spec => [e|ne]; first by left; split=> //; apply/Z.mod_divide => //; lia.
have nd : ~ (P | a) by move=> d; apply: ne; apply/Z.mod_divide => //; lia.
right; case h: has.
- left; split=> //; split=> //. case/hasP: h => x _ /Z.eqb_spec e. exists (Z.of_nat x). by apply/(mod_eq_div _ _ hP).
- right; split=> // - [x d]. move/hasPn: h => h.
  have b := Z.mod_pos_bound x P hP.
  have i : Z.to_nat (x mod P) \in iota 0 p by rewrite mem_iota; lia.
  move: (h _ i) => /Z.eqb_spec; apply. rewrite Z2Nat.id; last by lia.
  rewrite -Zmult_mod. by apply/(mod_eq_div _ _ hP).
Qed.
Lemma legendre_mod a b p : (0 < p)%N -> (Z.of_nat p | a - b) -> legendre a p = legendre b p.
Proof. by move=> hp d; rewrite /legendre; have -> : a mod Z.of_nat p = b mod Z.of_nat p by apply/mod_eq_div => //; lia. Qed.

(** ** The product *)
Lemma pow_unit u n : u = 1 \/ u = -1 -> Z.pow u (Z.of_nat n) = 1 \/ Z.pow u (Z.of_nat n) = -1.
Proof.
move=> h; elim: n => [|n IH]; first by left.
rewrite Nat2Z.inj_succ Z.pow_succ_r; last by lia. by case: h IH => -> [] ->; [left|right|right|left].
Qed.
Lemma prime_div p m : p \in primes m -> (Z.of_nat p | Z.of_nat m) /\ (1 < p)%N.
Proof.
rewrite mem_primes => /and3P[pp _ /dvdnP[k ->]]; split; last exact: prime_gt1. by exists (Z.of_nat k); lia.
Qed.
Lemma sym_range a m : jacobi_sym a m = 0 \/ jacobi_sym a m = 1 \/ jacobi_sym a m = -1.
Proof.
rewrite /jacobi_sym; have : forall p, p \in primes m -> (0 < p)%N by move=> p /prime_div[_]; lia.
elim: (primes m) => [|p s IH] h /=; first by right; left.
have {}IH := IH (fun q i => h q (mem_behead (s := p :: s) i)).
have n : p = p by []. have hp := h p (mem_head _ _).
case: (legendreP a hp) => [[-> _]|hu].
- case: (logn p m) => [|k]; first by rewrite Z.mul_1_l. by left; rewrite Z.pow_0_l //; lia.
- have u : legendre a p = 1 \/ legendre a p = -1 by case: hu => [[-> _]|[-> _]]; [left|right].
  by case: (pow_unit (logn p m) u) => ->; case: IH => [->|[->|->]]; [left|right; left|right; right|left|right; right|right; left].
Qed.
Lemma sym_zero a m : (0 < m)%N -> jacobi_sym a m = 0 <-> exists p, prime p /\ (Z.of_nat p | a) /\ (Z.of_nat p | Z.of_nat m).
Proof.
move=> hm; rewrite /jacobi_sym.
have E : forall s, {subset s <= primes m} -> foldr (fun p r => Z.pow (legendre a p) (Z.of_nat (logn p m)) * r) 1 s = 0 <-> exists p, p \in s /\ (Z.of_nat p | a).
{ elim=> [|p s IH] sub /=; first by split=> // - [p []].
  have i := sub p (mem_head _ _). have [_ hp] := prime_div i. have hp0 : (0 < p)%N by lia.
  have {}IH := IH (fun q j => sub q (mem_behead (s := p :: s) j)).
  have l : (0 < logn p m)%N by rewrite logn_gt0.
  split.
  - move=> e. have [z|z] : Z.pow (legendre a p) (Z.of_nat (logn p m)) = 0 \/ foldr (fun p r => Z.pow (legendre a p) (Z.of_nat (logn p m)) * r) 1 s = 0 by lia.
    + exists p; rewrite mem_head; split=> //. case: (legendreP a hp0) => [[_ //]|hu].
      have u : legendre a p = 1 \/ legendre a p = -1 by case: hu => [[-> _]|[-> _]]; [left|right].
      by case: (pow_unit (logn p m) u); lia.
    + by have [q [j d]] := proj1 IH z; exists q; rewrite inE j orbT.
  - case=> q []; rewrite inE => /orP[/eqP->|j] d.
    + case: (legendreP a hp0) => [[-> _]|[[_ [nd _]]|[_ ns]]]; first by rewrite Z.pow_0_l //; lia.
      * by [].
      * by case: ns; case: d => k ->; exists 0; exists (- k); lia.
    + by rewrite (proj2 IH) ?Z.mul_0_r //; exists q. }
rewrite (E _ (fun x h => h)); split=> - [p [h d]].
- exists p; split; [by move: h; rewrite mem_primes => /andP[]|split=> //]. by have [] := prime_div h.
- exists p; rewrite mem_primes h hm /=; case: d => d1 [k e]. split=> //. apply/dvdnP; exists (Z.to_nat k). have := prime_gt0 h. nia.
Qed.
Lemma sym_square a m : (0 < m)%N -> square_mod (Z.of_nat m) a -> jacobi_sym a m = 0 \/ jacobi_sym a m = 1.
Proof.
move=> hm [x [k e]]; rewrite /jacobi_sym.
have : forall p, p \in primes m -> (Z.of_nat p | Z.of_nat m) /\ (1 < p)%N by move=> p; exact: prime_div.
elim: (primes m) => [|p s IH] h /=; first by right.
have {}IH := IH (fun q i => h q (mem_behead (s := p :: s) i)). have [[c d] hp] := h p (mem_head _ _).
have hp0 : (0 < p)%N by lia.
case: (legendreP a hp0) => [[-> _]|[[-> _]|[_ ns]]].
- case: (logn p m) => [|j]; first by rewrite Z.mul_1_l. by left; rewrite Z.pow_0_l //; lia.
- by rewrite Z.pow_1_l ?Z.mul_1_l //; lia.
- by case: ns; exists x; exists (k * c); rewrite e d; lia.
Qed.
Lemma sym_mod a b m : (0 < m)%N -> (Z.of_nat m | a - b) -> jacobi_sym a m = jacobi_sym b m.
Proof.
move=> hm [k e]; rewrite /jacobi_sym.
have : forall p, p \in primes m -> (Z.of_nat p | Z.of_nat m) /\ (1 < p)%N by move=> p; exact: prime_div.
elim: (primes m) => [|p s IH] h //=.
rewrite (IH (fun q i => h q (mem_behead (s := p :: s) i))). have [[c d] hp] := h p (mem_head _ _).
by rewrite (@legendre_mod a b p) //; [lia|exists (k * c); rewrite e d; lia].
Qed.
Lemma sym_prime a p : prime p -> jacobi_sym a p = legendre a p.
Proof. by move=> pp; rewrite /jacobi_sym primes_prime //= logn_prime // eqxx Z.pow_1_r Z.mul_1_r. Qed.

Lemma jacobi_pos a m : Z.odd m = true -> 0 < m -> jacobi a m = Ok (jacobi_sym a (Z.to_nat m)).
Proof.
move=> o h; rewrite /jacobi -Z.negb_odd o /=; have -> : (m <? 0) = false by lia. rewrite Z.abs_eq; last by lia.
by case: (jacobi_sym a (Z.to_nat m)).
Qed.

Lemma odd_of_nat n : Z.odd (Z.of_nat n) = odd n.
Proof. by elim: n => [//|n IH]; rewrite Nat2Z.inj_succ Z.odd_succ -Z.negb_odd IH. Qed.

(** ** C120 *)

(** Modulo an odd prime the result tells multiples of p, squares and non-squares apart; the modulus is that of the argument. *)
Theorem C120_prime (i a : Int) (p : nat) : prime p -> odd p -> im a = Z.of_nat p ->
  exists r, int_jacobi i a = Ok r /\ im r = im a /\ ibo r = ibo i /\
    (iv r = 0 <-> (im a | iv a)) /\
    (iv r = 1 <-> ~ (im a | iv a) /\ exists x, (im a | x * x - iv a)) /\
    (iv r = -1 <-> ~ exists x, (im a | x * x - iv a)).
Proof.
move=> pp op e; have hp := prime_gt0 pp.
rewrite /int_jacobi jacobi_pos; [|by rewrite e odd_of_nat|by lia].
rewrite e Nat2Z.id sym_prime // /=; eexists; split; first reflexivity.
split=> //; split=> //=. have S : (Z.of_nat p | iv a) -> square_mod (Z.of_nat p) (iv a) by case=> k ->; exists 0, (- k); lia.
case: (legendreP (iv a) hp) => [[-> d]|[[-> [nd q]]|[-> n]]].
- split; first by split. split; first by split=> // - [].
  by split=> // n; case: n; exact: S.
- split; first by split=> // /nd. split; first by split.
  by split=> // n; case: n.
- split; first by split=> // /S /n. split; first by split=> // - [].
  by split.
Qed.
Print Assumptions C120_prime.
Lemma ex_prime : prime 7. Proof. by []. Qed.
Lemma ex_jac3 : int_jacobi int_default (mkInt 3 7 BigEndian) = Ok (mkInt (-1) 7 LittleEndian). Proof. by vm_compute. Qed.
Lemma ex_jac2 : int_jacobi int_default (mkInt 2 7 BigEndian) = Ok (mkInt 1 7 LittleEndian). Proof. by vm_compute. Qed.
Example C120_prime_example : prime 7 /\ odd 7 /\ int_jacobi int_default (mkInt 3 7 BigEndian) = Ok (mkInt (-1) 7 LittleEndian) /\
  int_jacobi int_default (mkInt 2 7 BigEndian) = Ok (mkInt 1 7 LittleEndian).
Proof. split; first exact: ex_prime. split; first by []. split; first exact: ex_jac3. exact: ex_jac2. Qed.

(** For every odd modulus: one of 0, 1, -1; 0 exactly when the value and the modulus have a common factor; -1 only for
    non-squares; the same for congruent values.  (Full statement of the comment on [jacobi]: 1 for squares only, 0 for zero
    only, see [C120_composite_refuted].) *)
Theorem C120_odd_partial (i a b : Int) : Z.odd (im a) = true -> 0 < im a ->
  exists r, int_jacobi i a = Ok r /\
    (iv r = 0 \/ iv r = 1 \/ iv r = -1) /\
    (iv r = 0 <-> Z.gcd (iv a) (im a) <> 1) /\
    (iv r = -1 -> ~ exists x, (im a | x * x - iv a)) /\
    (im b = im a -> (im a | iv a - iv b) -> int_jacobi i b = Ok r).
Proof.
move=> o h; rewrite /int_jacobi jacobi_pos // /=; eexists; split; first reflexivity.
set m := Z.to_nat (im a); have em : im a = Z.of_nat m by rewrite /m; lia. have hm : (0 < m)%N by lia.
split; first exact: sym_range. split=> /=.
- rewrite sym_zero //; split.
  + case=> p [pp [d1 d2]] g. rewrite -em in d2. have d := Z.gcd_greatest _ _ _ d1 d2. rewrite g in d.
    have p1 : Z.of_nat p = 1 by apply: Z.divide_1_r_nonneg d; lia. have := prime_gt1 pp. lia.
  + move=> g. have g0 := Z.gcd_nonneg (iv a) (im a).
    have [k1 e1] := Z.gcd_divide_l (iv a) (im a). have [k2 e2] := Z.gcd_divide_r (iv a) (im a).
    move: (Z.gcd (iv a) (im a)) g g0 e1 e2 => d g g0 e1 e2.
    have dn : d <> 0 by move=> z; rewrite z Z.mul_0_r in e2; lia.
    have d2 : (1 < Z.to_nat d)%N by lia.
    exists (pdiv (Z.to_nat d)); split; first exact: pdiv_prime.
    have /dvdnP[k e] := pdiv_dvd (Z.to_nat d). have ed : d = Z.of_nat k * Z.of_nat (pdiv (Z.to_nat d)) by lia.
    by split; [exists (k1 * Z.of_nat k)|exists (k2 * Z.of_nat k)]; rewrite -?em; rewrite -Z.mul_assoc -ed.
- split.
  + move=> e s. have := @sym_square (iv a) m hm; rewrite -em => /(_ s). by rewrite e => - [].
  + move=> eb d; rewrite /jacobi eb -Z.negb_odd o /=. have -> : (im a <? 0) = false by lia. rewrite Z.abs_eq; last by lia.
    rewrite (@sym_mod (iv a) (iv b) m) //; last by rewrite -em. by rewrite -/m; case: (jacobi_sym (iv b) m).
Qed.
Print Assumptions C120_odd_partial.
Lemma ex_jac7 : int_jacobi int_default (mkInt 7 15 BigEndian) = Ok (mkInt (-1) 15 LittleEndian). Proof. by vm_compute. Qed.
Lemma ex_jac22 : int_jacobi int_default (mkInt (-8) 15 BigEndian) = Ok (mkInt (-1) 15 LittleEndian). Proof. by vm_compute. Qed.
Example C120_odd_example : Z.odd 15 = true /\ int_jacobi int_default (mkInt 7 15 BigEndian) = Ok (mkInt (-1) 15 LittleEndian) /\
  (15 | 7 - -8) /\ int_jacobi int_default (mkInt (-8) 15 BigEndian) = Ok (mkInt (-1) 15 LittleEndian).
Proof. split; first by []. split; first exact: ex_jac7. split; first by exists 1. exact: ex_jac22. Qed.

(** Modulo 15, 2 gets the symbol 1 and is no square, and 3 gets 0 and is not zero. *)
Lemma ex_15_2 : int_jacobi int_default (mkInt 2 15 BigEndian) = Ok (mkInt 1 15 LittleEndian). Proof. by vm_compute. Qed.
Lemma ex_15_3 : int_jacobi int_default (mkInt 3 15 BigEndian) = Ok (mkInt 0 15 LittleEndian). Proof. by vm_compute. Qed.
Theorem C120_composite_refuted : exists a b i r s : Int,
  0 <= iv a < im a /\ int_jacobi i a = Ok r /\ iv r = 1 /\ (~ exists x, (im a | x * x - iv a)) /\
  int_jacobi i b = Ok s /\ iv s = 0 /\ ~ (im b | iv b).
Proof.
exists (mkInt 2 15 BigEndian), (mkInt 3 15 BigEndian), int_default, (mkInt 1 15 LittleEndian), (mkInt 0 15 LittleEndian).
split; first by []. split; first exact: ex_15_2. split; first by [].
split; last first.
{ split; first exact: ex_15_3. split; first by []. by case=> k /= e; lia. }
move=> [x [k /= e]]. have m3 : (x * x) mod 3 = 2.
{ have -> : x * x = 2 + (k * 5) * 3 by lia. by rewrite Z_mod_plus_full. }
move: m3; rewrite Zmult_mod. have := Z.mod_pos_bound x 3 ltac:(lia). move: (x mod 3) => y hy.
by have [->|[->|->]] : y = 0 \/ y = 1 \/ y = 2 by lia.
Qed.
Print Assumptions C120_composite_refuted.

(** An even modulus panics. *)
Theorem C120_even (i a : Int) : Z.even (im a) = true -> int_jacobi i a = Panic.
Proof. by rewrite /int_jacobi /jacobi => ->. Qed.
Print Assumptions C120_even.
Example C120_even_example : Z.even (im int_default) = true /\ int_jacobi (mkInt 1 7 BigEndian) int_default = Panic.
Proof. by []. Qed.

(** Full statement: the result is an element of the field.  The symbol of a non-square is stored as -1: outside [0, m), different
    from the field's -1, and its encoding is that of 1, so it is decoded as the symbol of a square. *)
Theorem C120_encoding_refuted (i a r : Int) : 1 < im a -> int_jacobi i a = Ok r -> iv r = -1 ->
  ~ (0 <= iv r < im r) /\ int_equal r (int_neg r (int_one r)) = false /\
  (ibo i = BigEndian -> exists b, int_marshal r = Ok b /\ int_marshal (int_one r) = Ok b /\ int_unmarshal r b = (Ok tt, int_one r)).
Proof.
move=> h; rewrite /int_jacobi; case: jacobi => //= v [<-] /= e; rewrite e.
split; first by lia. split; first by rewrite /int_equal /int_neg; case: Z.eqb_spec => //= k; exfalso; lia.
move=> bo; rewrite bo /int_marshal /int_unmarshal /int_one /=.
have -> : int_marshal_size (mkInt 1 (im a) BigEndian) = int_marshal_size (mkInt (-1) (im a) BigEndian) by [].
have hs : (0 < int_marshal_size (mkInt (-1) (im a) BigEndian))%coq_nat.
{ rewrite /int_marshal_size /bits_of /=. have -> : (im a =? 0) = false by lia. have := Z.log2_nonneg (Z.abs (im a)).
  have := Z.div_le_mono 8 (Z.log2 (Z.abs (im a)) + 1 + 7) 8. rewrite Z.div_same; lia. }
have tb : to_bytes_be (-1) = (1 :: nil)%list by [].
have tb1 : to_bytes_be 1 = (1 :: nil)%list by [].
rewrite tb tb1; move: (int_marshal_size _) hs => l hl.
have -> : Nat.ltb l (length (1 :: nil)%list) = false by apply/Nat.ltb_ge => /=; lia.
eexists; split; first reflexivity. split; first reflexivity.
rewrite List.app_length List.repeat_length /=.
have -> : Nat.eqb (l - 1 + 1) l = true by apply/Nat.eqb_eq; lia.
have lz n : be_val (List.repeat 0 n ++ (1 :: nil))%list = 1.
{ rewrite /be_val List.rev_app_distr /=. have -> : le_val (List.rev (List.repeat 0 n)) = 0; last by lia.
  elim: n => [//|n IH]. rewrite /= le_val_app IH /=. lia. }
rewrite lz /=. by have -> : (im a <=? 1) = false by lia.
Qed.
Print Assumptions C120_encoding_refuted.
Example C120_encoding_example : int_jacobi (mkInt 0 7 BigEndian) (mkInt 3 7 LittleEndian) = Ok (mkInt (-1) 7 BigEndian) /\
  int_marshal (mkInt (-1) 7 BigEndian) = Ok (1 :: nil)%list.
Proof. by split; [vm_compute|]. Qed.
Theorem C120_encoding_witness_refuted : exists i a r : Int, 1 < im a /\ 0 <= iv a < im a /\ int_jacobi i a = Ok r /\ ~ (0 <= iv r < im r) /\
  int_unmarshal r (1 :: nil)%list = (Ok tt, int_one r) /\ int_marshal r = Ok (1 :: nil)%list /\ r <> int_one r.
Proof. by exists (mkInt 0 7 BigEndian), (mkInt 3 7 LittleEndian), (mkInt (-1) 7 BigEndian); do 6! (split; first by vm_compute => //; case). Qed.
Print Assumptions C120_encoding_witness_refuted.
