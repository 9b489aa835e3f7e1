(** Primality of 2^255 - 19 and of the group order, by Pocklington certificates, and Fermat's theorem on Z. *)
From Coq Require Import ZArith Znumtheory List Lia Bool.
From mathcomp Require Import ssreflect ssrfun ssrbool eqtype ssrnat div prime cyclic.
Import ListNotations.
Local Open Scope Z_scope.

Section Bridge.

Lemma Zdiv_nat (a b : nat) : (Z.of_nat a | Z.of_nat b) -> (a %| b)%N.
Proof.
  move=> [k Hk]. apply/dvdnP. case: (Z.le_gt_cases 0 k) => H.
  - exists (Z.to_nat k). apply: Nat2Z.inj. change muln with Nat.mul. rewrite Nat2Z.inj_mul Z2Nat.id; lia.
  - have: b = 0%N by nia. move=> ->. exists 0%N. by rewrite mul0n.
Qed.

Lemma nat_Zdiv (a b : nat) : (a %| b)%N -> (Z.of_nat a | Z.of_nat b).
Proof. move=> /dvdnP [k ->]. exists (Z.of_nat k). change muln with Nat.mul. by rewrite Nat2Z.inj_mul. Qed.

Lemma Zprime_nat (p : nat) : Znumtheory.prime (Z.of_nat p) -> prime p.
Proof.
  move=> Hp. have H1 : (1 < Z.of_nat p) by case: Hp. apply/primeP. split; first by apply/ltP; lia.
  move=> d /nat_Zdiv Hd. apply/orP. have [E|[E|[E|E]]] := prime_divisors _ Hp _ Hd.
  - lia.
  - left. apply/eqP. lia.
  - right. apply/eqP. lia.
  - lia.
Qed.

Lemma modn_Z (a b : nat) : (b <> 0)%N -> Z.of_nat (a %% b) = Z.of_nat a mod Z.of_nat b.
Proof.
  move=> Hb. have E := divn_eq a b. have L : (a %% b < b)%N by rewrite ltn_mod; apply/ltP; lia.
  move/ltP: L => L. apply: (Z.mod_unique _ _ (Z.of_nat (a %/ b))); first by lia.
  rewrite {1}E. change addn with Nat.add. change muln with Nat.mul. rewrite Nat2Z.inj_add Nat2Z.inj_mul. lia.
Qed.

Lemma expn_Z (a n : nat) : Z.of_nat (a ^ n) = Z.of_nat a ^ Z.of_nat n.
Proof.
  elim: n => [|n IH]; first by [].
  rewrite expnS. change muln with Nat.mul. rewrite Nat2Z.inj_mul IH Nat2Z.inj_succ Z.pow_succ_r; lia.
Qed.

End Bridge.

Lemma pow_mod a n m : 0 < m -> (a mod m) ^ n mod m = a ^ n mod m.
Proof.
  move=> Hm. case: (Z.lt_ge_cases n 0) => H; first by rewrite !Z.pow_neg_r.
  rewrite -(Z2Nat.id n H). elim: (Z.to_nat n) => [|k IH]; first by [].
  rewrite Nat2Z.inj_succ !Z.pow_succ_r; try lia. have N : m <> 0 by lia.
  by rewrite (Z.mul_mod _ _ _ N) IH (Z.mod_mod _ _ N) -(Z.mul_mod _ _ _ N).
Qed.

(** Fermat's little theorem. *)
Theorem fermat p a : Znumtheory.prime p -> a mod p <> 0 -> a ^ (p - 1) mod p = 1.
Proof.
  move=> Hp Ha. have H1 : 1 < p by case: Hp. rewrite -pow_mod; last by lia.
  set b := a mod p in Ha *. have Hb : 0 < b < p by have := Z.mod_pos_bound a p ltac:(lia); lia.
  pose P := Z.to_nat p. pose B := Z.to_nat b.
  have EP : p = Z.of_nat P by rewrite Z2Nat.id; lia. have EB : b = Z.of_nat B by rewrite Z2Nat.id; lia.
  have PP : prime P by apply: Zprime_nat; rewrite -EP.
  have C : coprime B P.
  { rewrite coprime_sym prime_coprime //. apply/negP => /nat_Zdiv D. rewrite -EP -EB in D.
    have := Z.divide_pos_le p b ltac:(lia) D. lia. }
  have := Euler_exp_totient C. rewrite totient_prime //. move=> E.
  have E2 := f_equal Z.of_nat E. rewrite !modn_Z in E2; try lia. rewrite expn_Z -EP -EB in E2.
  have -> : p - 1 = Z.of_nat P.-1 by lia. rewrite E2. change (Z.of_nat 1) with 1. rewrite Z.mod_small; lia.
Qed.

(** If b^q = 1 and b^k = 1 mod p with q prime not dividing k then b = 1 mod p. *)
Lemma pow_bezout p b q k : 1 < p -> b mod p <> 0 -> Znumtheory.prime p -> 0 <= q -> 0 <= k -> Z.gcd q k = 1 ->
  b ^ q mod p = 1 -> b ^ k mod p = 1 -> b mod p = 1.
Proof.
  move=> Hp Hb Pp Hq Hk G E1 E2. 
  have Pow : forall e n, 0 <= e -> 0 <= n -> b ^ e mod p = 1 -> b ^ (e * n) mod p = 1.
  { move=> e n He Hn E. rewrite Z.pow_mul_r; try lia. rewrite -pow_mod ?E; try lia. rewrite Z.pow_1_l; last by lia. rewrite Z.mod_small; lia. }
  have [u [v Huv]] := Z.gcd_bezout q k 1 ltac:(by rewrite G).
  (* u q + v k = 1; make exponents non-negative by adding multiples of q k *)
  pose t := Z.abs u + Z.abs v + 1.
  case: (Z.eq_dec k 0) => Hk0.
  { have : q = 1. { subst k. rewrite Z.gcd_0_r in G. lia. } move=> Hq1. subst q. by rewrite Z.pow_1_r in E1. }
  case: (Z.eq_dec q 0) => Hq0.
  { have : k = 1. { subst q. rewrite Z.gcd_0_l in G. lia. } move=> Hk1. subst k. by rewrite Z.pow_1_r in E2. }
  have HU : 0 <= u + t * k. { have : 0 <= (k - 1) * t by apply: Z.mul_nonneg_nonneg; lia. lia. }
  have HW : 0 <= t * q - v. { have : 0 <= (q - 1) * t by apply: Z.mul_nonneg_nonneg; lia. lia. }
  have EUW : q * (u + t * k) = 1 + k * (t * q - v).
  { have -> : q * (u + t * k) = (u * q + v * k) + k * (t * q - v) by ring. by rewrite Huv. }
  have X1 : b ^ (q * (u + t * k)) mod p = 1 by apply: Pow.
  have X2 : b ^ (k * (t * q - v)) mod p = 1 by apply: Pow.
  have Y : b ^ (q * (u + t * k)) = b * b ^ (k * (t * q - v)).
  { rewrite EUW Z.pow_add_r ?Z.pow_1_r; try lia. by apply: Z.mul_nonneg_nonneg. }
  rewrite Y Z.mul_mod in X1; last by lia. rewrite X2 Z.mul_1_r Z.mod_mod in X1; [exact: X1|lia].
Qed.

(** A number > 1 has a prime divisor. *)
Lemma prime_divisor n : 1 < n -> exists p, Znumtheory.prime p /\ (p | n) /\ 1 < p <= n.
Proof.
  move=> H. have H0 : 0 <= n by lia. revert n H0 H.
  refine (Zlt_0_ind (fun n => 1 < n -> exists p, Znumtheory.prime p /\ (p | n) /\ 1 < p <= n) _).
  move=> n IH Hn0 Hn. case: (prime_dec n) => [P|NP].
  - exists n. split; first by []. split; [exact: Z.divide_refl|lia].
  - have [d [Hd Dd]] := not_prime_divide n Hn NP. have [p [Pp [Dp Lp]]] := IH d ltac:(lia) ltac:(lia).
    exists p. split; first by []. split; [exact: Z.divide_trans Dp Dd|lia].
Qed.

(** Smallest prime divisor at most the square root. *)
Lemma not_prime_small_divisor n : 1 < n -> ~ Znumtheory.prime n -> exists p, Znumtheory.prime p /\ (p | n) /\ p * p <= n.
Proof.
  move=> Hn NP. have [d [Hd [k Hk]]] := not_prime_divide n Hn NP.
  have Hk1 : 1 < k by nia. case: (Z.le_gt_cases d k) => L.
  - have [p [Pp [Dp Lp]]] := prime_divisor d ltac:(lia). exists p. split; first by []. split; last by nia.
    apply: Z.divide_trans Dp _. by exists k.
  - have [p [Pp [Dp Lp]]] := prime_divisor k ltac:(lia). exists p. split; first by []. split; last by nia.
    apply: Z.divide_trans Dp _. exists d. lia.
Qed.

(** Pocklington's criterion with distinct prime factors q of n - 1 and a witness for each. *)
Definition poc_step (n q a : Z) : Prop :=
  (q | n - 1) /\ a ^ (n - 1) mod n = 1 /\ Z.gcd (a ^ ((n - 1) / q) mod n - 1) n = 1.

Lemma mod_mod_divide a n p : 0 < p -> 0 < n -> (p | n) -> (a mod n) mod p = a mod p.
Proof. move=> Hp Hn D. symmetry. exact: Zmod_div_mod. Qed.

Lemma poc_divides n q a p : 1 < n -> Znumtheory.prime q -> poc_step n q a -> Znumtheory.prime p -> (p | n) -> (q | p - 1).
Proof.
  move=> Hn Pq [[k Hk] [E1 G]] Pp Dp. have Hp : 1 < p by case: Pp. have Hq : 1 < q by case: Pq.
  have Hk0 : 0 < k by nia. have Ek : (n - 1) / q = k by rewrite Hk Z.div_mul; lia. rewrite Ek in G.
  case: (Zdivide_dec q (p - 1)) => [//|ND].
  have C : Z.gcd q (p - 1) = 1. { apply/Zgcd_1_rel_prime. exact: prime_rel_prime. }
  exfalso. 
  have En : a ^ (n - 1) mod p = 1. { rewrite -(mod_mod_divide _ n p) ?E1; try lia; try done. rewrite Z.mod_small; lia. }
  have Anz : (a ^ k) mod p <> 0.
  { move=> Z0. have : a ^ (n - 1) mod p = 0. { rewrite Hk Z.pow_mul_r; try lia. rewrite -pow_mod ?Z0; try lia. rewrite Z.pow_0_l; last by lia. by []. } rewrite En. lia. }
  have B1 : (a ^ k) ^ q mod p = 1 by rewrite -Z.pow_mul_r; try lia; rewrite -Hk.
  have B2 : (a ^ k) ^ (p - 1) mod p = 1 by apply: fermat.
  have B := pow_bezout p (a ^ k) q (p - 1) Hp Anz Pp ltac:(lia) ltac:(lia) C B1 B2.
  have D : (p | a ^ k mod n - 1).
  { apply: Zmod_divide; first by lia. rewrite Zminus_mod mod_mod_divide ?B; try lia; try done.
    rewrite (Z.mod_small 1); [by rewrite Z.sub_diag|lia]. }
  have : (p | 1) by rewrite -G; apply: Z.gcd_greatest. move/Z.divide_1_r_nonneg. lia.
Qed.

Fixpoint prodZ (l : list Z) : Z := match l with [] => 1 | q :: l' => q * prodZ l' end.

Lemma prod_divides l m : NoDup l -> Forall Znumtheory.prime l -> Forall (fun q => (q | m)) l -> (prodZ l | m).
Proof.
  elim: l m => [|q l IH] m ND P D; first by exists m; rewrite /=; lia.
  inversion_clear ND as [|? ? Hq ND']. inversion_clear P as [|? ? Pq P']. inversion_clear D as [|? ? Dq D'].
  have [k Hk] := IH m ND' P' D'. cbn [prodZ]. subst m.
  have : (q | k).
  { apply: (Gauss q (prodZ l)); first by rewrite Z.mul_comm.
    apply: prime_rel_prime => //. move=> Dl. clear - Hq Pq P' Dl.
    elim: l Hq P' Dl => [|r l IH] Hq P' Dl.
    - move/Z.divide_1_r: Dl. case: Pq. lia.
    - cbn [prodZ] in Dl. inversion_clear P' as [|? ? Pr P'']. case: (prime_mult q Pq _ _ Dl) => [D|D].
      + have E := prime_div_prime q r Pq Pr D. apply: Hq. left. by rewrite E.
      + apply: IH => //. move=> I. apply: Hq. by right. }
  move=> [j ->]. exists j. lia.
Qed.

Theorem pocklington n (l : list (Z * Z)) : 1 < n -> NoDup (map fst l) -> Forall Znumtheory.prime (map fst l) ->
  Forall (fun qa => poc_step n (fst qa) (snd qa)) l -> n < prodZ (map fst l) * prodZ (map fst l) -> Znumtheory.prime n.
Proof.
  move=> Hn ND P S L. case: (prime_dec n) => [//|NP]. exfalso.
  have [p [Pp [Dp Lp]]] := not_prime_small_divisor n Hn NP. have Hp : 1 < p by case: Pp.
  have D : (prodZ (map fst l) | p - 1).
  { apply: prod_divides => //. apply/Forall_map. apply/Forall_forall => [[q a]] I. cbn [fst].
    move/Forall_forall: S => S. apply: (poc_divides n q a) => //; last by apply: (S _ I).
    move/Forall_forall: P => P. apply: P. apply: (in_map fst _ _ I). }
  have F : prodZ (map fst l) <= p - 1 by apply: Z.divide_pos_le => //; lia.
  have F0 : 0 < prodZ (map fst l).
  { clear - P. elim: l P => [|[q a] l IH] P; cbn [map prodZ fst]; first by lia. inversion_clear P as [|? ? P1 P2].
    have := IH P2. have : 1 < q by case: P1. nia. }
  nia.
Qed.

(** ** Computation *)

(** Multiplication and reduction tuned for kernel reduction: Karatsuba and an approximate quotient.  The reduction is
    exact whatever [mu] and [k] are. *)
Fixpoint kara (d : nat) (k x y : Z) : Z :=
  match d with
  | O => x * y
  | S d' =>
      let x1 := Z.shiftr x k in let x0 := Z.land x (Z.ones k) in
      let y1 := Z.shiftr y k in let y0 := Z.land y (Z.ones k) in
      let k' := Z.div2 k in
      let z2 := kara d' k' x1 y1 in let z0 := kara d' k' x0 y0 in
      let z1 := kara d' k' (x0 + x1) (y0 + y1) - z2 - z0 in
      z0 + Z.shiftl (z1 + Z.shiftl z2 k) k
  end.

Lemma split_bits x k : 0 <= k -> x = Z.land x (Z.ones k) + Z.shiftr x k * 2 ^ k.
Proof. move=> Hk. rewrite Z.land_ones // Z.shiftr_div_pow2 //. have := Z.div_mod x (2 ^ k) ltac:(by apply: Z.pow_nonzero). lia. Qed.

Lemma kara_ok d k x y : 0 <= k -> kara d k x y = x * y.
Proof.
  elim: d k x y => [//|d IH] k x y Hk. cbn [kara]. have Hk' : 0 <= Z.div2 k by apply Z.div2_nonneg.
  rewrite !IH // !Z.shiftl_mul_pow2 //. rewrite {7}(split_bits x k Hk) {7}(split_bits y k Hk).
  set x1 := Z.shiftr x k. set x0 := Z.land x _. set y1 := Z.shiftr y k. set y0 := Z.land y _. ring.
Qed.

Record red := Red { rn : Z; rk : Z; rmu : Z }.
Definition mkred (n : Z) : red := let k := Z.log2 n + 1 in Red n k (Z.shiftl 1 (2 * k) / n).
Definition fmod (r : red) (x : Z) : Z :=
  let q := Z.shiftr (kara 2 128 (Z.shiftr x (rk r - 1)) (rmu r)) (rk r + 1) in
  let d := x - kara 2 128 q (rn r) in
  if (0 <=? d) && (d <? rn r) then d
  else let d' := d - rn r in if (0 <=? d') && (d' <? rn r) then d' else d mod rn r.

Lemma fmod_ok r x : 0 < rn r -> fmod r x = x mod rn r.
Proof.
  move=> Hn. rewrite /fmod !kara_ok //. set q := Z.shiftr _ _.
  have H : forall d j, d = x - j * rn r -> 0 <= d < rn r -> d = x mod rn r.
  { move=> d j E B. apply: (Z.mod_unique _ _ j); lia. }
  case: (Z.leb_spec 0 (x - q * rn r)) => B1 /=; last first.
  { case: (Z.leb_spec 0 (x - q * rn r - rn r)) => B3 /=; first by lia. rewrite -(Z_mod_plus_full x (- q)). f_equal. lia. }
  case: (Z.ltb_spec (x - q * rn r) (rn r)) => B2 /=; first by apply: (H _ q).
  case: (Z.leb_spec 0 (x - q * rn r - rn r)) => B3 /=; last by lia.
  case: (Z.ltb_spec (x - q * rn r - rn r) (rn r)) => B4 /=; first by apply: (H _ (q + 1)); lia.
  rewrite -(Z_mod_plus_full x (- q)). f_equal. lia.
Qed.

Fixpoint powr (b : Z) (e : positive) (r : red) : Z :=
  match e with
  | xH => fmod r b
  | xO e' => let z := powr b e' r in fmod r (kara 2 128 z z)
  | xI e' => let z := powr b e' r in fmod r (b * fmod r (kara 2 128 z z))
  end.
Definition powm (b : Z) (e : positive) (m : Z) : Z := powr b e (mkred m).

Lemma powr_ok b e r : 0 < rn r -> powr b e r = b ^ Zpos e mod rn r.
Proof.
  move=> Hm. have N : rn r <> 0 by lia. elim: e => [e IH|e IH|]; cbn [powr]; rewrite !fmod_ok ?kara_ok //.
  - rewrite IH (Z.mul_mod_idemp_r _ _ _ N). rewrite -(Z.mul_mod_idemp_r _ _ _ N) -(Z.mul_mod _ _ _ N) (Z.mul_mod_idemp_r _ _ _ N). f_equal.
    rewrite (_ : Z.pos e~1 = 1 + (Z.pos e + Z.pos e)); last by lia. rewrite !Z.pow_add_r; lia.
  - rewrite IH -Z.mul_mod; last by lia. f_equal. rewrite (_ : Z.pos e~0 = Z.pos e + Z.pos e); last by lia. rewrite !Z.pow_add_r; lia.
  - by rewrite Z.pow_1_r.
Qed.
Lemma powm_ok b e m : 0 < m -> powm b e m = b ^ Zpos e mod m.
Proof. move=> Hm. by rewrite /powm powr_ok. Qed.

(** Trial division by 2 .. k. *)
Fixpoint no_divisor (fuel : nat) (d n : Z) : bool :=
  match fuel with O => true | S f => if n mod d =? 0 then false else no_divisor f (d + 1) n end.
Definition small_prime (n : Z) : bool := (1 <? n) && no_divisor (Z.to_nat (Z.sqrt n - 1)) 2 n.

Lemma no_divisor_ok f d n : 1 < d -> no_divisor f d n = true -> forall e, d <= e < d + Z.of_nat f -> ~ (e | n).
Proof.
  elim: f d => [|f IH] d Hd H e He; first by lia. cbn [no_divisor] in H. case: (Z.eqb_spec (n mod d) 0) H => [//|Hn] H.
  case: (Z.eq_dec e d) => [->|Hne].
  - move=> D. apply: Hn. by apply/Z.mod_divide => //; lia.
  - apply: (IH (d + 1)) => //; lia.
Qed.

Lemma small_prime_ok n : small_prime n = true -> Znumtheory.prime n.
Proof.
  move=> /andP [/Z.ltb_lt H1 H2]. case: (prime_dec n) => [//|NP]. exfalso.
  have [p [Pp [Dp Lp]]] := not_prime_small_divisor n H1 NP. have Hp : 1 < p by case: Pp.
  apply: (no_divisor_ok _ 2 n ltac:(lia) H2 p) => //. split; first by lia.
  have : p <= Z.sqrt n by apply Z.sqrt_le_square; lia. lia.
Qed.

(** All witnesses of one certificate share the base a, so a^(n-1) is computed once. *)
Definition poc_check (n a q : Z) : bool :=
  (1 <? q) && match (n - 1) / q with
  | Zpos f => ((n - 1) mod q =? 0) && (Z.gcd (powm a f n - 1) n =? 1)
  | _ => false
  end.
Definition fermat_check (n a : Z) : bool := match n - 1 with Zpos e => powm a e n =? 1 | _ => false end.

Lemma poc_check_ok n a q : 1 < n -> fermat_check n a = true -> poc_check n a q = true -> poc_step n q a.
Proof.
  move=> Hn. rewrite /poc_check /fermat_check. case E1: (n - 1) => [|e|e] //. rewrite -E1. move=> /Z.eqb_eq H2 /andP [/Z.ltb_lt Hq].
  case E2: ((n - 1) / q) => [|f|f] //.
  move=> /andP [/Z.eqb_eq H1 /Z.eqb_eq H3]. rewrite /poc_step. split; [|split].
  - apply/Z.mod_divide => //; lia.
  - rewrite E1 -powm_ok //; lia.
  - rewrite E2 -powm_ok //; lia.
Qed.

Definition cert_check (n a : Z) (l : list Z) : bool :=
  (1 <? n) && fermat_check n a && forallb (poc_check n a) l && (n <? prodZ l * prodZ l).

Lemma cert_ok n a l : NoDup l -> Forall Znumtheory.prime l -> cert_check n a l = true -> Znumtheory.prime n.
Proof.
  move=> ND P /andP [/andP [/andP [/Z.ltb_lt Hn Hf] Hl] /Z.ltb_lt HL].
  have E : map fst (map (fun q => (q, a)) l) = l by rewrite map_map; apply: map_id.
  apply: (pocklington n (map (fun q => (q, a)) l)); rewrite ?E //.
  apply/Forall_map. apply/Forall_forall => q I. cbn [fst snd]. have := proj1 (forallb_forall _ _) Hl q I. by apply: poc_check_ok.
Qed.

Ltac small := apply: small_prime_ok; vm_compute; reflexivity.
Ltac nodup := repeat (constructor; [cbn; intuition discriminate|]); constructor.
Ltac cert l := apply: (cert_ok _ 2 l); [nodup | repeat (constructor; [first [assumption | small]|]); constructor | vm_compute; reflexivity].

Definition prime_p : Z := 2 ^ 255 - 19.
Definition prime_l : Z := 2 ^ 252 + 27742317777372353535851937790883648493.

Theorem prime_25519 : Znumtheory.prime prime_p.
Proof.
  have P1 : Znumtheory.prime 1919519569386763 by cert [8574133; 127].
  have P2 : Znumtheory.prime 2773320623 by cert [569003].
  have P3 : Znumtheory.prime 72106336199 by cert [2773320623].
  have P4 : Znumtheory.prime 75445702479781427272750846543864801 by cert [1919519569386763; 72106336199].
  have P5 : Znumtheory.prime 31757755568855353 by cert [430751; 4153].
  have P6 : Znumtheory.prime 74058212732561358302231226437062788676166966415465897661863160754340907
    by cert [75445702479781427272750846543864801; 31757755568855353].
  cert [74058212732561358302231226437062788676166966415465897661863160754340907].
Qed.

Theorem prime_order : Znumtheory.prime prime_l.
Proof.
  have P1 : Znumtheory.prime 1257559732178653 by cert [1224481; 531581].
  have P2 : Znumtheory.prime 4434155615661930479 by cert [1257559732178653].
  have P3 : Znumtheory.prime 172054593956031949258510691 by cert [4434155615661930479].
  have P4 : Znumtheory.prime 19757330305831588566944191468367130476339 by cert [172054593956031949258510691].
  have P5 : Znumtheory.prime 276602624281642239937218680557139826668747 by cert [19757330305831588566944191468367130476339].
  cert [276602624281642239937218680557139826668747].
Qed.
