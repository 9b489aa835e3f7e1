(** Properties C28-C30, C71: field arithmetic modulo 2^255 - 19. *)
From Coq Require Import ZArith Znumtheory String List Lia Bool.
From Verif Require Import Base Bytes Limb ScLimbs ScModel FeLimbs FeModel ScProofs FeProofs Primes.
Import ListNotations.
Local Open Scope Z_scope.

(** ** Specification *)

Definition q25519 : Z := 2 ^ 255 - 19.

(** The integer a limb vector stands for: limb i has weight 2^ceil(25.5 i) (fe.rs 4-6). *)
Definition fe_int (f : list Z) : Z :=
  fold_right Z.add 0 (map (fun i => 2 ^ ((51 * Z.of_nat i + 1) / 2) * nth i f 0) (seq 0 10)).

(** Ten limbs with |f_i| <= c/100 * 2^k for even i and <= c/100 * 2^(k-1) for odd i, as the bounds are written in the
    comments of fe.rs. *)
Definition limbs_within (c k : Z) (f : list Z) : Prop :=
  length f = 10%nat /\ forall i, (i < 10)%nat -> 100 * Z.abs (nth i f 0) <= c * 2 ^ (if Nat.even i then k else k - 1).

(** f represents the residue class of x. *)
Definition represents (f : list Z) (x : Z) : Prop := (q25519 | fe_int f - x).

Lemma fe_int_fval f : length f = 10%nat -> fe_int f = fval f.
Proof.
  intros L. ten f L. unfold fe_int, fval. cbn [seq map fold_right nth dot fweights].
  change ((51 * Z.of_nat 0 + 1) / 2) with 0. change ((51 * Z.of_nat 1 + 1) / 2) with 26. change ((51 * Z.of_nat 2 + 1) / 2) with 51. change ((51 * Z.of_nat 3 + 1) / 2) with 77. change ((51 * Z.of_nat 4 + 1) / 2) with 102. change ((51 * Z.of_nat 5 + 1) / 2) with 128. change ((51 * Z.of_nat 6 + 1) / 2) with 153. change ((51 * Z.of_nat 7 + 1) / 2) with 179. change ((51 * Z.of_nat 8 + 1) / 2) with 204. change ((51 * Z.of_nat 9 + 1) / 2) with 230.
  reflexivity.
Qed.

Lemma abs_bound (x c e : Z) : c < 100 * (e + 1) -> 100 * Z.abs x <= c -> - e <= x <= e.
Proof. lia. Qed.

Lemma within_feb c k e o f : c * 2 ^ k < 100 * (e + 1) -> c * 2 ^ (k - 1) < 100 * (o + 1) -> limbs_within c k f -> feb e o f.
Proof.
  intros He Ho [L B]. split; [exact L|].
  ten f L. cbn [alt_bound].
  repeat (split; [first [apply (abs_bound _ _ _ He) | apply (abs_bound _ _ _ Ho)]|]); [..|exact I].
  - exact (B 0%nat ltac:(lia)).
  - exact (B 1%nat ltac:(lia)).
  - exact (B 2%nat ltac:(lia)).
  - exact (B 3%nat ltac:(lia)).
  - exact (B 4%nat ltac:(lia)).
  - exact (B 5%nat ltac:(lia)).
  - exact (B 6%nat ltac:(lia)).
  - exact (B 7%nat ltac:(lia)).
  - exact (B 8%nat ltac:(lia)).
  - exact (B 9%nat ltac:(lia)).
Qed.

Lemma feb_within c k e o f : 100 * e <= c * 2 ^ k -> 100 * o <= c * 2 ^ (k - 1) -> feb e o f -> limbs_within c k f.
Proof.
  intros He Ho [L B]. split; [exact L|]. intros i Hi. ten f L. cbn [alt_bound] in B.
  do 10 (destruct i as [|i]; [cbn [Nat.even nth]; lia|]). lia.
Qed.

Lemma within_loose f : limbs_within 165 26 f -> loose f.
Proof. apply within_feb; unfold LE, LO; lia. Qed.
Lemma tight_within f : tight f -> limbs_within 101 25 f.
Proof. apply feb_within; unfold TE, TO; lia. Qed.

Lemma repr_of f x : length f = 10%nat -> fval f mod prime_p = x mod prime_p -> represents f x.
Proof.
  intros L E. unfold represents. rewrite fe_int_fval by exact L. change q25519 with prime_p.
  pose proof (Z.div_mod (fval f) prime_p ltac:(discriminate)) as D1. pose proof (Z.div_mod x prime_p ltac:(discriminate)) as D2.
  exists (fval f / prime_p - x / prime_p). rewrite E in D1. lia.
Qed.

Lemma repr_mod f x : length f = 10%nat -> represents f x -> fval f mod prime_p = x mod prime_p.
Proof. intros L H. unfold represents in H. rewrite fe_int_fval in H by exact L. apply mod_of_divide; [reflexivity|exact H]. Qed.

(** A limb vector at the limits of the documented input range. *)
Definition extreme : list Z := [110729625; -55364812; 110729625; -55364812; -110729625; 55364812; -110729625; 55364812; -110729625; -55364812].
Lemma extreme_within : limbs_within 165 26 extreme.
Proof. split; [reflexivity|]. intros i Hi. do 10 (destruct i as [|i]; [vm_compute; discriminate|]). lia. Qed.

(** ** C28 *)

Theorem C28_mul (f g : list Z) : limbs_within 165 26 f -> limbs_within 165 26 g ->
  limbs_within 101 25 (fe_mul f g) /\ represents (fe_mul f g) (fe_int f * fe_int g).
Proof.
  intros Hf Hg. destruct (fe_mul_ok f g (within_loose f Hf) (within_loose g Hg)) as [T E]. split; [now apply tight_within|].
  rewrite (fe_int_fval f), (fe_int_fval g) by (apply Hf || apply Hg). apply repr_of; [apply T|exact E].
Qed.
Print Assumptions C28_mul.

Theorem C28_square (f : list Z) : limbs_within 165 26 f ->
  limbs_within 101 25 (fe_square f) /\ represents (fe_square f) (fe_int f ^ 2) /\
  limbs_within 101 25 (fe_square2 f) /\ represents (fe_square2 f) (2 * fe_int f ^ 2).
Proof.
  intros Hf. destruct (fe_square_ok f (within_loose f Hf)) as [T E]. destruct (fe_square2_ok f (within_loose f Hf)) as [T2 E2].
  rewrite (fe_int_fval f) by apply Hf. rewrite Z.pow_2_r.
  split; [now apply tight_within|]. split; [apply repr_of; [apply T|exact E]|]. split; [now apply tight_within|]. apply repr_of; [apply T2|exact E2].
Qed.
Print Assumptions C28_square.

(** No i32 or i64 operation of the five limb programs wraps. *)
Theorem C28_no_overflow (f g src : list Z) : limbs_within 165 26 f -> limbs_within 165 26 g -> Forall (fun b => 0 <= b < 256) src -> length src = 32%nat ->
  safe_run (binds (names10 "f") f (binds (names10 "g") g (fun _ => 0))) fe_mul_prog /\
  safe_run (binds (names10 "f") f (fun _ => 0)) fe_square_prog /\
  safe_run (binds (names10 "f") f (fun _ => 0)) fe_square2_prog /\
  safe_run (binds (names10 "h") (fe_limbs src) (fun _ => 0)) fe_from_bytes_prog /\
  safe_run (binds (names10 "h") f (fun _ => 0)) (fe_to_bytes_q ++ fe_to_bytes_c).
Proof.
  intros Hf Hg Hb Hl. apply within_loose in Hf. apply within_loose in Hg.
  split; [now apply fe_mul_safe|]. split; [now apply fe_square_safe|]. split; [now apply fe_square2_safe|].
  split; [now apply fe_from_bytes_safe|now apply fe_to_bytes_safe].
Qed.
Print Assumptions C28_no_overflow.

Example C28_example : limbs_within 165 26 extreme /\ fe_int extreme mod q25519 <> 0 /\
  fe_square [3; 0; 0; 0; 0; 0; 0; 0; 0; 1] = [9; 0; 0; 0; 0; 0; 0; 0; 38; 6].
Proof. split; [exact extreme_within|]. split; vm_compute; [discriminate|reflexivity]. Qed.

(** ** C29 *)

Theorem C29_to_bytes (f : list Z) : limbs_within 165 26 f ->
  Forall (fun b => 0 <= b < 256) (fe_to_bytes f) /\ length (fe_to_bytes f) = 32%nat /\
  0 <= le_val (fe_to_bytes f) < q25519 /\ (q25519 | le_val (fe_to_bytes f) - fe_int f).
Proof.
  intros Hf. rewrite fe_to_bytes_ok by now apply within_loose. rewrite fe_int_fval by apply Hf.
  pose proof (Z.mod_pos_bound (fval f) prime_p eq_refl) as M. change prime_p with q25519 in *.
  rewrite le_val_le_bytes_small by (change (256 ^ Z.of_nat 32) with (2 ^ 256); unfold q25519 in *; lia).
  split; [apply le_bytes_bytes|]. split; [apply le_bytes_length|]. split; [exact M|].
  exists (- (fval f / q25519)). pose proof (Z.div_mod (fval f) q25519 ltac:(discriminate)). lia.
Qed.
Print Assumptions C29_to_bytes.

Theorem C29_from_bytes (src : list Z) : Forall (fun b => 0 <= b < 256) src -> length src = 32%nat ->
  limbs_within 101 25 (fe_from_bytes src) /\ represents (fe_from_bytes src) (le_val src mod 2 ^ 255).
Proof.
  intros Hb Hl. destruct (fe_from_bytes_ok src Hb Hl) as [T E]. split; [now apply tight_within|]. apply repr_of; [apply T|exact E].
Qed.
Print Assumptions C29_from_bytes.

(** Decoding what was encoded gives the same field element; encoding what was decoded gives back the bytes iff they were
    canonical (below q25519 once the top bit is ignored, and with the top bit clear). *)
Theorem C29_round_trips (f src : list Z) : limbs_within 165 26 f -> Forall (fun b => 0 <= b < 256) src -> length src = 32%nat ->
  represents (fe_from_bytes (fe_to_bytes f)) (fe_int f) /\
  le_val (fe_to_bytes (fe_from_bytes src)) = (le_val src mod 2 ^ 255) mod q25519 /\
  (fe_to_bytes (fe_from_bytes src) = src <-> le_val src < q25519).
Proof.
  intros Hf Hb Hl. destruct (C29_to_bytes f Hf) as [B1 [L1 [R1 D1]]]. destruct (C29_from_bytes _ B1 L1) as [T2 D2].
  destruct (fe_from_bytes_ok src Hb Hl) as [T3 E3]. pose proof (tight_loose _ T3) as T3'.
  assert (V : le_val (fe_to_bytes (fe_from_bytes src)) = (le_val src mod 2 ^ 255) mod q25519).
  { rewrite fe_to_bytes_ok by exact T3'. rewrite E3. change prime_p with q25519.
    apply le_val_le_bytes_small. change (256 ^ Z.of_nat 32) with (2 ^ 256).
    pose proof (Z.mod_pos_bound (le_val src mod 2 ^ 255) q25519 eq_refl). unfold q25519 in *; lia. }
  split; [|split; [exact V|]].
  - unfold represents in *. rewrite Z.mod_small in D2 by (unfold q25519 in *; lia).
    destruct D1 as [a Da]. destruct D2 as [b Db]. exists (a + b). lia.
  - pose proof (le_val_bound src Hb) as Bs. split.
    + intros E. rewrite E in V. pose proof (Z.mod_pos_bound (le_val src mod 2 ^ 255) q25519 eq_refl). lia.
    + intros H. apply le_val_inj; [|exact Hb| |].
      * rewrite fe_to_bytes_ok by exact T3'. apply le_bytes_bytes.
      * rewrite fe_to_bytes_ok by exact T3'. now rewrite le_bytes_length.
      * rewrite V. rewrite (Z.mod_small (le_val src)) by (unfold q25519 in *; lia). apply Z.mod_small. lia.
Qed.
Print Assumptions C29_round_trips.

(** 2^255 - 19 + 2 is accepted and read as 2; the canonical bytes of a class are produced. *)
Example C29_example :
  let src := 239 :: repeat 255 30 ++ [255] in
  Forall (fun b => 0 <= b < 256) src /\ length src = 32%nat /\ fe_to_bytes (fe_from_bytes src) = 2 :: repeat 0 31.
Proof. split; [|split; [reflexivity|vm_compute; reflexivity]]. repeat (constructor; [lia|]). constructor. Qed.

(** The sign and zero tests look at the canonical representative. *)
Theorem C29_sign_and_zero (f : list Z) : limbs_within 165 26 f ->
  fe_is_negative f = (fe_int f mod q25519) mod 2 /\ (fe_is_non_zero f = 1 <-> ~ (q25519 | fe_int f)) /\
  (fe_is_non_zero f = 0 <-> (q25519 | fe_int f)).
Proof.
  intros Hf. pose proof (within_loose f Hf) as H. rewrite fe_is_negative_ok, fe_is_non_zero_ok by exact H.
  rewrite fe_int_fval by apply Hf. change prime_p with q25519.
  assert (D : (q25519 | fval f) <-> fval f mod q25519 = 0).
  { split; [intros D; apply Z.mod_divide; [discriminate|exact D]|intros E; apply Z.mod_divide; [discriminate|exact E]]. }
  rewrite D. split; [reflexivity|].
  destruct (Z.eqb_spec (fval f mod q25519) 0) as [E|E]; split; split; intros X; try congruence; try contradiction.
Qed.
Print Assumptions C29_sign_and_zero.

Example C29_sign_example : limbs_within 165 26 extreme /\ fe_is_non_zero extreme = 1 /\
  fe_is_non_zero [-19; 0; 0; 0; 0; 0; 0; 0; 0; 2 ^ 25] = 0.
Proof. split; [exact extreme_within|]. split; vm_compute; reflexivity. Qed.

(** ** C30 *)

Theorem C30_invert (f : list Z) : limbs_within 165 26 f ->
  limbs_within 101 25 (fe_invert f) /\ represents (fe_invert f) (fe_int f ^ (q25519 - 2)) /\
  (~ (q25519 | fe_int f) -> (q25519 | fe_int f * fe_int (fe_invert f) - 1)) /\
  ((q25519 | fe_int f) -> (q25519 | fe_int (fe_invert f))).
Proof.
  intros Hf. destruct (fe_invert_ok f (within_loose f Hf)) as [T [_ E]]. rewrite (fe_int_fval f) by apply Hf.
  rewrite (fe_int_fval (fe_invert f)) by apply T. change q25519 with prime_p.
  split; [now apply tight_within|]. split; [apply repr_of; [apply T|exact E]|].
  assert (M : (fval f * fval (fe_invert f)) mod prime_p = fval f ^ (prime_p - 1) mod prime_p).
  { rewrite <- Z.mul_mod_idemp_r, E, Z.mul_mod_idemp_r by discriminate.
    apply (f_equal (fun x => x mod prime_p)). change (prime_p - 1) with (Z.succ (prime_p - 2)). rewrite Z.pow_succ_r by discriminate.
    reflexivity. }
  split; intros D.
  - rewrite fermat in M; [|exact prime_25519|].
    + apply Z.mod_divide; [discriminate|]. rewrite Zminus_mod, M. reflexivity.
    + intros Z0. apply D. apply Z.mod_divide; [discriminate|exact Z0].
  - apply Z.mod_divide; [discriminate|]. rewrite E. destruct D as [k ->]. rewrite <- pow_mod by reflexivity.
    rewrite Z.mod_mul by discriminate. rewrite Z.pow_0_l by reflexivity. reflexivity.
Qed.
Print Assumptions C30_invert.

Theorem C30_pow22523 (f : list Z) : limbs_within 165 26 f ->
  limbs_within 101 25 (fe_pow22523 f) /\ represents (fe_pow22523 f) (fe_int f ^ ((q25519 - 5) / 8)).
Proof.
  intros Hf. destruct (fe_pow22523_ok f (within_loose f Hf)) as [T [_ E]]. rewrite (fe_int_fval f) by apply Hf.
  split; [now apply tight_within|]. change ((q25519 - 5) / 8) with (2 ^ 252 - 3). apply repr_of; [apply T|exact E].
Qed.
Print Assumptions C30_pow22523.

Example C30_example : limbs_within 165 26 extreme /\ ~ (q25519 | fe_int extreme).
Proof. split; [exact extreme_within|]. intros D. apply Z.mod_divide in D; [|discriminate]. revert D. vm_compute. discriminate. Qed.

(** ** C71 *)

Theorem C71_add_sub_neg (f g : list Z) (c d : Z) : 0 <= c -> 0 <= d -> c + d <= 165 ->
  limbs_within c 26 f -> limbs_within d 26 g ->
  (limbs_within (c + d) 26 (fe_add f g) /\ fe_int (fe_add f g) = fe_int f + fe_int g) /\
  (limbs_within (c + d) 26 (fe_sub f g) /\ fe_int (fe_sub f g) = fe_int f - fe_int g) /\
  (limbs_within c 26 (fe_neg f) /\ fe_int (fe_neg f) = - fe_int f).
Proof.
  intros Hc Hd Hcd Hf Hg.
  pose proof (Z.div_mod (c * 2 ^ 26) 100 ltac:(lia)) as D1. pose proof (Z.mod_pos_bound (c * 2 ^ 26) 100 ltac:(lia)) as M1.
  pose proof (Z.div_mod (c * 2 ^ 25) 100 ltac:(lia)) as D2. pose proof (Z.mod_pos_bound (c * 2 ^ 25) 100 ltac:(lia)) as M2.
  pose proof (Z.div_mod (d * 2 ^ 26) 100 ltac:(lia)) as D3. pose proof (Z.mod_pos_bound (d * 2 ^ 26) 100 ltac:(lia)) as M3.
  pose proof (Z.div_mod (d * 2 ^ 25) 100 ltac:(lia)) as D4. pose proof (Z.mod_pos_bound (d * 2 ^ 25) 100 ltac:(lia)) as M4.
  set (e1 := c * 2 ^ 26 / 100) in *. set (o1 := c * 2 ^ 25 / 100) in *. set (e2 := d * 2 ^ 26 / 100) in *. set (o2 := d * 2 ^ 25 / 100) in *.
  assert (Ff : feb e1 o1 f) by (apply (within_feb c 26); [lia|change (26 - 1) with 25; lia|exact Hf]).
  assert (Fg : feb e2 o2 g) by (apply (within_feb d 26); [lia|change (26 - 1) with 25; lia|exact Hg]).
  destruct (fe_add_ok e1 o1 e2 o2 f g ltac:(lia) ltac:(lia) Ff Fg) as [A1 A2].
  destruct (fe_sub_ok e1 o1 e2 o2 f g ltac:(lia) ltac:(lia) Ff Fg) as [S1 S2].
  destruct (fe_neg_ok e1 o1 f ltac:(lia) ltac:(lia) Ff) as [N1 N2].
  rewrite !fe_int_fval by (apply A1 || apply S1 || apply N1 || apply Ff || apply Fg).
  split; [split; [|exact A2]|split; [split; [|exact S2]|split; [|exact N2]]].
  - apply (feb_within _ _ (e1 + e2) (o1 + o2)); [lia|change (26 - 1) with 25; lia|exact A1].
  - apply (feb_within _ _ (e1 + e2) (o1 + o2)); [lia|change (26 - 1) with 25; lia|exact S1].
  - apply (feb_within _ _ e1 o1); [lia|change (26 - 1) with 25; lia|exact N1].
Qed.
Print Assumptions C71_add_sub_neg.

(** The conditional move selects on 0/1 without changing any limb. *)
Theorem C71_cond_move (f g : list Z) (b : bool) : length f = length g -> fe_c_move f g (if b then 1 else 0) = if b then g else f.
Proof. intros H. destruct b; [now apply c_move_1|now apply c_move_0]. Qed.
Print Assumptions C71_cond_move.

Example C71_example :
  limbs_within 101 26 [33554432; -16777216; 1; 2; 3; 4; 5; 6; 7; 8] /\
  fe_sub [33554432; -16777216; 1; 2; 3; 4; 5; 6; 7; 8] fe_one = [33554431; -16777216; 1; 2; 3; 4; 5; 6; 7; 8] /\
  fe_c_move [-5; 7] [3; -2147483648] 1 = [3; -2147483648].
Proof. split; [|split; reflexivity]. split; [reflexivity|]. intros i Hi. do 10 (destruct i as [|i]; [vm_compute; discriminate|]). lia. Qed.
