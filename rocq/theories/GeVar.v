(** The sliding-window recoding (ge.rs [slide]) and variable-time multiplication (ge_mult_vartime.rs). *)
From Coq Require Import ZArith String List Lia Bool.
From Verif Require Import Base Bytes Limb ScLimbs ScModel ScProofs FeLimbs FeModel FeProofs Primes Group Edwards Fp EdCurve GeConsts GeModel GeProofs GeMul.
Import ListNotations.
Local Open Scope Z_scope.

Fixpoint bval (l : list Z) : Z := match l with [] => 0 | x :: r => x + 2 * bval r end.
Definition bits (l : list Z) : Prop := Forall (fun x => x = 0 \/ x = 1) l.
Definition zlen {A} (l : list A) : Z := Z.of_nat (length l).
Definition digit_ok (d : Z) : Prop := -15 <= d <= 15 /\ (d = 0 \/ Z.odd d = true).

Lemma zlen_cons {A} (x : A) l : zlen (x :: l) = zlen l + 1.
Proof. unfold zlen. cbn [length]. lia. Qed.
Lemma zlen_pos {A} (l : list A) : 0 <= zlen l.
Proof. unfold zlen. lia. Qed.
Lemma p2s n : 0 <= n -> 2 ^ (n + 1) = 2 * 2 ^ n.
Proof. intros H. rewrite Z.pow_add_r by lia. lia. Qed.
Lemma bval_bound l : bits l -> 0 <= bval l < 2 ^ zlen l.
Proof.
  induction 1 as [|x l H1 H2 IH]; [cbn; lia|]. cbn [bval]. rewrite zlen_cons, p2s by apply zlen_pos. lia.
Qed.

Lemma slide_bits_ok a : bytes a -> bits (slide_bits a) /\ bval (slide_bits a) = le_val a /\ length (slide_bits a) = (8 * length a)%nat.
Proof.
  induction 1 as [|v a Hv Ha [IH1 [IH2 IH3]]]; [repeat split; constructor|].
  unfold slide_bits. cbn [flat_map]. fold (slide_bits a). cbn [map].
  assert (E : forall j, 0 <= j < 8 -> Z.land (Z.shiftr (wrap8 v) j) 1 = (v / 2 ^ j) mod 2).
  { intros j Hj. change 1 with (Z.ones 1) at 1. rewrite Z.land_ones by lia. change (2 ^ 1) with 2. rewrite Z.shiftr_div_pow2 by lia.
    unfold wrap8. unfold is_byte in Hv.
    assert (W : (v + 128) mod 256 - 128 = v \/ (v + 128) mod 256 - 128 = v - 256).
    { destruct (Z.lt_ge_cases v 128); [left; rewrite Z.mod_small by lia; lia|right].
      rewrite <- (Z.mod_unique_pos (v + 128) 256 1 (v + 128 - 256)) by lia. lia. }
    destruct W as [-> | ->]; [reflexivity|].
    replace (v - 256) with (v + (- 2 ^ (8 - j)) * 2 ^ j) by (rewrite Z.mul_opp_l, <- Z.pow_add_r by lia; replace (8 - j + j) with 8 by lia; change (2 ^ 8) with 256; lia).
    rewrite Z.div_add by (apply Z.pow_nonzero; lia). replace (- 2 ^ (8 - j)) with ((- 2 ^ (7 - j)) * 2) by (replace (8 - j) with (7 - j + 1) by lia; rewrite p2s by lia; lia).
    apply Z_mod_plus_full. }
  rewrite !E by lia. clear E. change (2 ^ 0) with 1. change (2 ^ 1) with 2. change (2 ^ 2) with 4. change (2 ^ 3) with 8. change (2 ^ 4) with 16. change (2 ^ 5) with 32. change (2 ^ 6) with 64. change (2 ^ 7) with 128.
  split; [|split].
  - cbn [app]. repeat (constructor; [match goal with |- ?x mod 2 = 0 \/ _ => pose proof (Z.mod_pos_bound x 2 ltac:(lia)); lia end|]). exact IH1.
  - cbn [app bval le_val]. rewrite IH2. unfold is_byte in Hv. clear - Hv. rewrite Z.div_1_r.
    assert (DD : forall k, 0 < k -> v / k = 2 * (v / (k * 2)) + (v / k) mod 2) by (intros k Hk; rewrite <- Z.div_div by lia; apply Z.div_mod; lia).
    pose proof (DD 1 ltac:(lia)) as D0. rewrite Z.div_1_r in D0. change (1 * 2) with 2 in D0.
    pose proof (DD 2 ltac:(lia)) as D1. change (2 * 2) with 4 in D1.
    pose proof (DD 4 ltac:(lia)) as D2. change (4 * 2) with 8 in D2.
    pose proof (DD 8 ltac:(lia)) as D3. change (8 * 2) with 16 in D3.
    pose proof (DD 16 ltac:(lia)) as D4. change (16 * 2) with 32 in D4.
    pose proof (DD 32 ltac:(lia)) as D5. change (32 * 2) with 64 in D5.
    pose proof (DD 64 ltac:(lia)) as D6. change (64 * 2) with 128 in D6.
    pose proof (DD 128 ltac:(lia)) as D7. change (128 * 2) with 256 in D7.
    assert (v / 256 = 0) by (apply Z.div_small; lia). lia.
  - cbn [app length]. rewrite IH3. lia.
Qed.

Lemma slide_carry_ok l : bits l -> bits (slide_carry l) /\ length (slide_carry l) = length l /\
  exists c, bval l + 1 = bval (slide_carry l) + c * 2 ^ zlen l.
Proof.
  induction 1 as [|x l H1 H2 [IH1 [IH2 [c IH3]]]]; [split; [constructor|]; split; [reflexivity|]; exists 1; reflexivity|].
  cbn [slide_carry]. destruct (Z.eqb_spec x 0) as [->|N].
  - split; [constructor; [now right|exact H2]|]. split; [reflexivity|]. exists 0. cbn [bval]. lia.
  - assert (x = 1) by lia. subst x. split; [constructor; [now left|exact IH1]|]. split; [cbn [length]; lia|].
    exists c. cbn [bval]. rewrite zlen_cons, p2s by apply zlen_pos. lia.
Qed.
Lemma slide_carry_exact l : bits l -> bval l + 1 < 2 ^ zlen l -> bval (slide_carry l) = bval l + 1.
Proof.
  intros H B. destruct (slide_carry_ok l H) as [H1 [H2 [c H3]]]. pose proof (bval_bound _ H1) as B1. pose proof (bval_bound _ H) as B0.
  assert (E : zlen (slide_carry l) = zlen l) by (unfold zlen; now rewrite H2). rewrite E in B1. assert (c = 0) by nia. lia.
Qed.

Lemma bval_zeros l m : Forall (fun x => x = 0) l -> bval (rev_append l m) = 2 ^ zlen l * bval m.
Proof.
  intros H. revert m. induction H as [|x l H1 H2 IH]; intros m; [cbn [rev_append zlen length Z.of_nat]; unfold zlen; cbn [length]; rewrite Z.pow_0_r; lia|].
  cbn [rev_append]. rewrite IH. subst x. cbn [bval]. rewrite zlen_cons, p2s by apply zlen_pos. lia.
Qed.
Lemma bits_rev_append l m : Forall (fun x => x = 0) l -> bits m -> bits (rev_append l m).
Proof. intros H. revert m. induction H as [|x l H1 H2 IH]; intros m Hm; [exact Hm|]. cbn [rev_append]. apply IH. constructor; [now left|exact Hm]. Qed.
Lemma len_rev_append (l m : list Z) : zlen (rev_append l m) = zlen l + zlen m.
Proof. unfold zlen. rewrite rev_append_rev, app_length, rev_length. lia. Qed.

Definition inner_post (b x : Z) (rest passed : list Z) (r : Z * list Z) : Prop :=
  let (x', r') := r in
  Z.odd x' = true /\ -15 <= x' <= 15 /\ bits r' /\ zlen r' = zlen passed + zlen rest /\
  (exists c, x + 2 ^ b * bval rest = x' + 2 * bval r' + c * 2 ^ (b + zlen rest)) /\
  ((1 <= zlen rest -> x + 2 ^ b * bval rest <= 2 ^ (b + zlen rest - 1)) -> bval rest <= 2 ^ (zlen rest - 1) ->
   x + 2 ^ b * bval rest = x' + 2 * bval r' /\ bval r' <= 2 ^ (zlen r' - 1)).

Lemma inner_exit b x rest passed : 1 <= b -> bits rest -> Forall (fun x => x = 0) passed -> zlen passed = b - 1 -> Z.odd x = true -> -15 <= x <= 15 ->
  inner_post b x rest passed (x, rev_append passed rest).
Proof.
  intros Hb Hr Hp Lp Ox Bx. unfold inner_post. rewrite len_rev_append, bval_zeros by exact Hp. rewrite Lp.
  assert (Pb : 2 ^ b = 2 * 2 ^ (b - 1)) by (rewrite <- p2s by lia; f_equal; lia).
  split; [exact Ox|]. split; [exact Bx|]. split; [now apply bits_rev_append|]. split; [reflexivity|]. split; [exists 0; rewrite Pb; ring|].
  intros _ K2. split; [rewrite Pb; ring|]. pose proof (zlen_pos rest) as Zp. destruct (Z.eq_dec (zlen rest) 0) as [E|N].
  - assert (rest = []) by (destruct rest; [reflexivity|rewrite zlen_cons in E; pose proof (zlen_pos rest); lia]). subst rest. cbn [bval]. rewrite Z.mul_0_r. apply Z.pow_nonneg. lia.
  - replace (b - 1 + zlen rest - 1) with ((b - 1) + (zlen rest - 1)) by lia. rewrite Z.pow_add_r by lia. apply Z.mul_le_mono_nonneg_l; [apply Z.pow_nonneg; lia|exact K2].
Qed.

Lemma wrap8_small z : -128 <= z < 128 -> wrap8 z = z.
Proof. exact (wrap8_id z). Qed.

Lemma odd_shift x b : 1 <= b -> Z.odd (x + 2 ^ b) = Z.odd x /\ Z.odd (x - 2 ^ b) = Z.odd x.
Proof.
  intros Hb. replace (2 ^ b) with (2 * 2 ^ (b - 1)) by (rewrite <- p2s by lia; f_equal; lia).
  rewrite Z.odd_add, Z.odd_sub, Z.odd_mul. cbn [Z.odd andb]. rewrite !xorb_false_r. auto.
Qed.

Lemma slide_inner_ok n : forall b x rest passed, b + Z.of_nat n = 7 -> 1 <= b -> bits rest -> Forall (fun x => x = 0) passed -> zlen passed = b - 1 ->
  Z.odd x = true -> -15 <= x <= 15 -> inner_post b x rest passed (slide_inner n b x passed rest).
Proof.
  induction n as [|n IH]; intros b x rest passed Hn Hb Hr Hp Lp Ox Bx; [cbn [slide_inner]; now apply inner_exit|].
  destruct rest as [|y rest]; [cbn [slide_inner]; now apply inner_exit|].
  cbn [slide_inner]. inversion Hr as [|? ? Hy Hr']; subst. pose proof (zlen_pos rest) as Zp. pose proof (bval_bound _ Hr') as Br.
  assert (Zc : zlen (y :: rest) = zlen rest + 1) by apply zlen_cons.
  destruct (Z.eqb_spec y 0) as [->|N]; cbn [negb].
  - (* a zero: pass it *)
    assert (H : inner_post (b + 1) x rest (0 :: passed) (slide_inner n (b + 1) x (0 :: passed) rest)).
    { apply IH; try assumption; [lia|lia|constructor; [reflexivity|exact Hp]|rewrite zlen_cons; lia]. }
    revert H. generalize (slide_inner n (b + 1) x (0 :: passed) rest). intros [x' r'] [O1 [B1 [R1 [L1 [[c E1] K1]]]]].
    rewrite zlen_cons in L1. unfold inner_post. cbn [bval]. rewrite Zc. rewrite (p2s b) in E1, K1 by lia.
    split; [exact O1|]. split; [exact B1|]. split; [exact R1|]. split; [lia|]. split.
    + exists c. replace (b + (zlen rest + 1)) with (b + 1 + zlen rest) by lia. rewrite <- E1. lia.
    + intros A1 A2. replace (zlen rest + 1 - 1) with (zlen rest) in A2 by lia.
      destruct K1 as [K1 K2].
      * intros A3. replace (b + 1 + zlen rest - 1) with (b + (zlen rest + 1) - 1) by lia. etransitivity; [|apply A1; lia]. lia.
      * destruct (Z.eq_dec (zlen rest) 0) as [E0|N0].
        -- assert (rest = []) by (destruct rest; [reflexivity|rewrite zlen_cons in E0; pose proof (zlen_pos rest); lia]). subst rest. cbn. lia.
        -- replace (zlen rest) with (zlen rest - 1 + 1) in A2 by lia. rewrite p2s in A2 by lia. lia.
      * split; [lia|exact K2].
  - assert (y = 1) by lia. subst y.
    assert (Es : wrap8 (Z.shiftl 1 b) = 2 ^ b).
    { rewrite Z.shiftl_1_l. apply wrap8_small. assert (b = 1 \/ b = 2 \/ b = 3 \/ b = 4 \/ b = 5 \/ b = 6) as [->|[->|[->|[->|[->| ->]]]]] by lia; cbn; lia. }
    assert (Pb : 2 <= 2 ^ b <= 64). { assert (b = 1 \/ b = 2 \/ b = 3 \/ b = 4 \/ b = 5 \/ b = 6) as [->|[->|[->|[->|[->| ->]]]]] by lia; cbn; lia. }
    cbv zeta. rewrite Es. rewrite (wrap8_small (x + 2 ^ b)), (wrap8_small (x - 2 ^ b)) by lia. destruct (odd_shift x b Hb) as [O1 O2].
    destruct (Z.leb_spec (x + 2 ^ b) 15) as [Hle|Hgt].
    + assert (H : inner_post (b + 1) (x + 2 ^ b) rest (0 :: passed) (slide_inner n (b + 1) (x + 2 ^ b) (0 :: passed) rest)).
      { apply IH; try assumption; [lia|lia|constructor; [reflexivity|exact Hp]|rewrite zlen_cons; lia|rewrite O1; exact Ox|lia]. }
      revert H. generalize (slide_inner n (b + 1) (x + 2 ^ b) (0 :: passed) rest). intros [x' r'] [O3 [B1 [R1 [L1 [[c E1] K1]]]]].
      rewrite zlen_cons in L1. unfold inner_post. cbn [bval]. rewrite Zc. rewrite (p2s b) in E1, K1 by lia.
      split; [exact O3|]. split; [exact B1|]. split; [exact R1|]. split; [lia|]. split.
      * exists c. replace (b + (zlen rest + 1)) with (b + 1 + zlen rest) by lia. lia.
      * intros A1 A2. replace (zlen rest + 1 - 1) with (zlen rest) in A2 by lia. destruct K1 as [K1 K2].
        -- intros A3. replace (b + 1 + zlen rest - 1) with (b + (zlen rest + 1) - 1) by lia. etransitivity; [|apply A1; lia]. lia.
        -- destruct (Z.eq_dec (zlen rest) 0) as [E0|N0].
           ++ assert (rest = []) by (destruct rest; [reflexivity|rewrite zlen_cons in E0; pose proof (zlen_pos rest); lia]). subst rest. cbn. lia.
           ++ replace (zlen rest) with (zlen rest - 1 + 1) in A2 by lia. rewrite p2s in A2 by lia. lia.
        -- split; [lia|exact K2].
    + destruct (Z.leb_spec (-15) (x - 2 ^ b)) as [Hge|Hlt]; [|now apply inner_exit].
      cbn [slide_carry Z.eqb]. destruct (slide_carry_ok rest Hr') as [C1 [C2 [c0 C3]]].
      assert (Lc : zlen (slide_carry rest) = zlen rest) by (unfold zlen; now rewrite C2).
      assert (H : inner_post (b + 1) (x - 2 ^ b) (slide_carry rest) (0 :: passed) (slide_inner n (b + 1) (x - 2 ^ b) (0 :: passed) (slide_carry rest))).
      { apply IH; try assumption; [lia|lia|constructor; [reflexivity|exact Hp]|rewrite zlen_cons; lia|rewrite O2; exact Ox|lia]. }
      revert H. generalize (slide_inner n (b + 1) (x - 2 ^ b) (0 :: passed) (slide_carry rest)). intros [x' r'] [O3 [B1 [R1 [L1 [[c E1] K1]]]]].
      rewrite zlen_cons, Lc in L1. unfold inner_post. cbn [bval]. rewrite Zc. rewrite Lc in E1, K1. rewrite (p2s b) in E1, K1 by lia.
      split; [exact O3|]. split; [exact B1|]. split; [exact R1|]. split; [lia|]. split.
      * exists (c + c0). replace (b + (zlen rest + 1)) with (b + 1 + zlen rest) by lia. rewrite Z.mul_add_distr_r.
        replace (c * 2 ^ (b + 1 + zlen rest)) with (x - 2 ^ b + 2 * 2 ^ b * bval (slide_carry rest) - (x' + 2 * bval r')) by lia.
        rewrite (Z.pow_add_r 2 (b + 1)), (p2s b) by lia. replace (c0 * (2 * 2 ^ b * 2 ^ zlen rest)) with (2 * 2 ^ b * (c0 * 2 ^ zlen rest)) by ring.
        replace (c0 * 2 ^ zlen rest) with (bval rest + 1 - bval (slide_carry rest)) by lia. ring.
      * intros A1 A2. replace (zlen rest + 1 - 1) with (zlen rest) in A2 by lia.
        assert (Np : zlen rest <> 0).
        { intros E0. specialize (A1 ltac:(lia)). replace (b + (zlen rest + 1) - 1) with b in A1 by lia. assert (x <= 0) by nia.
          assert (b = 1 \/ b = 2 \/ b = 3 \/ b = 4 \/ b = 5 \/ b = 6) as [->|[->|[->|[->|[->| ->]]]]] by lia; cbn in Hgt, Hge; lia. }
        assert (A2' : bval rest + 1 <= 2 ^ (zlen rest - 1)).
        { replace (zlen rest) with (zlen rest - 1 + 1) in A2 by lia. rewrite p2s in A2 by lia. lia. }
        assert (Pl : 2 ^ zlen rest = 2 * 2 ^ (zlen rest - 1)) by (rewrite <- p2s by lia; f_equal; lia).
        assert (Ex : bval (slide_carry rest) = bval rest + 1) by (apply slide_carry_exact; [exact Hr'|pose proof (Z.pow_pos_nonneg 2 (zlen rest - 1) ltac:(lia) ltac:(lia)); lia]).
        rewrite Ex in K1. destruct K1 as [K1 K2].
        -- intros A3. replace (b + 1 + zlen rest - 1) with (b + (zlen rest + 1) - 1) by lia. etransitivity; [|apply A1; lia]. lia.
        -- exact A2'.
        -- split; [lia|exact K2].
Qed.

Lemma slide_loop_ok n : forall r, length r = n -> bits r ->
  Forall digit_ok (slide_loop n r) /\ length (slide_loop n r) = n /\
  (exists c, bval r = bval (slide_loop n r) + c * 2 ^ zlen r) /\
  (bval r <= 2 ^ (zlen r - 1) -> bval r = bval (slide_loop n r)).
Proof.
  induction n as [|n IH]; intros r Hl Hr.
  { destruct r; [|discriminate Hl]. cbn. split; [constructor|]. split; [reflexivity|]. split; [exists 0; reflexivity|reflexivity]. }
  destruct r as [|x r]; [discriminate Hl|]. inversion Hr as [|? ? Hx Hr']; subst. cbn [slide_loop]. cbn [length] in Hl.
  pose proof (zlen_pos r) as Zp. pose proof (bval_bound _ Hr') as Br.
  assert (K2 : bval (x :: r) <= 2 ^ (zlen (x :: r) - 1) -> bval r <= 2 ^ (zlen r - 1)).
  { intros K. cbn [bval] in K. rewrite zlen_cons in K. replace (zlen r + 1 - 1) with (zlen r) in K by lia. destruct (Z.eq_dec (zlen r) 0) as [E0|N0].
    - assert (r = []) by (destruct r; [reflexivity|rewrite zlen_cons in E0; pose proof (zlen_pos r); lia]). subst r. cbn. lia.
    - replace (zlen r) with (zlen r - 1 + 1) in K by lia. rewrite p2s in K by lia. lia. }
  destruct (Z.eqb_spec x 0) as [->|N]; cbn [negb].
  - destruct (IH r ltac:(lia) Hr') as [D [L [[c E] X]]]. split; [constructor; [split; [lia|now left]|exact D]|]. split; [cbn [length]; lia|].
    cbn [bval]. split; [exists c; rewrite zlen_cons, p2s by lia; lia|]. intros K. rewrite X by (apply K2; exact K). reflexivity.
  - assert (x = 1) by lia. subst x.
    pose proof (slide_inner_ok 6 1 1 r [] eq_refl ltac:(lia) Hr' (Forall_nil _) eq_refl eq_refl ltac:(lia)) as H. revert H.
    generalize (slide_inner 6 1 1 [] r). intros [x' r'] [O [B [R [L [[c E] X]]]]]. cbn [zlen length Z.of_nat] in L.
    assert (L' : zlen r' = zlen r) by (rewrite L; reflexivity). clear L. change (2 ^ 1) with 2 in E, X.
    destruct (IH r') as [D' [Ll [[c' E'] X']]]; [unfold zlen in L'; lia|exact R|].
    split; [constructor; [split; [lia|now right]|exact D']|]. split; [cbn [length]; lia|]. cbn [bval]. split.
    + exists (c + c'). rewrite zlen_cons. rewrite L' in E'. rewrite (Z.add_comm (zlen r) 1), Z.mul_add_distr_r. rewrite E, E'. rewrite (Z.pow_add_r 2 1) by lia. change (2 ^ 1) with 2. ring.
    + intros K. destruct X as [X1 X2].
      * intros _. cbn [bval] in K. rewrite zlen_cons in K. replace (1 + zlen r - 1) with (zlen r + 1 - 1) by lia. exact K.
      * apply K2. exact K.
      * rewrite X1, X' by exact X2. reflexivity.
Qed.

(** The 256 signed digits: odd or zero, within -15 .. 15, and worth the scalar (modulo 2^256 when its top bit is set). *)
Theorem slide_ok a : bytes a -> length a = 32%nat ->
  Forall digit_ok (slide a) /\ length (slide a) = 256%nat /\ (exists c, le_val a = bval (slide a) + c * 2 ^ 256) /\
  (le_val a <= 2 ^ 255 -> bval (slide a) = le_val a).
Proof.
  intros Hb Hl. destruct (slide_bits_ok a Hb) as [B [V L]]. rewrite Hl in L. cbn [Nat.mul Nat.add] in L.
  destruct (slide_loop_ok 256 (slide_bits a) L B) as [D [L' [[c E] X]]]. unfold slide. rewrite V in E, X.
  assert (Z : zlen (slide_bits a) = 256) by (unfold zlen; rewrite L; reflexivity). rewrite Z in E, X.
  split; [exact D|]. split; [exact L'|]. split; [exists c; exact E|]. intros K. symmetry. apply X. exact K.
Qed.

(** ** Multiplication *)

Definition odds_ok (ai : list cached) (P : epoint) : Prop :=
  length ai = 8%nat /\ forall k, (k < 8)%nat -> cached_ok (nth k ai cached_zero) (mul (2 * Z.of_nat k + 1) P).

Lemma odd_table_ok n a2 P : ext_ok a2 (mul 2 P) -> forall c j, cached_ok c (mul j P) ->
  length (odd_table n a2 c) = S n /\ forall k, (k <= n)%nat -> cached_ok (nth k (odd_table n a2 c) cached_zero) (mul (2 * Z.of_nat k + j) P).
Proof.
  intros H2. induction n as [|n IH]; intros c j Hc.
  - split; [reflexivity|]. intros k Hk. assert (k = 0%nat) by lia. subst k. exact Hc.
  - cbn [odd_table]. destruct (IH (write_cached (to_extended (comp_add a2 c))) (2 + j)) as [L N].
    { apply write_cached_ok. apply to_extended_ok. rewrite emul_add. now apply comp_add_ok. }
    split; [cbn [length]; lia|]. intros [|k] Hk; [exact Hc|]. cbn [nth]. replace (2 * Z.of_nat (S k) + j) with (2 * Z.of_nat k + (2 + j)) by lia. apply N. lia.
Qed.

Lemma nth_odd ai P d : odds_ok ai P -> 0 < d <= 15 -> Z.odd d = true -> cached_ok (nth_cached ai (Z.quot d 2)) (mul d P).
Proof.
  intros [L H] Hd Od. unfold nth_cached. rewrite Z.quot_div_nonneg by lia.
  pose proof (Z.div_mod d 2 ltac:(lia)) as D. rewrite Zmod_odd, Od in D. change (if true then 1 else 0) with 1 in D.
  specialize (H (Z.to_nat (d / 2)) ltac:(lia)). replace (2 * Z.of_nat (Z.to_nat (d / 2)) + 1) with d in H by lia. exact H.
Qed.

Lemma vt_add_ok ai P h Q d : odds_ok ai P -> ext_ok h Q -> 0 < d <= 15 -> Z.odd d = true -> comp_ok (comp_add h (nth_cached ai (Z.quot d 2))) (eadd Q (mul d P)).
Proof. intros Ha Hh Hd Od. apply comp_add_ok; [exact Hh|]. now apply nth_odd. Qed.
Lemma vt_sub_ok ai P h Q d : odds_ok ai P -> ext_ok h Q -> -15 <= d < 0 -> Z.odd d = true -> comp_ok (comp_sub h (nth_cached ai (Z.quot (wrap8 (- d)) 2))) (eadd Q (mul d P)).
Proof.
  intros Ha Hh Hd Od. rewrite wrap8_small by lia.
  replace (mul d P) with (eneg (mul (- d) P)) by (rewrite <- emul_opp, Z.opp_involutive; reflexivity).
  apply comp_sub_ok; [exact Hh|]. apply nth_odd; [exact Ha|lia|]. rewrite Z.odd_opp. exact Od.
Qed.

Lemma vt_first_ok ai P d : odds_ok ai P -> digit_ok d -> d <> 0 -> comp_ok (vt_first ai d) (mul d P).
Proof.
  intros Ha [Hd Od] N. destruct Od as [Od|Od]; [contradiction|]. unfold vt_first. rewrite <- (eadd_0 (mul d P)).
  destruct (Z.ltb_spec 0 d); [apply vt_add_ok; [exact Ha|exact ext_zero_ok|lia|exact Od]|].
  destruct (Z.ltb_spec d 0); [apply vt_sub_ok; [exact Ha|exact ext_zero_ok|lia|exact Od]|lia].
Qed.
Lemma vt_round_ok ai P t m d : odds_ok ai P -> digit_ok d -> comp_ok t (mul m P) -> comp_ok (vt_round ai t d) (mul (d + 2 * m) P).
Proof.
  intros Ha [Hd Od] Ht. unfold vt_round. cbv zeta.
  assert (H2 : comp_ok (proj_double (to_projective t)) (mul (2 * m) P)).
  { rewrite emul_mul, <- emul_2. apply proj_double_ok. now apply to_projective_ok. }
  rewrite Z.add_comm, emul_add.
  destruct (Z.ltb_spec 0 d); [destruct Od as [Od|Od]; [lia|]; apply vt_add_ok; [exact Ha|now apply to_extended_ok|lia|exact Od]|].
  destruct (Z.ltb_spec d 0); [destruct Od as [Od|Od]; [lia|]; apply vt_sub_ok; [exact Ha|now apply to_extended_ok|lia|exact Od]|].
  assert (d = 0) by lia. subst d. rewrite <- emul_add, Z.add_0_r. exact H2.
Qed.
Lemma vt_fold_ok ai P ds : odds_ok ai P -> Forall digit_ok ds -> forall t m, comp_ok t (mul m P) ->
  comp_ok (fold_left (vt_round ai) ds t) (mul (fold_left (fun m d => d + 2 * m) ds m) P).
Proof.
  intros Ha Hd. induction Hd as [|d ds H1 H2 IH]; intros t m Ht; [exact Ht|]. cbn [fold_left]. apply IH. now apply vt_round_ok.
Qed.
Lemma horner2_rev l : forall m, fold_left (fun m d => d + 2 * m) (rev l) m = bval l + 2 ^ zlen l * m.
Proof.
  induction l as [|x l IH]; intros m; [unfold zlen; cbn [rev fold_left bval length Z.of_nat]; rewrite Z.pow_0_r; lia|].
  cbn [rev]. rewrite fold_left_app. cbn [fold_left bval]. rewrite IH, zlen_cons, p2s by apply zlen_pos. ring.
Qed.
Lemma drop_zeros_val l : fold_left (fun m d => d + 2 * m) l 0 = fold_left (fun m d => d + 2 * m) (drop_zeros l) 0.
Proof. induction l as [|x l IH]; [reflexivity|]. cbn [drop_zeros]. destruct (Z.eqb_spec x 0) as [->|N]; [exact IH|reflexivity]. Qed.
Lemma drop_zeros_head l d ds : drop_zeros l = d :: ds -> d <> 0.
Proof. induction l as [|x l IH]; [discriminate|]. cbn [drop_zeros]. destruct (Z.eqb_spec x 0); [exact IH|]. intros E. injection E as -> _. assumption. Qed.
Lemma drop_zeros_forall (Q : Z -> Prop) l : Forall Q l -> Forall Q (drop_zeros l).
Proof. induction 1 as [|x l H1 H2 IH]; [constructor|]. cbn [drop_zeros]. destruct (x =? 0); [exact IH|]. now constructor. Qed.

Theorem ge_scalar_mult_vartime_digits a ap P : bytes a -> length a = 32%nat -> ext_ok ap P -> ext_ok (ge_scalar_mult_vartime a ap) (mul (bval (slide a)) P).
Proof.
  intros Hb Hl HP. unfold ge_scalar_mult_vartime. cbv zeta. destruct (slide_ok a Hb Hl) as [D _].
  assert (HT : odds_ok (odd_table 7 (to_extended (ext_double ap)) (write_cached ap)) P).
  { destruct (odd_table_ok 7 (to_extended (ext_double ap)) P) with (c := write_cached ap) (j := 1) as [L1 H1].
    - apply to_extended_ok. rewrite <- emul_2. now apply ext_double_ok.
    - rewrite emul_1. now apply write_cached_ok.
    - split; [exact L1|]. intros k Hk. apply H1. lia. }
  set (ai := odd_table 7 _ _) in *. clearbody ai.
  assert (V : bval (slide a) = fold_left (fun m d => d + 2 * m) (drop_zeros (rev (slide a))) 0) by (rewrite <- drop_zeros_val, horner2_rev; lia).
  assert (DF : Forall digit_ok (drop_zeros (rev (slide a)))).
  { apply drop_zeros_forall. apply Forall_forall. intros x Hx. apply in_rev in Hx. exact (proj1 (Forall_forall _ _) D x Hx). }
  rewrite V. destruct (drop_zeros (rev (slide a))) as [|d ds] eqn:E.
  - cbn [fold_left]. rewrite emul_0. exact ext_zero_ok.
  - pose proof (drop_zeros_head _ _ _ E) as N. inversion DF as [|? ? D1 D2]; subst. cbn [fold_left]. rewrite Z.mul_0_r, Z.add_0_r.
    apply to_extended_ok. apply vt_fold_ok; [exact HT|exact D2|]. now apply vt_first_ok.
Qed.
Theorem ge_scalar_mult_vartime_ok a ap P : bytes a -> length a = 32%nat -> le_val a <= 2 ^ 255 -> ext_ok ap P ->
  ext_ok (ge_scalar_mult_vartime a ap) (mul (le_val a) P).
Proof.
  intros Hb Hl Hs HP. destruct (slide_ok a Hb Hl) as [_ [_ [_ X]]]. rewrite <- (X Hs). now apply ge_scalar_mult_vartime_digits.
Qed.
