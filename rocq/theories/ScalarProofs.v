(** Lemmas about the scalar operations of scalar.rs. *)
From Coq Require Import ZArith Znumtheory String List Lia Bool.
From Verif Require Import Base Bytes Limb ScLimbs IntModel IntProofs RandModel ScModel ScProofs Primes.
Import ListNotations.
Local Open Scope Z_scope.

Lemma PRIME_ORDER_ell : PRIME_ORDER = ell.
Proof. reflexivity. Qed.
Lemma ell_pos : 0 < ell.
Proof. reflexivity. Qed.
Lemma ell_256 : ell < 256 ^ Z.of_nat 32.
Proof. reflexivity. Qed.
Lemma ell_prime : prime ell.
Proof. exact prime_order. Qed.

Definition wf (a : list Z) : Prop := bytes a /\ length a = 32%nat.

Lemma wf_le_bytes v : wf (le_bytes 32 v).
Proof. split; [apply le_bytes_bytes|apply le_bytes_length]. Qed.

Lemma le_val_mod x : le_val (le_bytes 32 (x mod ell)) = x mod ell.
Proof.
  apply le_val_le_bytes_small. pose proof (Z.mod_pos_bound x ell ell_pos). pose proof ell_256. lia.
Qed.

(** ** is_canonical *)

Lemma canon_step_val c n s l : is_byte s -> is_byte l -> 0 <= c <= 1 -> 0 <= n <= 1 ->
  canon_step (c, n) (s, l) =
   ((if (n =? 1) && (s <? l) then 1 else c), (if s =? l then n else 0)).
Proof.
  unfold is_byte; intros Hs Hl Hc Hn. unfold canon_step, u8.
  assert (E1 : Z.shiftr ((s - l) mod 65536) 8 = if s <? l then 255 else 0).
  { rewrite Z.shiftr_div_pow2 by lia. change (2 ^ 8) with 256. destruct (Z.ltb_spec s l).
    - replace ((s - l) mod 65536) with (s - l + 65536) by (apply (Z.mod_unique_pos _ _ (-1)); lia).
      symmetry. apply (Z.div_unique_pos _ _ _ (s - l + 256)); lia.
    - rewrite Z.mod_small by lia. apply Z.div_small. lia. }
  assert (X : 0 <= Z.lxor s l < 256).
  { assert (Z.lxor s l = Z.lxor s l mod 2 ^ 8) as E.
    { rewrite <- Z.land_ones by lia. symmetry. apply Z.bits_inj'. intros k Hk. rewrite Z.land_spec, Z.lxor_spec.
      destruct (Z.lt_ge_cases k 8).
      - rewrite Z.ones_spec_low by lia. apply andb_true_r.
      - assert (T : forall x, 0 <= x < 256 -> Z.testbit x k = false).
        { intros x Hx. destruct (Z.eq_dec x 0) as [->|]; [apply Z.bits_0|]. apply Z.bits_above_log2; [lia|].
          assert (Z.log2 x < 8) by (apply Z.log2_lt_pow2; lia). lia. }
        rewrite (T s), (T l) by lia. reflexivity. }
    rewrite E. apply Z.mod_pos_bound. lia. }
  assert (E2 : Z.shiftr ((Z.lxor s l - 1) mod 65536) 8 = if s =? l then 255 else 0).
  { rewrite Z.shiftr_div_pow2 by lia. change (2 ^ 8) with 256. destruct (Z.eqb_spec s l) as [->|Hne].
    - rewrite Z.lxor_nilpotent. reflexivity.
    - assert (Z.lxor s l <> 0) by (intros E; apply Z.lxor_eq in E; contradiction).
      rewrite Z.mod_small by lia. apply Z.div_small. lia. }
  rewrite E1, E2. assert (Hn2 : n = 0 \/ n = 1) by lia. assert (Hc2 : c = 0 \/ c = 1) by lia.
  destruct Hn2 as [-> | ->], Hc2 as [-> | ->], (s <? l), (s =? l); reflexivity.
Qed.

(** The loop compares big-endian. *)
Lemma canon_loop ss ls c n : bytes ss -> bytes ls -> length ss = length ls -> 0 <= c <= 1 -> 0 <= n <= 1 ->
  exists n', 0 <= n' <= 1 /\
  fold_left canon_step (combine ss ls) (c, n) = (if (n =? 1) && (be_val ss <? be_val ls) then 1 else c, n').
Proof.
  revert ls c n; induction ss as [|s ss IH]; intros [|l ls] c n Hs Hl E Hc Hn; cbn [length] in E; try discriminate.
  - exists n. split; [exact Hn|]. cbn [combine fold_left]. rewrite Z.ltb_irrefl, andb_false_r. reflexivity.
  - inversion_clear Hs as [|? ? Hs1 Hs2]. inversion_clear Hl as [|? ? Hl1 Hl2]. cbn [combine fold_left].
    rewrite canon_step_val by assumption.
    set (c' := if (n =? 1) && (s <? l) then 1 else c). set (n1 := if s =? l then n else 0).
    assert (Hc' : 0 <= c' <= 1) by (unfold c'; destruct ((n =? 1) && (s <? l)); lia).
    assert (Hn1 : 0 <= n1 <= 1) by (unfold n1; destruct (s =? l); lia).
    destruct (IH ls c' n1 Hs2 Hl2 ltac:(lia) Hc' Hn1) as [n' [Hn' E']]. exists n'. split; [exact Hn'|]. rewrite E'. f_equal.
    assert (Bs : be_val (s :: ss) = be_val ss + 256 ^ Z.of_nat (length ss) * s).
    { unfold be_val. cbn [rev]. rewrite le_val_app, rev_length. cbn [le_val]. lia. }
    assert (Bl : be_val (l :: ls) = be_val ls + 256 ^ Z.of_nat (length ss) * l).
    { unfold be_val. cbn [rev]. rewrite le_val_app, rev_length. cbn [le_val]. replace (length ls) with (length ss) by lia. lia. }
    pose proof (be_val_bound ss Hs2) as B1. pose proof (be_val_bound ls Hl2) as B2. replace (length ls) with (length ss) in B2 by lia.
    unfold c', n1. rewrite Bs, Bl. set (M := 256 ^ Z.of_nat (length ss)) in *.
    destruct (Z.eqb_spec s l) as [->|Hne].
    + rewrite Z.ltb_irrefl, andb_false_r. destruct (Z.ltb_spec (be_val ss) (be_val ls)), (Z.ltb_spec (be_val ss + M * l) (be_val ls + M * l)); try lia; reflexivity.
    + destruct (Z.eqb_spec 0 1); [lia|]. cbn [andb]. destruct (Z.ltb_spec s l), (Z.ltb_spec (be_val ss + M * s) (be_val ls + M * l)); try reflexivity; exfalso; nia.
Qed.

Lemma combine_rev {A B} (l : list A) (l' : list B) : length l = length l' -> rev (combine l l') = combine (rev l) (rev l').
Proof.
  revert l'; induction l as [|x l IH]; intros [|y l'] H; cbn [length] in H; try discriminate; [reflexivity|].
  cbn [combine rev]. rewrite IH by lia. 
  assert (G : forall (a : list A) (b : list B) x y, length a = length b -> combine (a ++ [x]) (b ++ [y]) = combine a b ++ [(x, y)]).
  { clear. induction a as [|u a IH]; intros [|v b] x y H; cbn [length] in H; try discriminate; [reflexivity|].
    cbn [app combine]. rewrite IH by lia. reflexivity. }
  rewrite G; [reflexivity|]. rewrite !rev_length. lia.
Qed.

Lemma sc_is_canonical_ok sb : bytes sb -> (sc_is_canonical sb = true <-> length sb = 32%nat /\ le_val sb < ell).
Proof.
  intros Hb. unfold sc_is_canonical. destruct (Nat.eqb_spec (length sb) 32) as [Hl|Hl]; cbn [negb]; [|split; [discriminate|tauto]].
  destruct (Z.eqb_spec (Z.land (nth 31 sb 0) 240) 0) as [Ht|Ht].
  - split; [intros _; split; [exact Hl|]|reflexivity].
    assert (E : sb = firstn 31 sb ++ [nth 31 sb 0]).
    { rewrite <- (firstn_skipn 31 sb) at 1. f_equal. do 32 (destruct sb as [|? sb]; [discriminate Hl|]). destruct sb; [reflexivity|discriminate Hl]. }
    rewrite E, le_val_app. pose proof (le_val_bound _ (bytes_firstn 31 sb Hb)) as B.
    assert (L31 : length (firstn 31 sb) = 31%nat) by (rewrite firstn_length; lia). rewrite L31 in *.
    cbn [le_val]. assert (Hx : is_byte (nth 31 sb 0)).
    { apply (proj1 (Forall_forall _ _) Hb). apply nth_In. lia. }
    unfold is_byte in Hx. assert (nth 31 sb 0 < 16).
    { destruct (Z.lt_ge_cases (nth 31 sb 0) 16) as [|Hge]; [assumption|exfalso]. set (x := nth 31 sb 0) in *.
      assert (Hd : x / 16 = 0).
      { change 240 with (Z.shiftl (Z.ones 4) 4) in Ht.
        assert (Z.shiftr (Z.land x (Z.shiftl (Z.ones 4) 4)) 4 = x / 16 mod 2 ^ 4) as G.
        { rewrite Z.shiftr_land, Z.shiftr_shiftl_l by lia. change (4 - 4) with 0. rewrite Z.shiftl_0_r.
          rewrite Z.land_ones by lia. rewrite Z.shiftr_div_pow2 by lia. reflexivity. }
        rewrite Ht in G. rewrite Z.mod_small in G; [symmetry; exact G|]. split; [apply Z.div_pos; lia|apply Z.div_lt_upper_bound; lia]. }
      assert (1 <= x / 16) by (apply Z.div_le_lower_bound; lia). lia. }
    change (Z.of_nat 31) with 31 in *. unfold ell. lia.
  - assert (Ll : length (to_bytes_le PRIME_ORDER) = 32%nat) by reflexivity.
    assert (Bl : bytes (to_bytes_le PRIME_ORDER)) by apply to_bytes_le_bytes.
    rewrite combine_rev by lia.
    destruct (canon_loop (rev sb) (rev (to_bytes_le PRIME_ORDER)) 0 1) as [n' [_ E]];
      [now apply bytes_rev|now apply bytes_rev|rewrite !rev_length; lia|lia|lia|].
    rewrite E. change (1 =? 1) with true. cbn [andb].
    assert (be_val (rev sb) = le_val sb) as -> by (unfold be_val; now rewrite rev_involutive).
    assert (be_val (rev (to_bytes_le PRIME_ORDER)) = ell) as ->.
    { unfold be_val. rewrite rev_involutive, to_bytes_le_val. reflexivity. }
    destruct (Z.ltb_spec (le_val sb) ell) as [H|H]; (split; [|tauto || reflexivity || (intros [_ ?]; lia)]); [tauto|discriminate].
Qed.

(** ** Conversions *)

Lemma as_int_ok v : wf v -> as_int v = Ok (mkInt (le_val v mod ell) ell LittleEndian).
Proof.
  intros [Hb Hl]. unfold as_int, new_int_bytes, IntModel.set_bytes. cbn [ibo im].
  rewrite reverse_same by (now rewrite repeat_length). cbn [bindo]. rewrite brem_pos by reflexivity. cbn [bindo].
  rewrite PRIME_ORDER_ell. unfold be_val. rewrite rev_involutive. rewrite rem_nonneg; [reflexivity| |reflexivity].
  apply (le_val_bound v Hb).
Qed.

Lemma resize_le_bytes n v : 0 <= v < 256 ^ Z.of_nat n -> (0 < n)%nat -> resize n (to_bytes_le v) = le_bytes n v.
Proof.
  intros Hv Hn. apply le_val_inj.
  - unfold resize. apply bytes_firstn. apply bytes_app; [apply to_bytes_le_bytes|apply bytes_repeat0].
  - apply le_bytes_bytes.
  - now rewrite resize_length, le_bytes_length.
  - rewrite resize_val, to_bytes_le_val, le_val_le_bytes by apply to_bytes_le_bytes. now rewrite Z.abs_eq by lia.
Qed.

Lemma scalar_marshal_ok v : wf v -> scalar_marshal v = Ok (le_bytes 32 (le_val v mod ell)).
Proof.
  intros Hv. unfold scalar_marshal. rewrite as_int_ok by assumption. cbn [bindo].
  pose proof (Z.mod_pos_bound (le_val v) ell ell_pos). pose proof ell_256.
  rewrite int_marshal_le; [|unfold valid; cbn [iv im]; lia|reflexivity]. cbn [bindo iv].
  rewrite resize_le_bytes by lia. reflexivity.
Qed.

Lemma set_int_ok recv x m bo : length recv = 32%nat -> 0 <= x < m -> m <= 256 ^ 32 ->
  set_int recv (mkInt x m bo) = Ok (to_bytes_le x ++ skipn (nbytes x) recv).
Proof.
  intros Hr Hx Hm. unfold set_int.
  assert (N : (nbytes x <= 32)%nat). { apply nbytes_le_iff; [lia|]. rewrite Z.abs_eq by lia. change (Z.of_nat 32) with 32. lia. }
  rewrite little_endian_ok by (unfold valid; cbn [iv im]; lia). cbn [iv].
  rewrite Nat.max_r by lia. cbn [Nat.eqb negb andb]. destruct (Nat.ltb_spec 32 32); [lia|]. cbn [bindo].
  rewrite to_bytes_le_length, Hr. destruct (Nat.ltb_spec 32 (nbytes x)); [lia|reflexivity].
Qed.

(** ** Inversion *)

Lemma inv_step_ok ac k b : wf ac -> 0 <= k ->
  inv_step ac (le_bytes 32 (le_val ac ^ k mod ell)) b = le_bytes 32 (le_val ac ^ (2 * k + Z.b2z b) mod ell).
Proof.
  intros [Hb Hl] Hk. pose proof (wf_le_bytes (le_val ac ^ k mod ell)) as [W1 W2]. unfold inv_step.
  rewrite (sc_mul_ok (le_bytes 32 _) (le_bytes 32 _)) by assumption. rewrite le_val_mod. rewrite <- Z.mul_mod by discriminate.
  pose proof (wf_le_bytes ((le_val ac ^ k * le_val ac ^ k) mod ell)) as [W3 W4].
  destruct b; cbn [Z.b2z].
  - rewrite sc_mul_ok by assumption. rewrite le_val_mod. rewrite Z.mul_mod_idemp_l by discriminate.
    f_equal. f_equal. replace (2 * k + 1) with (k + k + 1) by lia. rewrite !Z.pow_add_r, Z.pow_1_r by lia. reflexivity.
  - f_equal. f_equal. replace (2 * k + 0) with (k + k) by lia. rewrite Z.pow_add_r by lia. reflexivity.
Qed.

Lemma inv_fold_ok ac bits : wf ac -> forall k, 0 <= k ->
  fold_left (inv_step ac) bits (le_bytes 32 (le_val ac ^ k mod ell)) =
  le_bytes 32 (le_val ac ^ (fold_left (fun e b => 2 * e + Z.b2z b) bits k) mod ell).
Proof.
  intros W. induction bits as [|b bits IH]; intros k Hk; cbn [fold_left]; [reflexivity|].
  rewrite inv_step_ok by assumption. apply IH. destruct b; cbn [Z.b2z]; lia.
Qed.

Lemma inv_bits : Nat.ltb (length (get_bits (to_bytes_le L_MINUS2))) 256 = false /\
  fold_left (fun e b => 2 * e + Z.b2z b) (rev (firstn 256 (get_bits (to_bytes_le L_MINUS2)))) 0 = ell - 2.
Proof. split; vm_compute; reflexivity. Qed.

Lemma scalar_inv_pow ac : wf ac -> scalar_inv ac = Ok (le_bytes 32 (le_val ac ^ (ell - 2) mod ell)).
Proof.
  intros W. unfold scalar_inv. destruct inv_bits as [Hl E]. cbv zeta. rewrite Hl.
  generalize dependent (rev (firstn 256 (get_bits (to_bytes_le L_MINUS2)))). intros bits E.
  apply (f_equal (@Ok int_error (list Z))).
  assert (E1 : scalar_one = le_bytes 32 (le_val ac ^ 0 mod ell)) by (rewrite Z.pow_0_r; reflexivity).
  rewrite E1, inv_fold_ok by (try assumption; lia). now rewrite E.
Qed.

Lemma pow_inverse x : x mod ell <> 0 -> (x * (x ^ (ell - 2) mod ell)) mod ell = 1.
Proof.
  intros H. rewrite Z.mul_mod_idemp_r by discriminate. rewrite <- (fermat ell x ell_prime H).
  replace (ell - 1) with (1 + (ell - 2)) by lia. rewrite Z.pow_add_r, Z.pow_1_r; [reflexivity|lia|discriminate].
Qed.
