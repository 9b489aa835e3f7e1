(** Byte strings as lists of integers in [0,256), little/big endian values. *)
From Coq Require Import ZArith List Lia.
Import ListNotations.
Local Open Scope Z_scope.

Definition is_byte (b : Z) : Prop := 0 <= b < 256.
Definition bytes (l : list Z) : Prop := Forall is_byte l.

(** Value of a little-endian byte string. *)
Fixpoint le_val (l : list Z) : Z :=
  match l with [] => 0 | b :: l' => b + 256 * le_val l' end.

(** Value of a big-endian byte string ([BigInt::from_bytes_be] with sign Plus). *)
Definition be_val (l : list Z) : Z := le_val (rev l).

(** The n low bytes of v, least significant first. *)
Fixpoint le_bytes (n : nat) (v : Z) : list Z :=
  match n with O => [] | S n' => v mod 256 :: le_bytes n' (v / 256) end.

Lemma le_bytes_length n v : length (le_bytes n v) = n.
Proof. revert v; induction n as [|n IH]; intros v; simpl; [reflexivity|]. now rewrite IH. Qed.

Lemma le_bytes_bytes n v : bytes (le_bytes n v).
Proof.
  revert v; induction n as [|n IH]; intros v; simpl; constructor; [|apply IH].
  unfold is_byte; apply Z.mod_pos_bound; lia.
Qed.

Lemma pow256_S n : 256 ^ Z.of_nat (S n) = 256 * 256 ^ Z.of_nat n.
Proof. rewrite Nat2Z.inj_succ, Z.pow_succ_r; lia. Qed.

Lemma pow256_pos n : 0 < 256 ^ Z.of_nat n.
Proof. apply Z.pow_pos_nonneg; lia. Qed.

Lemma le_val_le_bytes n v : le_val (le_bytes n v) = v mod 256 ^ Z.of_nat n.
Proof.
  revert v; induction n as [|n IH]; intros v.
  - simpl. now rewrite Z.mod_1_r.
  - cbn [le_bytes le_val]. rewrite IH, pow256_S.
    rewrite Z.rem_mul_r; [lia | lia | apply pow256_pos].
Qed.

Lemma le_val_le_bytes_small n v : 0 <= v < 256 ^ Z.of_nat n -> le_val (le_bytes n v) = v.
Proof. intros H; rewrite le_val_le_bytes; apply Z.mod_small; exact H. Qed.

Lemma le_val_bound l : bytes l -> 0 <= le_val l < 256 ^ Z.of_nat (length l).
Proof.
  induction 1 as [|b l Hb Hl IH]; [simpl; lia|].
  cbn [le_val length]. rewrite pow256_S. unfold is_byte in Hb. lia.
Qed.

Lemma le_bytes_le_val l : bytes l -> le_bytes (length l) (le_val l) = l.
Proof.
  induction 1 as [|b l Hb Hl IH]; [reflexivity|].
  cbn [length le_bytes le_val]. unfold is_byte in Hb.
  replace ((b + 256 * le_val l) mod 256) with b.
  - replace ((b + 256 * le_val l) / 256) with (le_val l); [now rewrite IH|].
    rewrite (Z.mul_comm 256), Z.div_add by lia. rewrite Z.div_small; lia.
  - rewrite (Z.mul_comm 256), Z.mod_add by lia. now rewrite Z.mod_small.
Qed.

Lemma le_val_inj l1 l2 : bytes l1 -> bytes l2 -> length l1 = length l2 -> le_val l1 = le_val l2 -> l1 = l2.
Proof.
  intros H1 H2 Hlen Hv.
  rewrite <- (le_bytes_le_val l1 H1), <- (le_bytes_le_val l2 H2), Hlen, Hv. reflexivity.
Qed.

Lemma le_val_app l1 l2 : le_val (l1 ++ l2) = le_val l1 + 256 ^ Z.of_nat (length l1) * le_val l2.
Proof.
  induction l1 as [|b l1 IH]; [cbn [app length le_val]; rewrite Z.pow_0_r; lia|].
  cbn [app length le_val]. rewrite IH, pow256_S. ring.
Qed.

Lemma le_val_repeat0 n : le_val (repeat 0 n) = 0.
Proof. induction n; cbn [repeat le_val]; lia. Qed.

Lemma bytes_rev l : bytes l -> bytes (rev l).
Proof. unfold bytes; intros H; now apply Forall_rev. Qed.

Lemma bytes_app l1 l2 : bytes l1 -> bytes l2 -> bytes (l1 ++ l2).
Proof. intros; now apply Forall_app. Qed.

Lemma bytes_repeat0 n : bytes (repeat 0 n).
Proof. induction n; simpl; constructor; [unfold is_byte; lia | assumption]. Qed.

Lemma bytes_firstn n l : bytes l -> bytes (firstn n l).
Proof.
  intros H. revert n; induction H as [|b l Hb Hl IH]; intros [|n]; simpl; try constructor; [exact Hb | apply IH].
Qed.

Lemma bytes_skipn n l : bytes l -> bytes (skipn n l).
Proof.
  intros H. revert n; induction H as [|b l Hb Hl IH]; intros [|n]; simpl; try constructor; auto; apply IH.
Qed.

Lemma be_val_bound l : bytes l -> 0 <= be_val l < 256 ^ Z.of_nat (length l).
Proof. intros H; unfold be_val; rewrite <- rev_length; apply le_val_bound; now apply bytes_rev. Qed.

(** Number of bits of |v| ([BigInt::bits]). *)
Definition bits_of (v : Z) : Z := if v =? 0 then 0 else Z.log2 (Z.abs v) + 1.

(** Number of bytes of |v|, at least one: [to_bytes_be]/[to_bytes_le] return [0] for 0. *)
Definition nbytes (v : Z) : nat := Z.to_nat (Z.log2 (Z.abs v) / 8 + 1).

(** [BigInt::to_bytes_le().1], [BigInt::to_bytes_be().1]: magnitude bytes. *)
Definition to_bytes_le (v : Z) : list Z := le_bytes (nbytes v) (Z.abs v).
Definition to_bytes_be (v : Z) : list Z := rev (to_bytes_le v).

Lemma nbytes_pos v : (0 < nbytes v)%nat.
Proof.
  unfold nbytes. assert (0 <= Z.log2 (Z.abs v)) by apply Z.log2_nonneg.
  assert (0 <= Z.log2 (Z.abs v) / 8) by (apply Z.div_pos; lia). lia.
Qed.

Lemma pow256_2 n : 256 ^ Z.of_nat n = 2 ^ (8 * Z.of_nat n).
Proof. rewrite Z.pow_mul_r by lia. reflexivity. Qed.

Lemma nbytes_upper v : Z.abs v < 256 ^ Z.of_nat (nbytes v).
Proof.
  rewrite pow256_2. unfold nbytes.
  assert (Hl : 0 <= Z.log2 (Z.abs v)) by apply Z.log2_nonneg.
  assert (Hd : 0 <= Z.log2 (Z.abs v) / 8) by (apply Z.div_pos; lia).
  rewrite Z2Nat.id by lia.
  destruct (Z.eq_dec (Z.abs v) 0) as [->|Hn].
  - reflexivity.
  - apply Z.log2_lt_pow2; [lia|]. pose proof (Z.div_mod (Z.log2 (Z.abs v)) 8 ltac:(lia)).
    pose proof (Z.mod_pos_bound (Z.log2 (Z.abs v)) 8 ltac:(lia)). lia.
Qed.

Lemma nbytes_le_iff v n : (0 < n)%nat -> (nbytes v <= n)%nat <-> Z.abs v < 256 ^ Z.of_nat n.
Proof.
  intros Hn; split.
  - intros H. pose proof (nbytes_upper v).
    assert (256 ^ Z.of_nat (nbytes v) <= 256 ^ Z.of_nat n) by (apply Z.pow_le_mono_r; lia). lia.
  - intros H. rewrite pow256_2 in H. unfold nbytes.
    destruct (Z.eq_dec (Z.abs v) 0) as [->|Hz]; [simpl; lia|].
    apply Z.log2_lt_pow2 in H; [|lia].
    assert (Z.log2 (Z.abs v) / 8 < Z.of_nat n) by (apply Z.div_lt_upper_bound; lia). lia.
Qed.

Lemma to_bytes_le_val v : le_val (to_bytes_le v) = Z.abs v.
Proof. unfold to_bytes_le; apply le_val_le_bytes_small; split; [lia | apply nbytes_upper]. Qed.

Lemma to_bytes_be_val v : be_val (to_bytes_be v) = Z.abs v.
Proof. unfold be_val, to_bytes_be; rewrite rev_involutive; apply to_bytes_le_val. Qed.

Lemma to_bytes_le_length v : length (to_bytes_le v) = nbytes v.
Proof. apply le_bytes_length. Qed.

Lemma to_bytes_be_length v : length (to_bytes_be v) = nbytes v.
Proof. unfold to_bytes_be; rewrite rev_length; apply le_bytes_length. Qed.

Lemma to_bytes_le_bytes v : bytes (to_bytes_le v).
Proof. apply le_bytes_bytes. Qed.

Lemma to_bytes_be_bytes v : bytes (to_bytes_be v).
Proof. apply bytes_rev, to_bytes_le_bytes. Qed.

Lemma to_bytes_le_cons v : 256 <= v -> to_bytes_le v = v mod 256 :: to_bytes_le (v / 256).
Proof.
  intros H. unfold to_bytes_le.
  assert (Hd : nbytes v = S (nbytes (v / 256))).
  { unfold nbytes. rewrite !Z.abs_eq by (try apply Z.div_pos; lia).
    change 256 with (2 ^ 8). rewrite <- Z.shiftr_div_pow2 by lia. rewrite Z.log2_shiftr by lia.
    assert (8 <= Z.log2 v) by (apply Z.log2_le_pow2; lia).
    rewrite Z.max_r by lia.
    replace (Z.log2 v) with (Z.log2 v - 8 + 1 * 8) at 1 by lia. rewrite Z.div_add by lia.
    assert (0 <= (Z.log2 v - 8) / 8) by (apply Z.div_pos; lia). lia. }
  rewrite Hd. cbn [le_bytes]. rewrite !Z.abs_eq by (try apply Z.div_pos; lia). reflexivity.
Qed.
