(** Lemmas about the random and XOF models. *)
From Coq Require Import ZArith List Lia.
From Verif Require Import Base Bytes IntModel IntProofs RandModel.
Import ListNotations.
Local Open Scope Z_scope.

(** What a stream must satisfy: output as long as the source, bytes stay bytes. *)
Definition stream_law {St} (R : stream St) : Prop :=
  forall s src o s', xks R s src = (Some o, s') -> length o = length src /\ (bytes src -> bytes o).

Lemma be_val_cons x r : be_val (x :: r) = be_val r + 256 ^ Z.of_nat (length r) * x.
Proof.
  unfold be_val. cbn [rev]. rewrite le_val_app, rev_length. cbn [le_val]. lia.
Qed.

Lemma mod_split r P x H : 0 <= r < P -> 0 < H -> (r + P * x) mod (P * H) = r + P * (x mod H).
Proof.
  intros Hr HH. rewrite Z.rem_mul_r by lia.
  rewrite (Z.mul_comm P x), Z.mod_add, (Z.mod_small r P) by lia.
  rewrite Z.div_add, Z.div_small by lia. rewrite Z.add_0_l. reflexivity.
Qed.

Lemma land_mask x h : 0 <= h -> Z.land x (2 ^ h - 1) = x mod 2 ^ h.
Proof. intros Hh. rewrite <- Z.land_ones by lia. rewrite Z.ones_equiv. f_equal; lia. Qed.

Lemma lor_top x h : 0 < h -> 0 <= x < 2 ^ h ->
  2 ^ (h - 1) <= Z.lor x (2 ^ (h - 1)) < 2 ^ h /\ Z.lor x (2 ^ (h - 1)) mod 2 ^ (h - 1) = x mod 2 ^ (h - 1).
Proof.
  intros Hh Hx. assert (Hp : 0 < 2 ^ (h - 1)) by (apply Z.pow_pos_nonneg; lia).
  assert (Hl : 0 < Z.lor x (2 ^ (h - 1))).
  { assert (0 <= Z.lor x (2 ^ (h - 1))) by (apply Z.lor_nonneg; lia).
    assert (Z.lor x (2 ^ (h - 1)) <> 0); [|lia]. rewrite Z.lor_eq_0_iff. lia. }
  split; [split|].
  - transitivity (2 ^ Z.log2 (Z.lor x (2 ^ (h - 1)))); [|apply Z.log2_spec; exact Hl].
    apply Z.pow_le_mono_r; [lia|]. rewrite Z.log2_lor, Z.log2_pow2 by lia. lia.
  - apply Z.log2_lt_pow2; [exact Hl|]. rewrite Z.log2_lor, Z.log2_pow2 by lia.
    destruct (Z.eq_dec x 0) as [->|Hn]; [simpl; lia|].
    assert (Z.log2 x < h) by (apply Z.log2_lt_pow2; lia). lia.
  - rewrite <- !Z.land_ones by lia. rewrite Z.land_lor_distr_l.
    replace (Z.land (2 ^ (h - 1)) (Z.ones (h - 1))) with 0; [apply Z.lor_0_r|].
    rewrite Z.land_ones by lia. symmetry; apply Z.mod_same. lia.
Qed.

Section Random.
Variable St : Type.
Variable R : stream St.
Hypothesis law : stream_law R.

(** The raw bytes of a draw of n bytes: the stream's output, or zeros when the stream fails. *)
Definition raw (n : nat) (s : St) : list Z :=
  match fst (xks R s (repeat 0 n)) with Some o => o | None => repeat 0 n end.

Lemma raw_ok n s : length (raw n s) = n /\ bytes (raw n s).
Proof.
  unfold raw. destruct (xks R s (repeat 0 n)) as [[o|] s'] eqn:E; simpl.
  - destruct (law _ _ _ _ E) as [Hl Hb]. rewrite repeat_length in Hl. split; [exact Hl|].
    apply Hb, bytes_repeat0.
  - rewrite repeat_length. split; [reflexivity|apply bytes_repeat0].
Qed.

Definition nb (bit_len : Z) : nat := Z.to_nat ((bit_len + 7) / 8).

Lemma bits_false bit_len s : 0 <= bit_len ->
  exists b, bits _ R bit_len false s = Ok (b, snd (xks R s (repeat 0 (nb bit_len)))) /\
    length b = nb bit_len /\ bytes b /\ be_val b = be_val (raw (nb bit_len) s) mod 2 ^ bit_len.
Proof.
  intros Hn. unfold bits. fold (nb bit_len).
  destruct (raw_ok (nb bit_len) s) as [Hl Hb]. unfold raw in *.
  destruct (xks R s (repeat 0 (nb bit_len))) as [o s'] eqn:E. cbn [fst snd] in *.
  set (b := match o with Some out => out | None => repeat 0 (nb bit_len) end) in *.
  pose proof (Z.div_mod bit_len 8 ltac:(lia)) as Hdm. pose proof (Z.mod_pos_bound bit_len 8 ltac:(lia)) as Hm.
  destruct (Z.eqb_spec (bit_len mod 8) 0) as [H0|H0]; cbn [bindo].
  - exists b. split; [reflexivity|]. split; [exact Hl|]. split; [exact Hb|].
    pose proof (be_val_bound b Hb) as Hbd. rewrite Hl in Hbd.
    rewrite Z.mod_small; [reflexivity|].
    replace (2 ^ bit_len) with (256 ^ Z.of_nat (nb bit_len)); [exact Hbd|].
    rewrite pow256_2. f_equal. unfold nb.
    replace ((bit_len + 7) / 8) with (bit_len / 8).
    2:{ apply Z.div_unique with (r := 7); lia. }
    rewrite Z2Nat.id by (apply Z.div_pos; lia). lia.
  - assert (Hnb : Z.of_nat (nb bit_len) = bit_len / 8 + 1).
    { unfold nb. replace ((bit_len + 7) / 8) with (bit_len / 8 + 1).
      2:{ apply Z.div_unique with (r := bit_len mod 8 - 1); lia. }
      rewrite Z2Nat.id; [lia|]. assert (0 <= bit_len / 8) by (apply Z.div_pos; lia). lia. }
    assert (0 <= bit_len / 8) by (apply Z.div_pos; lia).
    destruct b as [|x r] eqn:Eb; [simpl in Hl; lia|].
    cbn [bindo]. rewrite land_mask by lia. exists (x mod 2 ^ (bit_len mod 8) :: r). split; [reflexivity|].
    split; [exact Hl|]. inversion Hb as [|x' r' Hx Hr]; subst. unfold is_byte in Hx.
    assert (0 < 2 ^ (bit_len mod 8)) by (apply Z.pow_pos_nonneg; lia).
    assert (2 ^ (bit_len mod 8) <= 2 ^ 8) by (apply Z.pow_le_mono_r; lia).
    pose proof (Z.mod_pos_bound x (2 ^ (bit_len mod 8)) ltac:(lia)).
    split; [constructor; [unfold is_byte; lia|exact Hr]|].
    rewrite !be_val_cons. cbn [length] in Hl.
    replace (2 ^ bit_len) with (256 ^ Z.of_nat (length r) * 2 ^ (bit_len mod 8)).
    + symmetry; apply mod_split; [apply be_val_bound; exact Hr | lia].
    + rewrite pow256_2, <- Z.pow_add_r by lia. f_equal. lia.
Qed.

Lemma bits_true bit_len s : 0 < bit_len ->
  exists b, bits _ R bit_len true s = Ok (b, snd (xks R s (repeat 0 (nb bit_len)))) /\
    length b = nb bit_len /\ 2 ^ (bit_len - 1) <= be_val b < 2 ^ bit_len /\
    be_val b mod 2 ^ (bit_len - 1) = be_val (raw (nb bit_len) s) mod 2 ^ (bit_len - 1).
Proof.
  intros Hn. destruct (bits_false bit_len s ltac:(lia)) as [b1 [E1 [Hl [Hb Hv]]]].
  unfold bits in *. destruct (xks R s (repeat 0 (Z.to_nat ((bit_len + 7) / 8)))) as [o s'] eqn:E.
  cbn [snd] in *.
  match type of E1 with bindo ?m _ = _ => destruct m as [c|?| |] eqn:Ec; try discriminate end.
  cbn [bindo] in E1. injection E1 as E1 E2. subst c. cbn [bindo].
  assert (Hnb : (0 < nb bit_len)%nat).
  { unfold nb. assert (1 <= (bit_len + 7) / 8) by (apply Z.div_le_lower_bound; lia). lia. }
  destruct b1 as [|x r]; [simpl in Hl; lia|]. cbn [bindo].
  pose proof (Z.div_mod bit_len 8 ltac:(lia)) as Hdm. pose proof (Z.mod_pos_bound bit_len 8 ltac:(lia)) as Hm.
  set (h := if bit_len mod 8 =? 0 then 8 else bit_len mod 8).
  assert (Hh : 1 <= h <= 8 /\ Z.of_nat (length r) * 8 + h = bit_len).
  { unfold h. cbn [length] in Hl. unfold nb in Hl. destruct (Z.eqb_spec (bit_len mod 8) 0).
    - split; [lia|]. replace ((bit_len + 7) / 8) with (bit_len / 8) in Hl by (apply Z.div_unique with (r := 7); lia).
      assert (0 <= bit_len / 8) by (apply Z.div_pos; lia). lia.
    - split; [lia|]. replace ((bit_len + 7) / 8) with (bit_len / 8 + 1) in Hl
        by (apply Z.div_unique with (r := bit_len mod 8 - 1); lia).
      assert (0 <= bit_len / 8) by (apply Z.div_pos; lia). lia. }
  destruct Hh as [Hh1 Hh2].
  replace (if bit_len mod 8 =? 0 then 128 else 2 ^ (bit_len mod 8 - 1)) with (2 ^ (h - 1)).
  2:{ unfold h. destruct (bit_len mod 8 =? 0); reflexivity. }
  inversion Hb as [|x' r' Hx Hr]; subst x' r'.
  pose proof (be_val_bound r Hr) as Hbr.
  rewrite be_val_cons in Hv.
  assert (HP : 0 < 256 ^ Z.of_nat (length r)) by apply pow256_pos.
  assert (Hpow : 2 ^ bit_len = 256 ^ Z.of_nat (length r) * 2 ^ h).
  { rewrite pow256_2, <- Z.pow_add_r by lia. f_equal; lia. }
  assert (Hpow1 : 2 ^ (bit_len - 1) = 256 ^ Z.of_nat (length r) * 2 ^ (h - 1)).
  { rewrite pow256_2, <- Z.pow_add_r by lia. f_equal; lia. }
  assert (H2h : 0 < 2 ^ (h - 1)) by (apply Z.pow_pos_nonneg; lia).
  assert (H2h' : 2 ^ h = 2 * 2 ^ (h - 1)).
  { rewrite <- Z.pow_succ_r by lia. f_equal; lia. }
  assert (Hxh : 0 <= x < 2 ^ h).
  { unfold is_byte in Hx. split; [lia|].
    assert (be_val r + 256 ^ Z.of_nat (length r) * x < 2 ^ bit_len).
    { rewrite Hv. apply Z.mod_pos_bound. apply Z.pow_pos_nonneg; lia. }
    nia. }
  destruct (lor_top x h ltac:(lia) Hxh) as [Hlor Hlm].
  eexists. split; [rewrite E2; reflexivity|]. split; [exact Hl|].
  rewrite be_val_cons. split; [rewrite Hpow, Hpow1; nia|].
  rewrite Hpow1, mod_split by lia. rewrite Hlm. rewrite <- mod_split by lia.
  rewrite Hv, <- Hpow1.
  replace (2 ^ bit_len) with (2 ^ (bit_len - 1) * 2) by (rewrite Hpow, Hpow1, H2h'; ring).
  assert (HP1 : 0 < 2 ^ (bit_len - 1)) by (apply Z.pow_pos_nonneg; lia).
  rewrite Z.rem_mul_r by lia. rewrite (Z.mul_comm (2 ^ (bit_len - 1))), Z.mod_add by lia. apply Z.mod_mod; lia.
Qed.

(** ** Rejection sampling *)

Lemma bits_of_bound m : 0 < m -> m < 2 ^ bits_of m /\ 2 ^ (bits_of m - 1) <= m.
Proof.
  intros Hm. unfold bits_of. destruct (Z.eqb_spec m 0); [lia|]. rewrite Z.abs_eq by lia.
  pose proof (Z.log2_spec m Hm). rewrite Z.add_1_r. replace (Z.succ (Z.log2 m) - 1) with (Z.log2 m) by lia. lia.
Qed.

Lemma bits_of_nonneg m : 0 <= bits_of m.
Proof. unfold bits_of. destruct (m =? 0); [lia|]. pose proof (Z.log2_nonneg (Z.abs m)). lia. Qed.

(** The candidate drawn in state s for modulus m, and the state after it. *)
Definition candidate (m : Z) (s : St) : Z := be_val (raw (nb (bits_of m)) s) mod 2 ^ bits_of m.
Definition after (m : Z) (s : St) : St := snd (xks R s (repeat 0 (nb (bits_of m)))).
Fixpoint after_n (m : Z) (k : nat) (s : St) : St :=
  match k with O => s | S k' => after_n m k' (after m s) end.

Lemma random_int_step f m s :
  random_int _ R (S f) m s =
    if andb (0 <? candidate m s) (candidate m s <? m) then Ok (candidate m s, after m s)
    else random_int _ R f m (after m s).
Proof.
  cbn [random_int]. destruct (bits_false (bits_of m) s (bits_of_nonneg m)) as [b [E [_ [_ Hv]]]].
  rewrite E. cbn [bindo]. unfold candidate, after. rewrite <- Hv. reflexivity.
Qed.

Lemma after_n_S m k s : after_n m (S k) s = after m (after_n m k s).
Proof. revert s; induction k as [|k IH]; intros s; [reflexivity|]. cbn [after_n] in *. now rewrite <- IH. Qed.

Lemma random_int_iff f m s x s' :
  random_int _ R f m s = Ok (x, s') <->
  exists k, (k < f)%nat /\ x = candidate m (after_n m k s) /\ s' = after_n m (S k) s /\ 0 < x < m /\
    forall j, (j < k)%nat -> ~ (0 < candidate m (after_n m j s) < m).
Proof.
  revert s; induction f as [|f IH]; intros s.
  - split; [discriminate|]. intros [k [Hk _]]; lia.
  - rewrite random_int_step.
    destruct (andb (0 <? candidate m s) (candidate m s <? m)) eqn:E.
    + apply andb_prop in E. destruct E as [E1 E2]. apply Z.ltb_lt in E1. apply Z.ltb_lt in E2. split.
      * intros H; injection H as Hx Hs. exists 0%nat. repeat split; try lia; try (subst; reflexivity).
      * intros [[|k] [Hk [Hx [Hs [Hr Hj]]]]]; [now subst|]. exfalso. apply (Hj 0%nat); [lia|]. simpl. lia.
    + rewrite IH. apply Bool.andb_false_iff in E. rewrite !Z.ltb_ge in E. split.
      * intros [k [Hk [Hx [Hs [Hr Hj]]]]]. exists (S k). repeat split; try assumption; try lia.
        intros [|j] Hjk; [simpl; lia|]. apply Hj; lia.
      * intros [[|k] [Hk [Hx [Hs [Hr Hj]]]]]; [simpl in Hx; lia|]. exists k.
        repeat split; try assumption; try lia. intros j Hjk. apply (Hj (S j)); lia.
Qed.

Lemma random_int_total f m s : match random_int _ R f m s with Ok _ | OutOfFuel => True | _ => False end.
Proof.
  revert s; induction f as [|f IH]; intros s; [exact I|]. rewrite random_int_step. destruct (andb _ _); [exact I|]. apply IH.
Qed.

Lemma random_int_never f m s : (forall k, ~ (0 < candidate m (after_n m k s) < m)) ->
  random_int _ R f m s = OutOfFuel.
Proof.
  revert s; induction f as [|f IH]; intros s H; [reflexivity|]. rewrite random_int_step.
  destruct (andb _ _) eqn:E.
  - apply andb_prop in E. rewrite !Z.ltb_lt in E. exfalso. apply (H 0%nat). simpl. lia.
  - apply IH. intros k. apply (H (S k)).
Qed.

Lemma be_val_repeat0 n : be_val (repeat 0 n) = 0.
Proof.
  induction n as [|n IH]; [reflexivity|]. cbn [repeat]. rewrite be_val_cons, IH. lia.
Qed.
End Random.

(** ** XOF *)

Lemma xorb_list_length a b : length (xorb_list a b) = Nat.min (length a) (length b).
Proof. revert b; induction a as [|x a IH]; intros [|y b]; simpl; auto. Qed.

Lemma xorb_list_invol a b : (length a <= length b)%nat -> xorb_list (xorb_list a b) b = a.
Proof.
  revert b; induction a as [|x a IH]; intros [|y b] H; simpl in *; try lia; try reflexivity.
  rewrite IH by lia. rewrite Z.lxor_assoc, Z.lxor_nilpotent, Z.lxor_0_r. reflexivity.
Qed.

Lemma xorb_list_key a b : length a = length b -> xorb_list a (xorb_list a b) = b.
Proof.
  revert b; induction a as [|x a IH]; intros [|y b] H; simpl in *; try lia; try reflexivity.
  rewrite IH by lia. rewrite <- Z.lxor_assoc, Z.lxor_nilpotent, Z.lxor_0_l. reflexivity.
Qed.

Lemma xorb_list_comm a b : xorb_list a b = xorb_list b a.
Proof. revert b; induction a as [|x a IH]; intros [|y b]; simpl; auto. now rewrite IH, Z.lxor_comm. Qed.

Section XofP.
Variable out : list Z -> nat -> Z.

Lemma squeeze_length abs pos n : length (squeeze out abs pos n) = n.
Proof. unfold squeeze. now rewrite map_length, seq_length. Qed.

Lemma squeeze_add abs pos n m : squeeze out abs pos (n + m) = squeeze out abs pos n ++ squeeze out abs (pos + n) m.
Proof. unfold squeeze. now rewrite seq_app, map_app. Qed.

Definition absorbed (x : xof) : list Z := match ximpl x with Writeable a => a | Readable a _ => a end.
Definition position (x : xof) : nat := match ximpl x with Writeable _ => 0%nat | Readable _ p => p end.

Lemma read_spec x n : xof_read out x n =
  (squeeze out (absorbed x) (position x) n, Xof (Readable (absorbed x) (position x + n)) (xkey x)).
Proof. destruct x as [[a|a p] k]; reflexivity. Qed.

Lemma xks_spec x dst src : (length src <= length dst)%nat ->
  exists x', xof_xks out x dst src =
     (Ok (xorb_list src (squeeze out (absorbed x) (position x) (length src)) ++ skipn (length src) dst), x') /\
     ximpl x' = Readable (absorbed x) (position x + length src).
Proof.
  intros H. unfold xof_xks. destruct (Nat.ltb_spec (length dst) (length src)); [lia|].
  rewrite read_spec. eexists. split; reflexivity.
Qed.
End XofP.
