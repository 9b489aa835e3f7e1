(** Properties C18-C22: src/util/random/random_stream.rs and src/xof/blake3/xof.rs. *)
From Coq Require Import ZArith List Lia.
From Verif Require Import Base Bytes IntModel IntProofs RandModel RandProofs.
Import ListNotations.
Local Open Scope Z_scope.

(** ** Example streams *)

(** A counter stream: key bytes 1, 2, 3, ... *)
Definition counter : stream Z :=
  Stream (fun s src => (Some (xorb_list src (map (fun k => (s + Z.of_nat k) mod 256) (seq 0 (length src)))),
                        s + Z.of_nat (length src))).
(** A stream of zero key bytes and one that always fails. *)
Definition zeros : stream unit := Stream (fun s src => (Some src, s)).
Definition failing : stream unit := Stream (fun s src => (None, s)).

Lemma lxor_byte x y : is_byte x -> is_byte y -> is_byte (Z.lxor x y).
Proof.
  unfold is_byte. intros Hx Hy. split; [apply Z.lxor_nonneg; lia|].
  destruct (Z.eq_dec (Z.lxor x y) 0) as [->|Hn]; [lia|].
  change 256 with (2 ^ 8). apply Z.log2_lt_pow2; [assert (0 <= Z.lxor x y) by (apply Z.lxor_nonneg; lia); lia|].
  pose proof (Z.log2_lxor x y ltac:(lia) ltac:(lia)).
  assert (Hb : forall z, 0 <= z < 256 -> Z.log2 z < 8).
  { intros z Hz. destruct (Z.eq_dec z 0) as [->|]; [simpl; lia|]. apply Z.log2_lt_pow2; [lia|]. simpl; lia. }
  pose proof (Hb x Hx). pose proof (Hb y Hy). lia.
Qed.

Lemma xorb_bytes a b : bytes a -> bytes b -> bytes (xorb_list a b).
Proof.
  intros Ha; revert b; induction Ha as [|x a Hx Ha IH]; intros [|y b] Hb; try constructor.
  - inversion Hb; subst. now apply lxor_byte.
  - inversion Hb; subst. now apply IH.
Qed.

Lemma counter_law : stream_law counter.
Proof.
  intros s src o s' H. injection H as <- _. split.
  - rewrite xorb_list_length, map_length, seq_length. lia.
  - intros Hb. apply xorb_bytes; [exact Hb|]. apply Forall_map, Forall_forall. intros k _.
    apply Z.mod_pos_bound. lia.
Qed.

Lemma zeros_law : stream_law zeros.
Proof. intros s src o s' H. injection H as <- _. auto. Qed.
Lemma failing_law : stream_law failing.
Proof. intros s src o s' H. discriminate H. Qed.

(** ** C18 *)

(** The bytes a stream in state s produces on n zero bytes: its key stream (zeros if it fails). *)
Definition drawn {St} (R : stream St) (n : nat) (s : St) : list Z :=
  match fst (xks R s (repeat 0 n)) with Some o => o | None => repeat 0 n end.
(** State after drawing n bytes k times. *)
Fixpoint draws {St} (R : stream St) (n k : nat) (s : St) : St :=
  match k with O => s | S k' => draws R n k' (snd (xks R s (repeat 0 n))) end.

(** The k-th candidate: the low bits of the k-th block of key stream, as many bits as m has. *)
Definition kth_candidate {St} (R : stream St) (m : Z) (s : St) (k : nat) : Z :=
  let w := Z.log2 m + 1 in
  let n := Z.to_nat ((w + 7) / 8) in
  be_val (drawn R n (draws R n k s)) mod 2 ^ w.

Lemma bits_of_pos m : 0 < m -> bits_of m = Z.log2 m + 1.
Proof. intros Hm. unfold bits_of. destruct (Z.eqb_spec m 0); [lia|]. now rewrite Z.abs_eq by lia. Qed.

Lemma draws_after St (R : stream St) m k s : 0 < m ->
  draws R (Z.to_nat ((Z.log2 m + 1 + 7) / 8)) k s = after_n _ R m k s.
Proof.
  intros Hm. revert s; induction k as [|k IH]; intros s; [reflexivity|]. cbn [draws after_n]. rewrite IH.
  unfold after, nb. now rewrite bits_of_pos.
Qed.

Lemma kth_is_candidate St (R : stream St) m s k : 0 < m -> kth_candidate R m s k = candidate _ R m (after_n _ R m k s).
Proof.
  intros Hm. unfold kth_candidate, candidate, raw, drawn, nb. rewrite draws_after, bits_of_pos by lia. reflexivity.
Qed.

(** random_int returns the first candidate in [1,m): every value below m is hit by equally many key-stream blocks,
    so no value is favoured. *)
Theorem C18_random_int (St : Type) (R : stream St) (fuel : nat) (m : Z) (s s' : St) (x : Z) :
  stream_law R -> 0 < m ->
  (random_int St R fuel m s = Ok (x, s') <->
   exists k, (k < fuel)%nat /\ x = kth_candidate R m s k /\ 1 <= x < m /\
     s' = draws R (Z.to_nat ((Z.log2 m + 1 + 7) / 8)) (S k) s /\
     forall j, (j < k)%nat -> ~ (1 <= kth_candidate R m s j < m)).
Proof.
  intros Hl Hm. rewrite (random_int_iff St R Hl). split; intros [k [H1 [H2 [H3 [H4 H5]]]]]; exists k.
  - rewrite kth_is_candidate, draws_after by lia. repeat split; try assumption; try lia.
    intros j Hj. rewrite kth_is_candidate by lia. intros Hc. apply (H5 j Hj). lia.
  - rewrite kth_is_candidate in H2 by lia. rewrite draws_after in H4 by lia. repeat split; try assumption; try lia.
    intros j Hj Hc. apply (H5 j Hj). rewrite kth_is_candidate by lia. lia.
Qed.
Print Assumptions C18_random_int.

(** Non-termination: modulus 1, all-zero key stream, failing stream. *)
Theorem C18_never_returns (St : Type) (R : stream St) (fuel : nat) (m : Z) (s : St) :
  stream_law R ->
  (m <= 1 \/ (forall t n, fst (xks R t (repeat 0 n)) = Some (repeat 0 n)) \/ (forall t n, fst (xks R t (repeat 0 n)) = None)) ->
  random_int St R fuel m s = OutOfFuel.
Proof.
  intros Hl H. apply (random_int_never St R Hl). intros k. destruct H as [H|H]; [lia|].
  assert (candidate _ R m (after_n _ R m k s) = 0) as ->; [|lia].
  unfold candidate, raw. assert (E : match fst (xks R (after_n _ R m k s) (repeat 0 (nb (bits_of m)))) with
     Some o => o | None => repeat 0 (nb (bits_of m)) end = repeat 0 (nb (bits_of m))).
  { destruct H as [H|H]; rewrite H; reflexivity. }
  rewrite E, be_val_repeat0. apply Z.mod_0_l. pose proof (bits_of_nonneg m).
  assert (0 < 2 ^ bits_of m) by (apply Z.pow_pos_nonneg; lia). lia.
Qed.
Print Assumptions C18_never_returns.

(** Int::pick therefore yields a reduced non-zero value of the receiver's modulus. *)
Theorem C18_pick (St : Type) (R : stream St) (fuel : nat) (i r : Int) (s s' : St) :
  stream_law R -> int_pick St R fuel i s = Ok (r, s') -> im r = im i /\ ibo r = ibo i /\ 1 <= iv r < im r.
Proof.
  intros Hl H. unfold int_pick in H. destruct (random_int St R fuel (im i) s) as [[v t]| | |] eqn:E; try discriminate.
  cbn [bindo] in H. injection H as <- <-. cbn [im ibo iv]. apply (random_int_iff St R Hl) in E.
  destruct E as [k [_ [_ [_ [Hr _]]]]]. repeat split; lia.
Qed.
Print Assumptions C18_pick.

Example C18_nonvacuous :
  stream_law counter /\ random_int Z counter 5 6 6 = Ok (1, 10) /\
  kth_candidate counter 6 6 0 = 6 /\ kth_candidate counter 6 6 1 = 7 /\ kth_candidate counter 6 6 2 = 0 /\
  kth_candidate counter 6 6 3 = 1.
Proof. split; [exact counter_law|]. vm_compute. auto. Qed.
Example C18_nonvacuous_zero : stream_law zeros /\ (forall t n, fst (xks zeros t (repeat 0 n)) = Some (repeat 0 n)) /\
  stream_law failing /\ (forall t n, fst (xks failing t (repeat 0 n)) = None).
Proof. repeat split; try (intros; reflexivity); try (now apply zeros_law in H); now apply failing_law in H. Qed.

(** ** C19 *)
Theorem C19_bits (St : Type) (R : stream St) (n : Z) (s : St) :
  stream_law R -> 0 <= n ->
  let len := Z.to_nat ((n + 7) / 8) in
  (exists b s', bits St R n false s = Ok (b, s') /\ length b = len /\ be_val b < 2 ^ n /\
     be_val b = be_val (drawn R len s) mod 2 ^ n) /\
  (0 < n -> exists b s', bits St R n true s = Ok (b, s') /\ length b = len /\ 2 ^ (n - 1) <= be_val b < 2 ^ n /\
     be_val b mod 2 ^ (n - 1) = be_val (drawn R len s) mod 2 ^ (n - 1)) /\
  bits St R 0 true s = Panic.
Proof.
  intros Hl Hn len. split; [|split].
  - destruct (bits_false St R Hl n s Hn) as [b [E [H1 [H2 H3]]]]. eexists; eexists; split; [exact E|].
    split; [exact H1|]. split; [|exact H3]. rewrite H3. apply Z.mod_pos_bound, Z.pow_pos_nonneg; lia.
  - intros Hp. destruct (bits_true St R Hl n s Hp) as [b [E [H1 [H2 H3]]]]. eexists; eexists; split; [exact E|].
    split; [exact H1|]. split; [exact H2|exact H3].
  - unfold bits. change (Z.to_nat ((0 + 7) / 8)) with 0%nat. cbn [repeat].
    destruct (xks R s []) as [[o|] s'] eqn:E; [|reflexivity].
    destruct (Hl _ _ _ _ E) as [Hlen _]. destruct o; [reflexivity|discriminate].
Qed.
Print Assumptions C19_bits.

Example C19_nonvacuous :
  bits Z counter 11 false 250 = Ok ([2; 251], 252) /\ bits Z counter 11 true 248 = Ok ([4; 249], 250).
Proof. vm_compute. auto. Qed.

(** ** C20 *)

(** The bytes of the readers that succeeded, in order. *)
Fixpoint successes (reads : list (option (list Z))) : list Z :=
  match reads with [] => [] | Some b :: r => b ++ successes r | None :: r => successes r end.

Lemma fold_reads reads a n :
  fold_left (fun acc r => match r with Some bs => (fst acc ++ bs, snd acc) | None => (fst acc, S (snd acc)) end)
    reads (a, n) = (a ++ successes reads, (n + length (filter (fun r => match r with None => true | _ => false end) reads))%nat).
Proof.
  revert a n; induction reads as [|[b|] r IH]; intros a n; cbn [fold_left filter successes length fst snd].
  - rewrite app_nil_r. f_equal; lia.
  - rewrite IH, app_assoc. reflexivity.
  - rewrite IH. f_equal. lia.
Qed.

Lemma all_fail_iff reads :
  length (filter (fun r : option (list Z) => match r with None => true | _ => false end) reads) = length reads <->
  forall r, In r reads -> r = None.
Proof.
  induction reads as [|[b|] r IH]; cbn [filter length].
  - split; [intros _ x []|reflexivity].
  - split.
    + intros H. assert (length (filter (fun r : option (list Z) => match r with None => true | _ => false end) r) <= length r)%nat; [|lia].
      clear. induction r as [|[b|] r IH]; simpl; lia.
    + intros H. specialize (H (Some b) (or_introl eq_refl)). discriminate.
  - split.
    + intros H x [<-|Hx]; [reflexivity|]. apply IH; [lia|exact Hx].
    + intros H. f_equal. apply IH. intros x Hx. apply H. now right.
Qed.

Theorem C20_rand_stream (sha256 : list Z -> list Z) (out : list Z -> nat -> Z)
    (reads : list (option (list Z))) (dst src : list Z) :
  (is_err (rand_xks sha256 out reads dst src) = true <->
     length src <> length dst \/ (forall r, In r reads -> r = None)) /\
  (length src = length dst -> (exists b, In (Some b) reads) ->
   rand_xks sha256 out reads dst src =
     Ok (map (fun k => Z.lxor (nth k src 0) (out (sha256 (successes reads)) k)) (seq 0 (length src)))).
Proof.
  assert (Hx : forall abs l p, xorb_list l (squeeze out abs p (length l)) =
     map (fun k => Z.lxor (nth (k - p) l 0) (out abs k)) (seq p (length l))).
  { intros abs l. induction l as [|x l IH]; intros p; [reflexivity|]. cbn [length squeeze seq map xorb_list].
    rewrite Nat.sub_diag. cbn [nth]. f_equal. fold (squeeze out abs (S p) (length l)). rewrite IH.
    apply map_ext_in. intros k Hk. apply in_seq in Hk. replace (k - p)%nat with (S (k - S p)) by lia. reflexivity. }
  unfold rand_xks. destruct (Nat.eqb_spec (length src) (length dst)) as [E|E]; cbn [negb].
  - rewrite fold_reads. cbn [fst snd plus app].
    destruct (Nat.eqb_spec (length (filter (fun r : option (list Z) => match r with None => true | _ => false end) reads)) (length reads)) as [F|F].
    + pose proof (proj1 (all_fail_iff reads) F) as F1. split; [split; [auto|reflexivity]|]. intros _ [b Hb]. apply F1 in Hb. discriminate.
    + unfold xof_xks. destruct (Nat.ltb_spec (length dst) (length src)); [lia|]. cbn [xof_new xof_read ximpl fst].
      rewrite Hx, skipn_all2, app_nil_r by lia. split.
      * split; [discriminate|]. intros [H0|H0]; [tauto|]. exfalso. apply F. now apply all_fail_iff.
      * intros _ _. f_equal. apply map_ext. intros k. now rewrite Nat.sub_0_r.
  - split; [|tauto]. split; [auto|reflexivity].
Qed.
Print Assumptions C20_rand_stream.

Example C20_nonvacuous :
  rand_xks (fun b => b) (fun abs k => nth k (abs ++ abs) 0) [None; Some [5; 6]; None] [0; 0; 0] [1; 2; 3] = Ok [4; 4; 6] /\
  rand_xks (fun b => b) (fun abs k => nth k abs 0) [None; None] [0; 0; 0] [1; 2; 3] = Err ReadersFailure.
Proof. vm_compute. auto. Qed.

(** ** C21 *)

(** Key stream bytes a history of reads and (long enough) xor_key_stream calls consumes, as seen by the caller. *)
Definition key_seen (o : xop) (ob : xobs) : list Z :=
  match o, ob with
  | OpRead _, ObsRead b => b
  | OpXks _ src, ObsXks (Ok d) => xorb_list src (firstn (length src) d)
  | _, _ => []
  end.

Definition consumed (o : xop) : nat := match o with OpRead n => n | OpXks _ src => length src | _ => 0 end.
Definition reading (o : xop) : Prop :=
  match o with OpRead _ => True | OpXks dst src => (length src <= length dst)%nat | _ => False end.
Definition total (l : list xop) : nat := fold_right (fun o n => consumed o + n)%nat 0%nat l.

Fixpoint keys_seen (l : list xop) (obs : list xobs) : list Z :=
  match l, obs with o :: l', ob :: obs' => key_seen o ob ++ keys_seen l' obs' | _, _ => [] end.

Lemma keys_continuous out x l : Forall reading l ->
  keys_seen l (fst (xrun out x l)) = squeeze out (absorbed x) (position x) (total l) /\
  absorbed (snd (xrun out x l)) = absorbed x /\ position (snd (xrun out x l)) = (position x + total l)%nat.
Proof.
  intros Hr; revert x; induction Hr as [|o l Ho Hr IH]; intros x; cbn [xrun total fold_right].
  - cbn. repeat split. lia.
  - fold (total l). destruct o as [n|dst src|buf|]; cbn [reading] in Ho; try contradiction; cbn [xstep].
    + rewrite read_spec. specialize (IH (Xof (Readable (absorbed x) (position x + n)) (xkey x))).
      destruct (xrun out (Xof (Readable (absorbed x) (position x + n)) (xkey x)) l) as [obs x''].
      cbn [fst snd keys_seen key_seen consumed absorbed position ximpl] in *. destruct IH as [I1 [I2 I3]].
      rewrite squeeze_add, I1, I2, I3. repeat split. lia.
    + destruct (xks_spec out x dst src Ho) as [x' [E Ex]]. rewrite E. specialize (IH x').
      destruct (xrun out x' l) as [obs x''].
      assert (A : absorbed x' = absorbed x) by (unfold absorbed at 1; rewrite Ex; reflexivity).
      assert (P : position x' = (position x + length src)%nat) by (unfold position at 1; rewrite Ex; reflexivity).
      cbn [fst snd keys_seen key_seen consumed] in *. destruct IH as [I1 [I2 I3]].
      rewrite firstn_app, xorb_list_length, squeeze_length, Nat.min_id, Nat.sub_diag. cbn [firstn]. rewrite app_nil_r.
      rewrite firstn_all2 by (rewrite xorb_list_length, squeeze_length; lia).
      rewrite xorb_list_key by (now rewrite squeeze_length).
      rewrite squeeze_add, I1, I2, I3, A, P. repeat split. lia.
Qed.

(** Any split of the calls sees the key stream of one single read. *)
Theorem C21_continuous (out : list Z -> nat -> Z) (x : xof) (l : list xop) :
  Forall reading l ->
  keys_seen l (fst (xrun out x l)) = fst (xof_read out x (total l)) /\
  forall n, fst (xof_read out (snd (xrun out x l)) n) = skipn (total l) (fst (xof_read out x (total l + n))).
Proof.
  intros Hr. destruct (keys_continuous out x l Hr) as [K [A P]]. split.
  - rewrite K, read_spec. reflexivity.
  - intros n. rewrite !read_spec. cbn [fst]. rewrite A, P, squeeze_add, skipn_app, squeeze_length, Nat.sub_diag.
    rewrite skipn_all2 by (rewrite squeeze_length; lia). reflexivity.
Qed.
Print Assumptions C21_continuous.

(** Encrypting and decrypting with two XOFs in the same state restores the input. *)
Theorem C21_involution (out : list Z -> nat -> Z) (x : xof) (d1 d2 src : list Z) :
  length d1 = length src -> length d2 = length src ->
  exists c x1 x2, xof_xks out x d1 src = (Ok c, x1) /\ length c = length src /\
    xof_xks out (xof_clone x) d2 c = (Ok src, x2) /\ ximpl x1 = ximpl x2.
Proof.
  intros H1 H2. destruct (xks_spec out x d1 src ltac:(lia)) as [x1 [E1 S1]].
  rewrite skipn_all2, app_nil_r in E1 by lia.
  set (c := xorb_list src (squeeze out (absorbed x) (position x) (length src))) in *.
  assert (Hc : length c = length src) by (unfold c; rewrite xorb_list_length, squeeze_length; lia).
  destruct (xks_spec out (xof_clone x) d2 c ltac:(lia)) as [x2 [E2 S2]].
  rewrite skipn_all2, app_nil_r in E2 by lia. exists c, x1, x2. split; [exact E1|]. split; [exact Hc|]. split.
  - rewrite E2, Hc. f_equal. f_equal. unfold c. change (absorbed (xof_clone x)) with (absorbed x).
    change (position (xof_clone x)) with (position x). apply xorb_list_invol. rewrite squeeze_length. lia.
  - rewrite S1, S2, Hc. reflexivity.
Qed.
Print Assumptions C21_involution.

(** A clone observes exactly what the original would have, whatever is done to the other one. *)
Theorem C21_clone (out : list Z -> nat -> Z) (x : xof) (l : list xop) :
  xrun out (xof_clone x) l = xrun out x l.
Proof. destruct x; reflexivity. Qed.
Print Assumptions C21_clone.

(** A short destination is refused and consumes nothing. *)
Theorem C21_short_destination (out : list Z -> nat -> Z) (x : xof) (dst src : list Z) :
  (length dst < length src)%nat -> xof_xks out x dst src = (Err ShortDestination, x).
Proof. intros H. unfold xof_xks. destruct (Nat.ltb_spec (length dst) (length src)); [reflexivity|lia]. Qed.
Print Assumptions C21_short_destination.

Definition ex_out (abs : list Z) (k : nat) : Z := (be_val abs * 7 + Z.of_nat k * 13) mod 256.
Example C21_nonvacuous :
  Forall reading [OpRead 2; OpXks [9; 9; 9] [1; 2]; OpRead 0; OpRead 1] /\
  fst (xrun ex_out (xof_new (Some [3])) [OpRead 2; OpXks [9; 9; 9] [1; 2]; OpRead 0; OpRead 1]) =
    [ObsRead [21; 34]; ObsXks (Ok [46; 62; 9]); ObsRead []; ObsRead [73]] /\
  fst (xof_read ex_out (xof_new (Some [3])) 5) = [21; 34; 47; 60; 73].
Proof. split; [repeat constructor|]; vm_compute; auto. Qed.

(** ** C22 *)

(** One call does not un-squeeze. *)
Lemma squeezed_stays out x l : ~ In OpReseed l -> (exists a p, ximpl x = Readable a p) ->
  (exists p, ximpl (snd (xrun out x l)) = Readable (absorbed x) p) /\
  (forall k buf, nth_error l k = Some (OpWrite buf) -> nth_error (fst (xrun out x l)) k = Some (ObsWrite (Err Interrupted))).
Proof.
  revert x; induction l as [|o l IH]; intros x Hn [a [p Hx]].
  - split; [exists p; unfold absorbed; cbn [xrun snd]; rewrite Hx; reflexivity|]. intros [|k] buf H; discriminate.
  - assert (Hs : exists p', ximpl (snd (xstep out x o)) = Readable (absorbed x) p').
    { destruct o as [n|dst src|buf|]; cbn [xstep].
      - rewrite read_spec. eexists; reflexivity.
      - destruct (Nat.lt_ge_cases (length dst) (length src)) as [H|H].
        + rewrite C21_short_destination by exact H. exists p. cbn [snd]. unfold absorbed. now rewrite Hx.
        + destruct (xks_spec out x dst src H) as [x' [E E']]. rewrite E. cbn [snd]. eauto.
      - unfold xof_write. rewrite Hx. exists p. cbn [snd]. unfold absorbed. now rewrite Hx.
      - exfalso. apply Hn. now left. }
    destruct Hs as [p' Hs]. cbn [xrun]. destruct (xstep out x o) as [ob x'] eqn:E. cbn [snd] in Hs.
    specialize (IH x' (fun H => Hn (or_intror H)) (ex_intro _ _ (ex_intro _ _ Hs))).
    destruct (xrun out x' l) as [obs x'']. cbn [fst snd] in *. destruct IH as [[q Hq] Hw]. split.
    + exists q. rewrite Hq. unfold absorbed at 1. rewrite Hs. reflexivity.
    + intros [|k] buf H; cbn [nth_error] in *; [|now apply (Hw k buf)].
      injection H as ->. cbn [xstep] in E. unfold xof_write in E. rewrite Hx in E. injection E as <- <-. reflexivity.
Qed.

(** After any history containing a successful read (or a non-short xor_key_stream) and no later reseed, every write is
    refused with the absorbed data unchanged. *)
Theorem C22_no_absorb_after_squeeze (out : list Z -> nat -> Z) (x : xof) (before after : list xop) (o : xop) (k : nat) (buf : list Z) :
  reading o -> ~ In OpReseed after -> nth_error after k = Some (OpWrite buf) ->
  let h := before ++ o :: after in
  nth_error (fst (xrun out x h)) (length before + S k) = Some (ObsWrite (Err Interrupted)) /\
  absorbed (snd (xrun out x h)) = absorbed (snd (xrun out x (before ++ [o]))).
Proof.
  intros Ho Hn Hk h. unfold h; clear h.
  assert (Happ : forall l1 l2 y, xrun out y (l1 ++ l2) =
     (fst (xrun out y l1) ++ fst (xrun out (snd (xrun out y l1)) l2), snd (xrun out (snd (xrun out y l1)) l2))).
  { induction l1 as [|o1 l1 IH]; intros l2 y; cbn [app xrun fst snd]; [destruct (xrun out y l2); reflexivity|].
    destruct (xstep out y o1) as [ob y']. rewrite IH. destruct (xrun out y' l1) as [obs y'']. reflexivity. }
  assert (Hlen : forall l y, length (fst (xrun out y l)) = length l).
  { induction l as [|o1 l IH]; intros y; cbn [xrun]; [reflexivity|]. destruct (xstep out y o1) as [ob y'].
    specialize (IH y'). destruct (xrun out y' l). cbn [fst length] in *. now rewrite IH. }
  rewrite !Happ. cbn [fst snd]. set (y := snd (xrun out x before)). cbn [xrun].
  assert (Hy : exists a p, ximpl (snd (xstep out y o)) = Readable a p).
  { destruct o as [n|dst src|b|]; cbn [reading] in Ho; try contradiction; cbn [xstep].
    - rewrite read_spec. eexists; eexists; reflexivity.
    - destruct (xks_spec out y dst src Ho) as [x' [E E']]. rewrite E. cbn [snd]. eauto. }
  destruct (xstep out y o) as [ob y'] eqn:E. cbn [snd] in Hy.
  destruct (squeezed_stays out y' after Hn Hy) as [[q Hq] Hw]. specialize (Hw k buf Hk).
  destruct (xrun out y' after) as [obs y'']. cbn [fst snd] in *. split.
  - rewrite nth_error_app2 by (rewrite Hlen; lia). rewrite Hlen.
    replace (length before + S k - length before)%nat with (S k) by lia. exact Hw.
  - unfold absorbed at 1. rewrite Hq. reflexivity.
Qed.
Print Assumptions C22_no_absorb_after_squeeze.

(** Reseeding starts a fresh XOF keyed by the next 128 bytes of output: writing works again and everything seen
    afterwards is what a new XOF with that seed would show. *)
Theorem C22_reseed (out : list Z -> nat -> Z) (x : xof) (l : list xop) (buf : list Z) :
  let seed := fst (xof_read out x 128) in
  fst (xrun out (xof_reseed out x) l) = fst (xrun out (xof_new (Some seed)) l) /\
  length seed = 128%nat /\
  fst (xof_write (xof_reseed out x) buf) = Ok (length buf).
Proof.
  intros seed. unfold seed. rewrite read_spec. cbn [fst]. unfold xof_reseed. rewrite read_spec. split; [|split].
  - assert (H : forall y z, ximpl y = ximpl z -> fst (xrun out y l) = fst (xrun out z l)).
    { induction l as [|o l' IH]; intros y z H; [reflexivity|]. cbn [xrun].
      assert (Hs : fst (xstep out y o) = fst (xstep out z o) /\ ximpl (snd (xstep out y o)) = ximpl (snd (xstep out z o))).
      { destruct y as [iy ky], z as [iz kz]. cbn in H. subst iz. destruct o as [n|dst src|b|]; cbn [xstep].
        - destruct iy; split; reflexivity.
        - unfold xof_xks. destruct (Nat.ltb _ _); [split; reflexivity|]. destruct iy; split; reflexivity.
        - destruct iy; split; reflexivity.
        - destruct iy; split; reflexivity. }
      destruct (xstep out y o) as [oy y'], (xstep out z o) as [oz z']. cbn [fst snd] in Hs. destruct Hs as [<- Hs].
      specialize (IH y' z' Hs). destruct (xrun out y' l'), (xrun out z' l'). cbn [fst] in *. now rewrite IH. }
    apply H. reflexivity.
  - apply squeeze_length.
  - reflexivity.
Qed.
Print Assumptions C22_reseed.

(** Absorbing in pieces is absorbing the concatenation. *)
Theorem C22_absorb_concat (out : list Z -> nat -> Z) (x : xof) (bufs : list (list Z)) (n : nat) :
  (exists a, ximpl x = Writeable a) ->
  fst (xof_read out (snd (xrun out x (map OpWrite bufs))) n) = fst (xof_read out (xof_new (Some (absorbed x ++ concat bufs))) n) /\
  fst (xrun out x (map OpWrite bufs)) = map (fun b => ObsWrite (Ok (length b))) bufs.
Proof.
  revert x; induction bufs as [|b bufs IH]; intros x [a Hx].
  - cbn [map xrun snd fst concat]. rewrite app_nil_r, !read_spec. cbn [fst]. unfold absorbed, position. rewrite Hx. split; reflexivity.
  - cbn [map xrun xstep]. unfold xof_write. rewrite Hx. specialize (IH (Xof (Writeable (a ++ b)) (xkey x)) (ex_intro _ _ eq_refl)).
    destruct (xrun out (Xof (Writeable (a ++ b)) (xkey x)) (map OpWrite bufs)) as [obs x']. cbn [fst snd concat] in *.
    destruct IH as [I1 I2]. rewrite I1, I2. unfold absorbed at 1 2. rewrite Hx. cbn [ximpl]. rewrite app_assoc. split; reflexivity.
Qed.
Print Assumptions C22_absorb_concat.

(** The claim about write_all is false: it never returns on a squeezed XOF, because the refusal has the error kind
    that write_all retries.  flush always panics. *)
Theorem C22_write_all_refuted :
  exists x buf, (exists a p, ximpl x = Readable a p) /\ forall fuel, fst (xof_write_all fuel x buf) = OutOfFuel.
Proof.
  exists (Xof (Readable [] 0) []), [1].
  split; [do 2 eexists; reflexivity|].
  intros fuel; induction fuel as [|f IH]; [reflexivity|]. exact IH.
Qed.
Print Assumptions C22_write_all_refuted.

Theorem C22_write_all_partial (fuel : nat) (x : xof) (buf : list Z) : buf <> [] ->
  ((exists a p, ximpl x = Readable a p) -> fst (xof_write_all fuel x buf) = OutOfFuel) /\
  ((exists a, ximpl x = Writeable a) -> (0 < fuel)%nat ->
     fst (xof_write_all fuel x buf) = Ok tt /\ absorbed (snd (xof_write_all fuel x buf)) = absorbed x ++ buf).
Proof.
  intros Hb. destruct buf as [|c buf]; [tauto|]. split.
  - intros [a [p Hx]]. induction fuel as [|f IH]; [reflexivity|]. cbn [xof_write_all]. unfold xof_write. rewrite Hx. exact IH.
  - intros [a Hx] Hf. destruct fuel as [|f]; [lia|]. cbn [xof_write_all]. unfold xof_write. rewrite Hx.
    rewrite skipn_all2 by lia. unfold absorbed. rewrite Hx. destruct f; split; reflexivity.
Qed.
Print Assumptions C22_write_all_partial.

Theorem C22_flush_panics_refuted : exists x, xof_flush x = Panic.
Proof. exists (xof_new None). reflexivity. Qed.
Print Assumptions C22_flush_panics_refuted.

Example C22_nonvacuous :
  let l := [OpWrite [1]; OpRead 2; OpWrite [7]; OpReseed; OpWrite [7]] in
  fst (xrun ex_out (xof_new None) l) =
    [ObsWrite (Ok 1%nat); ObsRead [7; 20]; ObsWrite (Err Interrupted); ObsUnit; ObsWrite (Ok 1%nat)].
Proof. vm_compute. reflexivity. Qed.
