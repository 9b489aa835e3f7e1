(** Property C101: the contract of the [Stream] interface (src/cipher/stream.rs 6-17) and [RandStream]. *)
From Coq Require Import ZArith List Lia Bool.
From Verif Require Import Base Bytes RandModel PropsRand EntropyModel StreamModel.
Import ListNotations.
Local Open Scope Z_scope.

(** The bytes that the readers deliver on the k-th call (counting from 0), and the readers before it. *)
Fixpoint before {U} (rd : reader U) (us : list U) (k : nat) : list U := match k with O => us | S k' => before rd (map (fun u => snd (rd u)) us) k' end.
Definition delivered {U} (rd : reader U) (us : list U) (k : nat) : list (option (list Z)) := map (fun u => fst (rd u)) (before rd us k).
Definition some_reader (reads : list (option (list Z))) : Prop := exists b, In (Some b) reads.
(** XOR with a key stream that starts at its first byte. *)
Definition xor_from_0 (ks : nat -> Z) (src : list Z) : list Z := map (fun j => Z.lxor (nth j src 0) (ks j)) (seq 0 (length src)).

Lemma xor_len ks src : length (xor_from_0 ks src) = length src.
Proof. unfold xor_from_0. now rewrite map_length, seq_length. Qed.
Lemma xor_nth ks src j : (j < length src)%nat -> nth j (xor_from_0 ks src) 0 = Z.lxor (nth j src 0) (ks j).
Proof.
  intros H. unfold xor_from_0. rewrite (nth_indep _ 0 (Z.lxor (nth 0 src 0) (ks 0%nat))) by (rewrite map_length, seq_length; exact H).
  rewrite (map_nth (fun j => Z.lxor (nth j src 0) (ks j)) (seq 0 (length src)) 0%nat j), seq_nth by exact H. reflexivity.
Qed.
Lemma xor_xor ks src : xor_from_0 ks (xor_from_0 ks src) = src.
Proof.
  apply (nth_ext _ _ 0 0); rewrite !xor_len; [reflexivity|]. intros j H. rewrite xor_nth by (rewrite xor_len; exact H). rewrite xor_nth by exact H.
  now rewrite Z.lxor_assoc, Z.lxor_nilpotent, Z.lxor_0_r.
Qed.

Section S.
Context (sha256 : list Z -> list Z) (out : list Z -> nat -> Z) {U : Type} (rd : reader U).
Let ks (us : list U) (k : nat) : nat -> Z := out (sha256 (successes (delivered rd us k))).

Lemma call_ok us src : some_reader (delivered rd us 0) -> rand_call sha256 out rd us src src = (Ok (xor_from_0 (ks us 0) src), map (fun u => snd (rd u)) us).
Proof.
  intros H. unfold rand_call. rewrite Nat.eqb_refl. cbn [negb]. f_equal. exact (proj2 (C20_rand_stream sha256 out _ src src) eq_refl H).
Qed.
Lemma calls_ok srcs : forall us, (forall k, (k < length srcs)%nat -> some_reader (delivered rd us k)) ->
  exists ds, rand_calls sha256 out rd us srcs = Ok ds /\ length ds = length srcs /\
    forall k, (k < length srcs)%nat -> nth k ds [] = xor_from_0 (ks us k) (nth k srcs []).
Proof.
  induction srcs as [|s r IH]; intros us H; [exists []; split; [reflexivity|]; split; [reflexivity|]; intros k Hk; inversion Hk|].
  cbn [rand_calls]. rewrite (call_ok us s (H 0%nat (Nat.lt_0_succ _))).
  destruct (IH (map (fun u => snd (rd u)) us)) as [ds [E [L N]]]; [intros k Hk; apply (H (S k)); cbn [length]; lia|]. rewrite E. eexists. split; [reflexivity|].
  split; [cbn [length]; now rewrite L|]. intros [|k] Hk; [reflexivity|]. cbn [nth]. apply N. cbn [length] in Hk. lia.
Qed.
End S.

(** Every call uses its own key stream from the start, seeded by what the readers deliver on that call. *)
Theorem C101_calls (sha256 : list Z -> list Z) (out : list Z -> nat -> Z) {U} (rd : reader U) (us : list U) (srcs : list (list Z)) :
  (forall k, (k < length srcs)%nat -> some_reader (delivered rd us k)) ->
  exists ds, rand_calls sha256 out rd us srcs = Ok ds /\ length ds = length srcs /\
    forall k, (k < length srcs)%nat -> nth k ds [] = xor_from_0 (out (sha256 (successes (delivered rd us k)))) (nth k srcs []).
Proof. apply calls_ok. Qed.
Print Assumptions C101_calls.

(** A stream in the same state, called with pieces of the same lengths, decrypts. *)
Theorem C101_decrypt_partial (sha256 : list Z -> list Z) (out : list Z -> nat -> Z) {U} (rd : reader U) (us : list U) (srcs : list (list Z)) :
  (forall k, (k < length srcs)%nat -> some_reader (delivered rd us k)) ->
  exists cs, rand_calls sha256 out rd us srcs = Ok cs /\ map (@length Z) cs = map (@length Z) srcs /\ rand_calls sha256 out rd us cs = Ok srcs.
Proof.
  intros H. destruct (calls_ok sha256 out rd srcs us H) as [cs [E [L N]]]. exists cs. split; [exact E|].
  destruct (calls_ok sha256 out rd cs us) as [ds [E' [L' N']]]; [rewrite L; exact H|]. split.
  - apply (nth_ext _ _ 0%nat 0%nat); rewrite !map_length; [exact L|]. intros k Hk. rewrite L in Hk. change 0%nat with (@length Z []). rewrite !map_nth, (N k Hk). apply xor_len.
  - rewrite E'. f_equal. apply (nth_ext _ _ [] []); [congruence|]. intros k Hk. rewrite L' in Hk. rewrite (N' k Hk). rewrite L in Hk. rewrite (N k Hk). apply xor_xor.
Qed.
Print Assumptions C101_decrypt_partial.

(** When the readers deliver the same in two calls, the key stream is used twice: the outputs show the XOR of the inputs. *)
Theorem C101_key_reuse (sha256 : list Z -> list Z) (out : list Z -> nat -> Z) {U} (rd : reader U) (us : list U) (a b : list Z) :
  some_reader (delivered rd us 0) -> delivered rd us 0 = delivered rd us 1 ->
  exists c d, rand_calls sha256 out rd us [a; b] = Ok [c; d] /\
    forall j, (j < length a)%nat -> (j < length b)%nat -> Z.lxor (nth j c 0) (nth j d 0) = Z.lxor (nth j a 0) (nth j b 0).
Proof.
  intros H E. destruct (calls_ok sha256 out rd [a; b] us) as [ds [E' [L N]]].
  { intros [|[|k]] Hk; [exact H|rewrite <- E; exact H|cbn [length] in Hk; lia]. }
  destruct ds as [|c [|d [|? ?]]]; try discriminate L. exists c, d. split; [exact E'|]. intros j Ha Hb.
  pose proof (N 0%nat ltac:(cbn [length]; lia)) as Hc. pose proof (N 1%nat ltac:(cbn [length]; lia)) as Hd. cbn [nth] in Hc, Hd. subst c d. rewrite !xor_nth by assumption. rewrite <- E.
  rewrite !Z.lxor_assoc. f_equal. rewrite (Z.lxor_comm (nth j b 0)), <- Z.lxor_assoc, Z.lxor_nilpotent, Z.lxor_0_l. reflexivity.
Qed.
Print Assumptions C101_key_reuse.

(** Full statement: "multiple calls behave as if the concatenation of the src buffers was passed in a single run", so the pieces
    need not be the same on the other side.  False, for a reader that delivers the same bytes for ever and for one that counts. *)
Definition same_reader : reader (list Z) := fun l => (Some l, l).
Definition counter_reader : reader Z := fun n => (Some (le_bytes 32 n), n + 1).
Theorem C101_refuted : exists (sha256 : list Z -> list Z) (out : list Z -> nat -> Z), (forall a k, 0 <= out a k < 256) /\
  (exists us a b, rand_calls sha256 out same_reader us [a; b] <> Ok [] /\
     forall c d e, rand_calls sha256 out same_reader us [a; b] = Ok [c; d] -> rand_calls sha256 out same_reader us [a ++ b] = Ok [e] -> c ++ d <> e) /\
  (exists us a b, rand_calls sha256 out counter_reader us [a; b] <> Ok [] /\
     forall c d e, rand_calls sha256 out counter_reader us [a; b] = Ok [c; d] -> rand_calls sha256 out counter_reader us [a ++ b] = Ok [e] -> c ++ d <> e).
Proof.
  exists (fun b => b), (fun b k => (hd 0 b * 7 + Z.of_nat k) mod 256). split; [intros a k; apply Z.mod_pos_bound; lia|]. split.
  - exists [repeat 3 32], [0], [0]. split; [discriminate|]. intros c d e H1 H2. vm_compute in H1, H2. injection H1 as <- <-. injection H2 as <-. discriminate.
  - exists [4], [0], [0]. split; [discriminate|]. intros c d e H1 H2. vm_compute in H1, H2. injection H1 as <- <-. injection H2 as <-. discriminate.
Qed.
Print Assumptions C101_refuted.

(** The contract also allows a destination longer than the source.  RandStream refuses it, and a shorter one, without asking its
    readers. *)
Theorem C101_lengths (sha256 : list Z -> list Z) (out : list Z -> nat -> Z) {U} (rd : reader U) (us : list U) (dst src : list Z) :
  length dst <> length src -> rand_call sha256 out rd us dst src = (Err WrongBufferLengths, us).
Proof. intros H. unfold rand_call. destruct (Nat.eqb_spec (length src) (length dst)); [lia|reflexivity]. Qed.
Print Assumptions C101_lengths.

Example C101_nonvacuous :
  (forall k, some_reader (delivered counter_reader [4; 9] k)) /\ some_reader (delivered same_reader [repeat 3 32] 0) /\
  delivered same_reader [repeat 3 32] 0 = delivered same_reader [repeat 3 32] 1 /\
  rand_calls (fun b => b) (fun b k => (hd 0 b * 7 + Z.of_nat k) mod 256) counter_reader [4; 9] [[1; 2]; []; [255]] = Ok [[29; 31]; []; [213]].
Proof.
  split; [|split; [exists (repeat 3 32); left; reflexivity|split; [reflexivity|vm_compute; reflexivity]]].
  intros k. assert (H : forall a b, exists c d, before counter_reader [a; b] k = [c; d]).
  { induction k as [|k IH]; intros a b; [exists a, b; reflexivity|]. exact (IH _ _). }
  destruct (H 4 9) as [c [d E]]. unfold delivered. rewrite E. exists (le_bytes 32 c). left. reflexivity.
Qed.
