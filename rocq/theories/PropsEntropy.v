(** Property C97: the entropy options of the key generator. *)
From Coq Require Import ZArith List Lia Bool.
From Verif Require Import Base Bytes IntModel RandModel RandProofs PropsRand ScModel PropsSc EntropyModel.
Import ListNotations.
Local Open Scope Z_scope.

(** The k-th block a reader delivers. *)
Fixpoint nth_state {U} (rd : reader U) (k : nat) (u : U) : U := match k with O => u | S k' => nth_state rd k' (snd (rd u)) end.
Definition block {U} (rd : reader U) (u : U) (k : nat) : option (list Z) := fst (rd (nth_state rd k u)).
(** What is hashed for the k-th attempt: the user's block followed by the system's, as far as they are used and there. *)
Definition both (a b : option (list Z)) : option (list Z) :=
  match a, b with Some x, Some y => Some (x ++ y) | Some x, None => Some x | None, _ => b end.
Definition attempt {U V} (ru : reader U) (rv : reader V) (user : option U) (only : bool) (sys : V) (k : nat) : option (list Z) :=
  match user with
  | Some u => if only then block ru u k else both (block ru u k) (block rv sys k)
  | None => block rv sys k
  end.
(** The number made from a block: 32 bytes of output, cut to 253 bits. *)
Definition number (sha256 : list Z -> list Z) (out : list Z -> nat -> Z) (b : list Z) : Z :=
  be_val (map (out (sha256 b)) (seq 0 32)) mod 2 ^ 253.
Definition usable sha256 out (b : option (list Z)) (x : Z) : Prop := exists bs, b = Some bs /\ x = number sha256 out bs /\ 1 <= x < order.

Section Proofs.
Variables (sha256 : list Z -> list Z) (out : list Z -> nat -> Z).
Hypothesis out_byte : forall a k, 0 <= out a k < 256.

Lemma rand_stream_law {U} (rd : reader U) : stream_law (rand_stream sha256 out rd).
Proof.
  intros us src o s'. unfold rand_stream. cbn [xks]. destruct (C20_rand_stream sha256 out (map (fun u => fst (rd u)) us) src src) as [H1 H2].
  destruct (rand_xks sha256 out (map (fun u => fst (rd u)) us) src src) as [d|e| |] eqn:E; try discriminate. intros [= <- _].
  assert (X : exists b, In (Some b) (map (fun u => fst (rd u)) us)).
  { assert (N : ~ forall r, In r (map (fun u => fst (rd u)) us) -> r = None) by (intros N; discriminate (proj2 H1 (or_intror N))).
    revert N. generalize (map (fun u => fst (rd u)) us) as l. induction l as [|[b|] l IH]; intros N.
    - exfalso. apply N. intros r [].
    - exists b. now left.
    - destruct IH as [b Hb]; [|exists b; now right]. intros A. apply N. intros r [<-|Hr]; [reflexivity|exact (A r Hr)]. }
  specialize (H2 eq_refl X). injection H2 as H2. subst d. split; [now rewrite map_length, seq_length|]. intros B. apply Forall_map, Forall_forall.
  intros k _. apply lxor_byte; [|apply out_byte]. destruct (Nat.lt_ge_cases k (length src)) as [L|L]; [exact (proj1 (Forall_forall _ _) B _ (nth_In _ _ L))|].
  rewrite nth_overflow by exact L. unfold is_byte. lia.
Qed.

Lemma draws_state {U} (rd : reader U) n k us : draws (rand_stream sha256 out rd) n k us = map (nth_state rd k) us.
Proof.
  revert us. induction k as [|k IH]; intros us; cbn [draws nth_state]; [now rewrite map_id|]. rewrite IH. unfold rand_stream. cbn [xks snd]. now rewrite map_map.
Qed.

Lemma nth_0 n k : nth k (repeat 0 n) 0 = 0.
Proof. revert k. induction n as [|n IH]; intros [|k]; cbn; auto. Qed.

(** The k-th candidate from a list of readers. *)
Lemma candidate_of {U} (rd : reader U) us k :
  let reads := map (fun u => block rd u k) us in
  kth_candidate (rand_stream sha256 out rd) order us k =
  if existsb (fun r => match r with Some _ => true | None => false end) reads then number sha256 out (successes reads) else 0.
Proof.
  intros reads. unfold kth_candidate. change (Z.to_nat ((Z.log2 order + 1 + 7) / 8)) with 32%nat. change (Z.log2 order + 1) with 253.
  rewrite draws_state. unfold drawn, rand_stream. cbn [xks fst].
  assert (E : map (fun u => fst (rd u)) (map (nth_state rd k) us) = reads) by (unfold reads, block; now rewrite map_map). rewrite E. clear E.
  destruct (C20_rand_stream sha256 out reads (repeat 0 32) (repeat 0 32)) as [H1 H2].
  destruct (existsb _ reads) eqn:X.
  - rewrite H2; [|reflexivity|].
    + unfold number. rewrite repeat_length. rewrite (map_ext _ (out (sha256 (successes reads)))); [reflexivity|]. intros j. rewrite nth_0. apply Z.lxor_0_l.
    + apply existsb_exists in X as [[b|] [I X]]; [exists b; exact I|discriminate].
  - assert (A : forall r, In r reads -> r = None).
    { intros [b|] I; [|reflexivity]. exfalso. assert (T : existsb (fun r : option (list Z) => match r with Some _ => true | None => false end) reads = true) by (apply existsb_exists; exists (Some b); auto). congruence. }
    destruct (rand_xks sha256 out reads (repeat 0 32) (repeat 0 32)) eqn:E.
    + discriminate (proj2 H1 (or_intror A)).
    + reflexivity.
    + reflexivity.
    + reflexivity.
Qed.

Lemma either_l {U V} (ru : reader U) (rv : reader V) u k : nth_state (either ru rv) k (inl u) = inl (nth_state ru k u).
Proof. revert u. induction k as [|k IH]; intros u; [reflexivity|]. cbn [nth_state either]. destruct (ru u) as [b u']. cbn [snd]. apply IH. Qed.
Lemma either_r {U V} (ru : reader U) (rv : reader V) v k : nth_state (either ru rv) k (inr v) = inr (nth_state rv k v).
Proof. revert v. induction k as [|k IH]; intros v; [reflexivity|]. cbn [nth_state either]. destruct (rv v) as [b v']. cbn [snd]. apply IH. Qed.
Lemma block_l {U V} (ru : reader U) (rv : reader V) u k : block (either ru rv) (inl u) k = block ru u k.
Proof. unfold block. rewrite either_l. cbn [either]. now destruct (ru _). Qed.
Lemma block_r {U V} (ru : reader U) (rv : reader V) v k : block (either ru rv) (inr v) k = block rv v k.
Proof. unfold block. rewrite either_r. cbn [either]. now destruct (rv _). Qed.

Lemma candidate_attempt {U V} (ru : reader U) (rv : reader V) user only sys k :
  kth_candidate (rand_stream sha256 out (either ru rv)) order (secret_readers user only sys) k =
  match attempt ru rv user only sys k with Some b => number sha256 out b | None => 0 end.
Proof.
  rewrite candidate_of. destruct user as [u|]; [destruct only|]; cbn [secret_readers map attempt]; rewrite ?block_l, ?block_r.
  - destruct (block ru u k) as [b|]; cbn [existsb successes orb]; [now rewrite app_nil_r|reflexivity].
  - destruct (block ru u k) as [b|], (block rv sys k) as [b'|]; cbn [existsb successes orb both]; rewrite ?app_nil_r; reflexivity.
  - destruct (block rv sys k) as [b|]; cbn [existsb successes orb]; [now rewrite app_nil_r|reflexivity].
Qed.

Lemma range_usable {U V} (ru : reader U) (rv : reader V) user only sys k :
  let x := kth_candidate (rand_stream sha256 out (either ru rv)) order (secret_readers user only sys) k in
  1 <= x < order <-> usable sha256 out (attempt ru rv user only sys k) x.
Proof.
  cbv zeta. rewrite candidate_attempt. destruct (attempt ru rv user only sys k) as [b|]; split.
  - intros H. exists b. auto.
  - intros [b' [[= <-] [_ H]]]. exact H.
  - lia.
  - intros [b' [? _]]. discriminate.
Qed.
End Proofs.

(** Within the fuel, an attempt in range makes the loop return. *)
Lemma least_in (P : nat -> Prop) (dec : forall k, {P k} + {~ P k}) k : P k -> exists m, (m <= k)%nat /\ P m /\ forall j, (j < m)%nat -> ~ P j.
Proof.
  intros H. assert (G : forall n, (exists m, (m < n)%nat /\ P m /\ forall j, (j < m)%nat -> ~ P j) \/ forall j, (j < n)%nat -> ~ P j).
  { induction n as [|n [IH|IH]].
    - right. intros j Hj. lia.
    - left. destruct IH as [m [L M]]. exists m. split; [lia|exact M].
    - destruct (dec n) as [D|D]; [left; exists n; auto|]. right. intros j Hj. destruct (Nat.eq_dec j n) as [->|]; [exact D|apply IH; lia]. }
  destruct (G (S k)) as [[m [L M]]|N]; [exists m; split; [lia|exact M]|]. exfalso. exact (N k (Nat.lt_succ_diag_r k) H).
Qed.
Lemma random_int_in {St} (R : stream St) fuel m s : stream_law R -> 0 < m -> forall k, (k < fuel)%nat -> 1 <= kth_candidate R m s k < m ->
  random_int St R fuel m s <> OutOfFuel.
Proof.
  intros HR Hm k Hk Hi E. assert (D : forall j, {1 <= kth_candidate R m s j < m} + {~ (1 <= kth_candidate R m s j < m)}).
  { intros j. destruct (Z_le_dec 1 (kth_candidate R m s j)), (Z_lt_dec (kth_candidate R m s j) m); (left; lia) || (right; lia). }
  destruct (least_in _ D k Hi) as [j [Lj [Ij Nj]]].
  assert (Ok' : random_int St R fuel m s = Ok (kth_candidate R m s j, draws R (Z.to_nat ((Z.log2 m + 1 + 7) / 8)) (S j) s)).
  { apply (C18_random_int St R fuel m s _ _ HR Hm). exists j. split; [lia|]. split; [reflexivity|]. split; [exact Ij|]. split; [reflexivity|exact Nj]. }
  rewrite E in Ok'. discriminate Ok'.
Qed.

(** The secret coefficient is the number made from the first usable block; while there is none the call does not return.
    There is no error and no panic. *)
Theorem C97_secret (sha256 : list Z -> list Z) (out : list Z -> nat -> Z) {U V} (ru : reader U) (rv : reader V)
    (user : option U) (only : bool) (sys : V) (fuel : nat) : (forall a k, 0 <= out a k < 256) ->
  let go := secret_coeff sha256 out ru rv fuel user only sys in
  let at_ k := usable sha256 out (attempt ru rv user only sys k) in
  ((exists s, go = Ok s) <-> exists k x, (k < fuel)%nat /\ at_ k x) /\
  (forall s, go = Ok s -> scalar32 s /\ exists k, at_ k (le_val s) /\ forall j x, (j < k)%nat -> ~ at_ j x) /\
  (go = OutOfFuel <-> forall k x, (k < fuel)%nat -> ~ at_ k x).
Proof.
  intros HO. cbv zeta. set (R := rand_stream sha256 out (either ru rv)). set (st := secret_readers user only sys).
  assert (HR : stream_law R) by (apply rand_stream_law; exact HO).
  assert (Hd : scalar32 scalar_default) by (split; [|reflexivity]; unfold scalar_default; apply Forall_forall; intros x Hx; apply repeat_spec in Hx; lia).
  destruct (C27_setters_partial scalar_default 0 [] Hd ltac:(lia) ltac:(constructor)) as [_ [_ P]].
  specialize (P _ R fuel st HR). unfold secret_coeff. fold R. fold st.
  assert (U1 : forall k x, usable sha256 out (attempt ru rv user only sys k) x -> x = kth_candidate R order st k /\ 1 <= x < order).
  { intros k x H. pose proof (candidate_attempt sha256 out ru rv user only sys k) as C. fold R in C. fold st in C. destruct H as [b [E [-> I]]]. rewrite E in C. rewrite C. auto. }
  assert (U2 : forall k, 1 <= kth_candidate R order st k < order -> usable sha256 out (attempt ru rv user only sys k) (kth_candidate R order st k)).
  { intros k H. apply (range_usable sha256 out ru rv user only sys k). exact H. }
  destruct P as [[P Q]|[r [x [s' [P [Q [I [St F]]]]]]]]; rewrite P.
  - assert (N : forall k x, (k < fuel)%nat -> ~ usable sha256 out (attempt ru rv user only sys k) x).
    { intros k x Hk H. destruct (U1 k x H) as [-> HI]. exact (random_int_in R fuel order st HR ltac:(reflexivity) k Hk HI Q). }
    split; [|split].
    + split; [intros [s ?]; discriminate|]. intros [k [x [Hk H]]]. exfalso. exact (N k x Hk H).
    + discriminate.
    + split; [intros _; exact N|reflexivity].
  - apply (C18_random_int _ R fuel order st s' x HR ltac:(reflexivity)) in Q. destruct Q as [k [Hk [-> [_ [_ Hj]]]]].
    assert (Hu : usable sha256 out (attempt ru rv user only sys k) (kth_candidate R order st k)) by (apply U2; exact I).
    split; [|split].
    + split; [|intros _; now exists r]. intros _. exists k, (kth_candidate R order st k). auto.
    + intros s [= <-]. split; [destruct St as [n [_ [S32 _]]]; exact S32|]. rewrite (F eq_refl). exists k. split; [exact Hu|].
      intros j y Hj' H. destruct (U1 j y H) as [-> HI]. exact (Hj j Hj' HI).
    + split; [discriminate|]. intros N. exfalso. exact (N k _ Hk Hu).
Qed.
Print Assumptions C97_secret.

Lemma secret_coeff_cases sha256 out {U V} (ru : reader U) (rv : reader V) user only sys fuel : (forall a k, 0 <= out a k < 256) ->
  (exists s, secret_coeff sha256 out ru rv fuel user only sys = Ok s) \/ secret_coeff sha256 out ru rv fuel user only sys = OutOfFuel.
Proof.
  intros HO. assert (Hd : scalar32 scalar_default) by (split; [|reflexivity]; unfold scalar_default; apply Forall_forall; intros x Hx; apply repeat_spec in Hx; lia).
  destruct (C27_setters_partial scalar_default 0 [] Hd ltac:(lia) ltac:(constructor)) as [_ [_ P]].
  specialize (P _ (rand_stream sha256 out (either ru rv)) fuel (secret_readers user only sys) (rand_stream_law sha256 out HO _)). unfold secret_coeff.
  destruct P as [[-> _]|[r [x [s' [-> _]]]]]; [now right|left; now exists r].
Qed.

Lemma same_attempts sha256 out {U V U' V'} (ru : reader U) (rv : reader V) (ru' : reader U') (rv' : reader V') user only sys user' only' sys' fuel :
  (forall a k, 0 <= out a k < 256) -> (forall k, attempt ru rv user only sys k = attempt ru' rv' user' only' sys' k) ->
  secret_coeff sha256 out ru rv fuel user only sys = secret_coeff sha256 out ru' rv' fuel user' only' sys'.
Proof.
  intros HO HA. destruct (C97_secret sha256 out ru rv user only sys fuel HO) as [A [B C]].
  destruct (C97_secret sha256 out ru' rv' user' only' sys' fuel HO) as [A' [B' C']].
  destruct (secret_coeff_cases sha256 out ru rv user only sys fuel HO) as [[s E]|E], (secret_coeff_cases sha256 out ru' rv' user' only' sys' fuel HO) as [[s' E']|E']; rewrite E, E'.
  - f_equal. destruct (B s E) as [S1 [k [K L]]]. destruct (B' s' E') as [S2 [k' [K' L']]].
    assert (k = k').
    { destruct (Nat.lt_trichotomy k k') as [H|[H|H]]; [exfalso|exact H|exfalso].
      - rewrite HA in K. exact (L' _ _ H K).
      - rewrite <- HA in K'. exact (L _ _ H K'). }
    subst k'. destruct K as [b [Eb [N _]]], K' as [b' [Eb' [N' _]]]. rewrite <- HA, Eb in Eb'. injection Eb' as <-.
    apply (le_val_inj s s'); [apply S1|apply S2|destruct S1 as [_ ->], S2 as [_ ->]; reflexivity|congruence].
  - exfalso. destruct (proj1 A (ex_intro _ s E)) as [k [x [Hk H]]]. rewrite HA in H. exact (proj1 C' E' k x Hk H).
  - exfalso. destruct (proj1 A' (ex_intro _ s' E')) as [k [x [Hk H]]]. rewrite <- HA in H. exact (proj1 C E k x Hk H).
  - reflexivity.
Qed.

(** With [user_reader_only] the secret depends on the user's source alone. *)
Theorem C97_user_only (sha256 : list Z -> list Z) (out : list Z -> nat -> Z) {U V V'} (ru : reader U) (rv : reader V) (rv' : reader V')
    (u : U) (sys : V) (sys' : V') (fuel : nat) : (forall a k, 0 <= out a k < 256) ->
  secret_coeff sha256 out ru rv fuel (Some u) true sys = secret_coeff sha256 out ru rv' fuel (Some u) true sys'.
Proof. intros HO. apply same_attempts; [exact HO|reflexivity]. Qed.
Print Assumptions C97_user_only.

(** When the sources are combined, a user source that delivers nothing leaves the system's alone, silently. *)
Theorem C97_combined (sha256 : list Z -> list Z) (out : list Z -> nat -> Z) {U V} (ru : reader U) (rv : reader V)
    (u : U) (only : bool) (sys : V) (fuel : nat) : (forall a k, 0 <= out a k < 256) -> (forall k, block ru u k = None) ->
  secret_coeff sha256 out ru rv fuel (Some u) false sys = secret_coeff sha256 out ru rv fuel None only sys.
Proof. intros HO HN. apply same_attempts; [exact HO|]. intros k. cbn [attempt]. now rewrite HN. Qed.
Print Assumptions C97_combined.

Lemma skipn_skipn' {A} a b (l : list A) : skipn a (skipn b l) = skipn (b + a) l.
Proof. revert l. induction b as [|b IH]; intros l; [reflexivity|]. destruct l; [now rewrite skipn_nil|]. apply IH. Qed.
Lemma slice_state k : forall l, (32 * k <= length l)%nat -> nth_state slice_reader k l = skipn (32 * k) l.
Proof.
  induction k as [|k IH]; intros l H; [reflexivity|]. cbn [nth_state]. unfold slice_reader at 2. destruct (Nat.ltb_spec (length l) 32); [lia|]. cbn [snd].
  rewrite IH by (rewrite skipn_length; lia). rewrite skipn_skipn'. f_equal. lia.
Qed.
Lemma slice_short k : forall l, (length l < 32)%nat -> nth_state slice_reader k l = l.
Proof.
  induction k as [|k IH]; intros l H; [reflexivity|]. cbn [nth_state]. unfold slice_reader at 2. destruct (Nat.ltb_spec (length l) 32); [|lia]. apply IH. exact H.
Qed.
Lemma nth_state_add {U} (rd : reader U) a b u : nth_state rd (a + b) u = nth_state rd b (nth_state rd a u).
Proof. revert u. induction a as [|a IH]; intros u; [reflexivity|]. cbn [Nat.add nth_state]. apply IH. Qed.
Lemma slice_block l k : block slice_reader l k = if Nat.leb (32 * (k + 1)) (length l) then Some (firstn 32 (skipn (32 * k) l)) else None.
Proof.
  unfold block. destruct (Nat.leb_spec (32 * (k + 1)) (length l)) as [H|H].
  - rewrite slice_state by lia. unfold slice_reader. rewrite skipn_length. destruct (Nat.ltb_spec (length l - 32 * k) 32); [lia|reflexivity].
  - pose proof (Nat.div_mod (length l) 32 ltac:(lia)) as D. pose proof (Nat.mod_upper_bound (length l) 32 ltac:(lia)) as M.
    assert (Q : (length l / 32 <= k)%nat) by lia. replace k with (length l / 32 + (k - length l / 32))%nat by lia.
    rewrite nth_state_add, (slice_state _ l) by lia. rewrite slice_short by (rewrite skipn_length; lia).
    unfold slice_reader. rewrite skipn_length. destruct (Nat.ltb_spec (length l - 32 * (length l / 32)) 32); [reflexivity|lia].
Qed.

(** With a byte string as only source the call returns exactly when one of its whole blocks of 32 bytes is usable; otherwise it
    loops for ever, and the failure of the source is reported to nobody. *)
Theorem C97_bytes (sha256 : list Z -> list Z) (out : list Z -> nat -> Z) {V} (rv : reader V) (l : list Z) (sys : V) : (forall a k, 0 <= out a k < 256) ->
  ((exists fuel s, secret_coeff sha256 out slice_reader rv fuel (Some l) true sys = Ok s) <->
   exists k, (32 * (k + 1) <= length l)%nat /\ 1 <= number sha256 out (firstn 32 (skipn (32 * k) l)) < order) /\
  ((forall fuel, secret_coeff sha256 out slice_reader rv fuel (Some l) true sys = OutOfFuel) <->
   forall k, (32 * (k + 1) <= length l)%nat -> ~ (1 <= number sha256 out (firstn 32 (skipn (32 * k) l)) < order)).
Proof.
  intros HO. assert (U : forall k x, usable sha256 out (block slice_reader l k) x <->
    ((32 * (k + 1) <= length l)%nat /\ x = number sha256 out (firstn 32 (skipn (32 * k) l)) /\ 1 <= x < order)).
  { intros k x. rewrite slice_block. destruct (Nat.leb_spec (32 * (k + 1)) (length l)) as [H|H]; split.
    - intros [b [[= <-] [E I]]]. auto.
    - intros [_ [E I]]. eexists. split; [reflexivity|]. auto.
    - intros [b [? _]]. discriminate.
    - intros [? _]. lia. }
  split.
  - split.
    + intros [fuel [s E]]. destruct (C97_secret sha256 out slice_reader rv (Some l) true sys fuel HO) as [A _].
      destruct (proj1 A (ex_intro _ s E)) as [k [x [_ H]]]. apply U in H as [H1 [H2 H3]]. exists k. subst x. auto.
    + intros [k [H I]]. destruct (C97_secret sha256 out slice_reader rv (Some l) true sys (S k) HO) as [A _]. exists (S k). apply A. exists k. eexists.
      split; [lia|]. cbn [attempt]. apply U. split; [exact H|]. split; [reflexivity|exact I].
  - split.
    + intros E k H I. destruct (C97_secret sha256 out slice_reader rv (Some l) true sys (S k) HO) as [_ [_ C]].
      refine (proj1 C (E (S k)) k _ (Nat.lt_succ_diag_r k) _). cbn [attempt]. apply U. split; [exact H|]. split; [reflexivity|exact I].
    + intros N fuel. destruct (C97_secret sha256 out slice_reader rv (Some l) true sys fuel HO) as [_ [_ C]]. apply C. intros k x _ H.
      cbn [attempt] in H. apply U in H as [H1 [-> H3]]. exact (N k H1 H3).
Qed.
Print Assumptions C97_bytes.

(** Full statement: a source that fails is reported.  False: 31 bytes of user entropy make the call loop for ever. *)
Theorem C97_refuted : exists l, length l = 31%nat /\ forall (sha256 : list Z -> list Z) (out : list Z -> nat -> Z) (V : Type) (rv : reader V) (sys : V) (fuel : nat),
  (forall a k, 0 <= out a k < 256) -> secret_coeff sha256 out slice_reader rv fuel (Some l) true sys = OutOfFuel.
Proof.
  exists (repeat 7 31). split; [reflexivity|]. intros sha256 out V rv sys fuel HO. revert fuel. apply C97_bytes; [exact HO|]. intros k H. rewrite repeat_length in H. lia.
Qed.
Print Assumptions C97_refuted.

(** A user source of two blocks, the first of which gives a number above the group order. *)
Definition ex_out (a : list Z) (k : nat) : Z := nth k a 0 mod 256.
Example C97_nonvacuous : (forall a k, 0 <= ex_out a k < 256) /\
  secret_coeff (fun b => b) ex_out slice_reader slice_reader 2 (Some (repeat 255 32 ++ repeat 0 31 ++ [5])) true [] = Ok (5 :: repeat 0 31) /\
  secret_coeff (fun b => b) ex_out slice_reader slice_reader 9 (Some (repeat 255 32)) true [] = OutOfFuel /\
  secret_coeff (fun b => b) ex_out slice_reader slice_reader 9 (Some (repeat 255 32)) false (repeat 9 32 ++ repeat 0 31 ++ [6]) = Ok (6 :: repeat 0 31).
Proof.
  split; [intros a k; apply Z.mod_pos_bound; lia|]. split; [vm_compute; reflexivity|]. split; vm_compute; reflexivity.
Qed.
