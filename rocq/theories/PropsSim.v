(** Property C106: what is published beside a public key or a signature can be computed from it and the shares of t-1
    holders, so it tells an intruder below the threshold nothing new.  src/share/poly.rs, src/share/vss/pedersen/vss.rs,
    src/sign/dss/dss.rs. *)
From mathcomp Require Import all_ssreflect all_algebra.
From mathcomp Require Import zify.
From Verif Require Import Base Lagrange PolyModel PolySpec PolyProofs PolyProps PropsPoly Suite SuiteProofs.
From Verif Require Import VssModel VssSpec VssProofs Toy DssModel DssSpec DssProofs PropsDss PropsLife.

Set Implicit Arguments.
Unset Strict Implicit.
Unset Printing Implicit Defensive.

Import GRing.Theory.
Local Open Scope ring_scope.
Local Open Scope outcome_scope.

Section Sim.
Variables (F : fieldType) (G : lmodType F).

(** The point 0 and the evaluation points of the holders A. *)
Definition points (A : seq nat) : seq F := 0 :: [seq i.+1%:R | i <- A].
(** The value at the point of i of the interpolation of v0 at 0 and v k at the points of A. *)
Definition sim_value (A : seq nat) (v0 : F) (v : nat -> F) (i : nat) : F :=
  (lagr (points A) 0).[i.+1%:R] * v0 + \sum_(k <- A) (lagr (points A) k.+1%:R).[i.+1%:R] * v k.
(** The commitments to its coefficients, from the commitment P to the value at 0. *)
Definition sim_commits (B : G) (A : seq nat) (P : G) (v : nat -> F) : seq G :=
  mkseq (fun j => (lagr (points A) 0)`_j *: P + \sum_(k <- A) ((lagr (points A) k.+1%:R)`_j * v k) *: B) (size A).+1.

Variable p : nat.
Hypothesis charF : p \in [char F].

Lemma points_uniq A : uniq A -> (forall i, i \in A -> (i.+1 < p)%N) -> uniq (points A).
Proof.
move=> uA bA /=; rewrite map_inj_in_uniq ?uA ?andbT => [|i j iA jA]; last by apply: (xcoord_inj charF); exact: bA.
by apply/mapP => -[i /bA /(xcoord_neq0 charF) /eqP h e]; case: h.
Qed.

Lemma interp (f : seq F) A : uniq A -> (forall i, i \in A -> (i.+1 < p)%N) -> size f = (size A).+1 ->
  Poly f = f`_0 *: lagr (points A) 0 + \sum_(k <- A) share_value f k *: lagr (points A) k.+1%:R.
Proof.
move=> uA bA sf; rewrite {1}(lagrange_interp (points_uniq uA bA) (f := Poly f)); last first.
  by apply: leq_trans (size_Poly _) _; rewrite sf /= size_map.
rewrite big_cons big_map horner_Poly; congr (_ + _); last first.
  by apply: eq_bigr => k _; rewrite share_value_eval pri_eval_v.
by case: (f) => [|a f'] //=; rewrite ?mulr0 ?add0r.
Qed.

(** Every share of a polynomial with t coefficients, from its secret and t-1 shares. *)
Theorem C106_shares (f : seq F) A i : uniq A -> (forall i, i \in A -> (i.+1 < p)%N) -> size f = (size A).+1 ->
  share_value f i = sim_value A f`_0 (share_value f) i.
Proof.
move=> uA bA sf; rewrite {1}share_value_eval pri_eval_v (interp uA bA sf) hornerD hornerZ horner_sum mulrC; congr (_ + _).
by apply: eq_bigr => k _; rewrite hornerZ mulrC.
Qed.

Lemma commits_sim (B : G) (f : seq F) A : uniq A -> (forall i, i \in A -> (i.+1 < p)%N) -> size f = (size A).+1 ->
  [seq c *: B | c <- f] = sim_commits B A (f`_0 *: B) (share_value f).
Proof.
move=> uA bA sf; apply: (@eq_from_nth _ 0) => [|j]; rewrite size_map ?size_mkseq // => lj.
rewrite (nth_map 0) // nth_mkseq -?sf // -[f`_j]coef_Poly (interp uA bA sf) coefD coefZ scalerDl scalerA mulrC; congr (_ + _).
by rewrite coef_sum scaler_suml; apply: eq_bigr => k _; rewrite coefZ mulrC.
Qed.

(** The commitments a dealer hands to everybody, from its public key and the shares dealt to t-1 participants. *)
Theorem C106_deals (S : suite G) (long secret : F) (vs : seq G) (t : nat) (picks : nat -> F) dl (A : seq nat) (v : nat -> F) :
  new_dealer S long secret vs t picks = Ok dl -> (size vs < p)%N ->
  uniq A -> (size A).+1 = t -> (forall k, k \in A -> exists2 d, plaintext_deal dl k = Ok d & ps_v (d_share d) = v k) ->
  forall i d, plaintext_deal dl i = Ok d -> d_commits d = sim_commits (su_base S) A (secret *: su_base S) v.
Proof.
move=> /new_dealerP [t2 tn dlE] np uA sA hA i d; set f := secret :: mkseq picks (t - 1) in dlE.
have pd k : plaintext_deal dl k = if (size vs <= k)%N then Err DealerWrongIndex else Ok (the_deal S long secret vs t picks k).
  rewrite /plaintext_deal dlE /= size_map size_iota; case: leqP => // lk.
  rewrite -map_comp (nth_map 0%N) ?size_iota // nth_iota // add0n /the_deal -/f.
  by rewrite share_value_eval.
have sf : size f = (size A).+1 by rewrite /f /= size_mkseq; lia.
rewrite pd; case: leqP => // li [<-]; transitivity (sim_commits (su_base S) A (f`_0 *: su_base S) (share_value f)).
  by apply: commits_sim => // k /hA [d']; rewrite pd; case: (leqP (size vs) k) => lk // _ _; exact: leq_ltn_trans lk np.
by apply: eq_map => j; congr (_ + _); apply: eq_big_seq => k /hA [d' ]; rewrite pd; case: leqP => // lk [<-] /= <-.
Qed.

(** The commitments of a shared key, from its public key and t-1 shares. *)
Theorem C106_key (S : suite G) (Q : seq nat) (ps : seq G) (t : nat) (x : nat -> F) (a : F) (got : nat -> dks G) (A : seq nat) :
  keyed_on S Q ps t x a got -> (size ps < p)%N -> uniq A -> {subset A <= Q} -> (size A).+1 = t ->
  forall i, i \in Q -> dks_commits (got i) = sim_commits (su_base S) A (a *: su_base S) (fun k => ps_v (dks_share (got k))).
Proof.
move=> [f [sf t0 f0 hf]] np uA sQ sA i iQ; have [_ [-> _] _ _] := hf i iQ.
rewrite (@commits_sim (su_base S) f A uA) ?f0; first last.
- by rewrite sf sA.
- by move=> k /sQ /hf [lk _ _ _]; lia.
by apply: eq_map => j; congr (_ + _); apply: eq_big_seq => k /sQ /hf [_ [_ ->] _ _].
Qed.

(** The value of every partial signature, from the signature and those of t-1 signers. *)
Theorem C106_partials (S : suite G) chal (f r : seq F) (x : nat -> F) (parts : seq G) (long random : nat -> dks G) (msg : bytestr) (t : nat)
    (d : nat -> dss G) (k : nat -> F) (ps : nat -> partial_sig F) (Q A : seq nat) :
  suite_ok S -> (size parts < p)%N -> uniq A -> {subset A <= Q} -> (size A).+1 = t ->
  (forall j, j \in Q -> [/\ fresh_signer S f r (x j) parts (long j) (random j) msg t (d j), ds_index (d j) = j &
     (dss_partial_sig S chal (d j) (k j)).2 = Ok (ps j)]) ->
  let s := challenge S chal (r`_0 *: su_base S) (f`_0 *: su_base S) msg * f`_0 + r`_0 in
  forall i, i \in Q -> ps_v (pt_partial (ps i)) = sim_value A s (fun j => ps_v (pt_partial (ps j))) i.
Proof.
move=> sok np uA sQ sA hQ s i iQ; pose h := challenge S chal (r`_0 *: su_base S) (f`_0 *: su_base S) msg.
pose c := mkseq (fun j => h * f`_j + r`_j) t.
have [[_ _ sf sr _] _ _] := hQ i iQ.
have val j : j \in Q -> ps_v (pt_partial (ps j)) = share_value c j.
  move=> jQ; have [fj ej pj] := hQ j jQ; have [nf nr I ed] := fresh_inv chal fj; case: fj => _ _ _ _ [dl dr].
  move: pj; rewrite (partial_value chal nf nr (k j) (di_long I) (di_random I)) /=.
  case=> <- /=; rewrite /secret_share ej ed /= -/h /share_value /peval size_mkseq sf sr mulr_sumr -big_split /=.
  by apply: eq_bigr => q _; rewrite nth_mkseq // mulrDl mulrA.
have t0 : (0 < t)%N by rewrite -sA.
rewrite val // (@C106_shares c A) ?size_mkseq //; last first.
  by move=> k' /sQ kQ; have [fk <- _] := hQ k' kQ; have [_ _ [_ _ lt _ _] ed] := fresh_inv chal fk; move: lt; rewrite ed /=; lia.
rewrite nth_mkseq // /sim_value -/s; congr (_ + _).
by apply: eq_big_seq => q /sQ /val ->.
Qed.
End Sim.
Print Assumptions C106_shares.
Print Assumptions C106_deals.
Print Assumptions C106_key.
Print Assumptions C106_partials.

(** A session of three signers with threshold 2, the intruder holding the share of signer 2. *)
Example C106_partials_nonvacuous :
  let s := challenge ktoy kchal (kdr`_0 *: su_base ktoy) (kdf`_0 *: su_base ktoy) kmsg' * kdf`_0 + kdr`_0 in
  [/\ (forall j, j \in [:: 0; 2; 1]%N -> [/\ fresh_signer ktoy kdf kdr (k7_of j.+1 : K) kdparts (kdks kdf j) (kdks kdr j) kmsg' 2 (kdnew 2 j kmsg'),
         ds_index (kdnew 2 j kmsg') = j & (dss_partial_sig ktoy kchal (kdnew 2 j kmsg') (K1 : K)).2 = Ok (kdpart 2 j kmsg')]),
      s = K0, [seq ps_v (pt_partial (kdpart 2 j kmsg')) | j <- [:: 0; 1; 2]%N] = [:: K2 : K; K4 : K; K6 : K] &
      forall i, i \in [:: 0; 2; 1]%N -> ps_v (pt_partial (kdpart 2 i kmsg')) = sim_value [:: 2]%N s (fun j => ps_v (pt_partial (kdpart 2 j kmsg'))) i].
Proof.
have sub : {subset [:: 2]%N <= [:: 0; 2; 1]%N} by move=> i; rewrite !inE => /eqP->.
have H : forall j, j \in [:: 0; 2; 1]%N -> [/\ fresh_signer ktoy kdf kdr (k7_of j.+1 : K) kdparts (kdks kdf j) (kdks kdr j) kmsg' 2 (kdnew 2 j kmsg'),
         ds_index (kdnew 2 j kmsg') = j & (dss_partial_sig ktoy kchal (kdnew 2 j kmsg') (K1 : K)).2 = Ok (kdpart 2 j kmsg')].
  by move=> j; rewrite !inE => /or3P[]/eqP->; split=> //; exact: kdfresh.
move=> s; split; first exact: H.
- by vm_cast_no_check (erefl (K0 : K)).
- by vm_cast_no_check (erefl [:: K2 : K; K4 : K; K6 : K]).
by apply: (C106_partials (p := 7%N) (k := fun _ => K1 : K) charK ktoy_ok (parts := kdparts) (x := fun j => k7_of j.+1 : K) _ _ sub _ H).
Qed.

(** A dealer of the secret 3 with the polynomial 3 + 2X, the intruder being participant 2 with share 2. *)
Example C106_deals_nonvacuous :
  exists2 dl, new_dealer ktoy (K1 : K) (K3 : K) kdparts 2 (fun _ => K2 : K) = Ok dl &
    (exists2 d, plaintext_deal dl 2 = Ok d & ps_v (d_share d) = K2 :> K) /\
    exists2 d, plaintext_deal dl 0 = Ok d & d_commits d = [:: K3 : V; K2 : V] /\ d_commits d = sim_commits (K1 : V) [:: 2]%N (K3 : V) (fun _ => K2 : K).
Proof.
case E: (new_dealer ktoy (K1 : K) (K3 : K) kdparts 2 (fun _ => K2 : K)) => [dl|||] //; exists dl => //.
have [_ _ dlE] := new_dealerP E.
have h2 : exists2 d, plaintext_deal dl 2 = Ok d & ps_v (d_share d) = K2 :> K by rewrite dlE; eexists; [|vm_compute].
split=> //; rewrite {1}dlE; eexists; first by [].
split; first by vm_compute.
apply: (@C106_deals K V 7 charK ktoy (K1 : K) (K3 : K) kdparts 2 (fun _ => K2 : K) dl [:: 2]%N (fun _ => K2 : K) E _ _ _ _ 0%N) => //.
  by move=> k; rewrite inE => /eqP->.
by rewrite dlE.
Qed.
