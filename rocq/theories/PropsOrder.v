(** Property C113: the order of delivery between honest participants; Pedersen and Rabin key generation. *)
From Coq Require Import Permutation.
From mathcomp Require Import all_ssreflect all_algebra.
From mathcomp Require Import zify.
From Verif Require Import Base Lagrange PolyModel PolySpec PolyProofs PolyProps PropsPoly Suite SuiteProofs.
From Verif Require Import VssModel VssSpec VssProofs RvssModel RvssSpec RvssProofs Toy DkgModel DkgSpec DkgProofs RdkgModel RdkgSpec RdkgProofs.
From Verif Require Import PropsDkg PropsRdkg.

Set Implicit Arguments.
Unset Strict Implicit.
Unset Printing Implicit Defensive.

Import GRing.Theory.
Local Open Scope ring_scope.
Local Open Scope outcome_scope.

(** Pedersen: whatever the order, every participant gets the same result. *)
Theorem C113_pedersen (F : fieldType) (G : lmodType F) (S : suite G) deal_enc deal_dec ddeal_enc (ps : seq G) (T : nat) (x sec : nat -> F)
    (picks : nat -> nat -> F) (node : nat -> dkg G) (co co' : coins F) (acts acts' : seq act) :
  suite_ok S -> (forall d, deal_dec (deal_enc d) = Some d) -> fresh_group S ps T x sec picks node -> coins_ok S co -> coins_ok S co' ->
  schedule (size ps) [::] acts -> complete (size ps) acts -> schedule (size ps) [::] acts' -> complete (size ps) acts' ->
  exists N N', [/\ net_run S deal_enc deal_dec ddeal_enc co (net0 node) acts = Some N,
    net_run S deal_enc deal_dec ddeal_enc co' (net0 node) acts' = Some N' &
    exists2 pub, True & forall i vord hord, (i < size ps)%N -> (forall s, perm_eq (vord s) s) ->
      dist_key_share S vord hord (n_node N i) = dist_key_share S vord hord (n_node N' i) /\
      exists2 s, dist_key_share S vord hord (n_node N i) = Ok s & dk_public s = Ok pub].
Proof.
move=> okS de fg c1 c2 s1 k1 s2 k2.
have [N E H] := C57_honest_run ddeal_enc okS de fg c1 s1 k1; have [N' E' H'] := C57_honest_run ddeal_enc okS de fg c2 s2 k2.
exists N, N'; split=> //; set f := joint_poly _ _ _ _ in H *.
exists (nth 0 f 0 *: su_base S) => // i vord hord li pm.
have [_ _ e] := H i vord hord li pm; have [_ _ e'] := H' i vord hord li pm; rewrite e e'; split=> //.
eexists; first by []; rewrite /dk_public /=.
have t0 : (0 < size f)%N.
  by have [t2 _] := fresh_threshold fg (leq_ltn_trans (leq0n i) li); rewrite /f size_mkseq (leq_trans _ t2).
by rewrite -map_comp (nth_map 0) //.
Qed.
Print Assumptions C113_pedersen.

(** Rabin: a response that arrives before its deal has no effect. *)
Theorem C113_early_response (F : fieldType) (G : lmodType F) (S : suite G) rdeal_enc (g : rdkg G) (r : rdresponse) k :
  mget (rdr_index r) (rg_verifiers g) = None -> rgprocess_response S rdeal_enc g r k = (g, Err ComplaintWithoutDeal).
Proof. by rewrite /rgprocess_response => ->. Qed.
Print Assumptions C113_early_response.

(** Rabin, full statement: each message delivered once to everybody, in any order, gives everybody the same key.  Proved when
    a participant gets a response after the deal it is about and secret commitments after the responses ([rschedule]). *)
Theorem C113_rabin_partial (F : fieldType) (G : lmodType F) (S : suite G) rdeal_enc rdeal_dec (ps : seq G) (t : nat) (x sec : nat -> F)
    (fp gp : nat -> nat -> F) (node : nat -> rdkg G) (co co' : coins F) (acts acts' : seq ract) :
  suite_ok S -> (forall d, rdeal_dec (rdeal_enc d) = Some d) -> rfresh_group S ps t x sec fp gp node -> coins_ok S co -> coins_ok S co' ->
  rschedule (size ps) [::] acts -> rcomplete (size ps) acts -> rschedule (size ps) [::] acts' -> rcomplete (size ps) acts' ->
  exists N N', [/\ rnet_run S rdeal_enc rdeal_dec co (rnet0 node) acts = Some N,
    rnet_run S rdeal_enc rdeal_dec co' (rnet0 node) acts' = Some N' &
    exists2 pub, True & forall i vord, (i < size ps)%N -> (forall s, perm_eq (vord s) s) ->
      rdist_key_share vord (rn_node N i) = rdist_key_share vord (rn_node N' i) /\
      exists2 s, rdist_key_share vord (rn_node N i) = Ok s & rk_public s = Ok pub].
Proof.
move=> okS de fg c1 c2 s1 k1 s2 k2.
have [N E H] := C62_honest_run okS de fg c1 s1 k1; have [N' E' H'] := C62_honest_run okS de fg c2 s2 k2.
exists N, N'; split=> //; set f := joint_poly _ _ _ _ in H *.
exists (nth 0 f 0 *: su_base S) => // i vord li pm.
have [_ _ _ e] := H i vord li pm; have [_ _ _ e'] := H' i vord li pm; rewrite e e'; split=> //.
eexists; first by []; rewrite /rk_public /=.
have t0 : (0 < size f)%N.
  by have [t2 _] := rfresh_threshold fg (leq_ltn_trans (leq0n i) li); rewrite /f size_mkseq (leq_trans _ t2).
by rewrite -map_comp (nth_map 0) //.
Qed.
Print Assumptions C113_rabin_partial.

(** What participant 0 of three receives, each message once: in the order of the phases; with participant 2's response about
    dealer 1 ahead of dealer 1's deal; with dealer 1's secret commitments ahead of participant 2's response about dealer 1. *)
Definition o_in_order : seq (rgevent V) :=
  [:: RGDeals V (fun _ => (K2 : K, K1 : K)) (K1 : K); kmsg_deal 1 0; kmsg_deal 2 0; kmsg_resp 0 1; kmsg_resp 0 2; kmsg_resp 1 2;
      kmsg_resp 2 1; RGSecret V (K1 : K); RGSecretCommits (ksc 1) (K1 : K); RGSecretCommits (ksc 2) (K1 : K)].
Definition o_early_resp : seq (rgevent V) :=
  [:: RGDeals V (fun _ => (K2 : K, K1 : K)) (K1 : K); kmsg_resp 1 2; kmsg_deal 1 0; kmsg_deal 2 0; kmsg_resp 0 1; kmsg_resp 0 2;
      kmsg_resp 2 1; RGSecret V (K1 : K); RGSecretCommits (ksc 1) (K1 : K); RGSecretCommits (ksc 2) (K1 : K)].
Definition o_early_sc : seq (rgevent V) :=
  [:: RGDeals V (fun _ => (K2 : K, K1 : K)) (K1 : K); kmsg_deal 1 0; kmsg_deal 2 0; kmsg_resp 0 1; kmsg_resp 0 2;
      kmsg_resp 2 1; RGSecret V (K1 : K); RGSecretCommits (ksc 1) (K1 : K); kmsg_resp 1 2; RGSecretCommits (ksc 2) (K1 : K)].
(** What participant 1 receives meanwhile, in the order of the phases, from the participant 0 that saw [o_early_resp]. *)
Definition o_other : seq (rgevent V) :=
  [:: RGDeals V (fun _ => (K2 : K, K1 : K)) (K1 : K); kmsg_deal 0 1; kmsg_deal 2 1; kmsg_resp 1 0; kmsg_resp 1 2; kmsg_resp 0 2;
      kmsg_resp 2 0; RGSecret V (K1 : K); RGSecretCommits (ksc 0) (K1 : K); RGSecretCommits (ksc 2) (K1 : K)].
Notation krgrun := (rgrun ktoy krdeal_enc krdeal_dec).
Definition okey (i : nat) (evs : seq (rgevent V)) : option (seq V) :=
  if rdist_key_share id (krgrun (krgen i) evs) is Ok s then Some (rk_commits s) else None.
(** The response in a message, and participant 0's answer to a deal; the secret commitments it reveals. *)
Definition resp_view (ev : rgevent V) : option (nat * (bytestr * nat * bool * bytestr)) :=
  if ev is RGResponse r _ then Some (rdr_index r, (r_sid (rdr_resp r), r_index (rdr_resp r), r_status (rdr_resp r), r_sig (rdr_resp r))) else None.
Definition o_answer (g : rdkg V) (ev : rgevent V) : rgevent V :=
  if ev is RGDeal dd k then if (rgprocess_deal ktoy krdeal_dec g dd k).2 is Ok r then RGResponse V r k else RGTimeout V else RGTimeout V.
Definition sc_view (s : secret_commits V) := (sc_index s, sc_commits s, sc_sid s, sc_sig s).
Definition o_sent (g : rdkg V) := if (rsecret_commits ktoy g (K1 : K)).2 is Ok s then Some (sc_view s) else None.

Lemma o_key_in_order : okey 0 o_in_order = Some [:: K2 : V; K6 : V].
Proof. by vm_cast_no_check (erefl (Some [:: K2 : V; K6 : V])). Qed.
Lemma o_key_early : okey 0 o_early_resp = Some [:: K6 : V; K4 : V].
Proof. by vm_cast_no_check (erefl (Some [:: K6 : V; K4 : V])). Qed.
Lemma o_key_other : okey 1 o_other = Some [:: K2 : V; K6 : V].
Proof. by vm_cast_no_check (erefl (Some [:: K2 : V; K6 : V])). Qed.
Lemma o_fin1 : rfinished id (krgrun (krgen 0) o_early_resp). Proof. by vm_cast_no_check (erefl true). Qed.
Lemma o_fin2 : rfinished id (krgrun (krgen 1) o_other). Proof. by vm_cast_no_check (erefl true). Qed.
Lemma o_fin3 : ~~ rfinished id (krgrun (krgen 0) o_early_sc). Proof. by vm_cast_no_check (erefl true). Qed.
Lemma o_fin4 : rfinished id (krgrun (krgen 0) o_in_order). Proof. by vm_cast_no_check (erefl true). Qed.
Lemma o_perm1 : Permutation o_in_order o_early_resp.
Proof.
rewrite /o_in_order /o_early_resp; apply: perm_skip; apply: Permutation_sym.
exact: (Permutation_middle [:: kmsg_deal 1 0; kmsg_deal 2 0; kmsg_resp 0 1; kmsg_resp 0 2]).
Qed.
Lemma o_perm2 : Permutation o_in_order o_early_sc.
Proof.
rewrite /o_in_order /o_early_sc; do 5 apply: perm_skip.
exact: (Permutation_middle [:: kmsg_resp 2 1; RGSecret V (K1 : K); RGSecretCommits (ksc 1) (K1 : K)]).
Qed.
Lemma o_sends : [&& resp_view (o_answer (krgrun (krgen 0) (take 2 o_early_resp)) (kmsg_deal 1 0)) == resp_view (kmsg_resp 1 0),
    resp_view (o_answer (krgrun (krgen 0) (take 3 o_early_resp)) (kmsg_deal 2 0)) == resp_view (kmsg_resp 2 0),
    isSome (resp_view (kmsg_resp 1 0)), isSome (resp_view (kmsg_resp 2 0)) &
    o_sent (krgrun (krgen 0) (take 7 o_early_resp)) == Some (sc_view (ksc 0))].
Proof. by vm_cast_no_check (erefl true). Qed.

(** Rabin: the full statement is false.  All three are honest and each message is delivered once.  Participant 0 gets
    participant 2's response about dealer 1 ahead of dealer 1's deal: it drops that response, sends the same messages as
    otherwise, and finishes without dealer 1's contribution, while participant 1 finishes with it: their keys differ.  When
    instead dealer 1's secret commitments come ahead of that response, participant 0 drops them and does not finish. *)
Theorem C113_rabin_refuted :
  exists (node : nat -> rdkg V) (in_order early_resp early_sc other : seq (rgevent V)) (k k' : seq V),
  [/\ rfresh_group ktoy krkeys 2 krkey krsec krfp krgp node, Permutation in_order early_resp /\ Permutation in_order early_sc,
      [/\ okey 0 in_order = Some k, okey 1 other = Some k, okey 0 early_resp = Some k' & head 0 k != head 0 k'],
      rfinished id (krgrun (node 0%N) early_resp) /\ rfinished id (krgrun (node 1%N) other) &
      rfinished id (krgrun (node 0%N) in_order) /\ ~~ rfinished id (krgrun (node 0%N) early_sc)].
Proof.
exists krgen, o_in_order, o_early_resp, o_early_sc, o_other, [:: K2 : V; K6 : V], [:: K6 : V; K4 : V].
split.
- exact: krfresh.
- split; [exact: o_perm1|exact: o_perm2].
- split; [exact: o_key_in_order|exact: o_key_other|exact: o_key_early|by []].
- split; [exact: o_fin1|exact: o_fin2].
- split; [exact: o_fin4|exact: o_fin3].
Qed.
Print Assumptions C113_rabin_refuted.
Example C113_rabin_sends : [&& resp_view (o_answer (krgrun (krgen 0) (take 2 o_early_resp)) (kmsg_deal 1 0)) == resp_view (kmsg_resp 1 0),
    resp_view (o_answer (krgrun (krgen 0) (take 3 o_early_resp)) (kmsg_deal 2 0)) == resp_view (kmsg_resp 2 0),
    isSome (resp_view (kmsg_resp 1 0)), isSome (resp_view (kmsg_resp 2 0)) &
    o_sent (krgrun (krgen 0) (take 7 o_early_resp)) == Some (sc_view (ksc 0))].
Proof. exact: o_sends. Qed.

(** A second complete schedule of the Pedersen group, in which participant 2's responses come before dealers' deals. *)
Definition kacts_early : seq act :=
  [:: ADeals 0; ADeals 1; ADeals 2; ADeal 1 2; AResp 1 2 0; ADeal 1 0; ADeal 0 2; AResp 0 2 1; ADeal 0 1; AResp 0 2 0; ADeal 2 1; AResp 2 1 0; 
      ADeal 2 0; AResp 2 1 2; AResp 2 0 2; AResp 2 0 1; AResp 1 2 1; AResp 1 0 2; AResp 1 0 1; AResp 0 1 2; AResp 0 1 0].
Example C113_nonvacuous :
  [/\ fresh_group ktoy kkeys 2 kkey ksec kpicks (hnode0 ktoy kkeys 2 kkey ksec kpicks), coins_ok ktoy kcoins,
      schedule (size kkeys) [::] kacts /\ complete (size kkeys) kacts,
      schedule (size kkeys) [::] kacts_early /\ complete (size kkeys) kacts_early &
      rschedule (size krkeys) [::] kracts /\ rcomplete (size krkeys) kracts].
Proof.
split; [exact: kfresh|by []|by split; [|exact: kacts_complete]| |by split; [|exact: kracts_complete]].
split=> //; split.
- by case=> [|[|[|]]].
- by case=> [|[|[|i]]] [|[|[|j]]].
- by case=> [|[|[|i]]] [|[|[|j]]] [|[|[|k]]].
Qed.
Example C113_early_response_nonvacuous : mget 1 (rg_verifiers (krgrun (krgen 0) (take 1 o_early_resp))) = None.
Proof. by vm_cast_no_check (erefl (@None (rverifier V))). Qed.
