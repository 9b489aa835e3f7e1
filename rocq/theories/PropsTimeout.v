(** C48 continued: what a timeout changes for a dealer and a verifier of the Pedersen scheme. *)
From mathcomp Require Import all_ssreflect all_algebra.
From mathcomp Require Import zify.
From Coq Require Import String.
From Verif Require Import Base PolyModel PolySpec PolyProofs PolyProps PropsPoly Suite SuiteProofs VssModel VssSpec VssProofs PropsVss.

Set Implicit Arguments.
Unset Strict Implicit.
Unset Printing Implicit Defensive.

Import GRing.Theory.
Local Open Scope ring_scope.

(** After [set_timeout] a verifier that has not answered may be missing, as long as t approvals are there, nobody complains and no
    deal was found bad: then the dealer publishes the commitment of the secret, and a verifier releases its deal.  Nothing else
    of the dealer or the verifier changes. *)
Theorem C48_timeout (F : fieldType) (G : lmodType F) (S : suite G) (dl : dealer G) (v : verifier G) :
  let enough a := [/\ a_bad a = false, (a_t a <= answers a (Some true))%N, answers a (Some false) = 0%N &
                      (answers a None <= size (a_verifiers a) - a_t a)%N] in
  (forall P, secret_commit S (dealer_set_timeout dl) = Some P <-> enough (dl_agg dl) /\ P = dl_secret dl *: su_base S) /\
  (forall d, verifier_deal (verifier_set_timeout v) = Some d <-> enough (v_agg v) /\ a_deal (v_agg v) = Some d) /\
  dl_deals (dealer_set_timeout dl) = dl_deals dl /\ dl_sid (dealer_set_timeout dl) = dl_sid dl /\
  missing_responses (dl_agg (dealer_set_timeout dl)) = missing_responses (dl_agg dl).
Proof.
move=> enough.
have E a : deal_certified (a_set_timeout a) <-> enough a by rewrite C48_certified_iff /enough.
split; last split; last by [].
- move=> P; rewrite /secret_commit /dealer_set_timeout /= -E; case: deal_certified => /=; split.
  + by case=> <-; split.
  + by case=> _ ->.
  + by [].
  + by case.
- move=> d; rewrite /verifier_deal /verifier_set_timeout /= -E; case: deal_certified => /=; split.
  + by move=> ->.
  + by case.
  + by [].
  + by case.
Qed.
Print Assumptions C48_timeout.

(** A dealer with two approvals out of three verifiers: no commitment before the timeout, one after it. *)
Definition dealer2 : dealer G7 :=
  @Dealer F7 G7 4%:R 4%:R 5%:R [::] [::] keys7 [::] 2 [::] [::]
    (@Aggregator F7 G7 0 keys7 [::] [:: (0%N, Response [::] 0 true [::]); (2%N, Response [::] 2 true [::])] [::] None 2 false false).
Example C48_timeout_example : secret_commit toy dealer2 = None /\ secret_commit toy (dealer_set_timeout dealer2) = Some (5%:R *: su_base toy).
Proof. by []. Qed.
