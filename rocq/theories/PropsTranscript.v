(** Property C64: what the signatures of the VSS and DKG messages bind. *)
From mathcomp Require Import all_ssreflect all_algebra.
From mathcomp Require Import zify.
From Coq Require Import String.
From Verif Require Import Base PolyModel Suite SuiteProofs VssModel RvssModel DkgSpec RdkgModel Toy PropsRdkg.

Set Implicit Arguments.
Unset Strict Implicit.
Unset Printing Implicit Defensive.

Import GRing.Theory.
Local Open Scope ring_scope.

(** ** The transcripts: what is written into the hash, message by message *)
Section Transcripts.
Variables (F : fieldType) (G : lmodType F) (S : suite G).
Definition tr_response (sid : bytestr) (index : nat) (status : bool) : bytestr :=
  str_bytes "response" ++ sid ++ u32le index ++ u32le status.
Definition tr_justification (sid : bytestr) (index : nat) (deal : bytestr) : bytestr :=
  str_bytes "justification" ++ sid ++ u32le index ++ deal.
Definition tr_secret_commits (index : nat) (cs : seq G) : bytestr :=
  str_bytes "secretcommits" ++ u32le index ++ flatten (map (su_enc S) cs).
Definition tr_complaint (index dealer : nat) (deal : bytestr) : bytestr :=
  str_bytes "commitcomplaint" ++ u32le index ++ u32le dealer ++ deal.
Definition tr_share (s : pri_share F) : bytestr := su_senc S (ps_v s) ++ u32le (ps_i s).
Definition tr_reconstruct (index dealer : nat) (s : pri_share F) : bytestr :=
  str_bytes "reconstructcommits" ++ u32le index ++ u32le dealer ++ su_hash S (tr_share s).

(** Two different byte strings with the same hash. *)
Definition collides (m m' : bytestr) : Prop := m <> m' /\ su_hash S m = su_hash S m'.

Lemma hash_cases m m' : su_hash S m = su_hash S m' -> m = m' \/ collides m m'.
Proof. by move=> h; case: (eqVneq m m') => [|/eqP]; [left|right]. Qed.
End Transcripts.

(** ** Responses (both schemes): everything is bound, whatever the length of the session id *)
Theorem C64_response (F : fieldType) (G : lmodType F) (S : suite G) (r r' : response) :
  (r_index r < 256 ^ 4)%N -> (r_index r' < 256 ^ 4)%N -> response_hash S r = response_hash S r' ->
  [/\ r_sid r = r_sid r', r_index r = r_index r' & r_status r = r_status r'] \/
  collides S (tr_response (r_sid r) (r_index r) (r_status r)) (tr_response (r_sid r') (r_index r') (r_status r')).
Proof.
move=> lt lt' /hash_cases [|]; [|by right]; case/(cat_inj (erefl _)) => _ e; left.
have [->] : r_sid r = r_sid r' /\ u32le (r_index r) ++ u32le (r_status r) = u32le (r_index r') ++ u32le (r_status r').
  exact: cat_inj_r e.
have sz m n : size (u32le m) = size (u32le n) by [].
case/(cat_inj (sz _ _)) => /(u32le_inj lt lt') -> /u32le_inj es; split=> //.
by have : nat_of_bool (r_status r) = r_status r' by [apply: es; case: r_status]; case: (r_status r) (r_status r') => [] [].
Qed.
Print Assumptions C64_response.

(** ** Justifications (both schemes) *)
(** Full statement: everything is bound.  Holds for session ids of the same length. *)
Theorem C64_justification_partial (F : fieldType) (G : lmodType F) (S : suite G) deal_enc deal_dec (j j' : justification G) :
  (forall d, deal_dec (deal_enc d) = Some d) -> size (j_sid j) = size (j_sid j') ->
  (j_index j < 256 ^ 4)%N -> (j_index j' < 256 ^ 4)%N ->
  justification_hash S deal_enc j = justification_hash S deal_enc j' ->
  [/\ j_sid j = j_sid j', j_index j = j_index j' & j_deal j = j_deal j'] \/
  collides S (tr_justification (j_sid j) (j_index j) (deal_enc (j_deal j))) (tr_justification (j_sid j') (j_index j') (deal_enc (j_deal j'))).
Proof.
move=> de ss lt lt' /hash_cases [|]; [|by right]; case/(cat_inj (erefl _)) => _ /(cat_inj ss) [-> e]; left.
have sz m n : size (u32le m) = size (u32le n) by [].
case/(cat_inj (sz _ _)): e => /(u32le_inj lt lt') -> e; split=> //.
by apply: Some_inj; rewrite -!de e.
Qed.
Print Assumptions C64_justification_partial.

Theorem C64_rabin_justification_partial (F : fieldType) (G : lmodType F) (S : suite G) rdeal_enc rdeal_dec (j j' : rjustification G) :
  (forall d, rdeal_dec (rdeal_enc d) = Some d) -> size (rj_sid j) = size (rj_sid j') ->
  (rj_index j < 256 ^ 4)%N -> (rj_index j' < 256 ^ 4)%N ->
  rjustification_hash S rdeal_enc j = rjustification_hash S rdeal_enc j' ->
  [/\ rj_sid j = rj_sid j', rj_index j = rj_index j' & rj_deal j = rj_deal j'] \/
  collides S (tr_justification (rj_sid j) (rj_index j) (rdeal_enc (rj_deal j))) (tr_justification (rj_sid j') (rj_index j') (rdeal_enc (rj_deal j'))).
Proof.
move=> de ss lt lt' /hash_cases [|]; [|by right]; case/(cat_inj (erefl _)) => _ /(cat_inj ss) [-> e]; left.
have sz m n : size (u32le m) = size (u32le n) by [].
case/(cat_inj (sz _ _)): e => /(u32le_inj lt lt') -> e; split=> //.
by apply: Some_inj; rewrite -!de e.
Qed.
Print Assumptions C64_rabin_justification_partial.

(** For session ids of different lengths the boundary can move: nothing but the reader's expectation separates session id,
    index and deal.  (In the toy suite, whose deals start with the length of their session id.) *)
Definition kj1 : justification V := @Justification K V [::] 0 (@Deal K V [::] (@PriShare K 0 (K1 : K)) 2 [:: K3 : V; K4 : V]) [::].
Definition kj2 : justification V := @Justification K V [:: 0%N] 0 (@Deal K V [::] (@PriShare K 1 (K2 : K)) 3 [:: K4 : V]) [::].
Theorem C64_justification_refuted :
  [/\ (forall d, kdeal_dec (kdeal_enc d) = Some d), justification_hash ktoy kdeal_enc kj1 = justification_hash ktoy kdeal_enc kj2,
      j_sid kj1 <> j_sid kj2 & j_deal kj1 <> j_deal kj2].
Proof. by split=> //; exact: kdeal_dec_enc. Qed.
Print Assumptions C64_justification_refuted.

(** ** Rabin key generation *)
(** Full statement: including the session id.  Index and commitments are bound ... *)
Theorem C64_secret_commits_partial (F : fieldType) (G : lmodType F) (S : suite G) (sc sc' : secret_commits G) :
  suite_ok S -> (sc_index sc < 256 ^ 4)%N -> (sc_index sc' < 256 ^ 4)%N -> sc_hash S sc = sc_hash S sc' ->
  (sc_index sc = sc_index sc' /\ sc_commits sc = sc_commits sc') \/
  collides S (tr_secret_commits S (sc_index sc) (sc_commits sc)) (tr_secret_commits S (sc_index sc') (sc_commits sc')).
Proof.
move=> okS lt lt' /hash_cases [|]; [|by right]; case/(cat_inj (erefl _)) => _ e; left.
have sz m n : size (u32le m) = size (u32le n) by [].
by case/(cat_inj (sz _ _)): e => /(u32le_inj lt lt') -> /(flat_inj okS) ->.
Qed.
Print Assumptions C64_secret_commits_partial.

(** ... the session id is not: a signature on the commitments of one session is a signature on the same commitments in
    every other session. *)
Theorem C64_secret_commits_replayable (F : fieldType) (G : lmodType F) (S : suite G) (sc : secret_commits G) (sid : bytestr) (P : G) :
  su_verify S P (sc_hash S sc) (sc_sig sc) =
  su_verify S P (sc_hash S (SecretCommits (sc_index sc) (sc_commits sc) sid (sc_sig sc))) (sc_sig sc).
Proof. by []. Qed.
Print Assumptions C64_secret_commits_replayable.
Theorem C64_secret_commits_refuted :
  exists sc sc' : secret_commits V,
    [/\ sc_hash ktoy sc = sc_hash ktoy sc', sc_sid sc <> sc_sid sc', sc_index sc = sc_index sc', sc_commits sc = sc_commits sc' & sc_sig sc = sc_sig sc'].
Proof. by exists (@SecretCommits K V 1 [:: K2 : V] [:: 7%N] [::]), (@SecretCommits K V 1 [:: K2 : V] [:: 8%N] [::]). Qed.
Print Assumptions C64_secret_commits_refuted.

(** Complaints: everything is bound (the session id is in the deal). *)
Theorem C64_complaint (F : fieldType) (G : lmodType F) (S : suite G) rdeal_enc rdeal_dec (cc cc' : complaint_commits G) :
  (forall d, rdeal_dec (rdeal_enc d) = Some d) ->
  (cc_index cc < 256 ^ 4)%N -> (cc_index cc' < 256 ^ 4)%N -> (cc_dealer cc < 256 ^ 4)%N -> (cc_dealer cc' < 256 ^ 4)%N ->
  cc_hash S rdeal_enc cc = cc_hash S rdeal_enc cc' ->
  [/\ cc_index cc = cc_index cc', cc_dealer cc = cc_dealer cc' & cc_deal cc = cc_deal cc'] \/
  collides S (tr_complaint (cc_index cc) (cc_dealer cc) (rdeal_enc (cc_deal cc))) (tr_complaint (cc_index cc') (cc_dealer cc') (rdeal_enc (cc_deal cc'))).
Proof.
move=> de l1 l1' l2 l2' /hash_cases [|]; [|by right]; case/(cat_inj (erefl _)) => _ e; left.
have sz m n : size (u32le m) = size (u32le n) by [].
case/(cat_inj (sz _ _)): e => /(u32le_inj l1 l1') -> /(cat_inj (sz _ _)) [/(u32le_inj l2 l2') -> e]; split=> //.
by apply: Some_inj; rewrite -!de e.
Qed.
Print Assumptions C64_complaint.

(** Reconstruct messages.  Full statement: including the session id.  Everything else is bound ... *)
Theorem C64_reconstruct_partial (F : fieldType) (G : lmodType F) (S : suite G) (rc rc' : reconstruct_commits F) :
  injective (su_senc S) ->
  (rc_index rc < 256 ^ 4)%N -> (rc_index rc' < 256 ^ 4)%N -> (rc_dealer rc < 256 ^ 4)%N -> (rc_dealer rc' < 256 ^ 4)%N ->
  (ps_i (rc_share rc) < 256 ^ 4)%N -> (ps_i (rc_share rc') < 256 ^ 4)%N ->
  rc_hash S rc = rc_hash S rc' ->
  [/\ rc_index rc = rc_index rc', rc_dealer rc = rc_dealer rc' & rc_share rc = rc_share rc'] \/
  collides S (tr_reconstruct S (rc_index rc) (rc_dealer rc) (rc_share rc)) (tr_reconstruct S (rc_index rc') (rc_dealer rc') (rc_share rc')) \/
  collides S (tr_share S (rc_share rc)) (tr_share S (rc_share rc')).
Proof.
move=> si l1 l1' l2 l2' l3 l3' /hash_cases [|]; [|by right; left]; case/(cat_inj (erefl _)) => _ e.
have sz m n : size (u32le m) = size (u32le n) by [].
case/(cat_inj (sz _ _)): e => /(u32le_inj l1 l1') -> /(cat_inj (sz _ _)) [/(u32le_inj l2 l2') ->].
move=> /hash_cases [|]; [|by right; right]; rewrite /tr_share => /(cat_inj_r (sz _ _)) [/si ev /(u32le_inj l3 l3') ei].
by left; split=> //; case: (rc_share rc) (rc_share rc') ei ev => a b [c d] /= -> ->.
Qed.
Print Assumptions C64_reconstruct_partial.

(** ... the session id is not. *)
Theorem C64_reconstruct_replayable (F : fieldType) (G : lmodType F) (S : suite G) (rc : reconstruct_commits F) (sid : bytestr) (P : G) :
  su_verify S P (rc_hash S rc) (rc_sig rc) =
  su_verify S P (rc_hash S (ReconstructCommits sid (rc_index rc) (rc_dealer rc) (rc_share rc) (rc_sig rc))) (rc_sig rc).
Proof. by []. Qed.
Print Assumptions C64_reconstruct_replayable.
Theorem C64_reconstruct_refuted :
  exists rc rc' : reconstruct_commits K,
    [/\ rc_hash ktoy rc = rc_hash ktoy rc', rc_sid rc <> rc_sid rc', rc_index rc = rc_index rc', rc_dealer rc = rc_dealer rc' & rc_share rc = rc_share rc'].
Proof.
by exists (@ReconstructCommits K [:: 7%N] 1 2 (@PriShare K 1 (K3 : K)) [::]), (@ReconstructCommits K [:: 8%N] 1 2 (@PriShare K 1 (K3 : K)) [::]).
Qed.
Print Assumptions C64_reconstruct_refuted.

(** ** Messages of different kinds never have the same transcript *)
Theorem C64_kinds (F : fieldType) (G : lmodType F) (S : suite G) deal_enc rdeal_enc
    (r : response) (j : justification G) (rj : rjustification G) (sc : secret_commits G) (cc : complaint_commits G) (rc : reconstruct_commits F) :
  let t1 := tr_response (r_sid r) (r_index r) (r_status r) in
  let t2 := tr_justification (j_sid j) (j_index j) (deal_enc (j_deal j)) in
  let t3 := tr_justification (rj_sid rj) (rj_index rj) (rdeal_enc (rj_deal rj)) in
  let t4 := tr_secret_commits S (sc_index sc) (sc_commits sc) in
  let t5 := tr_complaint (cc_index cc) (cc_dealer cc) (rdeal_enc (cc_deal cc)) in
  let t6 := tr_reconstruct S (rc_index rc) (rc_dealer rc) (rc_share rc) in
  [/\ [/\ response_hash S r = su_hash S t1, justification_hash S deal_enc j = su_hash S t2 & rjustification_hash S rdeal_enc rj = su_hash S t3],
      [/\ sc_hash S sc = su_hash S t4, cc_hash S rdeal_enc cc = su_hash S t5 & rc_hash S rc = su_hash S t6] &
      uniq [:: t1; t2; t4; t5; t6] /\ uniq [:: t1; t3; t4; t5; t6]].
Proof. by []. Qed.
Print Assumptions C64_kinds.

(** ** The context under which deals are encrypted binds the dealer and the whole list of verifiers *)
Definition tr_context (F : fieldType) (G : lmodType F) (S : suite G) (dealer : G) (verifiers : seq G) : bytestr :=
  str_bytes "vss-dealer" ++ su_enc S dealer ++ str_bytes "vss-verifiers" ++ flatten (map (su_enc S) verifiers).
Theorem C64_context (F : fieldType) (G : lmodType F) (S : suite G) (P P' : G) (vs vs' : seq G) :
  suite_ok S -> context S P vs = context S P' vs' -> (P = P' /\ vs = vs') \/ collides S (tr_context S P vs) (tr_context S P' vs').
Proof.
move=> okS /hash_cases [|]; [|by right]; case/(cat_inj (erefl _)) => _ e; left.
have [n [_ sz]] := su_enc_size okS; have : size (su_enc S P) = size (su_enc S P') by rewrite !sz.
by case/cat_inj/(_ e) => /(su_enc_inj okS) -> /(cat_inj (erefl _)) [_ /(flat_inj okS) ->].
Qed.
Print Assumptions C64_context.
Example C64_context_nonvacuous : context ktoy (K1 : V) [:: K2 : V; K3 : V] <> context ktoy (K1 : V) [:: K2 : V].
Proof. by apply/eqP; vm_compute. Qed.

Example C64_nonvacuous :
  [/\ (5 < 256 ^ 4)%N, response_hash ktoy (Response [:: 1; 2]%N 5 true [::]) <> response_hash ktoy (Response [:: 1; 3]%N 5 true [::]),
      injective (su_senc ktoy) &
      cc_hash ktoy krdeal_enc (@ComplaintCommits K V 1 2 (kdeal_of 0 1) [::]) <> cc_hash ktoy krdeal_enc (@ComplaintCommits K V 1 2 (kdeal_of 1 1) [::])].
Proof. by split=> //; case=> [] []. Qed.
