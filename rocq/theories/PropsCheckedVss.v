(** C123 continued: certification of Pedersen deals with overflow checks on. *)
From mathcomp Require Import all_ssreflect all_algebra.
From mathcomp Require Import zify.
From Coq Require Import String.
From Verif Require Import Base PolyModel PolySpec PolyProofs PolyProps PropsPoly Suite SuiteProofs VssModel VssSpec VssProofs PropsVss.

Set Implicit Arguments.
Unset Strict Implicit.
Unset Printing Implicit Defensive.

Import GRing.Theory.
Local Open Scope ring_scope.

(** pedersen/vss.rs 1007-1029 [Aggregator::deal_certified] when overflow is checked: line 1023 computes
    [self.verifiers.len() - self.t], whatever the responses are. *)
Definition deal_certified_ck (F : fieldType) (G : lmodType F) (a : aggregator G) : outcome vss_error bool :=
  if (size (a_verifiers a) < a_t a)%N then Panic else Ok (deal_certified a).

(** The threshold of an aggregator is that of its deal. *)
Lemma run_threshold (F : fieldType) (G : lmodType F) (S : suite G) deal_dec (v : verifier G) evs :
  let thr v := a_t (v_agg v) = if a_deal (v_agg v) is Some d then d_t d else 0%N in
  thr v -> thr (vrun S deal_dec v evs).
Proof.
move=> thr; elim: evs v => //= ev evs IH v H; apply: IH.
case E: (a_deal (v_agg v)) => [d|].
  have [|e1 _ e3 _] := @vstep_deal _ _ S deal_dec v ev; first by rewrite E.
  by rewrite /thr e1 e3.
have {}H : a_t (v_agg v) = 0%N by move: H; rewrite /thr E.
rewrite /thr; case: ev => [e k|r|j|] /=.
- case P: process_encrypted_deal => [v' o].
  case: (process_encrypted_dealP P) => [[-> _]|[d _ [_ [[-> _]|[st [-> _ _ _ _]]]]]] /=; rewrite ?E ?H // /stored E //.
- rewrite /verifier_process_response; case P: verify_response => [a' o] /=.
  by case: (verify_responseP P) => [[_ [_ _ _ _ ->]]|[_ ->]] /=; rewrite E.
- rewrite /verifier_process_justification; case P: verify_justification => [a' o] /=.
  case: (vjustP P) => [[-> _]|[r [_ _ _ _ ->]]] /=; first by rewrite E.
  by case: ifP => _ /=; rewrite /stored E.
- by rewrite E.
Qed.

(** Full statement: [deal_certified] answers the same with and without overflow checks.  What holds: after any messages, a verifier
    panics exactly when the deal it has stored, accepted or not, declares a threshold above the number of verifiers. *)
Theorem C123_certified_partial (F : fieldType) (G : lmodType F) (S : suite G) deal_dec (x : F) (D : G) (vs : seq G) v0 evs :
  new_verifier S x D vs = Ok v0 ->
  let a := v_agg (vrun S deal_dec v0 evs) in
  (deal_certified_ck a = Panic <-> exists2 d, a_deal a = Some d & (size vs < d_t d)%N) /\
  (deal_certified_ck a <> Panic -> deal_certified_ck a = Ok (deal_certified a)).
Proof.
move=> N a; have [v0v v0t] : a_verifiers (v_agg v0) = vs /\ a_t (v_agg v0) = if a_deal (v_agg v0) is Some d then d_t d else 0%N.
  by move: N; rewrite /new_verifier; case: ifP => // _ [<-].
have T := @run_threshold _ _ S deal_dec v0 evs v0t.
rewrite /deal_certified_ck [a_verifiers a]run_verifiers v0v [a_t a]T -/a.
split; last by case: ifP.
case: (a_deal a) => [d|]; last by split=> [//|[d]].
case: ltnP => h; first by split=> // _; exists d.
by split=> // -[_ [<-]]; rewrite ltnNge h.
Qed.
Print Assumptions C123_certified_partial.

(** Refuted: one deal with threshold four for three verifiers is answered with a complaint; from then on asking whether the deal is
    certified, which answers [false] without overflow checks, panics with them. *)
Theorem C123_certified_refuted :
  exists (v : verifier G7) (e : enc_deal G7) (r : response), new_verifier toy (2%:R : F7) (v_dealer v) keys7 = Ok v /\
    (process_encrypted_deal toy deal_dec7 v e 1).2 = Ok r /\ r_status r = false /\
    let a := v_agg (process_encrypted_deal toy deal_dec7 v e 1).1 in
    deal_certified a = false /\ deal_certified_ck a = Panic.
Proof.
pose d : deal G7 := @Deal F7 G7 sid7 (@PriShare F7 1 3%:R) 4 [:: 1; 1].
exists (ver7 2%:R 1), (e47 2%:R d); eexists; split; first exact: ver7_new.
have D : decrypt_deal toy deal_dec7 (ver7 2%:R 1) (e47 2%:R d) = Ok d by apply: (craft_decrypts toy_ok deal_dec_enc7).
by rewrite /process_encrypted_deal D.
Qed.
Print Assumptions C123_certified_refuted.

(** With a deal whose threshold is two nothing panics. *)
Example C123_certified_nonvacuous :
  let a := v_agg (vrun toy deal_dec7 (ver7 2%:R 1) [:: EvDeal (e47 2%:R (d47 1 0)) 1]) in
  new_verifier toy (2%:R : F7) ((4%:R : F7) *: su_base toy) keys7 = Ok (ver7 2%:R 1) /\
  a_deal a = Some (d47 1 0) /\ deal_certified_ck a = Ok false.
Proof.
have D : decrypt_deal toy deal_dec7 (ver7 2%:R 1) (e47 2%:R (d47 1 0)) = Ok (d47 1 0) by apply: (craft_decrypts toy_ok deal_dec_enc7).
move=> a; split; first exact: ver7_new.
have aE : a = v_agg (process_encrypted_deal toy deal_dec7 (ver7 2%:R 1) (e47 2%:R (d47 1 0)) 1).1 by [].
by rewrite aE /process_encrypted_deal D.
Qed.
