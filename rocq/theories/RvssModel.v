(** Model of src/share/vss/rabin/vss.rs: verifiable secret sharing with two polynomials and Pedersen commitments.

    The simplifications are those of VssModel.v.  The parts of the file whose text is that of the Pedersen variant are
    shared with VssModel.v: [Response] and its hash (rabin/vss.rs 230-262), [EncryptedDeal] (198-208), [minimum_t]
    (1025-1027), [valid_t] (1029-1031), [find_pub] (1042-1044), [session_id] (1046-1067) and [context] (1093-1107; here it
    is 128 bytes read from the suite's XOF after the same writes instead of a digest: [su_hash] stands for both).
    [Verifier::aggregator] is an option here, [None] until the first deal; the [Deref] of a verifier unwraps it. *)
From mathcomp Require Import all_ssreflect all_algebra.
From Coq Require Import String.
From Verif Require Import Base PolyModel Suite VssModel.

Set Implicit Arguments.
Unset Strict Implicit.
Unset Printing Implicit Defensive.

Import GRing.Theory.
Local Open Scope ring_scope.
Local Open Scope outcome_scope.

Section Rvss.
Variables (F : fieldType) (G : lmodType F) (S : suite G).
Notation B := (su_base S).

(** rabin/vss.rs 137-148 [Deal]. *)
Record rdeal := RDeal { rd_sid : bytestr; rd_sec : pri_share F; rd_rnd : pri_share F; rd_t : nat; rd_commits : seq G }.

(** rabin/vss.rs 268-277 [Justification]. *)
Record rjustification := RJustification { rj_sid : bytestr; rj_index : nat; rj_deal : rdeal; rj_sig : bytestr }.

(** rabin/vss.rs 770-781 [Aggregator]. *)
Record raggregator := RAggregator {
  ra_dealer : G; ra_verifiers : seq G; ra_commits : seq G; ra_responses : seq (nat * response);
  ra_sid : bytestr; ra_deal : option rdeal; ra_t : nat; ra_bad : bool }.

(** Field updates.  [ra_set_deal] is 868-872: the threshold is not copied. *)
Definition ra_set_deal (a : raggregator) (d : rdeal) : raggregator :=
  RAggregator (ra_dealer a) (ra_verifiers a) (rd_commits d) (ra_responses a) (rd_sid d) (Some d) (ra_t a) (ra_bad a).
Definition ra_set_responses (a : raggregator) m : raggregator :=
  RAggregator (ra_dealer a) (ra_verifiers a) (ra_commits a) m (ra_sid a) (ra_deal a) (ra_t a) (ra_bad a).
Definition ra_set_bad (a : raggregator) : raggregator :=
  RAggregator (ra_dealer a) (ra_verifiers a) (ra_commits a) (ra_responses a) (ra_sid a) (ra_deal a) (ra_t a) true.

Variable rdeal_enc : rdeal -> bytestr.
Variable rdeal_dec : bytestr -> option rdeal.

(** rabin/vss.rs 292-302 [Justification::hash]. *)
Definition rjustification_hash (j : rjustification) : bytestr :=
  su_hash S (str_bytes "justification" ++ rj_sid j ++ u32le (rj_index j) ++ rdeal_enc (rj_deal j)).

(** rabin/vss.rs 1033-1040 [derive_h]: the second generator, picked from an XOF of the verifier keys. *)
Definition derive_h (verifiers : seq G) : G := su_derive S (flatten (map (su_enc S) verifiers)).

(** rabin/vss.rs 834-853 [new_aggregator]. *)
Definition new_raggregator (dealer : G) (verifiers commits : seq G) (t : nat) (sid : bytestr) : raggregator :=
  RAggregator dealer verifiers commits [::] sid None t false.

(** rabin/vss.rs 874-901, the checks of [verify_deal] after the deal has been stored. *)
Definition rdeal_checks (a : raggregator) (d : rdeal) : outcome vss_error unit :=
  if ~~ valid_t (rd_t d) (ra_verifiers a) then Err DealInvalidThreshold else
  if ra_sid a != rd_sid d then Err DealInvalidSessionId else
  let fi := rd_sec d in
  let gi := rd_rnd d in
  if ps_i fi != ps_i gi then Err DealInconsistentIndex else
  if (size (ra_verifiers a) <= ps_i fi)%N then Err DealIndexOutOfBounds else
  let fig := pmul B (ps_v fi) None in
  let h := derive_h (ra_verifiers a) in
  let gih := pmul B (ps_v gi) (Some h) in
  let ci := fig + gih in
  let! pub := of_poly (pub_eval (PubPoly None (rd_commits d)) (ps_i fi)) in
  if ci != us_v pub then Err DealDoesNotVerify else Ok tt.

(** rabin/vss.rs 863-902 [Aggregator::verify_deal]. *)
Definition rverify_deal (a : raggregator) (d : rdeal) (inclusion : bool) : raggregator * outcome vss_error unit :=
  if isSome (ra_deal a) && inclusion then (a, Err DealAlreadyProcessed) else
  let a := if ra_deal a is Some _ then a else ra_set_deal a d in
  (a, rdeal_checks a d).

(** rabin/vss.rs 906-917 [clean_verifiers]: a complaint for every verifier without a response. *)
Definition clean_verifiers (a : raggregator) : raggregator :=
  ra_set_responses a
    (foldl (fun m i => if mget i m is None then minsert i (Response (ra_sid a) i false [::]) m else m)
           (ra_responses a) (iota 0 (size (ra_verifiers a)))).

(** rabin/vss.rs 966-975 [Aggregator::add_response]. *)
Definition radd_response (a : raggregator) (r : response) : raggregator * outcome vss_error unit :=
  if find_pub (ra_verifiers a) (r_index r) is None then (a, Err ComplaintIndexOutOfBounds) else
  if mget (r_index r) (ra_responses a) is Some _ then (a, Err ResponseAlreadyExisting) else
  (ra_set_responses a (minsert (r_index r) r (ra_responses a)), Ok tt).

(** rabin/vss.rs 919-934 [Aggregator::verify_response]. *)
Definition rverify_response (a : raggregator) (r : response) : raggregator * outcome vss_error unit :=
  if r_sid r != ra_sid a then (a, Err ResponseInconsistentSessionId) else
  match find_pub (ra_verifiers a) (r_index r) with
  | None => (a, Err ResponseIndexOutOfBounds)
  | Some public =>
      if ~~ su_verify S public (response_hash S r) (r_sig r) then (a, Err SignatureErr) else radd_response a r
  end.

(** rabin/vss.rs 936-964 [Aggregator::verify_justification]: the updated response is written back (961). *)
Definition rverify_justification (a : raggregator) (j : rjustification) : raggregator * outcome vss_error unit :=
  match find_pub (ra_verifiers a) (rj_index j) with
  | None => (a, Err JustificationIndexOutOfBounds)
  | Some _ =>
    match mget (rj_index j) (ra_responses a) with
    | None => (a, Err JustificationNoComplaints)
    | Some r =>
      if r_status r then (a, Err JustificationForApproval) else
      match rverify_deal a (rj_deal j) false with
      | (a', Ok _) =>
          (ra_set_responses a' (minsert (rj_index j) (Response (r_sid r) (r_index r) true (r_sig r)) (ra_responses a')), Ok tt)
      | (a', Err e) => (ra_set_responses (ra_set_bad a') (minsert (rj_index j) r (ra_responses a')), Err e)
      | (a', o) => (a', o)
      end
    end
  end.

(** rabin/vss.rs 979-987 [enough_approvals]: counts the whole response map. *)
Definition enough_approvals (a : raggregator) : bool :=
  (ra_t a <= foldl (fun app ir => if r_status ir.2 then app.+1 else app) 0%N (ra_responses a))%N.

(** rabin/vss.rs 991-1003 [deal_certified]. *)
Definition rdeal_certified (a : raggregator) : bool :=
  let unstable :=
    foldl (fun acc i => if mget i (ra_responses a) is None then acc.+1 else acc) 0%N (iota 0 (size (ra_verifiers a))) in
  let too_much := (0 < unstable)%N || ra_bad a in
  enough_approvals a && ~~ too_much.

(** rabin/vss.rs 1008-1017 [unsafe_set_response_dkg]: the outcome of [add_response] is ignored. *)
Definition runsafe_set_response_dkg (a : raggregator) (idx : nat) (approval : bool) : raggregator :=
  (radd_response a (Response (ra_sid a) idx approval [::])).1.

(** rabin/vss.rs 53-69 [Dealer]. *)
Record rdealer := RDealer {
  rl_long : F; rl_pub : G; rl_secret : F; rl_secret_commits : seq G; rl_verifiers : seq G; rl_ctx : bytestr; rl_t : nat;
  rl_sid : bytestr; rl_deals : seq rdeal; rl_agg : raggregator }.

(** rabin/vss.rs 311-367 [new_dealer]; [fpicks], [gpicks] are the random coefficients of the two polynomials. *)
Definition new_rdealer (longterm secret : F) (verifiers : seq G) (t : nat) (fpicks gpicks : nat -> F)
  : outcome vss_error rdealer :=
  if ~~ valid_t t verifiers then Err InvalidThreshold else
  let h := derive_h verifiers in
  let f := new_pri_poly t (Some secret) fpicks in
  let g := new_pri_poly t None gpicks in
  let d_pub := pmul B longterm None in
  let f_p := pri_commit B f (Some B) in
  let g_p := pri_commit B g (Some h) in
  let! c := of_poly (pub_add f_p g_p) in
  let commitments := pcommits c in
  let sid := session_id S d_pub verifiers commitments t in
  let agg := new_raggregator d_pub verifiers commitments t sid in
  let deals := [seq RDeal sid (pri_eval f i) (pri_eval g i) t commitments | i <- iota 0 (size verifiers)] in
  Ok (RDealer longterm d_pub secret (pcommits f_p) verifiers (context S d_pub verifiers) t sid deals agg).

(** rabin/vss.rs 376-382 [plaintext_deal]. *)
Definition rplaintext_deal (d : rdealer) (i : nat) : outcome vss_error rdeal :=
  if (size (rl_deals d) <= i)%N then Err DealerWrongIndex else
  of_option (nth None (map Some (rl_deals d)) i).

(** rabin/vss.rs 391-416 [encrypted_deal]; [dh_secret] the ephemeral key, [k] the Schnorr nonce. *)
Definition rencrypted_deal (d : rdealer) (i : nat) (dh_secret k : F) : outcome vss_error (enc_deal G) :=
  match find_pub (rl_verifiers d) i with
  | None => Err DealerWrongIndex
  | Some v_pub =>
      let dh_public := pmul B dh_secret None in
      let signature := su_sign S (rl_long d) (su_enc S dh_public) k in
      let pre := dh_secret *: v_pub in
      let nonce := nseq 12 0%N in
      let! di := of_option (nth None (map Some (rl_deals d)) i) in
      Ok (EncDeal dh_public signature nonce (su_seal S pre (rl_ctx d) nonce (rdeal_enc di)))
  end.

(** rabin/vss.rs 419-428 [encrypted_deals]; [rnd i] is the randomness of the i-th call. *)
Definition rencrypted_deals (d : rdealer) (rnd : nat -> F * F) : outcome vss_error (seq (enc_deal G)) :=
  foldo (fun acc i => let! e := rencrypted_deal d i (rnd i).1 (rnd i).2 in Ok (rcons acc e))
        [::] (iota 0 (size (rl_verifiers d))).

Definition rl_set_agg (d : rdealer) (a : raggregator) : rdealer :=
  RDealer (rl_long d) (rl_pub d) (rl_secret d) (rl_secret_commits d) (rl_verifiers d) (rl_ctx d) (rl_t d) (rl_sid d)
          (rl_deals d) a.

(** rabin/vss.rs 434-457 [Dealer::process_response]. *)
Definition rdealer_process_response (d : rdealer) (r : response) (k : F)
  : rdealer * outcome vss_error (option rjustification) :=
  let '(a', o) := rverify_response (rl_agg d) r in
  let d' := rl_set_agg d a' in
  (d', let! _ := o in
       if r_status r then Ok None else
       let! di := of_option (nth None (map Some (rl_deals d)) (r_index r)) in
       let j := RJustification (rl_sid d) (r_index r) di [::] in
       let sig := su_sign S (rl_long d) (rjustification_hash j) k in
       Ok (Some (RJustification (rl_sid d) (r_index r) di sig))).

(** rabin/vss.rs 462-467 [secret_commit]. *)
Definition rsecret_commit (d : rdealer) : option G :=
  if ~~ enough_approvals (rl_agg d) || ~~ rdeal_certified (rl_agg d) then None else Some (pmul B (rl_secret d) None).

(** rabin/vss.rs 471-476 [Dealer::commits]. *)
Definition rdealer_commits (d : rdealer) : option (seq G) :=
  if ~~ enough_approvals (rl_agg d) || ~~ rdeal_certified (rl_agg d) then None else Some (rl_secret_commits d).

(** rabin/vss.rs 492-494 [Dealer::set_timeout]. *)
Definition rdealer_set_timeout (d : rdealer) : rdealer := rl_set_agg d (clean_verifiers (rl_agg d)).

(** rabin/vss.rs 506-515 [Verifier]. *)
Record rverifier := RVerifier {
  rv_long : F; rv_pub : G; rv_dealer : G; rv_index : nat; rv_verifiers : seq G; rv_ctx : bytestr;
  rv_agg : option raggregator }.

Definition rv_set_agg (v : rverifier) (a : raggregator) : rverifier :=
  RVerifier (rv_long v) (rv_pub v) (rv_dealer v) (rv_index v) (rv_verifiers v) (rv_ctx v) (Some a).

(** rabin/vss.rs 567-597 [new_verifier]. *)
Definition new_rverifier (longterm : F) (dealer_key : G) (verifiers : seq G) : outcome vss_error rverifier :=
  let pub := pmul B longterm None in
  if (seq.index pub verifiers < size verifiers)%N then
    Ok (RVerifier longterm pub dealer_key (seq.index pub verifiers) verifiers (context S dealer_key verifiers) None)
  else Err PublicKeyNotFound.

(** rabin/vss.rs 599-605 [Deref for Verifier]: unwraps the aggregator. *)
Definition rv_deref (v : rverifier) : outcome vss_error raggregator := of_option (rv_agg v).

(** rabin/vss.rs 684-704 [decrypt_deal]: [e.nonce.try_into().unwrap()] panics unless the nonce has twelve bytes. *)
Definition rdecrypt_deal (v : rverifier) (e : enc_deal G) : outcome vss_error rdeal :=
  if ~~ su_verify S (rv_dealer v) (su_enc S (e_dhkey e)) (e_sig e) then Err SignatureErr else
  let pre := rv_long v *: e_dhkey e in
  if size (e_nonce e) != 12%N then Panic else
  match su_open S pre (rv_ctx v) (e_nonce e) (e_cipher e) with
  | None => Err DhErr
  | Some pt => match rdeal_dec pt with None => Err MarshallingErr | Some d => Ok d end
  end.

(** rabin/vss.rs 627-682 [process_encrypted_deal]; [k] is the Schnorr nonce. *)
Definition rprocess_encrypted_deal (v : rverifier) (e : enc_deal G) (k : F) : rverifier * outcome vss_error response :=
  match rdecrypt_deal v e with
  | Ok d =>
      if ps_i (rd_sec d) != rv_index v then (v, Err DealWrongIndex) else
      let sid := session_id S (rv_dealer v) (rv_verifiers v) (rd_commits d) (rd_t d) in
      let a0 := if rv_agg v is Some a then a
                else new_raggregator (rv_dealer v) (rv_verifiers v) (rd_commits d) (rd_t d) (rd_sid d) in
      let '(a1, o) := rverify_deal a0 d true in
      let v1 := rv_set_agg v a1 in
      let finish (status : bool) :=
        let r0 := Response sid (rv_index v) status [::] in
        let r := Response sid (rv_index v) status (su_sign S (rv_long v) (response_hash S r0) k) in
        let '(a2, o2) := radd_response a1 r in
        (rv_set_agg v a2, let! _ := o2 in Ok r) in
      match o with
      | Ok _ => finish true
      | Err DealAlreadyProcessed => (v1, Err DealAlreadyProcessed)
      | Err _ => finish false
      | Panic => (v1, Panic)
      | OutOfFuel => (v1, OutOfFuel)
      end
  | Err e => (v, Err e)
  | Panic => (v, Panic)
  | OutOfFuel => (v, OutOfFuel)
  end.

(** rabin/vss.rs 710-715 [Verifier::process_response]. *)
Definition rverifier_process_response (v : rverifier) (r : response) : rverifier * outcome vss_error unit :=
  match rv_agg v with
  | Some a => let '(a', o) := rverify_response a r in (rv_set_agg v a', o)
  | None => (v, Err NoAggregatorForVerifier)
  end.

(** rabin/vss.rs 719-727 [Verifier::deal]. *)
Definition rverifier_deal (v : rverifier) : option rdeal :=
  match rv_agg v with
  | None => None
  | Some a => if ~~ enough_approvals a || ~~ rdeal_certified a then None else ra_deal a
  end.

(** rabin/vss.rs 733-738 [Verifier::process_justification]. *)
Definition rverifier_process_justification (v : rverifier) (j : rjustification) : rverifier * outcome vss_error unit :=
  match rv_agg v with
  | Some a => let '(a', o) := rverify_justification a j in (rv_set_agg v a', o)
  | None => (v, Err MissingAggregator)
  end.

(** rabin/vss.rs 753-755 [Verifier::session_id]: through the [Deref]. *)
Definition rverifier_session_id (v : rverifier) : outcome vss_error bytestr :=
  let! a := rv_deref v in Ok (ra_sid a).

(** [v.deal_certified()] and [v.enough_approvals()] on a verifier, as the documentation asks for (709, 731-732): methods
    of the aggregator, reached through the [Deref]. *)
Definition rverifier_deal_certified (v : rverifier) : outcome vss_error bool :=
  let! a := rv_deref v in Ok (rdeal_certified a).
Definition rverifier_enough_approvals (v : rverifier) : outcome vss_error bool :=
  let! a := rv_deref v in Ok (enough_approvals a).

(** rabin/vss.rs 760-764 [Verifier::set_timeout]. *)
Definition rverifier_set_timeout (v : rverifier) : rverifier :=
  if rv_agg v is Some a then rv_set_agg v (clean_verifiers a) else v.

(** rabin/vss.rs 1072-1088 [recover_secret]. *)
Definition rvss_recover_secret (ord : hash_order F) (deals : seq rdeal) (t : nat) : outcome vss_error F :=
  let! shares := foldo (fun acc d =>
      if rd_sid d == rd_sid (head d deals) then Ok (rcons acc (Some (rd_sec d))) else Err DealsSameID) [::] deals in
  of_poly (recover_secret ord shares t).

End Rvss.
