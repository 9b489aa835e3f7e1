(** Model of src/share/vss/pedersen/vss.rs: verifiable secret sharing with one Feldman-committed polynomial.

    Simplifications, valid for the whole file:
    - the suite is a [suite] record (Suite.v); points are in the prime-order group;
    - [usize]/[u32] indices and thresholds are natural numbers without wrap-around (fewer than 2^32 participants), so
      [(t as u32) as i64 == t as i64] (1053) holds;
    - [Deal]'s bincode serialisation is a pair of oracles [deal_enc] / [deal_dec];
    - marshalling points and writing to the hash does not fail;
    - randomness (polynomial coefficients, ephemeral key, Schnorr nonces) is an argument;
    - [Verifier::aggregator] is always [Some], as built by [new_verifier] (563); Display/Debug and the getters [key],
      [index], [responses], [private_poly] are not modelled.
    A method with [&mut self] returns the new state beside its outcome, because the code mutates before failing. *)
From mathcomp Require Import all_ssreflect all_algebra.
From Coq Require Import String.
From Verif Require Import Base PolyModel Suite.

Set Implicit Arguments.
Unset Strict Implicit.
Unset Printing Implicit Defensive.

Import GRing.Theory.
Local Open Scope ring_scope.
Local Open Scope outcome_scope.

(** src/share/vss/error.rs 8-61 [VSSError] (the variants the modelled paths return; payloads dropped). *)
Inductive vss_error :=
| MarshallingErr | DhErr | SignatureErr | PolyErr (e : poly_error) | InvalidThreshold | DealerWrongIndex
| ResponseInconsistentSessionId | ResponseIndexOutOfBounds | ComplaintIndexOutOfBounds | ResponseAlreadyExisting
| PublicKeyNotFound | DealWrongIndex | DealAlreadyProcessed | DealDoesNotVerify | DealInvalidThreshold
| DealIncompatibleThreshold | DealInvalidSessionId | DealInconsistentIndex | DealIndexOutOfBounds
| JustificationIndexOutOfBounds | JustificationNoComplaints | JustificationForApproval | DealsSameID
| MissingAggregator | NoAggregatorForVerifier.

(** [?] on a [Result<_, PolyError>] (error.rs 16). *)
Definition of_poly {A : Type} (o : outcome poly_error A) : outcome vss_error A :=
  match o with Ok a => Ok a | Err e => Err (PolyErr e) | Panic => Panic | OutOfFuel => OutOfFuel end.

(** vss.rs 192-202 [Response]. *)
Record response := Response { r_sid : bytestr; r_index : nat; r_status : bool; r_sig : bytestr }.

Section Vss.
Variables (F : fieldType) (G : lmodType F) (S : suite G).
Notation B := (su_base S).

(** vss.rs 113-123 [Deal]. *)
Record deal := Deal { d_sid : bytestr; d_share : pri_share F; d_t : nat; d_commits : seq G }.

(** vss.rs 169-179 [EncryptedDeal]. *)
Record enc_deal := EncDeal { e_dhkey : G; e_sig : bytestr; e_nonce : bytestr; e_cipher : bytestr }.

(** vss.rs 244-253 [Justification]. *)
Record justification := Justification { j_sid : bytestr; j_index : nat; j_deal : deal; j_sig : bytestr }.

(** vss.rs 766-779 [Aggregator]; [responses : HashMap<u32, Response>] as an association list. *)
Record aggregator := Aggregator {
  a_dealer : G; a_verifiers : seq G; a_commits : seq G; a_responses : seq (nat * response);
  a_sid : bytestr; a_deal : option deal; a_t : nat; a_bad : bool; a_timeout : bool }.

(** Field updates. *)
Definition a_set_deal (a : aggregator) (d : deal) : aggregator :=
  Aggregator (a_dealer a) (a_verifiers a) (d_commits d) (a_responses a) (d_sid d) (Some d) (d_t d) (a_bad a) (a_timeout a).
Definition a_set_responses (a : aggregator) m : aggregator :=
  Aggregator (a_dealer a) (a_verifiers a) (a_commits a) m (a_sid a) (a_deal a) (a_t a) (a_bad a) (a_timeout a).
Definition a_set_bad (a : aggregator) : aggregator :=
  Aggregator (a_dealer a) (a_verifiers a) (a_commits a) (a_responses a) (a_sid a) (a_deal a) (a_t a) true (a_timeout a).
Definition a_set_timeout (a : aggregator) : aggregator :=
  Aggregator (a_dealer a) (a_verifiers a) (a_commits a) (a_responses a) (a_sid a) (a_deal a) (a_t a) (a_bad a) true.

Variable deal_enc : deal -> bytestr.
Variable deal_dec : bytestr -> option deal.

(** vss.rs 223-231 [Response::hash]. *)
Definition response_hash (r : response) : bytestr :=
  su_hash S (str_bytes "response" ++ r_sid r ++ u32le (r_index r) ++ u32le (r_status r)).

(** vss.rs 268-279 [Justification::hash]. *)
Definition justification_hash (j : justification) : bytestr :=
  su_hash S (str_bytes "justification" ++ j_sid j ++ u32le (j_index j) ++ deal_enc (j_deal j)).

(** vss.rs 1048-1050 [minimum_t]. *)
Definition minimum_t (n : nat) : nat := (n.+1 %/ 2)%N.

(** vss.rs 1052-1054 [valid_t]. *)
Definition valid_t (t : nat) (verifiers : seq G) : bool := (2 <= t)%N && (t <= size verifiers)%N.

(** vss.rs 1065-1067 [find_pub]. *)
Definition find_pub (verifiers : seq G) (i : nat) : option G := nth None (map Some verifiers) i.

(** vss.rs 1069-1090 [session_id]. *)
Definition session_id (dealer : G) (verifiers commits : seq G) (t : nat) : bytestr :=
  su_hash S (su_enc S dealer ++ flatten (map (su_enc S) verifiers) ++ flatten (map (su_enc S) commits) ++ u32le t).

(** vss.rs 1093-1106 [context]. *)
Definition context (dealer : G) (verifiers : seq G) : bytestr :=
  su_hash S (str_bytes "vss-dealer" ++ su_enc S dealer ++ str_bytes "vss-verifiers" ++ flatten (map (su_enc S) verifiers)).

(** vss.rs 832-852 [new_aggregator]. *)
Definition new_aggregator (dealer : G) (verifiers commits : seq G) (t : nat) (sid : bytestr) : aggregator :=
  Aggregator dealer verifiers commits [::] sid None t false false.

(** vss.rs 856-866 [new_empty_aggregator]: default dealer point, commits, sid and t = 0. *)
Definition new_empty_aggregator (verifiers : seq G) : aggregator :=
  Aggregator 0 verifiers [::] [::] [::] None 0 false false.

(** vss.rs 886-912, the checks of [verify_deal] after the deal has been stored. *)
Definition deal_checks (a : aggregator) (d : deal) : outcome vss_error unit :=
  if ~~ valid_t (d_t d) (a_verifiers a) then Err DealInvalidThreshold else
  if d_t d != a_t a then Err DealIncompatibleThreshold else
  if a_sid a != d_sid d then Err DealInvalidSessionId else
  if (size (a_verifiers a) <= ps_i (d_share d))%N then Err DealIndexOutOfBounds else
  let fig := pmul B (ps_v (d_share d)) None in
  let! pub := of_poly (pub_eval (PubPoly None (d_commits d)) (ps_i (d_share d))) in
  if fig != us_v pub then Err DealDoesNotVerify else Ok tt.

(** vss.rs 876-913 [Aggregator::verify_deal]. *)
Definition verify_deal (a : aggregator) (d : deal) (inclusion : bool) : aggregator * outcome vss_error unit :=
  if isSome (a_deal a) && inclusion then (a, Err DealAlreadyProcessed) else
  let a := if a_deal a is Some _ then a else a_set_deal a d in
  (a, deal_checks a d).

(** vss.rs 920-922 [Aggregator::set_threshold]. *)
Definition set_threshold (a : aggregator) (t : nat) : aggregator :=
  Aggregator (a_dealer a) (a_verifiers a) (a_commits a) (a_responses a) (a_sid a) (a_deal a) t (a_bad a) (a_timeout a).

(** vss.rs 976-985 [Aggregator::add_response]. *)
Definition add_response (a : aggregator) (r : response) : aggregator * outcome vss_error unit :=
  if find_pub (a_verifiers a) (r_index r) is None then (a, Err ComplaintIndexOutOfBounds) else
  if mget (r_index r) (a_responses a) is Some _ then (a, Err ResponseAlreadyExisting) else
  (a_set_responses a (minsert (r_index r) r (a_responses a)), Ok tt).

(** vss.rs 931-946 [Aggregator::verify_response] (= [process_response], 927-929). *)
Definition verify_response (a : aggregator) (r : response) : aggregator * outcome vss_error unit :=
  if (a_sid a != [::]) && (r_sid r != a_sid a) then (a, Err ResponseInconsistentSessionId) else
  match find_pub (a_verifiers a) (r_index r) with
  | None => (a, Err ResponseIndexOutOfBounds)
  | Some public =>
      if ~~ su_verify S public (response_hash r) (r_sig r) then (a, Err SignatureErr) else add_response a r
  end.

(** vss.rs 948-974 [Aggregator::verify_justification].  The approval is written to a clone of the response (958,
    965) that is dropped. *)
Definition verify_justification (a : aggregator) (j : justification) : aggregator * outcome vss_error unit :=
  match find_pub (a_verifiers a) (j_index j) with
  | None => (a, Err JustificationIndexOutOfBounds)
  | Some _ =>
    match mget (j_index j) (a_responses a) with
    | None => (a, Err JustificationNoComplaints)
    | Some r =>
      if r_status r then (a, Err JustificationForApproval) else
      match verify_deal a (j_deal j) false with
      | (a', Ok _) => (a', Ok tt)
      | (a', Err e) => (a_set_bad a', Err e)
      | (a', o) => (a', o)
      end
    end
  end.

(** vss.rs 1007-1029 [Aggregator::deal_certified].  [self.verifiers.len() - self.t] wraps to a number above any length
    when t > n: the absents are then never too many. *)
Definition deal_certified (a : aggregator) : bool :=
  let n := size (a_verifiers a) in
  let count :=
    foldl (fun acc i => let '(absent, approvals, complaint) := acc in
             match mget i (a_responses a) with
             | None => (absent.+1, approvals, complaint)
             | Some r => if r_status r then (absent, approvals.+1, complaint) else (absent, approvals, true)
             end) (0, 0, false)%N (iota 0 n) in
  let '(absent, approvals, complaint) := count in
  let enough := (a_t a <= approvals)%N in
  let too_much := (a_t a <= n)%N && (n - a_t a < absent)%N in
  let base := ~~ a_bad a && enough && ~~ complaint in
  if a_timeout a then base && ~~ too_much else base && (absent == 0%N).

(** vss.rs 1032-1040 [Aggregator::missing_responses]. *)
Definition missing_responses (a : aggregator) : seq nat :=
  filter (fun i => if mget i (a_responses a) is None then true else false) (iota 0 (size (a_verifiers a))).

(** vss.rs 21-42 [Dealer]. *)
Record dealer := Dealer {
  dl_long : F; dl_pub : G; dl_secret : F; dl_commits : seq G; dl_poly : pri_poly F; dl_verifiers : seq G;
  dl_ctx : bytestr; dl_t : nat; dl_sid : bytestr; dl_deals : seq deal; dl_agg : aggregator }.

(** vss.rs 287-337 [new_dealer]; [picks] are the random coefficients. *)
Definition new_dealer (longterm secret : F) (verifiers : seq G) (t : nat) (picks : nat -> F)
  : outcome vss_error dealer :=
  if ~~ valid_t t verifiers then Err InvalidThreshold else
  let f := new_pri_poly t (Some secret) picks in
  let d_pub := pmul B longterm None in
  let commits := pcommits (pri_commit B f (Some B)) in
  let sid := session_id d_pub verifiers commits t in
  let agg := new_aggregator d_pub verifiers commits t sid in
  let deals := [seq Deal sid (pri_eval f i) t commits | i <- iota 0 (size verifiers)] in
  Ok (Dealer longterm d_pub secret commits f verifiers (context d_pub verifiers) t sid deals agg).

(** vss.rs 346-352 [plaintext_deal]. *)
Definition plaintext_deal (d : dealer) (i : nat) : outcome vss_error deal :=
  if (size (dl_deals d) <= i)%N then Err DealerWrongIndex else
  of_option (nth None (map Some (dl_deals d)) i).

(** vss.rs 361-383 [encrypted_deal]; [dh_secret] the ephemeral key, [k] the Schnorr nonce.  The AEAD nonce is twelve
    zero bytes (375). *)
Definition encrypted_deal (d : dealer) (i : nat) (dh_secret k : F) : outcome vss_error enc_deal :=
  match find_pub (dl_verifiers d) i with
  | None => Err DealerWrongIndex
  | Some v_pub =>
      let dh_public := pmul B dh_secret None in
      let signature := su_sign S (dl_long d) (su_enc S dh_public) k in
      let pre := dh_secret *: v_pub in
      let nonce := nseq 12 0%N in
      let! di := of_option (nth None (map Some (dl_deals d)) i) in
      Ok (EncDeal dh_public signature nonce (su_seal S pre (dl_ctx d) nonce (deal_enc di)))
  end.

(** vss.rs 388-397 [encrypted_deals]; [rnd i] is the randomness of the i-th call. *)
Definition encrypted_deals (d : dealer) (rnd : nat -> F * F) : outcome vss_error (seq enc_deal) :=
  foldo (fun acc i => let! e := encrypted_deal d i (rnd i).1 (rnd i).2 in Ok (rcons acc e))
        [::] (iota 0 (size (dl_verifiers d))).

Definition dl_set_agg (d : dealer) (a : aggregator) : dealer :=
  Dealer (dl_long d) (dl_pub d) (dl_secret d) (dl_commits d) (dl_poly d) (dl_verifiers d) (dl_ctx d) (dl_t d) (dl_sid d)
         (dl_deals d) a.

(** vss.rs 403-426 [Dealer::process_response]. *)
Definition dealer_process_response (d : dealer) (r : response) (k : F)
  : dealer * outcome vss_error (option justification) :=
  let '(a', o) := verify_response (dl_agg d) r in
  let d' := dl_set_agg d a' in
  (d', let! _ := o in
       if r_status r then Ok None else
       let! di := of_option (nth None (map Some (dl_deals d)) (r_index r)) in
       let j := Justification (dl_sid d) (r_index r) di [::] in
       let sig := su_sign S (dl_long d) (justification_hash j) k in
       Ok (Some (Justification (dl_sid d) (r_index r) di sig))).

(** vss.rs 431-436 [secret_commit]. *)
Definition secret_commit (d : dealer) : option G :=
  if ~~ deal_certified (dl_agg d) then None else Some (pmul B (dl_secret d) None).

(** vss.rs 458-460 [Dealer::set_timeout]. *)
Definition dealer_set_timeout (d : dealer) : dealer := dl_set_agg d (a_set_timeout (dl_agg d)).

(** vss.rs 473-483 [Verifier]. *)
Record verifier := Verifier {
  v_long : F; v_pub : G; v_dealer : G; v_index : nat; v_verifiers : seq G; v_ctx : bytestr; v_agg : aggregator }.

Definition v_set_agg (v : verifier) (a : aggregator) : verifier :=
  Verifier (v_long v) (v_pub v) (v_dealer v) (v_index v) (v_verifiers v) (v_ctx v) a.

(** vss.rs 535-565 [new_verifier]: the first position whose key is ours. *)
Definition new_verifier (longterm : F) (dealer_key : G) (verifiers : seq G) : outcome vss_error verifier :=
  let pub := pmul B longterm None in
  if (seq.index pub verifiers < size verifiers)%N then
    Ok (Verifier longterm pub dealer_key (seq.index pub verifiers) verifiers (context dealer_key verifiers)
                 (new_empty_aggregator verifiers))
  else Err PublicKeyNotFound.

(** vss.rs 640-660 [decrypt_deal]: [e.nonce.try_into().unwrap()] panics unless the nonce has twelve bytes. *)
Definition decrypt_deal (v : verifier) (e : enc_deal) : outcome vss_error deal :=
  if ~~ su_verify S (v_dealer v) (su_enc S (e_dhkey e)) (e_sig e) then Err SignatureErr else
  let pre := v_long v *: e_dhkey e in
  if size (e_nonce e) != 12%N then Panic else
  match su_open S pre (v_ctx v) (e_nonce e) (e_cipher e) with
  | None => Err DhErr
  | Some pt => match deal_dec pt with None => Err MarshallingErr | Some d => Ok d end
  end.

(** vss.rs 595-638 [process_encrypted_deal]; [k] is the Schnorr nonce. *)
Definition process_encrypted_deal (v : verifier) (e : enc_deal) (k : F) : verifier * outcome vss_error response :=
  match decrypt_deal v e with
  | Ok d =>
      if ps_i (d_share d) != v_index v then (v, Err DealWrongIndex) else
      let sid := session_id (v_dealer v) (v_verifiers v) (d_commits d) (d_t d) in
      let '(a1, o) := verify_deal (v_agg v) d true in
      let v1 := v_set_agg v a1 in
      let finish (status : bool) :=
        let r0 := Response sid (v_index v) status [::] in
        let r := Response sid (v_index v) status (su_sign S (v_long v) (response_hash r0) k) in
        let '(a2, o2) := add_response a1 r in
        (v_set_agg v a2, let! _ := o2 in Ok r) in
      match o with
      | Ok _ => finish true
      | Err DealAlreadyProcessed => (v1, Err DealAlreadyProcessed)
      | Err _ => finish false
      | Panic => (v1, Panic)
      | OutOfFuel => (v1, OutOfFuel)
      end
  | Err e => (v, Err e)
  | Panic => (v, Panic)
  | OutOfFuel => (v, OutOfFuel)
  end.

(** vss.rs 666-671 [Verifier::process_response]. *)
Definition verifier_process_response (v : verifier) (r : response) : verifier * outcome vss_error unit :=
  let '(a, o) := verify_response (v_agg v) r in (v_set_agg v a, o).

(** vss.rs 676-678 [Verifier::commits]. *)
Definition verifier_commits (v : verifier) : option (seq G) := omap d_commits (a_deal (v_agg v)).

(** vss.rs 682-687 [Verifier::deal]. *)
Definition verifier_deal (v : verifier) : option deal :=
  if ~~ deal_certified (v_agg v) then None else a_deal (v_agg v).

(** vss.rs 693-698 [Verifier::process_justification]. *)
Definition verifier_process_justification (v : verifier) (j : justification) : verifier * outcome vss_error unit :=
  let '(a, o) := verify_justification (v_agg v) j in (v_set_agg v a, o).

(** vss.rs 722-726 [Verifier::set_timeout]. *)
Definition verifier_set_timeout (v : verifier) : verifier := v_set_agg v (a_set_timeout (v_agg v)).

(** vss.rs 731-740 [unsafe_set_response_dkg]: the outcome of [add_response] is ignored. *)
Definition unsafe_set_response_dkg (v : verifier) (idx : nat) (approval : bool) : verifier :=
  v_set_agg v (add_response (v_agg v) (Response (a_sid (v_agg v)) idx approval [::])).1.

(** vss.rs 746-762 [recover_secret]. *)
Definition vss_recover_secret (ord : hash_order F) (deals : seq deal) (t : nat) : outcome vss_error F :=
  let! shares := foldo (fun acc d =>
      if d_sid d == d_sid (head d deals) then Ok (rcons acc (Some (d_share d))) else Err DealsSameID) [::] deals in
  of_poly (recover_secret ord shares t).

End Vss.
