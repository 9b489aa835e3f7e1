(** Model of src/share/dkg/pedersen/dkg.rs and structs.rs: distributed key generation and resharing.

    Simplifications, beside those of VssModel.v:
    - the random secret coefficient, polynomial coefficients, ephemeral keys and Schnorr nonces are arguments; the
      [reader]/[user_reader_only] entropy options of [Config] only influence that randomness and are left out;
    - the bincode serialisation of a [Deal] without its signature (structs.rs 101-107) is an oracle [ddeal_enc];
    - [already_taken] in [init_verifiers] is keyed by the printed (hexadecimal) form of a key: keys are compared directly;
    - [HashMap]s with [u32] keys are association lists; the order in which a map is walked is the argument
      [vord : seq nat -> seq nat] on its keys, [hord] for the maps inside the interpolation (PolyModel.v);
    - Display/Debug, [verifiers()] and [checks_deal_certified] are not modelled.
    A method with [&mut self] returns the new state beside its outcome. *)
From mathcomp Require Import all_ssreflect all_algebra.
From Verif Require Import Base PolyModel Suite VssModel.

Set Implicit Arguments.
Unset Strict Implicit.
Unset Printing Implicit Defensive.

Import GRing.Theory.
Local Open Scope ring_scope.
Local Open Scope outcome_scope.

(** src/share/dkg/error.rs 10-97 [DKGError] (the variants the modelled paths return; payloads of strings dropped). *)
Inductive dkg_error :=
| DVss (e : vss_error) | DPoly (e : poly_error) | DSignature | DistDealIndexOutOfBounds | DistDealFromUnlistedDealer
| JustificationWithoutDeal | DistributedKeyNotCertified | DealsNotFound | EmptyNodeList | ReshareMissingOldNodes
| ReshareMissingOldThreshold | NoPublicPolys | DPublicKeyNotFound | CannotProcessOwnDeal | OwnDealComplaint
| ResponseFromUnknownDealer | ShouldReceive | ShareDoesNotMatchPublicPoly | DuplicatePublicKeyInNewList | WrongRenewal
| DifferentParty | ProtocolNotFinished | MissingOwnPublicKey | DistDealAlreadyProcessed | ComplaintWithoutDeal
| DealNotCertified | MissingCommits | SecretCommitsOutOfBound | SecretCommitsFromNonQUAL | SecretCommitsWrongId
| MissingVerifier | MissingDeal | CommitComplaintUnknownIssuer | CommitComplaintNonQUAL | CommitComplaintUnknownVerifier
| CommitComplaintNoCommits | CommitComplaintInvalid | CommitComplaintUncertifiedDeal | CommitmentsNotInvalidated
| ReconstructCommitsInvalidVerifierIndex | ReconstructCommitsInvalidId.

(** [?] on [Result<_, VSSError>] and [Result<_, PolyError>] (error.rs 17-22). *)
Definition dvss {A : Type} (o : outcome vss_error A) : outcome dkg_error A :=
  match o with Ok a => Ok a | Err e => Err (DVss e) | Panic => Panic | OutOfFuel => OutOfFuel end.
Definition dpoly {A : Type} (o : outcome poly_error A) : outcome dkg_error A :=
  match o with Ok a => Ok a | Err e => Err (DPoly e) | Panic => Panic | OutOfFuel => OutOfFuel end.

(** [HashMap::insert] / [get_mut] on an existing key: the value is replaced in place. *)
Definition mset {T : Type} (k : nat) (v : T) (m : seq (nat * T)) : seq (nat * T) := minsert k v m.

Section Dkg.
Variables (F : fieldType) (G : lmodType F) (S : suite G).
Notation B := (su_base S).
Variable deal_enc : deal G -> bytestr.
Variable deal_dec : bytestr -> option (deal G).

(** structs.rs 19-28 [DistKeyShare]. *)
Record dkshare := DKShare { dk_commits : seq G; dk_share : pri_share F; dk_poly : seq F }.

(** structs.rs 80-89 [Deal]. *)
Record ddeal := DDeal { dd_index : nat; dd_deal : enc_deal G; dd_sig : bytestr }.
(** structs.rs 112-117 [Response]. *)
Record dresponse := DResponse { dr_index : nat; dr_resp : response }.
(** structs.rs 132-137 [Justification]. *)
Record djustification := DJustification { dj_index : nat; dj_just : justification G }.

(** structs.rs 101-107 [Deal::marshal_binary]: of the deal without its signature. *)
Variable ddeal_enc : nat -> enc_deal G -> bytestr.

(** dkg.rs 43-98 [Config]. *)
Record config := Config {
  c_long : F; c_old : seq G; c_coeffs : option (seq G); c_new : seq G; c_share : option dkshare; c_t : nat; c_old_t : nat }.

(** dkg.rs 165-206 [DistKeyGenerator]; [suite] and the copy [long] of the configured key are left out. *)
Record dkg := Dkg {
  g_c : config; g_pub : G; g_dpub : pub_poly G; g_dealer : dealer G; g_verifiers : seq (nat * verifier G);
  g_old_aggs : seq (nat * aggregator G); g_oidx : nat; g_nidx : nat; g_old_t : nat; g_new_t : nat;
  g_resharing : bool; g_can_issue : bool; g_can_receive : bool; g_new_present : bool; g_old_present : bool;
  g_processed : bool; g_timeout : bool }.

(** Field updates. *)
Definition g_set_verifiers (g : dkg) m : dkg :=
  Dkg (g_c g) (g_pub g) (g_dpub g) (g_dealer g) m (g_old_aggs g) (g_oidx g) (g_nidx g) (g_old_t g) (g_new_t g)
      (g_resharing g) (g_can_issue g) (g_can_receive g) (g_new_present g) (g_old_present g) (g_processed g) (g_timeout g).
Definition g_set_dealer (g : dkg) d : dkg :=
  Dkg (g_c g) (g_pub g) (g_dpub g) d (g_verifiers g) (g_old_aggs g) (g_oidx g) (g_nidx g) (g_old_t g) (g_new_t g)
      (g_resharing g) (g_can_issue g) (g_can_receive g) (g_new_present g) (g_old_present g) (g_processed g) (g_timeout g).
Definition g_set_aggs (g : dkg) m : dkg :=
  Dkg (g_c g) (g_pub g) (g_dpub g) (g_dealer g) (g_verifiers g) m (g_oidx g) (g_nidx g) (g_old_t g) (g_new_t g)
      (g_resharing g) (g_can_issue g) (g_can_receive g) (g_new_present g) (g_old_present g) (g_processed g) (g_timeout g).
Definition g_set_processed (g : dkg) : dkg :=
  Dkg (g_c g) (g_pub g) (g_dpub g) (g_dealer g) (g_verifiers g) (g_old_aggs g) (g_oidx g) (g_nidx g) (g_old_t g) (g_new_t g)
      (g_resharing g) (g_can_issue g) (g_can_receive g) (g_new_present g) (g_old_present g) true (g_timeout g).
Definition g_set_ver (g : dkg) (i : nat) (v : verifier G) : dkg := g_set_verifiers g (mset i v (g_verifiers g)).

(** vss.rs 21-42, [Dealer::default()]. *)
Definition default_dealer : dealer G := Dealer 0 0 0 [::] [::] [::] [::] 0 [::] [::] (new_empty_aggregator [::]).

(** dkg.rs 1102-1107 [get_pub]. *)
Definition get_pub (l : seq G) (i : nat) : option G := nth None (map Some l) i.

(** dkg.rs 1109-1116 [find_pub]: position 0 when absent. *)
Definition dfind_pub (l : seq G) (p : G) : nat * bool :=
  if (seq.index p l < size l)%N then (seq.index p l, true) else (0%N, false).

(** dkg.rs 1045-1063 [init_verifiers]. *)
Definition init_verifiers (c : config) : outcome dkg_error (seq (nat * verifier G)) :=
  let! r := foldo (fun acc ip =>
      let '(taken, vers) := acc in
      let '(i, p) := ip in
      if p \in taken then Err DuplicatePublicKeyInNewList else
      let! ver := dvss (new_verifier S (c_long c) p (c_new c)) in
      let ver := v_set_agg ver (set_threshold (v_agg ver) (c_t c)) in
      Ok (p :: taken, mset i ver vers)) ([::], [::]) (zip (iota 0 (size (c_old c))) (c_old c)) in
  Ok r.2.

(** dkg.rs 280-420 [new_dist_key_handler]; [secret] is the picked secret of a fresh run (351), [picks] the further
    polynomial coefficients.  The error of [init_verifiers] is dropped (412-419). *)
Definition new_dist_key_handler (c : config) (secret : F) (picks : nat -> F) : outcome dkg_error dkg :=
  if (c_new c == [::]) && (c_old c == [::]) then Err EmptyNodeList else
  let is_resharing := isSome (c_share c) || isSome (c_coeffs c) in
  if is_resharing && (c_old c == [::]) then Err ReshareMissingOldNodes else
  if is_resharing && (c_old_t c == 0%N) then Err ReshareMissingOldThreshold else
  let pubb := pmul B (c_long c) None in
  let '(oidx, old_present) := dfind_pub (c_old c) pubb in
  let '(nidx, new_present) := dfind_pub (c_new c) pubb in
  if ~~ old_present && ~~ new_present then Err DPublicKeyNotFound else
  let new_threshold := if c_t c != 0%N then c_t c else minimum_t (size (c_new c)) in
  let! st :=
    match c_share c with
    | Some sh =>
        let! d := dvss (new_dealer S (c_long c) (ps_v (dk_share sh)) (c_new c) new_threshold picks) in
        Ok (d, true, c, oidx, old_present)
    | None =>
        if ~~ is_resharing && new_present then
          let! d := dvss (new_dealer S (c_long c) secret (c_new c) new_threshold picks) in
          let c' := Config (c_long c) (c_new c) (c_coeffs c) (c_new c) (c_share c) (c_t c) (c_old_t c) in
          let '(oidx', old_present') := dfind_pub (c_new c) pubb in
          Ok (d, true, c', oidx', old_present')
        else Ok (default_dealer, false, c, oidx, old_present)
    end in
  let '(dlr, can_issue, c, oidx, old_present) := st in
  let! st2 :=
    if ~~ new_present then Ok (c, PubPoly None [::], 0%N, false)
    else if is_resharing then
      match c_coeffs c, c_share c with
      | Some cs, _ => Ok (c, PubPoly (Some B) cs, size cs, true)
      | None, Some sh =>
          let cs := dk_commits sh in
          Ok (Config (c_long c) (c_old c) (Some cs) (c_new c) (c_share c) (c_t c) (c_old_t c),
              PubPoly (Some B) cs, size cs, true)
      | None, None => Err NoPublicPolys
      end
    else Ok (c, PubPoly None [::], 0%N, true) in
  let '(c, dpub, old_t, can_receive) := st2 in
  let g := Dkg c pubb dpub dlr [::] [::] oidx nidx old_t new_threshold is_resharing can_issue can_receive new_present
               old_present false false in
  if new_present then
    match init_verifiers c with
    | Ok vs => Ok (g_set_verifiers g vs)
    | Err _ => Ok g
    | Panic => Panic
    | OutOfFuel => OutOfFuel
    end
  else Ok g.

(** dkg.rs 424-448 [new_dist_key_generator]. *)
Definition new_dist_key_generator (long : F) (participants : seq G) (t : nat) (secret : F) (picks : nat -> F)
  : outcome dkg_error dkg :=
  new_dist_key_handler (Config long [::] None participants None t 0) secret picks.

(** dkg.rs 513-597 [process_deal]; [k] is the nonce of the response's signature, [k'] of the one made by [reject]. *)
Definition dprocess_deal (g : dkg) (dd : ddeal) (k k' : F) : dkg * outcome dkg_error dresponse :=
  if ~~ g_new_present g then (g, Err DistDealFromUnlistedDealer) else
  match get_pub (if g_resharing g then c_old (g_c g) else c_new (g_c g)) (dd_index dd) with
  | None => (g, Err DistDealIndexOutOfBounds)
  | Some pubb =>
    if ~~ su_verify S pubb (ddeal_enc (dd_index dd) (dd_deal dd)) (dd_sig dd) then (g, Err DSignature) else
    match mget (dd_index dd) (g_verifiers g) with
    | None => (g, Panic)
    | Some ver =>
      let '(ver, o) := process_encrypted_deal S deal_dec ver (dd_deal dd) k in
      let g := g_set_ver g (dd_index dd) ver in
      match o with
      | Ok resp =>
        let final :=
          let '(new_idx, found) := dfind_pub (c_new (g_c g)) pubb in
          let ver := if found && ~~ g_resharing g then unsafe_set_response_dkg ver new_idx true else ver in
          (g_set_ver g (dd_index dd) ver, Ok (DResponse (dd_index dd) resp)) in
        if g_resharing g && g_can_receive g then
          match pub_eval (g_dpub g) (dd_index dd) with
          | Ok expected =>
            match verifier_commits ver with
            | Some (c0 :: _) =>
              if us_v expected != c0 then
                let '(idx, present) := dfind_pub (c_new (g_c g)) pubb in
                let ver := if present then unsafe_set_response_dkg ver idx false else ver in
                let ver := unsafe_set_response_dkg ver (g_nidx g) false in
                let r0 := Response (r_sid resp) (r_index resp) false (r_sig resp) in
                let r := Response (r_sid resp) (r_index resp) false (su_sign S (c_long (g_c g)) (response_hash S r0) k') in
                (g_set_ver g (dd_index dd) ver, Ok (DResponse (dd_index dd) r))
              else final
            | _ => (g, Panic)
            end
          | _ => (g, Panic)
          end
        else final
      | Err e => (g, Err (DVss e))
      | Panic => (g, Panic)
      | OutOfFuel => (g, OutOfFuel)
      end
    end
  end.

(** dkg.rs 466-507 [deals]; [rnd i] is the randomness of the i-th encrypted deal, [ks i] the nonce of its signature, [k]
    and [k'] those used by [process_deal].  [deals[i]] cannot fail: the dealer's verifiers are the new nodes. *)
Definition ddeals (g : dkg) (rnd : nat -> F * F) (ks : nat -> F) (k k' : F) : dkg * outcome dkg_error (seq (nat * ddeal)) :=
  if ~~ g_can_issue g then (g, Ok [::]) else
  match encrypted_deals S deal_enc (g_dealer g) rnd with
  | Ok ds =>
      foldl (fun acc i =>
          match acc with
          | (g, Ok dd) =>
            match nth None (map Some ds) i with
            | None => (g, Panic)
            | Some e =>
              let distd := DDeal (g_oidx g) e (su_sign S (c_long (g_c g)) (ddeal_enc (g_oidx g) e) (ks i)) in
              if [&& i == g_nidx g, g_new_present g & ~~ g_resharing g] then
                if g_processed g then (g, Ok dd) else
                let '(g, o) := dprocess_deal (g_set_processed g) distd k k' in
                match o with
                | Ok r => if ~~ r_status (dr_resp r) then (g, Err OwnDealComplaint) else (g, Ok dd)
                | Err _ => (g, Err CannotProcessOwnDeal)
                | Panic => (g, Panic)
                | OutOfFuel => (g, OutOfFuel)
                end
              else (g, Ok (minsert i distd dd))
            end
          | _ => acc
          end) (g, Ok [::]) (iota 0 (size (c_new (g_c g))))
  | Err e => (g, Err (DVss e))
  | Panic => (g, Panic)
  | OutOfFuel => (g, OutOfFuel)
  end.

(** dkg.rs 644-682 [process_resharing_response]. *)
Definition process_resharing_response (g : dkg) (r : dresponse) : dkg * outcome dkg_error (option djustification) :=
  let agg := if mget (dr_index r) (g_old_aggs g) is Some a then a else new_empty_aggregator (c_new (g_c g)) in
  let '(agg, o) := verify_response S agg (dr_resp r) in
  let g := g_set_aggs g (mset (dr_index r) agg (g_old_aggs g)) in
  (g, let! _ := dvss o in
      if dr_index r != g_oidx g then Ok None else
      if r_status (dr_resp r) then Ok None else
      let! d := dvss (plaintext_deal (g_dealer g) (r_index (dr_resp r))) in
      Ok (Some (DJustification (g_oidx g) (Justification (dl_sid (g_dealer g)) (r_index (dr_resp r)) d [::])))).

(** dkg.rs 604-638 [process_response]; [k] is the nonce of the justification's signature. *)
Definition dprocess_response (g : dkg) (r : dresponse) (k : F) : dkg * outcome dkg_error (option djustification) :=
  if [&& g_resharing g, g_can_issue g & ~~ g_new_present g] then process_resharing_response g r else
  match mget (dr_index r) (g_verifiers g) with
  | None => (g, Err ResponseFromUnknownDealer)
  | Some v =>
    let '(v, o) := verifier_process_response S v (dr_resp r) in
    let g := g_set_ver g (dr_index r) v in
    match o with
    | Ok _ =>
      if ~~ g_can_issue g || (dr_index r != g_oidx g) then (g, Ok None) else
      let '(d, oj) := dealer_process_response S deal_enc (g_dealer g) (dr_resp r) k in
      let g := g_set_dealer g d in
      match oj with
      | Ok None => (g, Ok None)
      | Ok (Some just) =>
          let '(v, o) := verifier_process_justification S v just in
          (g_set_ver g (dr_index r) v, let! _ := dvss o in Ok (Some (DJustification (g_oidx g) just)))
      | Err e => (g, Err (DVss e))
      | Panic => (g, Panic)
      | OutOfFuel => (g, OutOfFuel)
      end
    | Err e => (g, Err (DVss e))
    | Panic => (g, Panic)
    | OutOfFuel => (g, OutOfFuel)
    end
  end.

(** dkg.rs 686-695 [process_justification]. *)
Definition dprocess_justification (g : dkg) (j : djustification) : dkg * outcome dkg_error unit :=
  match mget (dj_index j) (g_verifiers g) with
  | None => (g, Err JustificationWithoutDeal)
  | Some v =>
      let '(v, o) := verifier_process_justification S v (dj_just j) in
      (g_set_ver g (dj_index j) v, dvss o)
  end.

(** dkg.rs 699-704 [set_timeout]. *)
Definition dset_timeout (g : dkg) : dkg :=
  Dkg (g_c g) (g_pub g) (g_dpub g) (g_dealer g) [seq (iv.1, verifier_set_timeout iv.2) | iv <- g_verifiers g] (g_old_aggs g)
      (g_oidx g) (g_nidx g) (g_old_t g) (g_new_t g) (g_resharing g) (g_can_issue g) (g_can_receive g) (g_new_present g)
      (g_old_present g) (g_processed g) true.

(** dkg.rs 862-871 [qual_iter] and 873-882 [old_qual_iter] with a callback that never stops: the certified entries in
    the order of the walk. *)
Definition qual_entries (vord : seq nat -> seq nat) (g : dkg) : seq (nat * verifier G) :=
  pmap (fun i => if mget i (g_verifiers g) is Some v then
                   if deal_certified (v_agg v) then Some (i, v) else None else None) (vord (mkeys (g_verifiers g))).
Definition old_qual_entries (vord : seq nat -> seq nat) (g : dkg) : seq (nat * aggregator G) :=
  pmap (fun i => if mget i (g_old_aggs g) is Some a then
                   if deal_certified a then Some (i, a) else None else None) (vord (mkeys (g_old_aggs g))).

(** A walk that stops at the first entry for which the callback returns [false] (dkg.rs 866-869): the entries for which
    it returned [true]. *)
Fixpoint take_while {T : Type} (p : T -> bool) (l : seq T) : seq T :=
  if l is x :: l' then if p x then x :: take_while p l' else [::] else [::].

(** dkg.rs 832-846 [qual]. *)
Definition qual (vord : seq nat -> seq nat) (g : dkg) : seq nat :=
  if [&& g_resharing g, g_can_issue g & ~~ g_new_present g] then map fst (old_qual_entries vord g)
  else map fst (qual_entries vord g).

(** dkg.rs 848-859 [is_in_qual]. *)
Definition is_in_qual (vord : seq nat -> seq nat) (g : dkg) (i : nat) : bool := i \in map fst (qual_entries vord g).

(** dkg.rs 716-726 [threshold_certified]: the configured threshold, zero when it was left to the default. *)
Definition threshold_certified (vord : seq nat -> seq nat) (g : dkg) : bool :=
  if g_resharing g then (c_old_t (g_c g) <= size (qual vord g))%N else (c_t (g_c g) <= size (qual vord g))%N.

(** dkg.rs 731-751 [certified]. *)
Definition dcertified (vord : seq nat -> seq nat) (g : dkg) : bool :=
  let good0 := if [&& g_resharing g, g_can_issue g & ~~ g_new_present g]
               then take_while (fun ia => missing_responses ia.2 == [::]) (old_qual_entries vord g) else [::] in
  let good1 := take_while (fun iv => missing_responses (v_agg iv.2) == [::]) (qual_entries vord g) in
  (size (c_old (g_c g)) <= size good0 + size good1)%N.

(** dkg.rs 765-814 [qualified_shares]; the two walks only fill sets, so their order does not matter. *)
Definition qualified_shares (g : dkg) : seq nat :=
  let holders := iota 0 (size (c_new (g_c g))) in
  let responses (iv : nat * verifier G) := a_responses (v_agg iv.2) in
  let invalid_deal iv :=
    (size (responses iv) == 0%N) ||
    has (fun h => if mget h (responses iv) is Some r then ~~ r_status r else false) holders in
  let valid_deals := [seq iv <- g_verifiers g | ~~ invalid_deal iv] in
  [seq h <- holders | ~~ has (fun iv => if mget h (responses iv) is None then true else false) valid_deals].

(** dkg.rs 818-826 [expected_deals]; with [old_present] the old list is not empty. *)
Definition expected_deals (g : dkg) : nat :=
  if g_new_present g then
    if g_old_present g then (size (c_old (g_c g)) - 1)%N else size (c_old (g_c g))
  else 0%N.

(** dkg.rs 905-954 [dkg_key]: the first error stops the walk and is returned; [pubb.unwrap()] (943). *)
Definition dkg_key (vord : seq nat -> seq nat) (g : dkg) : outcome dkg_error dkshare :=
  let! r := foldo (fun acc iv =>
      let '(sh, pubb) := acc in
      match verifier_deal iv.2 with
      | None => Err DealsNotFound
      | Some d =>
          let sh := sh + ps_v (d_share d) in
          let poly := PubPoly (Some B) (d_commits d) in
          match pubb with
          | Some p => let! p' := dpoly (pub_add p poly) in Ok (sh, Some p')
          | None => Ok (sh, Some poly)
          end
      end) (0, None) (qual_entries vord g) in
  let '(sh, pubb) := r in
  let! p := of_option pubb in
  Ok (DKShare (pcommits p) (PriShare (g_nidx g) sh) (dl_poly (g_dealer g))).

(** dkg.rs 956-1038 [resharing_key]: the error of the walk is dropped (969-984), so the walk just stops; [hord 0] orders
    the maps of [recover_pri_poly], [hord i.+1] those of the i-th [recover_commit]. *)
Definition resharing_key (vord : seq nat -> seq nat) (hord : nat -> hash_order F) (g : dkg) : outcome dkg_error dkshare :=
  let cap := size (g_verifiers g) in
  let good := take_while (fun iv => isSome (verifier_deal iv.2)) (qual_entries vord g) in
  let! st := foldo (fun acc iv =>
      let '(shares, coeffs) := acc in
      let! d := of_option (verifier_deal iv.2) in
      if (cap <= iv.1)%N then Panic else
      Ok (set_nth None shares iv.1 (Some (PriShare iv.1 (ps_v (d_share d)))),
          set_nth None coeffs iv.1 (Some (d_commits d)))) (nseq cap None, nseq cap None) good in
  let '(shares, coeffs) := st in
  let! pp := dpoly (recover_pri_poly (hord 0%N) shares (g_old_t g)) in
  let! sec := dpoly (pri_secret pp) in
  let private_share := PriShare (g_nidx g) sec in
  let! final := foldo (fun acc i =>
      let! tmp := foldo (fun tmp j =>
          match nth None coeffs j with
          | None => Ok (rcons tmp None)
          | Some cs => let! c := of_option (nth None (map Some cs) i) in Ok (rcons tmp (Some (PubShare j c)))
          end) [::] (iota 0 (size coeffs)) in
      let! c := dpoly (recover_commit (hord i.+1) tmp (g_old_t g)) in
      Ok (rcons acc c)) [::] (iota 0 (g_new_t g)) in
  let! ok := dpoly (pub_check B (PubPoly None final) private_share) in
  if ~~ ok then Err ShareDoesNotMatchPublicPoly else
  Ok (DKShare final private_share pp).

(** dkg.rs 890-903 [dist_key_share]. *)
Definition dist_key_share (vord : seq nat -> seq nat) (hord : nat -> hash_order F) (g : dkg) : outcome dkg_error dkshare :=
  if ~~ threshold_certified vord g then Err DistributedKeyNotCertified else
  if ~~ g_can_receive g then Err ShouldReceive else
  if g_resharing g then resharing_key vord hord g else dkg_key vord g.

(** structs.rs 58-62 [DistKeyShare::public]. *)
Definition dk_public (s : dkshare) : outcome dkg_error G := of_option (nth None (map Some (dk_commits s)) 0).

(** dkg.rs 1068-1099 [renew]; [commits[0]] of the refresh and [g.commits[i]] panic when there are too few. *)
Definition renew (d g : dkshare) : outcome dkg_error dkshare :=
  let! p := dk_public g in
  if p != (0 : F) *: B then Err WrongRenewal else
  if ps_i (dk_share d) != ps_i (dk_share g) then Err DifferentParty else
  let v := ps_v (dk_share d) + ps_v (dk_share g) in
  let! cs := foldo (fun acc i =>
      let! a := of_option (nth None (map Some (dk_commits d)) i) in
      let! b := of_option (nth None (map Some (dk_commits g)) i) in
      Ok (rcons acc (a + b))) [::] (iota 0 (size (dk_commits d))) in
  Ok (DKShare cs (PriShare (ps_i (dk_share d)) v) [::]).

End Dkg.
