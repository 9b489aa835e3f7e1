(** Model of src/share/dkg/rabin/dkg.rs: distributed key generation with Pedersen commitments first and Feldman
    commitments revealed afterwards.

    The simplifications are those of VssModel.v and DkgModel.v: hash maps are association lists, [vord] is the order of a
    walk over one, indices are [nat], and a method that changes its receiver returns the new value beside its outcome.
    The [Display] and [Debug] implementations, [serde] and the log of the generator are left out. *)
From mathcomp Require Import all_ssreflect all_algebra.
From Coq Require Import String.
From Verif Require Import Base PolyModel Suite VssModel RvssModel.

Set Implicit Arguments.
Unset Strict Implicit.
Unset Printing Implicit Defensive.

Import GRing.Theory.
Local Open Scope ring_scope.
Local Open Scope outcome_scope.

(** src/share/dkg/errors.rs, the cases this file produces; the text inside [ProtocolNotFinished] is left out. *)
Inductive rdkg_error :=
| RVss (e : vss_error) | RPoly (e : poly_error) | RSignature
| MissingOwnPublicKey | RDistDealIndexOutOfBounds | DistDealAlreadyProcessed | ComplaintWithoutDeal
| RJustificationWithoutDeal | RMissingVerifier | DealNotCertified | MissingCommits
| SecretCommitsOutOfBound | SecretCommitsFromNonQUAL | SecretCommitsWrongId | MissingDeal
| CommitComplaintUnknownIssuer | CommitComplaintNonQUAL | CommitComplaintUnknownVerifier | CommitComplaintNoCommits
| CommitComplaintInvalid | CommitComplaintUncertifiedDeal
| CommitmentsNotInvalidated | ReconstructCommitsInvalidVerifierIndex | ReconstructCommitsInvalidId
| RDistributedKeyNotCertified | RDealsNotFound | ProtocolNotFinished.

Definition rvss {A : Type} (o : outcome vss_error A) : outcome rdkg_error A :=
  match o with Ok a => Ok a | Err e => Err (RVss e) | Panic => Panic | OutOfFuel => OutOfFuel end.
Definition rpoly {A : Type} (o : outcome poly_error A) : outcome rdkg_error A :=
  match o with Ok a => Ok a | Err e => Err (RPoly e) | Panic => Panic | OutOfFuel => OutOfFuel end.

Section Rdkg.
Variables (F : fieldType) (G : lmodType F) (S : suite G).
Notation B := (su_base S).
Variable rdeal_enc : rdeal G -> bytestr.
Variable rdeal_dec : bytestr -> option (rdeal G).

(** dkg.rs 59-66 [DistKeyShare]. *)
Record rdkshare := RDKShare { rk_commits : seq G; rk_share : pri_share F }.
(** dkg.rs 90-95 [DistKeyShare::public]. *)
Definition rk_public (s : rdkshare) : outcome rdkg_error G := of_option (nth None (map Some (rk_commits s)) 0).

(** dkg.rs 116-124 [Deal], 132-141 [Response], 153-162 [Justification]. *)
Record rddeal := RDDeal { rdd_index : nat; rdd_deal : enc_deal G }.
Record rdresponse := RDResponse { rdr_index : nat; rdr_resp : response }.
Record rdjustification := RDJustification { rdj_index : nat; rdj_just : rjustification G }.

(** dkg.rs 174-186 [SecretCommits]. *)
Record secret_commits := SecretCommits { sc_index : nat; sc_commits : seq G; sc_sid : bytestr; sc_sig : bytestr }.
(** dkg.rs 207-218 [SecretCommits::hash]: the session id is not written. *)
Definition sc_hash (sc : secret_commits) : bytestr :=
  su_hash S (str_bytes "secretcommits" ++ u32le (sc_index sc) ++ flatten (map (su_enc S) (sc_commits sc))).

(** dkg.rs 221-234 [ComplaintCommits]. *)
Record complaint_commits := ComplaintCommits { cc_index : nat; cc_dealer : nat; cc_deal : rdeal G; cc_sig : bytestr }.
(** dkg.rs 248-260 [ComplaintCommits::hash]. *)
Definition cc_hash (cc : complaint_commits) : bytestr :=
  su_hash S (str_bytes "commitcomplaint" ++ u32le (cc_index cc) ++ u32le (cc_dealer cc) ++ rdeal_enc (cc_deal cc)).

(** poly.rs 57-62 [PriShare::hash]. *)
Definition pri_share_hash (s : pri_share F) : bytestr := su_hash S (su_senc S (ps_v s) ++ u32le (ps_i s)).

(** dkg.rs 262-277 [ReconstructCommits]. *)
Record reconstruct_commits := ReconstructCommits {
  rc_sid : bytestr; rc_index : nat; rc_dealer : nat; rc_share : pri_share F; rc_sig : bytestr }.
(** dkg.rs 301-313 [ReconstructCommits::hash]: the session id is not written. *)
Definition rc_hash (rc : reconstruct_commits) : bytestr :=
  su_hash S (str_bytes "reconstructcommits" ++ u32le (rc_index rc) ++ u32le (rc_dealer rc) ++ pri_share_hash (rc_share rc)).

(** dkg.rs 315-345 [DistKeyGenerator]; [suite] is left out, of [reconstructed] only the keys are kept (all values are
    [true]). *)
Record rdkg := Rdkg {
  rg_index : nat; rg_long : F; rg_pub : G; rg_parts : seq G; rg_t : nat; rg_dealer : rdealer G;
  rg_verifiers : seq (nat * rverifier G); rg_commits : seq (nat * pub_poly G);
  rg_pending : seq (nat * seq reconstruct_commits); rg_reconstructed : seq nat }.

(** Field updates. *)
Definition rg_set_dealer (g : rdkg) d : rdkg :=
  Rdkg (rg_index g) (rg_long g) (rg_pub g) (rg_parts g) (rg_t g) d (rg_verifiers g) (rg_commits g) (rg_pending g)
       (rg_reconstructed g).
Definition rg_set_verifiers (g : rdkg) m : rdkg :=
  Rdkg (rg_index g) (rg_long g) (rg_pub g) (rg_parts g) (rg_t g) (rg_dealer g) m (rg_commits g) (rg_pending g)
       (rg_reconstructed g).
Definition rg_set_ver (g : rdkg) i v : rdkg := rg_set_verifiers g (minsert i v (rg_verifiers g)).
Definition rg_set_commits (g : rdkg) m : rdkg :=
  Rdkg (rg_index g) (rg_long g) (rg_pub g) (rg_parts g) (rg_t g) (rg_dealer g) (rg_verifiers g) m (rg_pending g)
       (rg_reconstructed g).
Definition rg_set_pending (g : rdkg) m : rdkg :=
  Rdkg (rg_index g) (rg_long g) (rg_pub g) (rg_parts g) (rg_t g) (rg_dealer g) (rg_verifiers g) (rg_commits g) m
       (rg_reconstructed g).
Definition rg_set_reconstructed (g : rdkg) l : rdkg :=
  Rdkg (rg_index g) (rg_long g) (rg_pub g) (rg_parts g) (rg_t g) (rg_dealer g) (rg_verifiers g) (rg_commits g)
       (rg_pending g) l.

(** [HashMap::remove]. *)
Definition mremove {T : Type} (k : nat) (m : seq (nat * T)) : seq (nat * T) := [seq kv <- m | kv.1 != k].

(** dkg.rs 422-460 [new_dist_key_generator]; [secret] is the picked secret (444), [fp] and [gp] the coefficients the
    dealer picks. *)
Definition new_rdkg (long : F) (parts : seq G) (t : nat) (secret : F) (fp gp : nat -> F) : outcome rdkg_error rdkg :=
  let pubb := pmul B long None in
  if (seq.index pubb parts < size parts)%N then
    let! d := rvss (new_rdealer S long secret parts t fp gp) in
    Ok (Rdkg (seq.index pubb parts) long pubb parts t d [::] [::] [::] [::])
  else Err MissingOwnPublicKey.

(** dkg.rs 959-965 [find_pub]: that of vss.rs. *)
Definition rg_find_pub (g : rdkg) (i : nat) : option G := find_pub (rg_parts g) i.

(** [ver.unsafe_set_response_dkg(..)] on a verifier: through the [DerefMut]; the aggregator is there after a processed
    deal. *)
Definition rv_unsafe_set (v : rverifier G) (idx : nat) (b : bool) : rverifier G :=
  if rv_agg v is Some a then rv_set_agg v (runsafe_set_response_dkg a idx b) else v.

(** dkg.rs 511-541 [process_deal]; [k] is the nonce of the response's signature. *)
Definition rgprocess_deal (g : rdkg) (dd : rddeal) (k : F) : rdkg * outcome rdkg_error rdresponse :=
  match rg_find_pub g (rdd_index dd) with
  | None => (g, Err RDistDealIndexOutOfBounds)
  | Some pubb =>
    if mget (rdd_index dd) (rg_verifiers g) is Some _ then (g, Err DistDealAlreadyProcessed) else
    match new_rverifier S (rg_long g) pubb (rg_parts g) with
    | Ok ver =>
      let '(ver, o) := rprocess_encrypted_deal S rdeal_dec ver (rdd_deal dd) k in
      match o with
      | Ok resp => (rg_set_ver g (rdd_index dd) (rv_unsafe_set ver (rdd_index dd) true), Ok (RDResponse (rdd_index dd) resp))
      | Err e => (g, Err (RVss e))
      | Panic => (g, Panic)
      | OutOfFuel => (g, OutOfFuel)
      end
    | Err e => (g, Err (RVss e))
    | Panic => (g, Panic)
    | OutOfFuel => (g, OutOfFuel)
    end
  end.

(** dkg.rs 470-509 [deals]; [rnd i] is the randomness of the i-th encrypted deal, [k] that of the own response. *)
Definition rgdeals (g : rdkg) (rnd : nat -> F * F) (k : F) : rdkg * outcome rdkg_error (seq (nat * rddeal)) :=
  match rencrypted_deals S rdeal_enc (rg_dealer g) rnd with
  | Ok ds =>
      foldl (fun acc i =>
          match acc with
          | (g, Ok dd) =>
            match nth None (map Some ds) i with
            | None => (g, Panic)
            | Some e =>
              let distd := RDDeal (rg_index g) e in
              if i == rg_index g then
                if mget (rg_index g) (rg_verifiers g) is Some _ then (g, Ok dd) else
                let '(g, o) := rgprocess_deal g distd k in
                match o with
                | Ok r =>
                    if ~~ r_status (rdr_resp r) then (g, Panic)
                    else (rg_set_dealer g (rl_set_agg (rg_dealer g)
                            (runsafe_set_response_dkg (rl_agg (rg_dealer g)) (rg_index g) true)), Ok dd)
                | Err e => (g, Err e)
                | Panic => (g, Panic)
                | OutOfFuel => (g, OutOfFuel)
                end
              else (g, Ok (minsert i distd dd))
            end
          | _ => acc
          end) (g, Ok [::]) (iota 0 (size (rg_parts g)))
  | Err e => (g, Err (RVss e))
  | Panic => (g, Panic)
  | OutOfFuel => (g, OutOfFuel)
  end.

(** dkg.rs 543-575 [process_response]; [k] is the nonce of the justification's signature. *)
Definition rgprocess_response (g : rdkg) (r : rdresponse) (k : F) : rdkg * outcome rdkg_error (option rdjustification) :=
  match mget (rdr_index r) (rg_verifiers g) with
  | None => (g, Err ComplaintWithoutDeal)
  | Some v =>
    let '(v, o) := rverifier_process_response S v (rdr_resp r) in
    let g := rg_set_ver g (rdr_index r) v in
    match o with
    | Ok _ =>
      if rdr_index r != rg_index g then (g, Ok None) else
      let '(d, oj) := rdealer_process_response S rdeal_enc (rg_dealer g) (rdr_resp r) k in
      let g := rg_set_dealer g d in
      match oj with
      | Ok None => (g, Ok None)
      | Ok (Some just) =>
          let '(v, o) := rverifier_process_justification S v just in
          (rg_set_ver g (rdr_index r) v, let! _ := rvss o in Ok (Some (RDJustification (rg_index g) just)))
      | Err e => (g, Err (RVss e))
      | Panic => (g, Panic)
      | OutOfFuel => (g, OutOfFuel)
      end
    | Err e => (g, Err (RVss e))
    | Panic => (g, Panic)
    | OutOfFuel => (g, OutOfFuel)
    end
  end.

(** dkg.rs 577-590 [process_justification]. *)
Definition rgprocess_justification (g : rdkg) (j : rdjustification) : rdkg * outcome rdkg_error unit :=
  match mget (rdj_index j) (rg_verifiers g) with
  | None => (g, Err RJustificationWithoutDeal)
  | Some v =>
      let '(v, o) := rverifier_process_justification S v (rdj_just j) in
      (rg_set_ver g (rdj_index j) v, rvss o)
  end.

(** dkg.rs 592-598 [set_timeout]. *)
Definition rgset_timeout (g : rdkg) : rdkg :=
  rg_set_verifiers g [seq (iv.1, rverifier_set_timeout iv.2) | iv <- rg_verifiers g].

(** [v.deal_certified()] on a stored verifier.  The [Deref] panics without an aggregator; a verifier is only stored once
    it has one (535, proved as [stored_aggregators]), so the [false] is never reached. *)
Definition rv_certified (v : rverifier G) : bool := if rv_agg v is Some a then rdeal_certified a else false.

(** dkg.rs 634-643 [qual_iter] with a callback that never stops: the certified entries in the order of the walk. *)
Definition rqual_entries (vord : seq nat -> seq nat) (g : rdkg) : seq (nat * rverifier G) :=
  pmap (fun i => if mget i (rg_verifiers g) is Some v then
                   if rv_certified v then Some (i, v) else None else None) (vord (mkeys (rg_verifiers g))).

(** dkg.rs 607-619 [qual]. *)
Definition rqual (vord : seq nat -> seq nat) (g : rdkg) : seq nat := map fst (rqual_entries vord g).

(** dkg.rs 600-605 [certified]. *)
Definition rcertified (vord : seq nat -> seq nat) (g : rdkg) : bool := (rg_t g <= size (rqual vord g))%N.

(** dkg.rs 621-632 [is_in_qual]: whether the walk finds the index does not depend on its order. *)
Definition ris_in_qual (g : rdkg) (i : nat) : bool := if mget i (rg_verifiers g) is Some v then rv_certified v else false.

(** dkg.rs 645-683 [secret_commits]; [k] is the nonce of the signature. *)
Definition rsecret_commits (g : rdkg) (k : F) : rdkg * outcome rdkg_error secret_commits :=
  if ~~ rdeal_certified (rl_agg (rg_dealer g)) then (g, Err DealNotCertified) else
  match rdealer_commits (rg_dealer g) with
  | None => (g, Err MissingCommits)
  | Some cs =>
      let sc := SecretCommits (rg_index g) cs (rl_sid (rg_dealer g)) [::] in
      let sig := su_sign S (rg_long g) (sc_hash sc) k in
      (rg_set_commits g (minsert (rg_index g) (PubPoly (Some B) cs) (rg_commits g)),
       Ok (SecretCommits (rg_index g) cs (rl_sid (rg_dealer g)) sig))
  end.

(** dkg.rs 685-738 [process_secret_commits]; [k] is the nonce of the complaint's signature. *)
Definition rprocess_secret_commits (g : rdkg) (sc : secret_commits) (k : F)
  : rdkg * outcome rdkg_error (option complaint_commits) :=
  match rg_find_pub g (sc_index sc) with
  | None => (g, Err SecretCommitsOutOfBound)
  | Some pubb =>
    if ~~ ris_in_qual g (sc_index sc) then (g, Err SecretCommitsFromNonQUAL) else
    match mget (sc_index sc) (rg_verifiers g) with
    | None => (g, Err RMissingVerifier)
    | Some v =>
      match rverifier_session_id v with
      | Ok sid =>
        if sid != sc_sid sc then (g, Err SecretCommitsWrongId) else
        if ~~ su_verify S pubb (sc_hash sc) (sc_sig sc) then (g, Err RSignature) else
        match rverifier_deal v with
        | None => (g, Err MissingDeal)
        | Some deal =>
          let poly := PubPoly (Some B) (sc_commits sc) in
          match pub_check B poly (rd_sec deal) with
          | Ok false =>
              let cc := ComplaintCommits (rg_index g) (sc_index sc) deal [::] in
              (g, Ok (Some (ComplaintCommits (rg_index g) (sc_index sc) deal (su_sign S (rg_long g) (cc_hash cc) k))))
          | Ok true => (rg_set_commits g (minsert (sc_index sc) poly (rg_commits g)), Ok None)
          | Err e => (g, Err (RPoly e))
          | Panic => (g, Panic)
          | OutOfFuel => (g, OutOfFuel)
          end
        end
      | _ => (g, Panic)
      end
    end
  end.

(** dkg.rs 740-808 [process_complaint_commits]; [k] is the nonce of the reconstruct message's signature.  [v.verify_deal]
    is the aggregator's, through the [DerefMut]. *)
Definition rprocess_complaint_commits (g : rdkg) (cc : complaint_commits) (k : F)
  : rdkg * outcome rdkg_error reconstruct_commits :=
  match rg_find_pub g (cc_index cc) with
  | None => (g, Err CommitComplaintUnknownIssuer)
  | Some issuer =>
    if ~~ ris_in_qual g (cc_index cc) then (g, Err CommitComplaintNonQUAL) else
    if ~~ su_verify S issuer (cc_hash cc) (cc_sig cc) then (g, Err RSignature) else
    match mget (cc_dealer cc) (rg_verifiers g) with
    | None => (g, Err CommitComplaintUnknownVerifier)
    | Some v =>
      match rv_agg v with
      | None => (g, Panic)
      | Some a =>
        let '(a, o) := rverify_deal S a (cc_deal cc) false in
        let v := rv_set_agg v a in
        let g := rg_set_ver g (cc_dealer cc) v in
        match o with
        | Ok _ =>
          match mget (cc_dealer cc) (rg_commits g) with
          | None => (g, Err CommitComplaintNoCommits)
          | Some poly =>
            match pub_check B poly (rd_sec (cc_deal cc)) with
            | Ok true => (g, Err CommitComplaintInvalid)
            | Ok false =>
              match rverifier_deal v with
              | None => (g, Err CommitComplaintUncertifiedDeal)
              | Some deal =>
                let g := rg_set_commits g (mremove (cc_dealer cc) (rg_commits g)) in
                let rc0 := ReconstructCommits (rd_sid (cc_deal cc)) (rg_index g) (cc_dealer cc) (rd_sec deal) [::] in
                let rc := ReconstructCommits (rd_sid (cc_deal cc)) (rg_index g) (cc_dealer cc) (rd_sec deal)
                            (su_sign S (rg_long g) (rc_hash rc0) k) in
                let arr := if mget (cc_dealer cc) (rg_pending g) is Some l then l else [::] in
                (rg_set_pending g (minsert (cc_dealer cc) (rcons arr rc) (rg_pending g)), Ok rc)
              end
            | Err e => (g, Err (RPoly e))
            | Panic => (g, Panic)
            | OutOfFuel => (g, OutOfFuel)
            end
          end
        | Err e => (g, Err (RVss e))
        | Panic => (g, Panic)
        | OutOfFuel => (g, OutOfFuel)
        end
      end
    end
  end.

(** dkg.rs 843-850, the scan of the pending messages: [Some o] when it returns early. *)
Fixpoint rscan (rc : reconstruct_commits) (arr : seq reconstruct_commits) : option (outcome rdkg_error unit) :=
  match arr with
  | [::] => None
  | r :: arr' =>
      if rc_index r == rc_index rc then Some (Ok tt)
      else if rc_sid r != rc_sid rc then Some (Err ReconstructCommitsInvalidId) else rscan rc arr'
  end.

(** dkg.rs 810-872 [process_reconstruct_commits]; [hord] orders the maps of [recover_pri_poly]. *)
Definition rprocess_reconstruct_commits (hord : hash_order F) (g : rdkg) (rc : reconstruct_commits)
  : rdkg * outcome rdkg_error unit :=
  if rc_dealer rc \in rg_reconstructed g then (g, Ok tt) else
  if mget (rc_dealer rc) (rg_commits g) is Some _ then (g, Err CommitmentsNotInvalidated) else
  match rg_find_pub g (rc_index rc) with
  | None => (g, Err ReconstructCommitsInvalidVerifierIndex)
  | Some pubb =>
    if ~~ su_verify S pubb (rc_hash rc) (rc_sig rc) then (g, Err RSignature) else
    let arr := if mget (rc_dealer rc) (rg_pending g) is Some l then l else [::] in
    let g := rg_set_pending g (minsert (rc_dealer rc) arr (rg_pending g)) in
    match rscan rc arr with
    | Some o => (g, o)
    | None =>
      let arr := rcons arr rc in
      let g := rg_set_pending g (minsert (rc_dealer rc) arr (rg_pending g)) in
      if (rg_t g <= size arr)%N then
        match recover_pri_poly hord [seq Some (rc_share r) | r <- arr] (rg_t g) with
        | Ok pri =>
            let g := rg_set_commits g (minsert (rc_dealer rc) (pri_commit B pri (Some B)) (rg_commits g)) in
            let g := rg_set_reconstructed g (rc_dealer rc :: rg_reconstructed g) in
            (rg_set_pending g (mremove (rc_dealer rc) (rg_pending g)), Ok tt)
        | Err e => (g, Err (RPoly e))
        | Panic => (g, Panic)
        | OutOfFuel => (g, OutOfFuel)
        end
      else (g, Ok tt)
    end
  end.

(** dkg.rs 874-896 [finished]: the walk stops at the first member without commitments, and then the answer is [false]. *)
Definition rfinished (vord : seq nat -> seq nat) (g : rdkg) : bool :=
  let l := rqual_entries vord g in
  (rg_t g <= size l)%N && all (fun iv => isSome (mget iv.1 (rg_commits g))) l.

(** dkg.rs 898-957 [dist_key_share]: the first error stops the walk and is returned; [pubb.unwrap()] (946). *)
Definition rdist_key_share (vord : seq nat -> seq nat) (g : rdkg) : outcome rdkg_error rdkshare :=
  if ~~ rcertified vord g then Err RDistributedKeyNotCertified else
  let! r := foldo (fun acc iv =>
      let '(sh, pubb) := acc in
      match rverifier_deal iv.2 with
      | None => Err RDealsNotFound
      | Some d =>
          let sh := sh + ps_v (rd_sec d) in
          match mget iv.1 (rg_commits g) with
          | None => Err ProtocolNotFinished
          | Some poly =>
              match pubb with
              | Some p => let! p' := rpoly (pub_add p poly) in Ok (sh, Some p')
              | None => Ok (sh, Some poly)
              end
          end
      end) (0, None) (rqual_entries vord g) in
  let '(sh, pubb) := r in
  let! p := of_option pubb in
  Ok (RDKShare (pcommits p) (PriShare (rg_index g) sh)).

End Rdkg.
