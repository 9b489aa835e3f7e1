(** Model of src/sign/dss/dss_sig.rs: distributed Schnorr signatures.

    Simplifications:
    - [sha512] followed by [scalar().set_bytes] is one function [chal] from byte strings to scalars;
    - the two distributed key shares ([DistKeyShare], 37-40) are pairs of commitments and share, as returned by the two key
      generation modules (DkgModel, RdkgModel);
    - [partials_idx] keeps only its keys (all values are [true]); [suite] is left out;
    - marshalling of points and scalars succeeds (it cannot fail for the groups of the library). *)
From mathcomp Require Import all_ssreflect all_algebra.
From Verif Require Import Base PolyModel Suite VssModel.

Set Implicit Arguments.
Unset Strict Implicit.
Unset Printing Implicit Defensive.

Import GRing.Theory.
Local Open Scope ring_scope.
Local Open Scope outcome_scope.

(** dss_sig.rs 361-381 [DSSError]. *)
Inductive dss_error :=
| DssSignature | PublicKeyNotInParticipants | InvalidIndex | NotEnoughPartials | RecoverSecretError (e : poly_error)
| PartialSignatureHash | InvalidSessionId | PartialAlreadyReceived | InvalidPartialSignature.

Section Dss.
Variables (F : fieldType) (G : lmodType F) (S : suite G).
Notation B := (su_base S).
(** [scalar().set_bytes(sha512(m))]. *)
Variable chal : bytestr -> F.

(** dss_sig.rs 34-40 [DistKeyShare]. *)
Record dks := Dks { dks_commits : seq G; dks_share : pri_share F }.

(** dss_sig.rs 42-62 [DSS]; [long_poly] and [random_poly] (193, 195) are computed from [ds_long] and [ds_random]. *)
Record dss := Dss {
  ds_secret : F; ds_public : G; ds_index : nat; ds_parts : seq G; ds_t : nat; ds_long : dks; ds_random : dks;
  ds_msg : bytestr; ds_partials : seq (option (pri_share F)); ds_idx : seq nat; ds_signed : bool; ds_sid : bytestr }.

(** dss_sig.rs 140-145 [PartialSig]. *)
Record partial_sig := PartialSig { pt_partial : pri_share F; pt_sid : bytestr; pt_sig : bytestr }.

(** poly.rs 57-62 [PriShare::hash]. *)
Definition share_hash (s : pri_share F) : bytestr := su_hash S (su_senc S (ps_v s) ++ u32le (ps_i s)).
(** dss_sig.rs 150-160 [PartialSig::hash]. *)
Definition partial_hash (p : partial_sig) : bytestr := su_hash S (share_hash (pt_partial p) ++ pt_sid p).

(** dss_sig.rs 342-359 [session_id]. *)
Definition dss_session_id (a b : dks) : bytestr :=
  su_hash S (flatten (map (su_enc S) (dks_commits a)) ++ flatten (map (su_enc S) (dks_commits b))).

(** dss_sig.rs 168-205 [new_dss]. *)
Definition new_dss (secret : F) (parts : seq G) (long random : dks) (msg : bytestr) (t : nat) : outcome dss_error dss :=
  let public := pmul B secret None in
  let i := seq.index public parts in
  if ~~ (i < size parts)%N then Err PublicKeyNotInParticipants else
  Ok (Dss secret public i parts t long random msg [::] [::] false (dss_session_id long random)).

(** dss_sig.rs 312-326 [hash_sig]: [commitments()[0]] panics on an empty list. *)
Definition hash_sig (d : dss) : outcome dss_error F :=
  let! r := of_option (nth None (map Some (dks_commits (ds_random d))) 0) in
  let! a := of_option (nth None (map Some (dks_commits (ds_long d))) 0) in
  Ok (chal (su_enc S r ++ su_enc S a ++ ds_msg d)).

(** Field updates. *)
Definition ds_push (d : dss) (s : pri_share F) (signed : bool) : dss :=
  Dss (ds_secret d) (ds_public d) (ds_index d) (ds_parts d) (ds_t d) (ds_long d) (ds_random d) (ds_msg d)
      (rcons (ds_partials d) (Some s)) (ps_i s :: ds_idx d) signed (ds_sid d).

(** dss_sig.rs 215-237 [partial_sig]; [k] is the nonce of the Schnorr signature. *)
Definition dss_partial_sig (d : dss) (k : F) : dss * outcome dss_error partial_sig :=
  let alpha := ps_v (dks_share (ds_long d)) in
  let beta := ps_v (dks_share (ds_random d)) in
  match hash_sig d with
  | Ok h =>
      let s := PriShare (ds_index d) (h * alpha + beta) in
      let ps0 := PartialSig s (ds_sid d) [::] in
      let ps := PartialSig s (ds_sid d) (su_sign S (ds_secret d) (partial_hash ps0) k) in
      (if ds_signed d then d else ds_push d s true, Ok ps)
  | Err e => (d, Err e)
  | Panic => (d, Panic)
  | OutOfFuel => (d, OutOfFuel)
  end.

(** dss_sig.rs 244-277 [process_partial_sig]; [find_pub] is 335-340.  An error of the [?] operators leaves the state
    alone. *)
Definition process_partial_sig (d : dss) (ps : partial_sig) : dss * outcome dss_error unit :=
  let s := pt_partial ps in
  match find_pub (ds_parts d) (ps_i s) with
  | None => (d, Err InvalidIndex)
  | Some public =>
      if ~~ su_verify S public (partial_hash ps) (pt_sig ps) then (d, Err DssSignature) else
      if pt_sid ps != ds_sid d then (d, Err InvalidSessionId) else
      if ps_i s \in ds_idx d then (d, Err PartialAlreadyReceived) else
      match hash_sig d with
      | Ok h =>
          match pub_eval (PubPoly (Some B) (dks_commits (ds_random d))) (ps_i s),
                pub_eval (PubPoly (Some B) (dks_commits (ds_long d))) (ps_i s) with
          | Ok rand_share, Ok long_share =>
              let right := pmul B h (Some (us_v long_share)) in
              let right := us_v rand_share + right in
              let left := pmul B (ps_v s) None in
              if left != right then (d, Err InvalidPartialSignature)
              else (ds_push d s (ds_signed d), Ok tt)
          | _, _ => (d, Panic)
          end
      | Err e => (d, Err e)
      | Panic => (d, Panic)
      | OutOfFuel => (d, OutOfFuel)
      end
  end.

(** dss_sig.rs 282-284 [enough_partial_sig]. *)
Definition enough_partial_sig (d : dss) : bool := (ds_t d <= size (ds_partials d))%N.

(** dss_sig.rs 290-310 [signature]; [ord] orders the maps of [recover_secret]. *)
Definition dss_signature (ord : hash_order F) (d : dss) : outcome dss_error bytestr :=
  if ~~ enough_partial_sig d then Err NotEnoughPartials else
  match recover_secret ord (ds_partials d) (ds_t d) with
  | Ok gamma =>
      let! r := of_option (nth None (map Some (dks_commits (ds_random d))) 0) in
      Ok (su_enc S r ++ su_senc S gamma)
  | Err e => Err (RecoverSecretError e)
  | Panic => Panic
  | OutOfFuel => OutOfFuel
  end.
End Dss.
