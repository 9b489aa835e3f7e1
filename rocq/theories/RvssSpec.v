(** Specification vocabulary for the Rabin VSS properties. *)
From mathcomp Require Import all_ssreflect all_algebra.
From Verif Require Import Base PolyModel Suite VssModel RvssModel.

Set Implicit Arguments.
Unset Strict Implicit.
Unset Printing Implicit Defensive.

Import GRing.Theory.
Section Spec.
Variables (F : fieldType) (G : lmodType F) (S : suite G).
Variable rdeal_dec : bytestr -> option (rdeal G).

(** The answer recorded for verifier i, if any. *)
Definition rstatus_of (a : raggregator G) (i : nat) : option bool := omap r_status (mget i (ra_responses a)).

(** How many of the n verifiers have the given answer. *)
Definition ranswers (a : raggregator G) (s : option bool) : nat :=
  count (fun i => rstatus_of a i == s) (iota 0 (size (ra_verifiers a))).

(** What can happen to a verifier, and to a dealer. *)
Inductive revent :=
| REvDeal (e : enc_deal G) (k : F)
| REvResponse (r : response)
| REvJustification (j : rjustification G)
| REvTimeout.

Definition rvstep (v : rverifier G) (ev : revent) : rverifier G :=
  match ev with
  | REvDeal e k => (rprocess_encrypted_deal S rdeal_dec v e k).1
  | REvResponse r => (rverifier_process_response S v r).1
  | REvJustification j => (rverifier_process_justification S v j).1
  | REvTimeout => rverifier_set_timeout v
  end.
Definition rvrun (v : rverifier G) (evs : seq revent) : rverifier G := foldl rvstep v evs.

(** A dealer sees responses and timeouts ([None]). *)
Definition rlstep rdeal_enc (d : rdealer G) (ev : option (response * F)) : rdealer G :=
  match ev with
  | Some (r, k) => (rdealer_process_response S rdeal_enc d r k).1
  | None => rdealer_set_timeout d
  end.
Definition rlrun rdeal_enc (d : rdealer G) evs : rdealer G := foldl (rlstep rdeal_enc) d evs.

(** Hand a list of responses to an aggregator; [None] as soon as one is refused. *)
Definition rfeed (a : raggregator G) (rs : seq response) : option (raggregator G) :=
  foldl (fun oa r => if oa is Some a then
                       let '(a', o) := rverify_response S a r in if is_ok o then Some a' else None
                     else None) (Some a) rs.

(** The deal belongs to the session of [a] and both its shares open, at a common index in range, the commitment
    polynomial it carries. *)
Definition rdeal_valid (a : raggregator G) (d : rdeal G) : Prop :=
  [/\ (2 <= rd_t d <= size (ra_verifiers a))%N, rd_sid d = ra_sid a,
      ps_i (rd_rnd d) = ps_i (rd_sec d) /\ (ps_i (rd_sec d) < size (ra_verifiers a))%N, rd_commits d <> [::] &
      (ps_v (rd_sec d) *: su_base S + ps_v (rd_rnd d) *: su_derive S (flatten (map (su_enc S) (ra_verifiers a))) =
       \sum_(k < size (rd_commits d)) (ps_i (rd_sec d)).+1%:R ^+ k *: (rd_commits d)`_k)%R].
End Spec.
