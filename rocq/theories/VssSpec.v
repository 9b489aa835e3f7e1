(** Specification vocabulary for the Pedersen VSS properties: message histories, and what has been answered. *)
From mathcomp Require Import all_ssreflect all_algebra.
From Verif Require Import Base PolyModel Suite VssModel.

Set Implicit Arguments.
Unset Strict Implicit.
Unset Printing Implicit Defensive.

Section Spec.
Variables (F : fieldType) (G : lmodType F) (S : suite G).
Variable deal_dec : bytestr -> option (deal G).

(** The answer recorded for verifier i, if any. *)
Definition status_of (a : aggregator G) (i : nat) : option bool := omap r_status (mget i (a_responses a)).

(** How many of the n verifiers have the given answer. *)
Definition answers (a : aggregator G) (s : option bool) : nat :=
  count (fun i => status_of a i == s) (iota 0 (size (a_verifiers a))).

(** What can happen to a verifier: a deal, a response or a justification arrives (from anybody, with any content), or the
    period ends. *)
Inductive vevent :=
| EvDeal (e : enc_deal G) (k : F)
| EvResponse (r : response)
| EvJustification (j : justification G)
| EvTimeout.

Definition vstep (v : verifier G) (ev : vevent) : verifier G :=
  match ev with
  | EvDeal e k => (process_encrypted_deal S deal_dec v e k).1
  | EvResponse r => (verifier_process_response S v r).1
  | EvJustification j => (verifier_process_justification S v j).1
  | EvTimeout => verifier_set_timeout v
  end.

Definition vrun (v : verifier G) (evs : seq vevent) : verifier G := foldl vstep v evs.

(** Hand a list of responses to an aggregator; [None] as soon as one is refused. *)
Definition feed (a : aggregator G) (rs : seq response) : option (aggregator G) :=
  foldl (fun oa r => if oa is Some a then
                       let '(a', o) := verify_response S a r in if is_ok o then Some a' else None
                     else None) (Some a) rs.
End Spec.
