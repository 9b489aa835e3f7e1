(** Specification vocabulary for the resharing properties. *)
From mathcomp Require Import all_ssreflect all_algebra.
From Verif Require Import Base PolyModel PolySpec Suite VssModel DkgModel DkgSpec.

Set Implicit Arguments.
Unset Strict Implicit.
Unset Printing Implicit Defensive.

Import GRing.Theory.
Local Open Scope ring_scope.

Section Reshare.
Variables (F : fieldType) (G : lmodType F) (S : suite G).

(** The factor of dealer j when values at k + 1, k in D, are interpolated at 0. *)
Definition weight (D : seq nat) (j : nat) : F := \prod_(k <- D | k != j) ((k.+1)%:R / ((k.+1)%:R - (j.+1)%:R)).

(** The polynomial of a resharing with dealers D and their polynomials f: coefficientwise interpolation at 0. *)
Definition reshared (f : nat -> seq F) (D : seq nat) (t : nat) : seq F :=
  mkseq (fun m => \sum_(j <- D) weight D j * (f j)`_m) t.

(** The dealers the participant regards as certified. *)
Definition certified_dealers (g : dkg G) : seq nat :=
  [seq j <- iota 0 (size (c_old (g_c g))) | if mget j (g_verifiers g) is Some v then deal_certified (v_agg v) else false].

(** The commitments of the old sharing, as configured. *)
Definition old_commits (c : config G) : seq G :=
  match c_coeffs c, c_share c with Some cs, _ => cs | None, Some sh => dk_commits sh | None, None => [::] end.

(** Every deal the participant (with initial state g0) can open under the index of dealer j carries the commitments of
    the polynomial f j. *)
Definition consistent (deal_dec : bytestr -> option (deal G)) (g0 : dkg G) (f : nat -> seq F) (ev : devent G) : Prop :=
  if ev is DEvDeal dd _ _ then
    forall v d, mget (dd_index dd) (g_verifiers g0) = Some v -> decrypt_deal S deal_dec v (dd_deal dd) = Ok d ->
      d_commits d = [seq c *: su_base S | c <- f (dd_index dd)]
  else True.

(** The participant holds every deal it regards as certified. *)
Definition holds_certified (g : dkg G) : Prop :=
  forall j v, mget j (g_verifiers g) = Some v -> deal_certified (v_agg v) -> a_deal (v_agg v) <> None.
End Reshare.
