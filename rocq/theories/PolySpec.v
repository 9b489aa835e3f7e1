(** Specification vocabulary for the polynomial properties, independent of the model's helper functions. *)
From mathcomp Require Import all_ssreflect all_algebra.

Set Implicit Arguments.
Unset Strict Implicit.
Unset Printing Implicit Defensive.

Import GRing.Theory.
Local Open Scope ring_scope.

Section Spec.
Variable F : fieldType.
Variable G : lmodType F.

(** The value of the polynomial with coefficients f (constant term first) at x. *)
Definition peval (f : seq F) (x : F) : F := \sum_(j < size f) f`_j * x ^+ j.

(** The same in the exponent. *)
Definition geval (cs : seq G) (x : F) : G := \sum_(j < size cs) x ^+ j *: cs`_j.

(** The share of index i of f: the value at i + 1. *)
Definition share_value (f : seq F) (i : nat) : F := peval f (i.+1)%:R.
Definition pub_share_value (cs : seq G) (i : nat) : G := geval cs (i.+1)%:R.

(** [k] distinct elements occur in s. *)
Definition distinct_at_least (s : seq nat) (k : nat) : Prop :=
  exists2 s' : seq nat, uniq s' /\ size s' = k & {subset s' <= s}.
End Spec.
