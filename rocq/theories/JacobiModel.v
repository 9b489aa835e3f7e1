(** Model of [jacobi] of src/group/integer_field/integer.rs. *)
From Coq Require Import ZArith.
From Verif Require Import Base Bytes IntModel.
From mathcomp Require Import all_ssreflect.
Set Implicit Arguments.
Unset Strict Implicit.
Unset Printing Implicit Defensive.
Local Open Scope Z_scope.

(** The Legendre symbol of a modulo p, by its definition: 0 for multiples of p, 1 for squares, -1 otherwise. *)
Definition legendre (a : Z) (p : nat) : Z :=
  let P := Z.of_nat p in
  if (a mod P =? 0) then 0
  else if has (fun x => ((Z.of_nat x * Z.of_nat x) mod P =? a mod P)) (iota 0 p) then 1 else -1.
(** num_bigint_dig [jacobi] (called from integer.rs 483), by its contract: the product of the Legendre symbols over the prime
    factors of y with multiplicity; it panics for an even y.  For a negative y the sign is turned when x is negative too.
    The library computes the same number by reciprocity. *)
Definition jacobi_sym (x : Z) (m : nat) : Z := foldr (fun p r => Z.pow (legendre x p) (Z.of_nat (logn p m)) * r) 1 (primes m).
Definition jacobi (x y : Z) : outcome int_error Z :=
  if Z.even y then Panic
  else Ok ((if (y <? 0) && (x <? 0) then -1 else 1) * jacobi_sym x (Z.to_nat (Z.abs y))).
(** integer.rs 480-485 [Int::jacobi]: the byte order is the receiver's, the modulus the argument's. *)
Definition int_jacobi (i a : Int) : outcome int_error Int :=
  bindo (jacobi (iv a) (im a)) (fun v => Ok (mkInt v (im a) (ibo i))).
