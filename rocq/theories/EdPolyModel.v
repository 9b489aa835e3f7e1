(** Model of share/poly.rs [PubPoly::eval] and [PubPoly::check] at the group edwards25519 (group of all points of the curve,
    cofactor 8), where PolyModel.v takes an abstract group of prime order. *)
From Coq Require Import ZArith List Bool.
From Verif Require Import Base Bytes ScModel IntModel FeModel GeModel PointModel.
Import ListNotations.
Local Open Scope Z_scope.
Local Open Scope outcome_scope.

(** [1 + (i as i64)] on a 64-bit [usize]; overflow checks are off (Cargo.toml). *)
Definition i64_of (z : Z) : Z := (z + 2 ^ 63) mod 2 ^ 64 - 2 ^ 63.
(** poly.rs 463-466: one step of the loop. *)
Definition pub_step (xi : list Z) (v c : point) : point := let v := point_mul v xi (Some v) in point_add v v c.
(** poly.rs 457-469 [eval]; without commitments [threshold() - 1] wraps and the first index panics.  curve.rs 42-44 [scalar] and
    52-54 [point] return the default values; an error of [set_int64] is unwrapped (scalar.rs 152-154). *)
Definition ed_pub_eval (commits : list point) (i : Z) : outcome int_error point :=
  match commits with
  | [] => Panic
  | _ => let! xi := scalar_set_int64 (repeat 0 32) (i64_of (1 + i64_of i)) in
         Ok (fold_left (pub_step xi) (rev commits) (point_null point_default))
  end.
(** poly.rs 526-530 [check] of the share (i, v) with the base point [b] of the polynomial. *)
Definition ed_pub_check (commits : list point) (b : option point) (i : Z) (v : list Z) : outcome int_error bool :=
  let! pv := ed_pub_eval commits i in Ok (point_eqb pv (point_mul point_default v b)).
(** poly.rs 485-505 [add] of two polynomials over this group (the groups' names agree, so the first test passes); the sum keeps
    the base point of the receiver. *)
Definition ed_pub_add (p q : list point) : outcome unit (list point) :=
  if negb (Nat.eqb (length p) (length q)) then Err tt else
  Ok (map (fun xy => point_add point_default (fst xy) (snd xy)) (combine p q)).
