(** Model of the streamed encodings of [Int] and of [unmarshal_from_random] (src/group/internal/marshalling/marshal.rs,
    src/group/integer_field/integer.rs); the streamed encodings of points and scalars are in PointModel.v. *)
From Coq Require Import ZArith List.
From Verif Require Import Base Bytes IntModel RandModel ScModel PointModel.
Import ListNotations.
Local Open Scope Z_scope.
Local Open Scope outcome_scope.

(** marshal.rs 30-34 [scalar_marshal_to] for [Int] (integer.rs 279-281), on a writer that collects its input and never fails. *)
Definition int_marshal_to (i : Int) (w : list Z) : outcome int_error (list Z) := let! b := int_marshal i in Ok (w ++ b).
(** marshal.rs 39-46 [scalar_unmarshal_from] for [Int] (integer.rs 291-293) on a reader with the bytes [r] left; the result, the
    receiver afterwards, what is left to read.  A short reader fails as in PointModel.v. *)
Definition int_unmarshal_from (i : Int) (r : list Z) : outcome (marsh_error + int_error) unit * Int * list Z :=
  if Nat.ltb (length r) (int_marshal_size i) then (Err (inl IoError), i, []) else
  let '(o, v) := int_unmarshal i (firstn (int_marshal_size i) r) in
  (match o with Ok u => Ok u | Err e => Err (inr e) | Panic => Panic | OutOfFuel => OutOfFuel end, v, skipn (int_marshal_size i) r).

(** marshal.rs 50-52 [scalar_unmarshal_from_random] (integer.rs 295-297, scalar.rs 237-239), 24-26 [point_unmarshal_from_random]
    (point.rs 66-68): the receiver is replaced by what [pick] makes of its copy.  [pick] of scalars and points starts from the
    receiver, see [set_int] and [point_embed]. *)
Definition int_unmarshal_from_random {St} (R : stream St) (fuel : nat) (i : Int) (s : St) : outcome unit (Int * St) := int_pick St R fuel i s.
Definition scalar_unmarshal_from_random {St} (R : stream St) (fuel : nat) (v : list Z) (s : St) : outcome int_error (list Z * St) := scalar_pick St R fuel v s.
Definition point_unmarshal_from_random {St} (R : stream St) (fuel : nat) (p : point) (s : St) : outcome unit (point * St) := point_pick St R fuel p s.

(** integer.rs 26, 299-301, scalar.rs 21, 241-243, point.rs 21, 70-72 [marshal_id]. *)
Definition INT_ID : list Z := [109; 111; 100; 46; 105; 110; 116; 32].
Definition SCALAR_ID : list Z := [101; 100; 46; 115; 99; 97; 108; 97].
Definition POINT_ID : list Z := [101; 100; 46; 112; 111; 105; 110; 116].
