(** Hashing of shares (src/share/poly.rs 54-63 and 386-395) and the derived order of scalars (src/group/edwards25519/scalar.rs 23),
    for the Ed25519 group. *)
From Coq Require Import ZArith List.
From Verif Require Import Base Bytes IntModel ScModel FeModel GeModel PointModel.
Import ListNotations.
Local Open Scope Z_scope.
Local Open Scope outcome_scope.

(** poly.rs 34-41 [PriShare], 369-378 [PubShare]; [i] is a usize. *)
Record ed_pri_share := EdPriShare { eps_i : Z; eps_v : list Z }.
Record ed_pub_share := EdPubShare { eus_i : Z; eus_v : point }.

(** [write_u32::<LittleEndian>(self.i as u32)], poly.rs 60 and 392: the cast keeps the low 32 bits. *)
Definition u32_cast_le (i : Z) : list Z := le_bytes 4 (i mod 2 ^ 32).

Section Hash.
(** The hash function of the factory (external, arbitrary). *)
Variable H : list Z -> list Z.
(** poly.rs 57-62 [PriShare::hash]: the hasher collects what is written. *)
Definition pri_hash (s : ed_pri_share) : outcome int_error (list Z) :=
  let! w := scalar_marshal_to (eps_v s) [] in Ok (H (w ++ u32_cast_le (eps_i s))).
(** poly.rs 389-394 [PubShare::hash]. *)
Definition pub_hash (s : ed_pub_share) : list Z := H (point_marshal_to (eus_v s) [] ++ u32_cast_le (eus_i s)).
End Hash.

(** Derived [PartialEq] of the two structs (poly.rs 35, 370): field by field. *)
Definition pri_share_eqb (a b : ed_pri_share) : bool := (eps_i a =? eps_i b) && scalar_eq (eps_v a) (eps_v b).
Definition pub_share_eqb (a b : ed_pub_share) : bool := (eus_i a =? eus_i b) && point_eqb (eus_v a) (eus_v b).

(** scalar.rs 23: derived [Ord] compares the byte array from index 0 up, that is from the least significant byte. *)
Definition scalar_cmp (a b : list Z) : comparison := lex_cmp a b.
