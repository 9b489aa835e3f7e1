(** Model of src/group/edwards25519/point.rs (22-249) and of the generic marshalling functions for points and scalars in
    src/group/internal/marshalling/marshal.rs.  A method with receiver [mut self] or [&mut self] takes the receiver as its
    first argument and returns the receiver afterwards. *)
From Coq Require Import ZArith List Bool.
From Verif Require Import Base Bytes ScModel IntModel RandModel FeModel GeConsts GeModel.
Import ListNotations.
Local Open Scope Z_scope.
Local Open Scope outcome_scope.

(** point.rs 24-27 [Point]; 23 derive(Default) and 30-32 [new]: all limbs zero. *)
Record point := Pt { p_ge : ext; p_vt : bool }.
Definition point_default : point := Pt ext_default false.

(** encoding/encodings.rs 31-41 [MarshallingError], the two cases that occur here; group/error.rs [PointError]. *)
Inductive marsh_error := InvalidInput | IoError.
Inductive point_error := EmbedDataLength.

(** point.rs 36-40 [marshal_binary] (never fails), 43-50 [unmarshal_binary], 58-60 [marshal_size]. *)
Definition point_marshal (p : point) : list Z := ext_write_bytes (p_ge p).
Definition point_unmarshal (self : point) (data : list Z) : outcome marsh_error unit * point :=
  let '(ok, e) := ext_set_bytes (p_ge self) data in
  (if ok then Ok tt else Err InvalidInput, Pt e (p_vt self)).
Definition point_marshal_size : nat := 32.

(** point.rs 79-82 [null], 85-88 [base] (constants.rs [BASEEXT]), 94-97 [set]. *)
Definition point_null (self : point) : point := Pt ext_zero (p_vt self).
Definition point_base (self : point) : point := Pt (Ext BASEEXT_x BASEEXT_y BASEEXT_z BASEEXT_t) (p_vt self).
Definition point_set (self p : point) : point := Pt (p_ge p) (p_vt self).

(** point.rs 179-188 [add], 190-199 [sub], 201-204 [neg]. *)
Definition point_add (self p1 p2 : point) : point := Pt (to_extended (comp_add (p_ge p1) (write_cached (p_ge p2)))) (p_vt self).
Definition point_sub (self p1 p2 : point) : point := Pt (to_extended (comp_sub (p_ge p1) (write_cached (p_ge p2)))) (p_vt self).
Definition point_neg (self a : point) : point := Pt (ext_neg (p_ge a)) (p_vt self).

(** point.rs 207-224 [mul]; [s] holds the 32 bytes of the scalar. *)
Definition point_mul (self : point) (s : list Z) (p : option point) : point :=
  Pt (match p with
      | None => ge_scalar_mult_base s
      | Some a => if p_vt self then ge_scalar_mult_vartime s (p_ge a) else ge_scalar_mult s (p_ge a)
      end) (p_vt self).

(** point.rs 229-240 [eq]: the loop returns at the first difference. *)
Fixpoint bytes_eqb (a b : list Z) : bool :=
  match a, b with x :: a', y :: b' => if x =? y then bytes_eqb a' b' else false | _, _ => true end.
Definition point_eqb (p q : point) : bool := bytes_eqb (point_marshal p) (point_marshal q).
(** point.rs 244-248 [hash]: what is fed to the hasher (the array of 32 bytes). *)
Definition point_hash_input (p : point) : list Z := point_marshal p.
(** point.rs 23 derive(Ord): lexicographic on the limbs x, y, z, t, then on [var_time]. *)
Fixpoint lex_cmp (a b : list Z) : comparison :=
  match a, b with
  | [], [] => Eq | [], _ => Lt | _, [] => Gt
  | x :: a', y :: b' => match x ?= y with Eq => lex_cmp a' b' | c => c end
  end.
Definition point_limbs (p : point) : list Z :=
  ge_x (p_ge p) ++ ge_y (p_ge p) ++ ge_z (p_ge p) ++ ge_t (p_ge p) ++ [if p_vt p then 1 else 0].
Definition point_cmp (p q : point) : comparison := lex_cmp (point_limbs p) (point_limbs q).

(** constants.rs 43-53 [PRIME_ORDER_SCALAR], [COFACTOR_SCALAR] (see C70 for the value of [new_scalar_int]), [NULL_POINT]. *)
Definition PRIME_ORDER_SCALAR : list Z := match new_scalar_int PRIME_ORDER with Ok r => r | _ => [] end.
Definition COFACTOR_SCALAR : list Z := match new_scalar_int COFACTOR with Ok r => r | _ => [] end.
Definition NULL_POINT : point := point_null point_default.

(** point.rs 99-104 [embed_len]: (255 - 8 - 8) / 8. *)
Definition embed_len : nat := 29.

(** point.rs 121-126: the length and the data over the random bytes. *)
Definition embed_bytes (data : option (list Z)) (b : list Z) : list Z :=
  match data with
  | None => b
  | Some d =>
      let dl := Nat.min embed_len (length d) in
      Z.of_nat dl :: firstn dl d ++ skipn (1 + dl) b
  end.
(** point.rs 106-167 [embed], one round of the loop for each unit of fuel; the outcome, the new state of the stream.  An
    error of the stream is unwrapped (120). *)
Section Embed.
Variable St : Type.
Variable R : stream St.
Fixpoint point_embed (fuel : nat) (self : point) (data : option (list Z)) (s : St) : outcome unit (point * St) :=
  match fuel with
  | O => OutOfFuel
  | S f =>
      match xks R s (repeat 0 32) with
      | (None, _) => Panic
      | (Some b, s') =>
          let '(ok, e) := ext_set_bytes (p_ge self) (embed_bytes data b) in
          let self := Pt e (p_vt self) in
          if negb ok then point_embed f self data s' else
          match data with
          | None =>
              let self := point_mul self COFACTOR_SCALAR (Some self) in
              if point_eqb self NULL_POINT then point_embed f self data s' else Ok (self, s')
          | Some _ =>
              let q := point_mul point_default PRIME_ORDER_SCALAR (Some self) in
              if point_eqb q NULL_POINT then Ok (self, s') else point_embed f self data s'
          end
      end
  end.
(** point.rs 90-92 [pick]. *)
Definition point_pick (fuel : nat) (self : point) (s : St) : outcome unit (point * St) := point_embed fuel self None s.
End Embed.

(** A slice [b[i..j]]: panics when it is out of range. *)
Definition slice {E} (b : list Z) (i j : nat) : outcome E (list Z) :=
  if andb (Nat.leb i j) (Nat.leb j (length b)) then Ok (firstn (j - i) (skipn i b)) else Panic.
(** point.rs 169-177 [data]. *)
Definition point_data (p : point) : outcome point_error (list Z) :=
  let b := point_marshal p in
  let dl := Z.to_nat (nth 0 b 0) in
  if Nat.ltb embed_len dl then Err EmbedDataLength else slice b 1 (1 + dl).

(** marshal.rs 7-11 [point_marshal_to] and 30-34 [scalar_marshal_to] on a writer that collects its input and never fails:
    the output is appended. *)
Definition point_marshal_to (p : point) (w : list Z) : list Z := w ++ point_marshal p.
Definition scalar_marshal_to (s : list Z) (w : list Z) : outcome int_error (list Z) :=
  let! b := scalar_marshal s in Ok (w ++ b).
(** marshal.rs 16-20 [point_unmarshal_from], 39-46 [scalar_unmarshal_from] on a reader with the bytes [r] left; the result,
    the receiver afterwards, what is left to read.  [read_exact] fails when fewer bytes are left than asked for (what is then
    left is not specified by the standard library: nothing, for a slice). *)
Definition point_unmarshal_from (self : point) (r : list Z) : outcome marsh_error unit * point * list Z :=
  if Nat.ltb (length r) point_marshal_size then (Err IoError, self, []) else
  (point_unmarshal self (firstn point_marshal_size r), skipn point_marshal_size r).
Definition scalar_unmarshal_from (self : list Z) (r : list Z) : outcome (marsh_error + int_error) unit * list Z * list Z :=
  if Nat.ltb (length r) 32 then (Err (inl IoError), self, []) else
  let '(o, v) := scalar_unmarshal self (firstn 32 r) in
  (match o with Ok u => Ok u | Err e => Err (inr e) | Panic => Panic | OutOfFuel => OutOfFuel end, v, skipn 32 r).
