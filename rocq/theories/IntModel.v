(** Model of src/group/integer_field/integer.rs: modular integers on top of num_bigint_dig.

    BigInt is [Z].  BigInt [%] is the truncated remainder [Z.rem] and panics on a zero divisor; [to_bytes_*]
    return magnitude bytes ([0] for zero); [bits] counts the bits of the magnitude. *)
From Coq Require Import ZArith List.
From Verif Require Import Base Bytes.
Import ListNotations.
Local Open Scope Z_scope.
Local Open Scope outcome_scope.

(** integer.rs 28-32 [ByteOrder]. *)
Inductive byte_order := LittleEndian | BigEndian.

(** integer.rs 71-79 [Int]. *)
Record Int := mkInt { iv : Z; im : Z; ibo : byte_order }.

(** integer.rs 532-542 [IntError] and encodings.rs [MarshallingError::InvalidInput] (messages abbreviated). *)
Inductive int_error := NotRepresentable | WrongSize | OutOfRange | ParseError | ImaginaryRoot.

(** BigInt [%] (num_bigint_dig): truncated remainder, panics for a zero divisor. *)
Definition brem {E : Type} (a b : Z) : outcome E Z := if b =? 0 then Panic else Ok (Z.rem a b).

(** integer.rs 81-89 [Int::default]. *)
Definition int_default : Int := mkInt 0 0 LittleEndian.

(** integer.rs 93-103 [init64] / 347-356 [set_int64]: reduction shared by both.
    Negative values: (v % m) + |m|. *)
Definition reduce64 (v m : Z) : outcome int_error Z :=
  if v <? 0 then let! r := brem v m in Ok (r + Z.abs m) else brem v m.

(** integer.rs 93-103 [init64]. *)
Definition init64 (v m : Z) : outcome int_error Int :=
  let! r := reduce64 v m in Ok (mkInt r m BigEndian).

(** integer.rs 142-144 [new_int64]. *)
Definition new_int64 (v m : Z) := init64 v m.

(** integer.rs 106-111 [init], 137-139 [new_int]. *)
Definition new_int (v m : Z) : outcome int_error Int :=
  let! r := brem v m in Ok (mkInt r m BigEndian).

(** integer.rs 287-289 [marshal_size]. *)
Definition int_marshal_size (i : Int) : nat := Z.to_nat ((bits_of (im i) + 7) / 8).

(** integer.rs 521-529 [reverse]: for i < (len dst + 1)/2, swap-copy src[j], src[i] with j = len dst - 1 - i.
    Every position of dst is written, dst[k] = src[len dst - 1 - k]; indexing src past its end panics. *)
Definition reverse (dst src : list Z) : outcome int_error (list Z) :=
  if Nat.ltb (length src) (length dst) then Panic
  else Ok (rev (firstn (length dst) src)).

(** integer.rs 116-134 [little_endian].  The result is the reversal into [buf[0..act]], so the padding computed
    in [pad] is never part of the result. *)
Definition little_endian (i : Int) (min max : nat) : outcome int_error (list Z) :=
  let v_bytes := to_bytes_be (iv i) in
  let act := Nat.min (int_marshal_size i) (length v_bytes) in
  let pad := Nat.max act min in
  if andb (negb (Nat.eqb max 0)) (Nat.ltb max pad) then Err NotRepresentable
  else reverse (repeat 0 act) v_bytes.

(** integer.rs 502-515 [big_endian]: [buf[ofs..].copy_from_slice(&b)] panics unless the lengths agree. *)
Definition big_endian (i : Int) (min max : nat) : outcome int_error (list Z) :=
  let act := int_marshal_size i in
  let pad := Nat.max act min in
  let ofs := (pad - act)%nat in
  if andb (negb (Nat.eqb max 0)) (Nat.ltb max pad) then Err NotRepresentable
  else let b := to_bytes_be (iv i) in
       if Nat.eqb (length b) (pad - ofs) then Ok (repeat 0 ofs ++ b) else Panic.

(** integer.rs 386-396 [set_bytes]. *)
Definition set_bytes (i : Int) (a : list Z) : outcome int_error Int :=
  let! buff := match ibo i with LittleEndian => reverse (repeat 0 (length a)) a | BigEndian => Ok a end in
  let! r := brem (be_val buff) (im i) in
  Ok (mkInt r (im i) (ibo i)).

(** integer.rs 148-150, 169-176 [new_int_bytes], [init_bytes]. *)
Definition new_int_bytes (a : list Z) (m : Z) (bo : byte_order) : outcome int_error Int :=
  set_bytes (mkInt 0 m bo) a.

(** integer.rs 159-166 [equal], [cmpr]: the modulus is not compared. *)
Definition int_equal (a b : Int) : bool := iv a =? iv b.
Definition int_cmpr (a b : Int) : comparison := iv a ?= iv b.

(** integer.rs 321-326 operator [*]. *)
Definition int_mul (a b : Int) : outcome int_error Int :=
  let! v := brem (iv a * iv b) (im a) in Ok (mkInt v (im a) (ibo a)).

(** integer.rs 328-333 operator [+]. *)
Definition int_add (a b : Int) : outcome int_error Int :=
  let! v := brem (iv a + iv b) (im a) in Ok (mkInt v (im a) (ibo a)).

(** integer.rs 338-343 [set]: value and modulus, not the byte order. *)
Definition int_set (i a : Int) : Int := mkInt (iv a) (im a) (ibo i).

(** integer.rs 347-356 [set_int64]. *)
Definition set_int64 (i : Int) (v : Z) : outcome int_error Int :=
  let! r := reduce64 v (im i) in Ok (mkInt r (im i) (ibo i)).

(** integer.rs 359-363 [zero], 399-403 [one]. *)
Definition int_zero (i : Int) : Int := mkInt 0 (im i) (ibo i).
Definition int_one (i : Int) : Int := mkInt 1 (im i) (ibo i).

(** integer.rs 367-373 [sub]: ((a - b) % m + m) % m. *)
Definition int_sub (i a b : Int) : outcome int_error Int :=
  let! r := brem (iv a - iv b) (im a) in
  let! v := brem (r + im a) (im a) in
  Ok (mkInt v (im a) (ibo i)).

(** integer.rs 406-411 [div]: multiplies, modulo the receiver's modulus. *)
Definition int_div (i a b : Int) : outcome int_error Int :=
  let! v := brem (iv a * iv b) (im i) in Ok (mkInt v (im i) (ibo i)).

(** Extended Euclid (fuelled); [egcd n a b] returns u, w with u*a + w*b = gcd a b when n is large enough. *)
Fixpoint egcd (n : nat) (a b : Z) : Z * Z :=
  match n with
  | O => (1, 0)
  | S n' => if b =? 0 then (1, 0)
            else let '(u, w) := egcd n' b (a mod b) in (w, u - (a / b) * w)
  end.

(** num_bigint_dig [ModInverse for BigInt]: [Some] the inverse in [0, m) when gcd(a, m) = 1, else [None].
    The library is modelled by this contract; negative a is reduced first, a zero or negative modulus is the
    caller's error ([to_biguint().unwrap()] panics on a negative one). *)
Definition mod_inverse (a m : Z) : option Z :=
  let a' := if a <? 0 then a mod m else a in
  if Z.gcd a' m =? 1
  then Some (fst (egcd (S (2 * Z.to_nat (Z.log2 (Z.abs m) + 1))) a' m) mod m)
  else None.

(** integer.rs 414-419 [inv]: [unwrap] panics when there is no inverse. *)
Definition int_inv (i a : Int) : outcome int_error Int :=
  if im a <? 0 then Panic else
  let! v := of_option (mod_inverse (iv a) (im a)) in Ok (mkInt v (im a) (ibo i)).

(** integer.rs 422-430 [neg]: m - v for v > 0, otherwise 0 (also for negative v). *)
Definition int_neg (i a : Int) : Int :=
  mkInt (if 0 <? iv a then im a - iv a else 0) (im a) (ibo i).

(** integer.rs 435-437 [nonzero]. *)
Definition int_nonzero (i : Int) : bool := negb (iv i =? 0).

(** integer.rs 447-451 [set_uint64]. *)
Definition set_uint64 (i : Int) (v : Z) : outcome int_error Int :=
  let! r := brem v (im i) in Ok (mkInt r (im i) (ibo i)).

(** [Vec::resize(n, 0)]. *)
Definition resize (n : nat) (l : list Z) : list Z := firstn n (l ++ repeat 0 (n - length l)).

(** integer.rs 455-467 [uint64]: low 8 magnitude bytes, two's complement for negative values (wrapping). *)
Definition uint64 (i : Int) : Z :=
  let u := le_val (resize 8 (to_bytes_le (iv i))) in
  if iv i <? 0 then (2 ^ 64 - 1 - u + 1) mod 2 ^ 64 else u.

(** integer.rs 441-443 [int64]: [as i64]. *)
Definition int64 (i : Int) : Z := let u := uint64 i in if u <? 2 ^ 63 then u else u - 2 ^ 64.

(** Square-and-multiply power, [modpow] of num_bigint_dig: panics for a negative exponent or zero modulus;
    the result is the floored residue. *)
Fixpoint pos_powm (b : Z) (e : positive) (m : Z) : Z :=
  match e with
  | xH => b mod m
  | xO e' => let r := pos_powm b e' m in (r * r) mod m
  | xI e' => let r := pos_powm b e' m in (b * (r * r)) mod m
  end.
Definition modpow {E : Type} (b e m : Z) : outcome E Z :=
  if m =? 0 then Panic else
  match e with
  | Z0 => Ok (1 mod m)
  | Zpos p => Ok (pos_powm b p m)
  | Zneg _ => Panic
  end.

(** integer.rs 471-476 [exp]: the base is the receiver's value, a only provides the modulus. *)
Definition int_exp (i a : Int) (e : Z) : outcome int_error Int :=
  let! v := modpow (iv i) e (im a) in Ok (mkInt v (im a) (ibo i)).

(** integer.rs 490-497 [sqrt]: integer square root of the representative. *)
Definition int_sqrt (i a : Int) : outcome int_error Int :=
  if iv a <? 0 then Err ImaginaryRoot else
  let! v := brem (Z.sqrt (iv a)) (im a) in Ok (mkInt v (im a) (ibo i)).

(** integer.rs 191-202 [set_string], with the parsed numerator and (optional) denominator given; [None] for a
    string is a parse error.  The numerator is stored unreduced; a denominator goes through [div]. *)
Definition set_string (i : Int) (n : option Z) (d : option (option Z)) : outcome int_error Int :=
  match n with
  | None => Err ParseError
  | Some nv =>
      let i' := mkInt nv (im i) (ibo i) in
      match d with
      | None => Ok i'
      | Some None => Err ParseError
      | Some (Some dv) => int_div i' i' (mkInt dv (im i) LittleEndian)
      end
  end.

(** integer.rs 232-250 [marshal_binary].  [l - b.len()] wraps when b is longer: the [splice] then panics
    (big-endian); the little-endian branch does not use it. *)
Definition int_marshal (i : Int) : outcome int_error (list Z) :=
  let l := int_marshal_size i in
  let b := to_bytes_be (iv i) in
  match ibo i with
  | LittleEndian => little_endian i l l
  | BigEndian =>
      if Nat.ltb l (length b) then Panic
      else Ok (repeat 0 (l - length b) ++ b)
  end.

(** integer.rs 257-275 [unmarshal_binary]: returns the new receiver and the result; [v] is stored before the
    range check. *)
Definition int_unmarshal (i : Int) (data : list Z) : outcome int_error unit * Int :=
  if negb (Nat.eqb (length data) (int_marshal_size i)) then (Err WrongSize, i) else
  let buf := match ibo i with LittleEndian => rev data | BigEndian => data end in
  let i' := mkInt (be_val buf) (im i) (ibo i) in
  if im i <=? iv i' then (Err OutOfRange, i') else (Ok tt, i').
