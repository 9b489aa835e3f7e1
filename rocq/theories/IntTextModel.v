(** Model of the text side of src/group/integer_field/integer.rs: [set_string] and [new_int_string] on the strings themselves
    ([set_string] of IntModel.v takes the parsed numbers). *)
From Coq Require Import ZArith List String Ascii Bool.
From Verif Require Import Base Bytes IntModel.
Import ListNotations.
Local Open Scope Z_scope.
Local Open Scope outcome_scope.

(** Bytes of a string (a Rust [&str] is its UTF-8 bytes). *)
Definition code (a : ascii) : Z := Z.of_nat (nat_of_ascii a).
Definition UNDERSCORE : ascii := "_"%char.
Definition starts (a : ascii) (s : string) : bool := match s with String b _ => Ascii.eqb a b | EmptyString => false end.
Definition tail1 (s : string) : string := match s with String _ r => r | EmptyString => EmptyString end.

(** num_bigint_dig [BigUint::from_str_radix] (called from integer.rs 192): the value of a character, 255 for others. *)
Definition char_val (a : ascii) : Z :=
  let n := code a in
  if (48 <=? n) && (n <=? 57) then n - 48
  else if (97 <=? n) && (n <=? 122) then n - 97 + 10
  else if (65 <=? n) && (n <=? 90) then n - 65 + 10 else 255.
(** The loop over the bytes of the same function: underscores are skipped, a character that is no digit of the base is an
    error.  Simplification: the digits are accumulated instead of collected and converted at the end. *)
Fixpoint read_digits (radix acc : Z) (s : string) : option Z :=
  match s with
  | EmptyString => Some acc
  | String a r =>
      if Ascii.eqb a UNDERSCORE then read_digits radix acc r
      else if char_val a <? radix then read_digits radix (acc * radix + char_val a) r else None
  end.
(** [BigUint::from_str_radix]: the radix is asserted; one leading plus sign; no empty text and no leading underscore. *)
Definition biguint_from_str (radix : Z) (s : string) : outcome int_error Z :=
  if negb ((2 <=? radix) && (radix <=? 36)) then Panic else
  let s := if starts "+" s && negb (starts "+" (tail1 s)) then tail1 s else s in
  if (s =? "")%string then Err ParseError else
  if starts UNDERSCORE s then Err ParseError else
  match read_digits radix 0 s with Some v => Ok v | None => Err ParseError end.
(** num_bigint_dig [BigInt::from_str_radix]: a leading minus sign, not followed by a plus sign. *)
Definition bigint_from_str (radix : Z) (s : string) : outcome int_error Z :=
  if starts "-" s then
    let! v := biguint_from_str radix (if starts "+" (tail1 s) then s else tail1 s) in Ok (- v)
  else biguint_from_str radix s.

(** integer.rs 191-202 [set_string]: [base as u32] of a negative number is above 36 and panics like the others.  The denominator
    is read only after the numerator. *)
Definition set_string_text (i : Int) (n d : string) (base : Z) : outcome int_error Int :=
  let! nv := bigint_from_str base n in
  let i' := mkInt nv (im i) (ibo i) in
  if (d =? "")%string then Ok i' else
  let! dv := bigint_from_str base d in
  int_div i' i' (mkInt dv (im i) LittleEndian).
(** integer.rs 155-157 [new_int_string], 180-185 [init_string]: an error of [set_string] panics. *)
Definition new_int_string (n d : string) (base m : Z) : outcome int_error Int :=
  match set_string_text (mkInt 0 m BigEndian) n d base with Err _ => Panic | r => r end.
