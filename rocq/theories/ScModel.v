(** The scalar functions of src/group/edwards25519/scalar.rs on 32-byte strings (lists of byte values). *)
From Coq Require Import ZArith String List Bool.
From Verif Require Import Base Bytes Limb ScLimbs IntModel RandModel.
Import ListNotations.
Local Open Scope Z_scope.

(** The [let]-bound limb variables a0..a11 (scalar.rs 280-291 and the like): names of a limb vector. *)
Definition names12 (p : string) : list string :=
  map (fun i => (p ++ i)%string) ["0"; "1"; "2"; "3"; "4"; "5"; "6"; "7"; "8"; "9"; "10"; "11"]%string.

Fixpoint binds (xs : list string) (vs : list Z) (r : env) : env :=
  match xs, vs with x :: xs', v :: vs' => upd (binds xs' vs' r) x v | _, _ => r end.

(** Load the limbs of one argument. *)
Definition load_arg (p : string) (a : list Z) (r : env) : env := binds (names12 p) (sc_limbs a) r.

(** Store the result: scalar.rs 709-743. *)
Definition store (r : env) : list Z :=
  sc_bytes (r "s0"%string) (r "s1"%string) (r "s2"%string) (r "s3"%string) (r "s4"%string) (r "s5"%string)
           (r "s6"%string) (r "s7"%string) (r "s8"%string) (r "s9"%string) (r "s10"%string) (r "s11"%string).

(** scalar.rs 279-744. *)
Definition sc_mul_add (a b c : list Z) : list Z :=
  store (exec (load_arg "a" a (load_arg "b" b (load_arg "c" c (fun _ => 0)))) sc_mul_add_prog).
(** scalar.rs 759-1172. *)
Definition sc_add (a c : list Z) : list Z := store (exec (load_arg "a" a (load_arg "c" c (fun _ => 0))) sc_add_prog).
(** scalar.rs 1187-1581. *)
Definition sc_sub (a c : list Z) : list Z := store (exec (load_arg "a" a (load_arg "c" c (fun _ => 0))) sc_sub_prog).
(** scalar.rs 1596-2083. *)
Definition sc_mul (a b : list Z) : list Z := store (exec (load_arg "a" a (load_arg "b" b (fun _ => 0))) sc_mul_prog).

Local Open Scope outcome_scope.

(** constants.rs 22-25 PRIME_ORDER, 30-31 L_MINUS2, 39 FULL_ORDER = PRIME_ORDER * COFACTOR. *)
Definition PRIME_ORDER : Z := 7237005577332262213973186563042994240857116359379907606001950938285454250989.
Definition L_MINUS2 : Z := 7237005577332262213973186563042994240857116359379907606001950938285454250987.
Definition COFACTOR : Z := 8.
Definition FULL_ORDER : Z := PRIME_ORDER * COFACTOR.

(** scalar.rs 22-25 [Scalar]: 32 bytes, here a list of 32 byte values; [Scalar::default()] is all zero. *)
Definition scalar_default : list Z := repeat 0 32.

(** scalar.rs 33-35 [as_int]. *)
Definition as_int (v : list Z) : outcome int_error Int := new_int_bytes v PRIME_ORDER LittleEndian.

(** scalar.rs 37-43 [set_int]: only the first b.len() bytes of the receiver are written. *)
Definition set_int (recv : list Z) (i : Int) : outcome int_error (list Z) :=
  let! b := match little_endian i 32 32 with Err _ => Ok scalar_default | r => r end in
  if Nat.ltb (length recv) (length b) then Panic else Ok (b ++ skipn (length b) recv).

(** scalar.rs 54-75 [is_canonical]: one step of the comparison loop; u16 subtraction wraps. *)
Definition canon_step (cn : Z * Z) (sl : Z * Z) : Z * Z :=
  let '(c, n) := cn in let '(s, l) := sl in
  (Z.lor c (Z.land (u8 (Z.shiftr ((s - l) mod 65536) 8)) n),
   Z.land n (u8 (Z.shiftr ((Z.lxor s l - 1) mod 65536) 8))).
Definition sc_is_canonical (sb : list Z) : bool :=
  if negb (Nat.eqb (length sb) 32) then false else
  if Z.land (nth 31 sb 0) 240 =? 0 then true else
  let l := to_bytes_le PRIME_ORDER in
  let '(c, _) := fold_left canon_step (rev (combine sb l)) (0, 1) in
  negb (c =? 0).

(** scalar.rs 80-82 [eq]. *)
Definition scalar_eq (a b : list Z) : bool := if list_eq_dec Z.eq_dec a b then true else false.

(** scalar.rs 92-99 [marshal_binary]. *)
Definition scalar_marshal (v : list Z) : outcome int_error (list Z) :=
  let! i := as_int v in let! b := int_marshal i in Ok (resize 32 b).

(** scalar.rs 103-111 [unmarshal_binary]: the result and the receiver afterwards. *)
Definition scalar_unmarshal (recv data : list Z) : outcome int_error unit * list Z :=
  if negb (Nat.eqb (length data) 32) then (Err WrongSize, recv) else (Ok tt, data).

(** scalar.rs 132-142: operators; 162-165 [sub]; 155-158 [zero]; 179-183 [one]; 216-221 [neg]. *)
Definition scalar_mul (a b : list Z) : list Z := sc_mul a b.
Definition scalar_add (a b : list Z) : list Z := sc_add a b.
Definition scalar_sub (a b : list Z) : list Z := sc_sub a b.
Definition scalar_zero : list Z := repeat 0 32.
Definition scalar_one : list Z := 1 :: repeat 0 31.
Definition scalar_neg (a : list Z) : list Z := sc_sub scalar_zero a.

(** scalar.rs 152-154 [set_int64]; 175-177 [set_bytes]; 2085-2088 [new_scalar_int]. *)
Definition scalar_set_int64 (recv : list Z) (v : Z) : outcome int_error (list Z) :=
  let! i := new_int64 v PRIME_ORDER in set_int recv i.
Definition scalar_set_bytes (recv b : list Z) : outcome int_error (list Z) :=
  let! i := new_int_bytes b PRIME_ORDER LittleEndian in set_int recv i.
Definition new_scalar_int (v : Z) : outcome int_error (list Z) :=
  let! i := new_int v FULL_ORDER in set_int scalar_default i.

(** scalar.rs 246-266 [get_bits]: bits of each byte, lowest first. *)
Definition get_bits (b : list Z) : list bool :=
  flat_map (fun x => map (fun k => negb (Z.land x (2 ^ Z.of_nat k) =? 0)) (seq 0 8)) b.

(** scalar.rs 192-214 [inv]: square and multiply over bits 255..0; [bit_vec[i]] panics out of bounds. *)
Definition inv_step (ac : list Z) (res : list Z) (bit : bool) : list Z :=
  let r := sc_mul res res in if bit then sc_mul r ac else r.
Definition scalar_inv (ac : list Z) : outcome int_error (list Z) :=
  let bits := get_bits (to_bytes_le L_MINUS2) in
  if Nat.ltb (length bits) 256 then Panic
  else Ok (fold_left (inv_step ac) (rev (firstn 256 bits)) scalar_one).

(** scalar.rs 185-190 [div]. *)
Definition scalar_div (a b : list Z) : outcome int_error (list Z) :=
  let! i := scalar_inv b in Ok (sc_mul a i).

(** scalar.rs 167-173 [pick]: random_int (random_stream.rs 37-47) then [Int::new_int] and [set_int]. *)
Definition scalar_pick (St : Type) (R : stream St) (fuel : nat) (recv : list Z) (s : St) : outcome int_error (list Z * St) :=
  let! (v, s') := match random_int St R fuel PRIME_ORDER s with
                  | Ok p => Ok p | Err _ => Panic | Panic => Panic | OutOfFuel => OutOfFuel end in
  let! i := new_int v PRIME_ORDER in
  let! r := set_int recv i in Ok (r, s').
