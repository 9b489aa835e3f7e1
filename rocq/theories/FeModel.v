(** Model of src/group/edwards25519/fe.rs.  A [FieldElement] ([i32; 10]) is a list of 10 integers; functions taking
    [&mut] destinations return the new value. *)
From Coq Require Import ZArith String List.
From Verif Require Import Base Bytes Limb ScLimbs ScModel FeLimbs.
Import ListNotations.
Local Open Scope Z_scope.

(** The variables p0 .. p9. *)
Definition names10 (p : string) : list string :=
  map (fun s => (p ++ s)%string) ["0"; "1"; "2"; "3"; "4"; "5"; "6"; "7"; "8"; "9"]%string.

(** fe.rs 10-14 [fe_zero], 16-19 [fe_one]. *)
Definition fe_zero : list Z := repeat 0 10.
Definition fe_one : list Z := 1 :: repeat 0 9.

(** Limb-wise i32 operations (wrapping). *)
Definition fe_map2 (op : Z -> Z -> Z) (a b : list Z) : list Z :=
  map (fun xy => wrap I32 (op (fst xy) (snd xy))) (combine a b).
(** fe.rs 21-25 [fe_add], 27-31 [fe_sub], 266-270 [fe_neg]. *)
Definition fe_add : list Z -> list Z -> list Z := fe_map2 Z.add.
Definition fe_sub : list Z -> list Z -> list Z := fe_map2 Z.sub.
Definition fe_neg (f : list Z) : list Z := map (fun x => wrap I32 (- x)) f.

(** fe.rs 41-50 [fe_c_move]: bitwise and/xor of i32 values (two's complement, as on Z). *)
Definition fe_c_move (f g : list Z) (b : Z) : list Z :=
  let b := wrap I32 (- b) in
  map (fun xy => Z.lxor (fst xy) (Z.land b (Z.lxor (fst xy) (snd xy)))) (combine f g).

(** fe.rs 67-122 [fe_from_bytes]; the source has 32 bytes in every call (shorter slices would panic). *)
Definition fe_from_bytes (src : list Z) : list Z :=
  map (exec (binds (names10 "h") (fe_limbs src) (fun _ => 0)) fe_from_bytes_prog) (names10 "out").

(** fe.rs 147-238 [fe_to_bytes]. *)
Definition fe_store (r : env) : list Z :=
  fe_bytes (r "h0"%string) (r "h1"%string) (r "h2"%string) (r "h3"%string) (r "h4"%string) (r "h5"%string)
    (r "h6"%string) (r "h7"%string) (r "h8"%string) (r "h9"%string).
Definition fe_to_bytes (h : list Z) : list Z :=
  fe_store (exec (binds (names10 "h") h (fun _ => 0)) (fe_to_bytes_q ++ fe_to_bytes_c)).

(** fe.rs 240-244 [fe_is_negative]. *)
Definition fe_is_negative (f : list Z) : Z := Z.land (nth 0 (fe_to_bytes f) 0) 1.

(** fe.rs 246-257 [fe_is_non_zero]: u8 arithmetic; [fold_bits] is the part after the loop over the bytes. *)
Definition fold_bits (x : Z) : Z :=
  let x := Z.lor x (Z.shiftr x 4) in
  let x := Z.lor x (Z.shiftr x 2) in
  let x := Z.lor x (Z.shiftr x 1) in
  Z.land x 1.
Definition fe_is_non_zero (f : list Z) : Z := fold_bits (fold_left Z.lor (fe_to_bytes f) 0).

(** fe.rs 299-535 [fe_mul], 544-688 [fe_square], 700-855 [fe_square2]. *)
Definition fe_mul (f g : list Z) : list Z :=
  map (exec (binds (names10 "f") f (binds (names10 "g") g (fun _ => 0))) fe_mul_prog) (names10 "out").
Definition fe_square (f : list Z) : list Z :=
  map (exec (binds (names10 "f") f (fun _ => 0)) fe_square_prog) (names10 "out").
Definition fe_square2 (f : list Z) : list Z :=
  map (exec (binds (names10 "f") f (fun _ => 0)) fe_square2_prog) (names10 "out").

(** The loops [for _ in 1..n { square }]. *)
Definition sqr_n (n : nat) (f : list Z) : list Z := Nat.iter n fe_square f.

(** fe.rs 857-944 [fe_invert]. *)
Definition fe_invert (z : list Z) : list Z :=
  let t0 := fe_square z in
  let t1 := sqr_n 1 (fe_square t0) in
  let t1 := fe_mul z t1 in
  let t0 := fe_mul t0 t1 in
  let t2 := fe_square t0 in
  let t1 := fe_mul t1 t2 in
  let t2 := sqr_n 4 (fe_square t1) in
  let t1 := fe_mul t2 t1 in
  let t2 := sqr_n 9 (fe_square t1) in
  let t2 := fe_mul t2 t1 in
  let t3 := sqr_n 19 (fe_square t2) in
  let t2 := fe_mul t3 t2 in
  let t2 := sqr_n 9 (fe_square t2) in
  let t1 := fe_mul t2 t1 in
  let t2 := sqr_n 49 (fe_square t1) in
  let t2 := fe_mul t2 t1 in
  let t3 := sqr_n 99 (fe_square t2) in
  let t2 := fe_mul t3 t2 in
  let t2 := sqr_n 49 (fe_square t2) in
  let t1 := fe_mul t2 t1 in
  let t1 := sqr_n 4 (fe_square t1) in
  fe_mul t1 t0.

(** fe.rs 946-1035 [fe_pow22523]. *)
Definition fe_pow22523 (z : list Z) : list Z :=
  let t0 := fe_square z in
  let t1 := sqr_n 1 (fe_square t0) in
  let t1 := fe_mul z t1 in
  let t0 := fe_mul t0 t1 in
  let t0 := fe_square t0 in
  let t0 := fe_mul t1 t0 in
  let t1 := sqr_n 4 (fe_square t0) in
  let t0 := fe_mul t1 t0 in
  let t1 := sqr_n 9 (fe_square t0) in
  let t1 := fe_mul t1 t0 in
  let t2 := sqr_n 19 (fe_square t1) in
  let t1 := fe_mul t2 t1 in
  let t1 := sqr_n 9 (fe_square t1) in
  let t0 := fe_mul t1 t0 in
  let t1 := sqr_n 49 (fe_square t0) in
  let t1 := fe_mul t1 t0 in
  let t2 := sqr_n 99 (fe_square t1) in
  let t1 := fe_mul t2 t1 in
  let t1 := sqr_n 49 (fe_square t1) in
  let t0 := fe_mul t1 t0 in
  let t0 := sqr_n 1 (fe_square t0) in
  fe_mul t0 z.
