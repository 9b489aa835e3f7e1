(** Model of src/group/edwards25519/ge.rs and ge_mult_vartime.rs.  Field elements are limb lists (FeModel).  A function that
    writes through [&mut] returns the value written; the destination's old content matters nowhere except where it is a
    parameter here. *)
From Coq Require Import ZArith String List Bool.
From Verif Require Import Base Bytes Limb ScLimbs ScModel FeLimbs FeModel GeConsts.
Import ListNotations.
Local Open Scope Z_scope.

Notation fe := (list Z) (only parsing).

(** ge.rs 20-25, 75-83, 203-209, 301-306, 327-333. *)
Record proj := Proj { pj_x : fe; pj_y : fe; pj_z : fe }.
Record ext := Ext { ge_x : fe; ge_y : fe; ge_z : fe; ge_t : fe }.
Record comp := Comp { cp_x : fe; cp_y : fe; cp_z : fe; cp_t : fe }.
Record pre := Pre { pr_yp : fe; pr_ym : fe; pr_xy2d : fe }.
Record cached := Cached { ca_yp : fe; ca_ym : fe; ca_z : fe; ca_t2d : fe }.

(** [FieldElement::default()] and [ExtendedGroupElement::default()]: all limbs zero (derive(Default), ge.rs 73). *)
Definition ext_default : ext := Ext fe_zero fe_zero fe_zero fe_zero.
Definition comp_default : comp := Comp fe_zero fe_zero fe_zero fe_zero.

(** ge.rs 35-49 [ProjectiveGroupElement::double]. *)
Definition proj_double (p : proj) : comp :=
  let rx := fe_square (pj_x p) in
  let rz := fe_square (pj_y p) in
  let rt := fe_square2 (pj_z p) in
  let ry := fe_add (pj_x p) (pj_y p) in
  let t0 := fe_square ry in
  let ry := fe_add rz rx in
  let rz := fe_sub rz rx in
  let rx := fe_sub t0 ry in
  let rt := fe_sub rt rz in
  Comp rx ry rz rt.

(** ge.rs 52-62 [ProjectiveGroupElement::to_bytes] and 112-122 [ExtendedGroupElement::write_bytes] have the same body: encode
    X/Z, Y/Z. *)
Definition xor_top (s : list Z) (b : Z) : list Z := firstn 31 s ++ [Z.lxor (nth 31 s 0) b].
Definition frac_bytes (x y z : fe) : list Z :=
  let recip := fe_invert z in
  let x := fe_mul x recip in
  let y := fe_mul y recip in
  xor_top (fe_to_bytes y) (u8 (Z.shiftl (fe_is_negative x) 7)).
Definition proj_to_bytes (p : proj) : list Z := frac_bytes (pj_x p) (pj_y p) (pj_z p).
Definition ext_write_bytes (e : ext) : list Z := frac_bytes (ge_x e) (ge_y e) (ge_z e).

(** ge.rs 86-91 [neg], 106-110 [write_projective], 93-97 [double], 99-104 [write_cached], 195-200 [zero]. *)
Definition ext_neg (s : ext) : ext := Ext (fe_neg (ge_x s)) (ge_y s) (ge_z s) (fe_neg (ge_t s)).
Definition ext_proj (s : ext) : proj := Proj (ge_x s) (ge_y s) (ge_z s).
Definition ext_double (s : ext) : comp := proj_double (ext_proj s).
Definition write_cached (s : ext) : cached :=
  Cached (fe_add (ge_y s) (ge_x s)) (fe_sub (ge_y s) (ge_x s)) (ge_z s) (fe_mul (ge_t s) ED_D2).
Definition ext_zero : ext := Ext fe_zero fe_one fe_one fe_zero.

(** ge.rs 138-162, the candidate for x in [set_bytes]: u = y^2 - 1, x = (u v^7)^((p-5)/8) u v^3 and v x^2 where v = d y^2 + 1. *)
Definition root_cand (y : fe) : fe * fe * fe :=
  let u := fe_square y in
  let v := fe_mul u ED_D in
  let u := fe_sub u fe_one in
  let v := fe_add v fe_one in
  let v3 := fe_square v in
  let v3 := fe_mul v3 v in
  let x := fe_square v3 in
  let x := fe_mul x v in
  let x := fe_mul x u in
  let x := fe_pow22523 x in
  let x := fe_mul x v3 in
  let x := fe_mul x u in
  let vxx := fe_square x in
  let vxx := fe_mul vxx v in
  (u, x, vxx).
(** ge.rs 173-178: the sign is fixed and t is set. *)
Definition fix_sign (s : list Z) (x y : fe) : ext :=
  let x := if negb (fe_is_negative x =? Z.shiftr (nth 31 s 0) 7) then fe_neg x else x in
  Ext x y fe_one (fe_mul x y).
(** ge.rs 124-179 [set_bytes] on the receiver [self]: the returned flag and the receiver afterwards.  A failing call has
    already overwritten x, y and z (not t). *)
Definition ext_set_bytes (self : ext) (s : list Z) : bool * ext :=
  if negb (Nat.eqb (length s) 32) then (false, self) else
  let y := fe_from_bytes s in
  let '(u, x, vxx) := root_cand y in
  if fe_is_non_zero (fe_sub vxx u) =? 1 then
    if fe_is_non_zero (fe_add vxx u) =? 1 then (false, Ext x y fe_one (ge_t self))
    else (true, fix_sign s (fe_mul x SQRT_M1) y)
  else (true, fix_sign s x y).

(** ge.rs 211-215 [to_projective], 292-297 [to_extended]. *)
Definition to_projective (c : comp) : proj :=
  Proj (fe_mul (cp_x c) (cp_t c)) (fe_mul (cp_y c) (cp_z c)) (fe_mul (cp_z c) (cp_t c)).
Definition to_extended (c : comp) : ext :=
  Ext (fe_mul (cp_x c) (cp_t c)) (fe_mul (cp_y c) (cp_z c)) (fe_mul (cp_z c) (cp_t c)) (fe_mul (cp_x c) (cp_y c)).

(** ge.rs 217-234 [CompletedGroupElement::add], 236-253 [sub]. *)
Definition comp_add (p : ext) (q : cached) : comp :=
  let x := fe_add (ge_y p) (ge_x p) in
  let y := fe_sub (ge_y p) (ge_x p) in
  let z := fe_mul x (ca_yp q) in
  let y := fe_mul y (ca_ym q) in
  let t := fe_mul (ca_t2d q) (ge_t p) in
  let x := fe_mul (ge_z p) (ca_z q) in
  let t0 := fe_add x x in
  let x := fe_sub z y in
  let y := fe_add z y in
  let z := fe_add t0 t in
  let t := fe_sub t0 t in
  Comp x y z t.
Definition comp_sub (p : ext) (q : cached) : comp :=
  let x := fe_add (ge_y p) (ge_x p) in
  let y := fe_sub (ge_y p) (ge_x p) in
  let z := fe_mul x (ca_ym q) in
  let y := fe_mul y (ca_yp q) in
  let t := fe_mul (ca_t2d q) (ge_t p) in
  let x := fe_mul (ge_z p) (ca_z q) in
  let t0 := fe_add x x in
  let x := fe_sub z y in
  let y := fe_add z y in
  let z := fe_sub t0 t in
  let t := fe_add t0 t in
  Comp x y z t.

(** ge.rs 256-272 [mixed_sub] (not called), 274-290 [mixed_add]. *)
Definition mixed_sub (p : ext) (q : pre) : comp :=
  let x := fe_add (ge_y p) (ge_x p) in
  let y := fe_sub (ge_y p) (ge_x p) in
  let z := fe_mul x (pr_ym q) in
  let y := fe_mul y (pr_yp q) in
  let t := fe_mul (pr_xy2d q) (ge_t p) in
  let t0 := fe_add (ge_z p) (ge_z p) in
  let x := fe_sub z y in
  let y := fe_add z y in
  let z := fe_sub t0 t in
  let t := fe_add t0 t in
  Comp x y z t.
Definition mixed_add (p : ext) (q : pre) : comp :=
  let x := fe_add (ge_y p) (ge_x p) in
  let y := fe_sub (ge_y p) (ge_x p) in
  let z := fe_mul x (pr_yp q) in
  let y := fe_mul y (pr_ym q) in
  let t := fe_mul (pr_xy2d q) (ge_t p) in
  let t0 := fe_add (ge_z p) (ge_z p) in
  let x := fe_sub z y in
  let y := fe_add z y in
  let z := fe_add t0 t in
  let t := fe_sub t0 t in
  Comp x y z t.

(** ge.rs 308-313 / 316-320 / 323-327 [PreComputedGroupElement::zero, cmove, neg], 338-343 / 346-351 / 354-359 the same of
    [CachedGroupElement]. *)
Definition pre_zero : pre := Pre fe_one fe_one fe_zero.
Definition pre_cmove (t u : pre) (b : Z) : pre :=
  Pre (fe_c_move (pr_yp t) (pr_yp u) b) (fe_c_move (pr_ym t) (pr_ym u) b) (fe_c_move (pr_xy2d t) (pr_xy2d u) b).
Definition pre_neg (t : pre) : pre := Pre (pr_ym t) (pr_yp t) (fe_neg (pr_xy2d t)).
Definition cached_zero : cached := Cached fe_one fe_one fe_one fe_zero.
Definition cached_cmove (t u : cached) (b : Z) : cached :=
  Cached (fe_c_move (ca_yp t) (ca_yp u) b) (fe_c_move (ca_ym t) (ca_ym u) b)
         (fe_c_move (ca_z t) (ca_z u) b) (fe_c_move (ca_t2d t) (ca_t2d u) b).
Definition cached_neg (t : cached) : cached := Cached (ca_ym t) (ca_yp t) (ca_z t) (fe_neg (ca_t2d t)).

(** ge.rs 412-416 [equal] (on i32, through u32), 419-421 [negative]. *)
Definition ge_equal (b c : Z) : Z := Z.shiftr ((Z.lxor b c mod 2 ^ 32 - 1) mod 2 ^ 32) 31.
Definition ge_negative (b : Z) : Z := Z.land (Z.shiftr b 31) 1.
(** The absolute value computed in [select_*] (ge.rs 426, 490). *)
Definition ge_abs (b : Z) : Z := wrap I32 (b - wrap I32 (Z.shiftl (Z.land (- ge_negative b) b) 1)).

(** ge.rs 423-435 [select_pre_computed], with the row of the table; 488-500 [select_cached]. *)
Definition sel_pre (row : list pre) (b : Z) : pre :=
  let b_abs := ge_abs b in
  let t := fold_left (fun t iu => pre_cmove t (snd iu) (ge_equal b_abs (fst iu + 1))) (combine [0; 1; 2; 3; 4; 5; 6; 7] row) pre_zero in
  pre_cmove t (pre_neg t) (ge_negative b).
Definition sel_cached (ai : list cached) (b : Z) : cached :=
  let b_abs := ge_abs b in
  let c := fold_left (fun c iu => cached_cmove c (snd iu) (ge_equal b_abs (fst iu + 1))) (combine [0; 1; 2; 3; 4; 5; 6; 7] ai) cached_zero in
  cached_cmove c (cached_neg c) (ge_negative b).

(** i8 arithmetic wraps. *)
Definition wrap8 (z : Z) : Z := (z + 128) mod 256 - 128.

(** ge.rs 443-449 and 520-525: the nibbles of the scalar; 452-458 and 528-534: the signed digits. *)
Definition nibbles (a : list Z) : list Z := flat_map (fun v => [Z.land v 15; Z.land (Z.shiftr v 4) 15]) a.
Fixpoint recode (carry : Z) (e : list Z) : list Z :=
  match e with
  | [] => []
  | x :: r =>
      let x := wrap8 (x + carry) in
      match r with
      | [] => [x]
      | _ => let c := Z.shiftr (wrap8 (x + 8)) 4 in wrap8 (x - wrap8 (Z.shiftl c 4)) :: recode c r
      end
  end.
Definition digits (a : list Z) : list Z := recode 0 (nibbles a).

(** The table as records. *)
Definition base_table : list (list pre) := map (map (fun e => match e with (a, b, c) => Pre a b c end)) BASE.

(** ge.rs 442-486 [ge_scalar_mult_base]: one round of the loops at 463-467 and 481-485; the doublings 474-477. *)
Definition base_round (h : ext) (rd : list pre * Z) : ext := to_extended (mixed_add h (sel_pre (fst rd) (snd rd))).
Fixpoint odds (l : list Z) : list Z := match l with _ :: y :: r => y :: odds r | _ => [] end.
Fixpoint evens (l : list Z) : list Z := match l with x :: _ :: r => x :: evens r | _ => [] end.
Definition proj_double3 (t : comp) : comp :=
  proj_double (to_projective (proj_double (to_projective (proj_double (to_projective t))))).
Definition ge_scalar_mult_base (a : list Z) : ext :=
  let e := digits a in
  let h := fold_left base_round (combine base_table (odds e)) ext_zero in
  let h := to_extended (proj_double3 (ext_double h)) in
  fold_left base_round (combine base_table (evens e)) h.

(** ge.rs 537-543: A, 2A, ..., 8A in cached form. *)
Fixpoint mult_table (n : nat) (ap : ext) (c : cached) : list cached :=
  match n with
  | O => [c]
  | S n' => c :: mult_table n' ap (write_cached (to_extended (comp_add ap c)))
  end.
(** ge.rs 508-568 [ge_scalar_mult]: one round of the loop 550-565, the digits taken from the most significant one down. *)
Definition mult_round (ai : list cached) (t : comp) (d : Z) : comp :=
  let t := proj_double (to_projective (proj_double3 t)) in
  comp_add (to_extended t) (sel_cached ai d).
Definition ge_scalar_mult (a : list Z) (ap : ext) : ext :=
  let ai := mult_table 7 ap (write_cached ap) in
  match rev (digits a) with
  | [] => ext_default
  | d63 :: ds => to_extended (fold_left (mult_round ai) ds (comp_add ext_zero (sel_cached ai d63)))
  end.

(** ge.rs 369-376: the bits of the scalar, as [i8]. *)
Definition slide_bits (a : list Z) : list Z :=
  flat_map (fun v => map (fun j => Z.land (Z.shiftr (wrap8 v) j) 1) [0; 1; 2; 3; 4; 5; 6; 7]) a.
(** ge.rs 391-397: add one at the lowest position of the list, with carries; a carry out of the last position is lost. *)
Fixpoint slide_carry (r : list Z) : list Z :=
  match r with [] => [] | k :: r' => if k =? 0 then 1 :: r' else 0 :: slide_carry r' end.
(** ge.rs 384-407: the inner [while], on r[i] = x and the positions above it; [b] counts from 1, [pre] holds (reversed) the
    positions i+1 .. i+b-1 already passed. *)
Fixpoint slide_inner (n : nat) (b : Z) (x : Z) (passed rest : list Z) : Z * list Z :=
  match n, rest with
  | S n', y :: rest' =>
      if negb (y =? 0) then
        let s := wrap8 (Z.shiftl y b) in
        if wrap8 (x + s) <=? 15 then slide_inner n' (b + 1) (wrap8 (x + s)) (0 :: passed) rest'
        else if -15 <=? wrap8 (x - s) then
          match slide_carry rest with
          | y' :: rest'' => slide_inner n' (b + 1) (wrap8 (x - s)) (y' :: passed) rest''
          | [] => (wrap8 (x - s), rev passed)
          end
        else (x, rev_append passed rest)
      else slide_inner n' (b + 1) x (y :: passed) rest'
  | _, _ => (x, rev_append passed rest)
  end.
(** ge.rs 383-409: over all positions. *)
Fixpoint slide_loop (n : nat) (r : list Z) : list Z :=
  match n, r with
  | S n', x :: r' =>
      if negb (x =? 0) then let '(x', r'') := slide_inner 6 1 x [] r' in x' :: slide_loop n' r''
      else x :: slide_loop n' r'
  | _, _ => r
  end.
Definition slide (a : list Z) : list Z := slide_loop 256 (slide_bits a).

(** ge_mult_vartime.rs 11-81: odd multiples (27-38), position of the highest non-zero digit (41-52), the remaining loop. *)
Fixpoint odd_table (n : nat) (a2 : ext) (c : cached) : list cached :=
  match n with
  | O => [c]
  | S n' => c :: odd_table n' a2 (write_cached (to_extended (comp_add a2 c)))
  end.
Fixpoint drop_zeros (l : list Z) : list Z := match l with [] => [] | x :: r => if x =? 0 then drop_zeros r else l end.
Definition nth_cached (ai : list cached) (i : Z) : cached := nth (Z.to_nat i) ai cached_zero.
(** Division of i8 values truncates; the two matches (55-59, 67-77). *)
Definition vt_first (ai : list cached) (d : Z) : comp :=
  if 0 <? d then comp_add ext_zero (nth_cached ai (Z.quot d 2))
  else if d <? 0 then comp_sub ext_zero (nth_cached ai (Z.quot (wrap8 (- d)) 2)) else comp_default.
Definition vt_round (ai : list cached) (t : comp) (d : Z) : comp :=
  let t := proj_double (to_projective t) in
  if 0 <? d then comp_add (to_extended t) (nth_cached ai (Z.quot d 2))
  else if d <? 0 then comp_sub (to_extended t) (nth_cached ai (Z.quot (wrap8 (- d)) 2)) else t.
Definition ge_scalar_mult_vartime (a : list Z) (ap : ext) : ext :=
  let sl := slide a in
  let ai := odd_table 7 (to_extended (ext_double ap)) (write_cached ap) in
  match drop_zeros (rev sl) with
  | [] => ext_zero
  | d :: ds => to_extended (fold_left (vt_round ai) ds (vt_first ai d))
  end.
