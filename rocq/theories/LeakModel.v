(** What an observer of branches and memory addresses sees of a scalar multiplication: src/group/edwards25519/ge.rs 410-568,
    ge_mult_vartime.rs and scalar.rs 192-214, with a record of every branch taken on run-time data, every array index and every
    call.  The functions called (fe.rs, the point formulas of ge.rs, [sc_mul], i8/i32 arithmetic) are straight-line code: they
    contain no [if], [match] or [while] and only constant indices. *)
From Coq Require Import ZArith List.
From Verif Require Import Base Bytes Limb ScLimbs ScModel IntModel FeModel GeModel PointModel.
Import ListNotations.
Local Open Scope Z_scope.

(** Calls of straight-line functions. *)
Inductive op := Arith | Cmove | Zero | Neg | Add | Sub | MixedAdd | Double | ToExtended | ToProjective | WriteCached | ScMul.
(** One observation: the outcome of a test, an index into an array, a call. *)
Inductive event := Branch (b : bool) | Load (i : Z) | Run (o : op).
(** A result with the observations made on the way, oldest first. *)
Definition leak (A : Type) : Type := (list event * A)%type.
Definition ret {A} (a : A) : leak A := ([], a).
Definition bind {A B} (m : leak A) (f : A -> leak B) : leak B := let r := f (snd m) in (fst m ++ fst r, snd r).
Definition see (e : event) : leak unit := ([e], tt).
Declare Scope leak_scope.
Notation "x <- m ;; f" := (bind m (fun x => f)) (at level 61, m at next level, right associativity) : leak_scope.
Notation "m ;; f" := (bind m (fun _ => f)) (at level 61, right associativity) : leak_scope.
Local Open Scope leak_scope.

(** ge.rs 445-448 and 521-524. *)
Fixpoint l_nibbles (i : Z) (a : list Z) : leak (list Z) :=
  match a with
  | [] => ret []
  | v :: r => see (Load i) ;; see (Run Arith) ;; e <- l_nibbles (i + 1) r ;; ret (Z.land v 15 :: Z.land (Z.shiftr v 4) 15 :: e)
  end.
(** ge.rs 452-458 and 528-534. *)
Fixpoint l_recode (i : Z) (carry : Z) (e : list Z) : leak (list Z) :=
  match e with
  | [] => ret []
  | x :: r =>
      see (Load i) ;; see (Run Arith) ;;
      let x := wrap8 (x + carry) in
      match r with
      | [] => ret [x]
      | _ => let c := Z.shiftr (wrap8 (x + 8)) 4 in
             d <- l_recode (i + 1) c r ;; ret (wrap8 (x - wrap8 (Z.shiftl c 4)) :: d)
      end
  end.
(** ge.rs 442-458 and 518-534. *)
Definition l_digits (a : list Z) : leak (list Z) := e <- l_nibbles 0 a ;; l_recode 0 0 e.

(** ge.rs 423-435 [select_pre_computed]: the loop 429-431, then the rest. *)
Fixpoint l_scan_pre (b_abs : Z) (l : list (Z * pre)) (t : pre) : leak pre :=
  match l with
  | [] => ret t
  | (i, u) :: r => see (Load i) ;; see (Run Arith) ;; see (Run Cmove) ;; l_scan_pre b_abs r (pre_cmove t u (ge_equal b_abs (i + 1)))
  end.
Definition l_sel_pre (pos : Z) (row : list pre) (b : Z) : leak pre :=
  see (Run Arith) ;; see (Run Zero) ;; see (Load pos) ;;
  t <- l_scan_pre (ge_abs b) (combine [0; 1; 2; 3; 4; 5; 6; 7] row) pre_zero ;;
  see (Run Neg) ;; see (Run Cmove) ;; ret (pre_cmove t (pre_neg t) (ge_negative b)).
(** ge.rs 488-500 [select_cached]. *)
Fixpoint l_scan_cached (b_abs : Z) (l : list (Z * cached)) (c : cached) : leak cached :=
  match l with
  | [] => ret c
  | (i, u) :: r => see (Load i) ;; see (Run Arith) ;; see (Run Cmove) ;; l_scan_cached b_abs r (cached_cmove c u (ge_equal b_abs (i + 1)))
  end.
Definition l_sel_cached (ai : list cached) (b : Z) : leak cached :=
  see (Run Arith) ;; see (Run Zero) ;;
  c <- l_scan_cached (ge_abs b) (combine [0; 1; 2; 3; 4; 5; 6; 7] ai) cached_zero ;;
  see (Run Neg) ;; see (Run Cmove) ;; ret (cached_cmove c (cached_neg c) (ge_negative b)).

(** ge.rs 463-467 and 481-485: the rounds for the digits at i, i + 2, ... *)
Fixpoint l_rounds (i : Z) (h : ext) (l : list (list pre * Z)) : leak ext :=
  match l with
  | [] => ret h
  | (row, d) :: r =>
      see (Load i) ;; t <- l_sel_pre (i / 2) row d ;; see (Run MixedAdd) ;; see (Run ToExtended) ;;
      l_rounds (i + 2) (to_extended (mixed_add h t)) r
  end.
(** ge.rs 442-486 [ge_scalar_mult_base]. *)
Definition l_ge_scalar_mult_base (a : list Z) : leak ext :=
  e <- l_digits a ;;
  see (Run Zero) ;;
  h <- l_rounds 1 ext_zero (combine base_table (odds e)) ;;
  see (Run Double) ;; see (Run ToProjective) ;; see (Run Double) ;; see (Run ToProjective) ;; see (Run Double) ;; see (Run ToProjective) ;;
  see (Run Double) ;; see (Run ToExtended) ;;
  l_rounds 0 (to_extended (proj_double3 (ext_double h))) (combine base_table (evens e)).

(** ge.rs 537-543: the table of multiples. *)
Fixpoint l_mult_table (n : nat) (i : Z) (ap : ext) (c : cached) : leak (list cached) :=
  match n with
  | O => ret [c]
  | S n' => see (Load i) ;; see (Run Add) ;; see (Run ToExtended) ;; see (Run WriteCached) ;;
            r <- l_mult_table n' (i + 1) ap (write_cached (to_extended (comp_add ap c))) ;; ret (c :: r)
  end.
(** ge.rs 550-565: digits from position i down. *)
Fixpoint l_mult_rounds (i : Z) (ai : list cached) (t : comp) (ds : list Z) : leak comp :=
  match ds with
  | [] => ret t
  | d :: r =>
      see (Run ToProjective) ;; see (Run Double) ;; see (Run ToProjective) ;; see (Run Double) ;;
      see (Run ToProjective) ;; see (Run Double) ;; see (Run ToProjective) ;; see (Run Double) ;; see (Run ToExtended) ;;
      see (Load i) ;; c <- l_sel_cached ai d ;; see (Run Add) ;;
      l_mult_rounds (i - 1) ai (comp_add (to_extended (proj_double (to_projective (proj_double3 t)))) c) r
  end.
(** ge.rs 508-568 [ge_scalar_mult]. *)
Definition l_ge_scalar_mult (a : list Z) (ap : ext) : leak ext :=
  e <- l_digits a ;;
  see (Run WriteCached) ;; ai <- l_mult_table 7 0 ap (write_cached ap) ;;
  match rev e with
  | [] => ret ext_default
  | d63 :: ds =>
      see (Run Zero) ;; see (Load 63) ;; c <- l_sel_cached ai d63 ;; see (Run Add) ;;
      t <- l_mult_rounds 62 ai (comp_add ext_zero c) ds ;; see (Run ToExtended) ;; ret (to_extended t)
  end.

(** ge_mult_vartime.rs 27-38: as [l_mult_table]. *)
Fixpoint l_odd_table (n : nat) (i : Z) (a2 : ext) (c : cached) : leak (list cached) :=
  match n with
  | O => ret [c]
  | S n' => see (Load i) ;; see (Run Add) ;; see (Run ToExtended) ;; see (Run WriteCached) ;;
            r <- l_odd_table n' (i + 1) a2 (write_cached (to_extended (comp_add a2 c))) ;; ret (c :: r)
  end.
(** ge_mult_vartime.rs 41-52: the search for the highest non-zero digit, from the top. *)
Fixpoint l_drop_zeros (l : list Z) : leak (list Z) :=
  match l with
  | [] => ret []
  | x :: r => see (Branch (x =? 0)) ;; if x =? 0 then l_drop_zeros r else ret l
  end.
(** ge_mult_vartime.rs 55-59 and 67-77: the match on one digit, on the accumulator [t] or its extended form [u]. *)
Definition l_vt_digit (ai : list cached) (u : ext) (t : comp) (d : Z) : leak comp :=
  see (Branch (0 <? d)) ;;
  if 0 <? d then see (Load (Z.quot d 2)) ;; see (Run Add) ;; ret (comp_add u (nth_cached ai (Z.quot d 2)))
  else see (Branch (d <? 0)) ;;
    if d <? 0 then see (Load (Z.quot (wrap8 (- d)) 2)) ;; see (Run Sub) ;; ret (comp_sub u (nth_cached ai (Z.quot (wrap8 (- d)) 2)))
    else ret t.
(** ge_mult_vartime.rs 62-78. *)
Fixpoint l_vt_rounds (ai : list cached) (t : comp) (ds : list Z) : leak comp :=
  match ds with
  | [] => ret t
  | d :: r => see (Run ToProjective) ;; see (Run Double) ;;
      let t := proj_double (to_projective t) in
      t <- l_vt_digit ai (to_extended t) t d ;; l_vt_rounds ai t r
  end.
(** ge_mult_vartime.rs 11-81 [ge_scalar_mult_vartime].  Simplified: the observations inside [slide] (line 25) and the calls of
    [to_extended] in lines 69 and 73 are left out, so an observer sees more than is recorded here. *)
Definition l_ge_scalar_mult_vartime (a : list Z) (ap : ext) : leak ext :=
  let sl := slide a in
  see (Run WriteCached) ;; see (Run Double) ;; see (Run ToExtended) ;;
  ai <- l_odd_table 7 0 (to_extended (ext_double ap)) (write_cached ap) ;;
  s <- l_drop_zeros (rev sl) ;;
  match s with
  | [] => see (Run Zero) ;; ret ext_zero
  | d :: ds => t <- l_vt_digit ai ext_zero comp_default d ;; t <- l_vt_rounds ai t ds ;; see (Run ToExtended) ;; ret (to_extended t)
  end.

(** point.rs 206-223 [mul]. *)
Definition l_point_mul (self : point) (s : list Z) (p : option point) : leak point :=
  see (Branch (match p with None => true | Some _ => false end)) ;;
  g <- match p with
       | None => l_ge_scalar_mult_base s
       | Some a => see (Branch (p_vt self)) ;; if p_vt self then l_ge_scalar_mult_vartime s (p_ge a) else l_ge_scalar_mult s (p_ge a)
       end ;;
  ret (Pt g (p_vt self)).

(** scalar.rs 202-211, the loop of [inv]. *)
Fixpoint l_inv_steps (i : Z) (ac res : list Z) (bits : list bool) : leak (list Z) :=
  match bits with
  | [] => ret res
  | b :: r => see (Load i) ;; see (Run ScMul) ;; see (Branch b) ;;
      let q := sc_mul res res in
      if b then see (Run ScMul) ;; l_inv_steps (i - 1) ac (sc_mul q ac) r else l_inv_steps (i - 1) ac q r
  end.
(** scalar.rs 192-214 [inv]. *)
Definition l_scalar_inv (ac : list Z) : leak (outcome int_error (list Z)) :=
  let bits := get_bits (to_bytes_le L_MINUS2) in
  if Nat.ltb (length bits) 256 then ret Panic
  else r <- l_inv_steps 255 ac scalar_one (rev (firstn 256 bits)) ;; ret (Ok r).
