(** Model of src/share/poly.rs: Shamir secret sharing and polynomial commitments.

    Scalars are an arbitrary [fieldType] F, points an arbitrary vector space ([lmodType]) G over it with a
    distinguished point [B] (the standard base).  Simplifications, valid for the whole file:
    - one group only: the [g.to_string() != q.g.to_string()] tests (poly.rs 155, 177, 487, 512) never fire;
    - points live in the prime-order group (cofactor components are not representable);
    - indices are natural numbers; [i as i64] does not wrap (indices below 2^63 - 1);
    - [scalar().set_int64(k)] for k >= 0 is [k%:R]; [scalar.div a b] is [a / b] with the code's convention
      that the inverse of 0 is 0 (scalar.rs 192-214 computes 0^(l-2) = 0; mathcomp has the same convention). *)
From mathcomp Require Import all_ssreflect all_algebra.
From Verif Require Import Base.

Set Implicit Arguments.
Unset Strict Implicit.
Unset Printing Implicit Defensive.

Import GRing.Theory.
Local Open Scope ring_scope.
Local Open Scope outcome_scope.

(** poly.rs 670-686 [PolyError] (only the variants the modelled paths return). *)
Inductive poly_error :=
| NotEnoughtGoodPublics
| WrongCoefficientsNumber
| NotEnoughSharesForPublic
| NotEnoughSharesForSecret.

(** [HashMap<usize, T>] (poly.rs 28-32) as an association list without repeated keys. *)
Section Maps.
Variable T : Type.

(** [HashMap::insert]: replaces the value of an existing key. *)
Fixpoint minsert (k : nat) (v : T) (m : seq (nat * T)) : seq (nat * T) :=
  match m with
  | [::] => [:: (k, v)]
  | (k', v') :: m' => if k == k' then (k, v) :: m' else (k', v') :: minsert k v m'
  end.

(** [HashMap::get]. *)
Fixpoint mget (k : nat) (m : seq (nat * T)) : option T :=
  match m with
  | [::] => None
  | (k', v') :: m' => if k == k' then Some v' else mget k m'
  end.

Definition mkeys (m : seq (nat * T)) : seq nat := map fst m.
End Maps.

Section Poly.
Variable F : fieldType.
Variable G : lmodType F.
Variable B : G.              (* the standard base point, [point().base()] *)

(** poly.rs 36-41 [PriShare]. *)
Record pri_share := PriShare { ps_i : nat; ps_v : F }.

(** poly.rs 373-379 [PubShare]. *)
Record pub_share := PubShare { us_i : nat; us_v : G }.

(** poly.rs 67-72 [PriPoly]: the coefficient vector. *)
Definition pri_poly := seq F.

(** poly.rs 399-406 [PubPoly]: base and commitments. *)
Record pub_poly := PubPoly { pb : option G; pcommits : seq G }.

(** The x-coordinate of share i: [scalar().set_int64(1 + i as i64)] (poly.rs 134, 304, 459, 555). *)
Definition xcoord (i : nat) : F := (i.+1)%:R.

(** [point().mul(s, b)] with [None] meaning the standard base (group.rs Point::mul). *)
Definition pmul (s : F) (b : option G) : G := s *: odflt B b.

(** poly.rs 90-108 [new_pri_poly].  [picks k] is the k-th scalar picked from the stream. *)
Definition new_pri_poly (t : nat) (s : option F) (picks : nat -> F) : pri_poly :=
  match s with
  | Some v => v :: mkseq picks (t - 1)
  | None => picks 0%N :: mkseq (fun k => picks k.+1) (t - 1)
  end.

(** poly.rs 123-125 [PriPoly::threshold]. *)
Definition pri_threshold (p : pri_poly) : nat := size p.

(** poly.rs 128-130 [PriPoly::secret]: [coeffs[0]], panics when there is no coefficient. *)
Definition pri_secret (p : pri_poly) : outcome poly_error F :=
  match p with [::] => Panic | c :: _ => Ok c end.

(** poly.rs 133-141 [PriPoly::eval]: for j = t-1 downto 0, v := v*xi; v := v + coeffs[j]. *)
Definition pri_eval (p : pri_poly) (i : nat) : pri_share :=
  PriShare i (foldl (fun v c => v * xcoord i + c) 0 (rev p)).

(** poly.rs 144-150 [PriPoly::shares]. *)
Definition pri_shares (p : pri_poly) (n : nat) : seq (option pri_share) :=
  [seq Some (pri_eval p i) | i <- iota 0 n].

(** Component-wise sum loops of poly.rs 163-165 and 496-498 (lengths are equal at this point). *)
Fixpoint vadd {V : zmodType} (p q : seq V) : seq V :=
  match p, q with
  | a :: p', b :: q' => (a + b) :: vadd p' q'
  | _, _ => [::]
  end.

(** poly.rs 154-170 [PriPoly::add]. *)
Definition pri_add (p q : pri_poly) : outcome poly_error pri_poly :=
  if size p != size q then Err WrongCoefficientsNumber else Ok (vadd p q).

(** poly.rs 195-206 [PriPoly::commit]. *)
Definition pri_commit (p : pri_poly) (b : option G) : pub_poly :=
  PubPoly b [seq pmul c b | c <- p].

(** poly.rs 213-232 [PriPoly::mul].  [coeffs.len() - 1] wraps for an empty operand: the total length
    [d1 + d2 + 1] is then size p + size q - 1 modulo 2^64, which is 2^64 - 1 (allocation panic) exactly when
    both are empty.  The double loop adds p_i * q_j into position i + j. *)
Definition pri_mul (p q : pri_poly) : outcome poly_error pri_poly :=
  if (size p == 0%N) && (size q == 0%N) then Panic else
  let zero := nseq (size p + size q - 1) (0 : F) in
  Ok (foldl (fun acc ic =>
        foldl (fun acc' jc =>
                 set_nth 0 acc' (ic.1 + jc.1)%N (nth 0 acc' (ic.1 + jc.1)%N + ic.2 * jc.2))
              acc (zip (iota 0 (size q)) q))
      zero (zip (iota 0 (size p)) p)).

(** Sorting and collecting, common to [xy_scalar] (poly.rs 283-311) and [xy_commit] (534-562):
    drop the [None]s, stable sort by index, insert until [t] distinct indices are present.
    The map [x] holds the x-coordinates, the map [y] the share values. *)
Fixpoint xy_loop {T : Type} (t : nat) (l : seq (nat * T)) (x : seq (nat * F)) (y : seq (nat * T))
  : seq (nat * F) * seq (nat * T) :=
  match l with
  | [::] => (x, y)
  | (i, v) :: l' =>
      let x' := minsert i (xcoord i) x in
      let y' := minsert i v y in
      if size x' == t then (x', y') else xy_loop t l' x' y'
  end.

Definition xy_collect {T : Type} (shares : seq (option (nat * T))) (t : nat) :=
  xy_loop t (sort (fun a b => a.1 <= b.1)%N (pmap id shares)) [::] [::].

(** poly.rs 283-311 [xy_scalar]. *)
Definition xy_scalar (shares : seq (option pri_share)) (t : nat) :=
  xy_collect [seq omap (fun s => (ps_i s, ps_v s)) o | o <- shares] t.

(** poly.rs 534-562 [xy_commit]. *)
Definition xy_commit (shares : seq (option pub_share)) (t : nat) :=
  xy_collect [seq omap (fun s => (us_i s, us_v s)) o | o <- shares] t.

(** Iteration order of the hash map [x]: [ord 0] for the outermost loop, [ord i.+1] for the inner loop
    started for key i.  Nothing is assumed about it in the model; theorems assume it permutes. *)
Definition hash_order := nat -> seq (nat * F) -> seq (nat * F).

(** Inner loop of poly.rs 264-271 / 587-594. *)
Definition lag_loop (i : nat) (xi : F) (l : seq (nat * F)) (start : F * F) : F * F :=
  foldl (fun nd jx => if i == jx.1 then nd
                      else (nd.1 * jx.2, nd.2 * (jx.2 - xi))) start l.

(** poly.rs 244-278 [recover_secret]. *)
Definition recover_secret (ord : hash_order) (shares : seq (option pri_share)) (t : nat)
  : outcome poly_error F :=
  let '(x, y) := xy_scalar shares t in
  if (size x < t)%N then Err NotEnoughSharesForSecret else
  foldo (fun acc ix =>
           let! yi := of_option (mget ix.1 y) in
           let nd := lag_loop ix.1 ix.2 (ord ix.1.+1 x) (yi, 1) in
           Ok (acc + nd.1 / nd.2)) 0 (ord 0%N x).

(** poly.rs 313-319 [minus_const]: the polynomial X - c. *)
Definition minus_const (c : F) : pri_poly := [:: - c; 1].

(** poly.rs 640-668 [lagrange_basis].  [xs[&i]] panics when key i is absent (only evaluated when some other
    key exists). *)
Definition lagrange_basis (i : nat) (xs : seq (nat * F)) (l : seq (nat * F)) : outcome poly_error pri_poly :=
  let! ba := foldo (fun ba mx =>
      if i == mx.1 then Ok ba else
      let! basis := pri_mul ba.1 (minus_const mx.2) in
      let! xi := of_option (mget i xs) in
      Ok (basis, ba.2 * (xi - mx.2)^-1)) ([:: 1], 1) l in
  Ok [seq c * ba.2 | c <- ba.1].

(** poly.rs 326-359 [recover_pri_poly]. *)
Definition recover_pri_poly (ord : hash_order) (shares : seq (option pri_share)) (t : nat)
  : outcome poly_error pri_poly :=
  let '(x, y) := xy_scalar shares t in
  if size x != t then Err NotEnoughSharesForPublic else
  foldo (fun acc jx =>
      let! basis0 := lagrange_basis jx.1 x (ord jx.1.+1 x) in
      let! yj := of_option (mget jx.1 y) in
      let basis := [seq c * yj | c <- basis0] in
      if acc is [::] then Ok basis else pri_add acc basis) [::] (ord 0%N x).

(** poly.rs 447-449 [PubPoly::threshold]. *)
Definition pub_threshold (p : pub_poly) : nat := size (pcommits p).

(** poly.rs 452-454 [PubPoly::commit]: [commits[0]]. *)
Definition pub_commit (p : pub_poly) : outcome poly_error G :=
  match pcommits p with [::] => Panic | c :: _ => Ok c end.

(** poly.rs 457-469 [PubPoly::eval].  With no commitment the range end [threshold() - 1] wraps to
    [usize::MAX] and the first indexing panics. *)
Definition pub_eval (p : pub_poly) (i : nat) : outcome poly_error pub_share :=
  match pcommits p with
  | [::] => Panic
  | cs => Ok (PubShare i (foldl (fun v c => xcoord i *: v + c) 0 (rev cs)))
  end.

(** poly.rs 472-478 [PubPoly::shares]. *)
Definition pub_shares (p : pub_poly) (n : nat) : outcome poly_error (seq (option pub_share)) :=
  foldo (fun acc i => let! s := pub_eval p i in Ok (rcons acc (Some s))) [::] (iota 0 n).

(** poly.rs 486-505 [PubPoly::add]: keeps the base of the first operand. *)
Definition pub_add (p q : pub_poly) : outcome poly_error pub_poly :=
  if size (pcommits p) != size (pcommits q) then Err WrongCoefficientsNumber
  else Ok (PubPoly (pb p) (vadd (pcommits p) (pcommits q))).

(** poly.rs 526-530 [PubPoly::check]. *)
Definition pub_check (p : pub_poly) (s : pri_share) : outcome poly_error bool :=
  let! pv := pub_eval p (ps_i s) in Ok (us_v pv == pmul (ps_v s) (pb p)).

(** poly.rs 566-603 [recover_commit]. *)
Definition recover_commit (ord : hash_order) (shares : seq (option pub_share)) (t : nat)
  : outcome poly_error G :=
  let '(x, y) := xy_commit shares t in
  if (size x < t)%N then Err NotEnoughtGoodPublics else
  foldo (fun acc ix =>
           let nd := lag_loop ix.1 ix.2 (ord ix.1.+1 x) (1, 1) in
           let! yi := of_option (mget ix.1 y) in
           Ok (acc + (nd.1 / nd.2) *: yi)) 0 (ord 0%N x).

(** poly.rs 607-635 [recover_pub_poly].  The loop variable is the *position* j of [x.iter().enumerate()],
    not the map key, so [x] is only used for its length. *)
Definition recover_pub_poly (ord : hash_order) (shares : seq (option pub_share)) (t : nat)
  : outcome poly_error pub_poly :=
  let '(x, y) := xy_commit shares t in
  if (size x < t)%N then Err NotEnoughtGoodPublics else
  foldo (fun acc j =>
      let! basis := lagrange_basis j x (ord j.+1 x) in
      let! yj := of_option (mget j y) in
      let tmp := pri_commit basis (Some yj) in
      if pcommits acc is [::] then Ok tmp else pub_add acc tmp)
    (PubPoly None [::]) (iota 0 (size (ord 0%N x))).

Section Equal.
(** Marshalled forms, compared as byte strings by [equal]; decidable equality of byte strings. *)
Variable encF : F -> seq nat.
Variable encG : G -> seq nat.

(** poly.rs 176-191 [PriPoly::equal] (marshalling of scalars does not fail). *)
Definition pri_equal (p q : pri_poly) : outcome poly_error bool :=
  if size p != size q then Ok false else
  foldo (fun b i =>
     let! pi := of_option (nth None (map Some p) i) in
     let! qi := of_option (nth None (map Some q) i) in
     Ok (b && (encF pi == encF qi))) true (iota 0 (size p)).

(** poly.rs 511-523 [PubPoly::equal]: no length comparison; [q.commits[i]] panics when q is shorter. *)
Definition pub_equal (p q : pub_poly) : outcome poly_error bool :=
  foldo (fun b i =>
     let! pi := of_option (nth None (map Some (pcommits p)) i) in
     let! qi := of_option (nth None (map Some (pcommits q)) i) in
     Ok (b && (encG pi == encG qi))) true (iota 0 (size (pcommits p))).
End Equal.

End Poly.
