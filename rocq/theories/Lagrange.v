(** Lagrange interpolation over an arbitrary field (specification-level mathematics, independent of the model). *)
From mathcomp Require Import all_ssreflect all_algebra.
From mathcomp Require Import zify.

Set Implicit Arguments.
Unset Strict Implicit.
Unset Printing Implicit Defensive.

Import GRing.Theory.
Local Open Scope ring_scope.

Section Lagrange.
Variable F : fieldType.
Implicit Types (xs : seq F) (x y z : F) (f g : {poly F}).

(** The basis polynomial of the node x among the nodes xs. *)
Definition lagr xs x : {poly F} := \prod_(z <- xs | z != x) ((x - z)^-1 *: ('X - z%:P)).

Lemma lagr_self xs x : (lagr xs x).[x] = 1.
Proof.
rewrite /lagr horner_prod big1 // => z zx.
by rewrite hornerZ hornerXsubC mulVf // subr_eq0 eq_sym.
Qed.

Lemma lagr_other xs x y : y \in xs -> y != x -> (lagr xs x).[y] = 0.
Proof.
move=> yxs yx; rewrite /lagr horner_prod.
rewrite (big_rem y) //= yx hornerZ hornerXsubC subrr mulr0 mul0r //.
Qed.

Lemma size_lagr xs x : x \in xs -> uniq xs -> (size (lagr xs x) <= size xs)%N.
Proof.
move=> xin us.
have sz : (size (lagr xs x) <= (count (fun z => z != x) xs).+1)%N.
  rewrite /lagr; elim: xs {xin us} => [|a xs IH]; first by rewrite big_nil size_poly1.
  rewrite big_cons /=; case: ifP => _ //=.
  apply: leq_trans (size_mul_leq _ _) _.
  have s2 : (size ((x - a)^-1 *: ('X - a%:P))%R <= 2)%N.
    by apply: leq_trans (size_scale_leq _ _) _; rewrite size_XsubC.
  move: IH s2; set n1 := size _; set n2 := size _; lia.
apply: leq_trans sz _.
have -> : count (fun z => z != x) xs = (size xs - 1)%N.
  rewrite -(count_predC (pred1 x) xs) (@count_uniq_mem _ xs x us) xin /= addnC addnK.
  by [].
by rewrite subn1 prednK // -has_predT; apply/hasP; exists x.
Qed.

Lemma lagrange_unique f g xs : uniq xs ->
  (size f <= size xs)%N -> (size g <= size xs)%N -> {in xs, forall x, f.[x] = g.[x]} -> f = g.
Proof.
move=> us sf sg e; apply/eqP; rewrite -subr_eq0; apply/negPn/negP=> nz.
have := max_poly_roots nz _ us.
have -> : all (root (f - g)) xs.
  by apply/allP=> x xin; rewrite rootE hornerD hornerN e // subrr.
move=> /(_ isT); rewrite ltnNge => /negP; apply.
by apply: leq_trans (size_add _ _) _; rewrite size_opp geq_max sf sg.
Qed.

Lemma lagrange_sum_eval (c : F -> F) xs y : uniq xs -> y \in xs ->
  (\sum_(x <- xs) c x *: lagr xs x).[y] = c y.
Proof.
move=> us yin; rewrite horner_sum (big_rem y) //= hornerZ lagr_self mulr1.
rewrite big_seq big1 ?addr0 // => x; rewrite rem_filter // mem_filter => /andP[/= nxy xin].
by rewrite hornerZ lagr_other ?mulr0 // eq_sym.
Qed.

Lemma size_lagrange_sum (c : F -> F) xs : uniq xs ->
  (size (\sum_(x <- xs) c x *: lagr xs x)%R <= size xs)%N.
Proof.
move=> us; rewrite big_seq.
apply: (big_ind (fun q : {poly F} => (size q <= size xs)%N)).
- by rewrite size_poly0.
- by move=> p q sp sq; apply: leq_trans (size_add _ _) _; rewrite geq_max sp.
- move=> x xin; apply: leq_trans (size_scale_leq _ _) _; exact: size_lagr.
Qed.

(** Every polynomial is the combination of the basis polynomials weighted by its values. *)
Lemma lagrange_interp f xs : uniq xs -> (size f <= size xs)%N ->
  f = \sum_(x <- xs) f.[x] *: lagr xs x.
Proof.
move=> us sf; apply: (lagrange_unique us) => //; first exact: size_lagrange_sum.
by move=> y yin; rewrite (lagrange_sum_eval (fun x => f.[x])).
Qed.

(** Interpolation coefficients at 0. *)
Definition lag0 xs x : F := \prod_(z <- xs | z != x) (z / (z - x)).

Lemma lagr_at0 xs x : (lagr xs x).[0] = lag0 xs x.
Proof.
rewrite /lagr /lag0 horner_prod; apply: eq_bigr => z zx.
rewrite hornerZ hornerXsubC sub0r mulrC mulNr -mulrN -invrN opprB //.
Qed.

Lemma lagrange_at0 f xs : uniq xs -> (size f <= size xs)%N ->
  \sum_(x <- xs) lag0 xs x * f.[x] = f.[0].
Proof.
move=> us sf; rewrite [in RHS](lagrange_interp us sf) horner_sum.
by apply: eq_bigr => x _; rewrite hornerZ lagr_at0 mulrC.
Qed.

End Lagrange.
