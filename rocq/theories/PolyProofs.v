(** Lemmas about the model of src/share/poly.rs. *)
From mathcomp Require Import all_ssreflect all_algebra.
From mathcomp Require Import zify.
From Verif Require Import Base Lagrange PolyModel.

Set Implicit Arguments.
Unset Strict Implicit.
Unset Printing Implicit Defensive.

Import GRing.Theory.
Local Open Scope ring_scope.

(** * Association lists *)
Section MapLemmas.
Variable T : Type.
Implicit Types (m : seq (nat * T)) (k : nat) (v : T).

Lemma mkeys_minsert k v m :
  mkeys (minsert k v m) = if k \in mkeys m then mkeys m else rcons (mkeys m) k.
Proof.
elim: m => [|[k' v'] m IH] //=.
rewrite in_cons; case: eqP => [->|_] //=; rewrite IH; by case: ifP.
Qed.

Lemma size_mkeys m : size (mkeys m) = size m.
Proof. by rewrite /mkeys size_map. Qed.

Lemma mget_minsert k v m k' : mget k' (minsert k v m) = if k' == k then Some v else mget k' m.
Proof.
elim: m => [|[k2 v2] m IH] //=.
case: eqP => [<-|ne] /=; first by case: eqP.
rewrite IH; case: (eqVneq k' k2) => [e|//]; case: (eqVneq k' k) => // e'; by case: ne; rewrite -e -e'.
Qed.

Lemma mget_in k m : (k \in mkeys m) = isSome (mget k m).
Proof.
elim: m => [|[k' v'] m IH] //=; rewrite in_cons IH.
by case: eqP.
Qed.
End MapLemmas.

Lemma foldo_ext (E A A' C : Type) (f : C -> A -> outcome E C) (g : C -> A' -> outcome E C) (h : A -> A') c l :
  (forall c a, f c a = g c (h a)) -> foldo f c l = foldo g c (map h l).
Proof. by move=> e; elim: l c => //= a l IH c; rewrite e; case: (g c (h a)) => //=. Qed.

Lemma foldo_ok (E A C : Type) (P : A -> Prop) (f : C -> A -> outcome E C) (g : C -> A -> C) c l :
  (forall c a, P a -> f c a = Ok (g c a)) -> (forall a, List.In a l -> P a) ->
  foldo f c l = Ok (foldl g c l).
Proof.
move=> e; elim: l c => //= a l IH c H; rewrite e; last by apply: H; left.
by rewrite /= IH // => b bl; apply: H; right.
Qed.

Section Poly.
Variable F : fieldType.
Variable G : lmodType F.
Variable B : G.
Local Notation xcoord := (xcoord F).

(** ** Evaluation *)

Lemma foldl_horner (p : seq F) x : foldl (fun v c => v * x + c) 0 (rev p) = (Poly p).[x].
Proof.
rewrite horner_Poly; elim: p => //= a p IH.
by rewrite rev_cons -cats1 foldl_cat /= IH.
Qed.

Lemma pri_eval_v (p : seq F) i : ps_v (pri_eval p i) = (Poly p).[xcoord i].
Proof. by rewrite /= foldl_horner. Qed.

Lemma pri_eval_i (p : seq F) i : ps_i (pri_eval p i) = i.
Proof. by []. Qed.

(** Evaluation of a commitment vector: sum of x^j C_j. *)
Definition gsum (cs : seq G) (x : F) : G := \sum_(j < size cs) x ^+ j *: cs`_j.

Lemma gsum_cons c cs x : gsum (c :: cs) x = x *: gsum cs x + c.
Proof.
rewrite /gsum big_ord_recl /= expr0 scale1r addrC; congr (_ + _).
rewrite scaler_sumr; apply: eq_bigr => j _.
by rewrite /bump /= add1n exprS scalerA.
Qed.

Lemma foldl_gsum (cs : seq G) x : foldl (fun v c => x *: v + c) 0 (rev cs) = gsum cs x.
Proof.
elim: cs => [|c cs IH]; first by rewrite /gsum big_ord0.
by rewrite rev_cons -cats1 foldl_cat /= IH gsum_cons.
Qed.

Lemma pub_eval_ok (p : pub_poly G) i : pcommits p != [::] ->
  pub_eval p i = Ok (PubShare i (gsum (pcommits p) (xcoord i))).
Proof. by rewrite /pub_eval; case E: (pcommits p) => [|c cs] // _; rewrite foldl_gsum. Qed.

Lemma pub_eval_panic (p : pub_poly G) i : pcommits p = [::] -> pub_eval p i = Panic.
Proof. by rewrite /pub_eval => ->. Qed.

Lemma gsum_commit (p : seq F) (b : option G) x :
  gsum [seq pmul B c b | c <- p] x = (Poly p).[x] *: odflt B b.
Proof.
rewrite horner_Poly; elim: p => [|a p IH]; first by rewrite /gsum big_ord0 scale0r.
by rewrite /= gsum_cons IH scalerA -scalerDl mulrC.
Qed.

Lemma pri_commit_eval (p : seq F) (b : option G) i : p != [::] ->
  pub_eval (pri_commit B p b) i = Ok (PubShare i (pmul B (ps_v (pri_eval p i)) b)).
Proof.
move=> np; rewrite pub_eval_ok; last by case: p np.
by rewrite /= gsum_commit foldl_horner.
Qed.

Lemma pub_check_correct (p : seq F) (b : option G) (s : pri_share F) : p != [::] -> odflt B b != 0 ->
  pub_check B (pri_commit B p b) s = Ok (ps_v s == ps_v (pri_eval p (ps_i s))).
Proof.
move=> np nb; rewrite /pub_check pri_commit_eval //=; congr Ok.
rewrite /pmul -subr_eq0 -scalerBl scaler_eq0 (negPf nb) orbF subr_eq0.
by rewrite eq_sym.
Qed.

(** ** Addition *)

Lemma size_vadd (V : zmodType) (p q : seq V) : size (vadd p q) = minn (size p) (size q).
Proof. by elim: p q => [|a p IH] [|b q] //=; rewrite IH minnSS. Qed.

Lemma nth_vadd (V : zmodType) (p q : seq V) i : size p = size q -> (vadd p q)`_i = p`_i + q`_i.
Proof.
elim: p q i => [|a p IH] [|b q] [|i] //= e; rewrite ?nth_nil ?addr0 //.
by apply: IH; case: e.
Qed.

Lemma Poly_vadd (p q : seq F) : size p = size q -> Poly (vadd p q) = Poly p + Poly q.
Proof.
move=> e; apply/polyP=> i; rewrite coefD !coef_Poly.
exact: nth_vadd.
Qed.

Lemma gsum_vadd (p q : seq G) x : size p = size q -> gsum (vadd p q) x = gsum p x + gsum q x.
Proof.
move=> e; rewrite /gsum size_vadd -e minnn -big_split /=.
by apply: eq_bigr => j _; rewrite nth_vadd // scalerDr.
Qed.

Lemma pri_add_ok (p q : seq F) : (size p = size q -> pri_add p q = Ok (vadd p q)) /\
  (size p <> size q -> pri_add p q = Err WrongCoefficientsNumber).
Proof. by rewrite /pri_add; case: eqP. Qed.

Lemma vadd_map_scale (p q : seq F) (P : G) : size p = size q ->
  [seq c *: P | c <- vadd p q] = vadd [seq c *: P | c <- p] [seq c *: P | c <- q].
Proof. by elim: p q => [|a p IH] [|b q] //= [e]; rewrite IH // scalerDl. Qed.

(** ** Multiplication *)

Lemma Poly_set_nth (p : seq F) k c : (k < size p)%N ->
  Poly (set_nth 0 p k (p`_k + c)) = Poly p + c *: 'X^k.
Proof.
move=> kp; apply/polyP=> i; rewrite coefD !coef_Poly coefZ coefXn nth_set_nth /=.
by case: eqP => [->|_]; rewrite ?mulr1 ?mulr0 ?addr0.
Qed.

Lemma size_set_nth_in (p : seq F) k c : (k < size p)%N -> size (set_nth 0 p k c) = size p.
Proof. by move=> kp; rewrite size_set_nth; apply/maxn_idPr. Qed.

Lemma mul_inner (a : F) (q : seq F) (i k : nat) (acc : seq F) : (i + k + size q <= size acc)%N ->
  let r := foldl (fun acc' jc => set_nth 0 acc' (i + jc.1)%N (nth 0 acc' (i + jc.1)%N + a * jc.2))
             acc (zip (iota k (size q)) q) in
  size r = size acc /\ Poly r = Poly acc + (a *: 'X^(i + k)) * Poly q.
Proof.
elim: q k acc => [|b q IH] k acc /= H; first by rewrite mulr0 addr0.
have Hk : (i + k < size acc)%N by lia.
have [|s e] := IH k.+1 (set_nth 0 acc (i + k) (nth 0 acc (i + k)%N + a * b)).
  rewrite size_set_nth_in //; lia.
split; first by rewrite s size_set_nth_in.
rewrite e Poly_set_nth // -addrA; congr (_ + _).
rewrite cons_poly_def mulrDr addrC; congr (_ + _).
  rewrite addnS exprSr -!scalerAl -!mulrA; congr (_ *: (_ * _)); by rewrite mulrC.
by rewrite [RHS]mulrC mul_polyC scalerA mulrC.
Qed.

Lemma mul_outer (p q : seq F) (k : nat) (acc : seq F) : q != [::] ->
  (k + size p + size q <= (size acc).+1)%N ->
  let r := foldl (fun acc ic =>
        foldl (fun acc' jc =>
                 set_nth 0 acc' (ic.1 + jc.1)%N (nth 0 acc' (ic.1 + jc.1)%N + ic.2 * jc.2))
              acc (zip (iota 0 (size q)) q)) acc (zip (iota k (size p)) p) in
  size r = size acc /\ Poly r = Poly acc + 'X^k * Poly p * Poly q.
Proof.
move=> nq; elim: p k acc => [|a p IH] k acc /= H; first by rewrite mulr0 mul0r addr0.
have sq : (0 < size q)%N by case: (q) nq.
have [|s1 e1] := @mul_inner a q k 0 acc; first by lia.
set acc1 := foldl _ acc _ in s1 e1 *.
have [|s e] := IH k.+1 acc1; first by rewrite s1; lia.
split; first by rewrite s.
rewrite e e1 -addrA; congr (_ + _); rewrite addn0 -mulrDl; congr (_ * _).
rewrite cons_poly_def mulrDr addrC; congr (_ + _).
  rewrite exprSr -!mulrA; congr (_ * _); by rewrite mulrC.
by rewrite -mul_polyC mulrC.
Qed.

Lemma pri_mul_ok (p q : seq F) : p != [::] -> q != [::] ->
  exists2 r, pri_mul p q = Ok r & size r = (size p + size q - 1)%N /\ Poly r = Poly p * Poly q.
Proof.
move=> np nq; rewrite /pri_mul.
have sp : (0 < size p)%N by case: (p) np. have sq : (0 < size q)%N by case: (q) nq.
rewrite (_ : (size p == 0)%N = false) /=; last by lia.
eexists; first reflexivity.
have [|s e] := @mul_outer p q 0 (nseq (size p + size q - 1) 0) nq; first by rewrite size_nseq; lia.
split; first by rewrite s size_nseq.
rewrite e expr0 mul1r (_ : Poly (nseq _ _) = 0) ?add0r //.
by apply/polyP=> i; rewrite coef_Poly nth_nseq if_same coef0.
Qed.

(** ** Collecting shares *)

(** The indices present in an optional share list. *)
Definition pidx {T} (l : seq (nat * T)) := map fst l.

Section Collect.
Variable T : Type.
Implicit Types (l : seq (nat * T)) (x : seq (nat * F)) (y : seq (nat * T)).

(** Loop invariant: x and y have the same keys without repetition, x maps i to xcoord i, y only holds values
    satisfying the predicate R. *)
Definition xy_inv (R : nat -> T -> Prop) x y :=
  [/\ mkeys x = mkeys y, uniq (mkeys x), (forall i, i \in mkeys x -> mget i x = Some (xcoord i)),
      (forall i v, List.In (i, v) x -> v = xcoord i) &
      (forall i v, mget i y = Some v -> R i v)].

Lemma In_minsert (V : Type) k (v : V) m i w : List.In (i, w) (minsert k v m) -> (i, w) = (k, v) \/ List.In (i, w) m.
Proof.
elim: m => [|[k' v'] m IH] /=; first by case=> // ->; left.
case: eqP => _ /= [->|]; auto => /IH; tauto.
Qed.

Lemma xy_inv_insert (R : nat -> T -> Prop) x y i v : xy_inv R x y -> R i v ->
  xy_inv R (minsert i (xcoord i) x) (minsert i v y).
Proof.
case=> [e u hx hx' hy] r; split.
- by rewrite !mkeys_minsert e.
- by rewrite mkeys_minsert; case: ifP => //= n; rewrite rcons_uniq n u.
- move=> j; rewrite mkeys_minsert mget_minsert; case: (eqVneq j i) => [->|ne] //.
  by case: ifP => _ => [/hx//|]; rewrite mem_rcons in_cons (negPf ne) => /hx.
- by move=> j w H; case: (In_minsert H) => [[-> ->]|/hx'].
- by move=> j w; rewrite mget_minsert; case: eqP => [-> [<-]|_ H] //; exact: hy.
Qed.

Lemma xy_loop_inv (R : nat -> T -> Prop) t l x y : xy_inv R x y -> (forall i v, List.In (i, v) l -> R i v) ->
  xy_inv R (xy_loop t l x y).1 (xy_loop t l x y).2.
Proof.
elim: l x y => [|[i v] l IH] x y //= Hi Hl.
have Hi' := xy_inv_insert Hi (Hl i v (or_introl erefl)).
case: ifP => _ //; apply: IH => // j w jw; apply: Hl; by right.
Qed.

(** Keys of the result: a prefix-bounded part of the keys offered. *)
Lemma xy_loop_sub t l x y i : i \in mkeys (xy_loop t l x y).1 -> i \in mkeys x \/ i \in pidx l.
Proof.
elim: l x y => [|[j v] l IH] x y //=; first by left.
case: ifP => _ /=.
  rewrite mkeys_minsert; case: ifP => _; first by left.
  by rewrite mem_rcons !in_cons => /orP[->|]; [right|left].
case/IH; rewrite ?mkeys_minsert.
  case: ifP => _; first by left.
  by rewrite mem_rcons !in_cons => /orP[->|]; [right|left].
by rewrite in_cons => ->; right; rewrite orbT.
Qed.

(** Size of the result: stops as soon as t keys are present (for t > 0 reached from below). *)
Lemma xy_loop_size t l x y : uniq (mkeys x) -> (size x < t)%N ->
  size (xy_loop t l x y).1 = minn t (size (undup (mkeys x ++ pidx l))).
Proof.
elim: l x y => [|[j v] l IH] x y /= u lt.
  by rewrite cats0 undup_id // size_mkeys; apply/esym/minn_idPr; lia.
have e : undup (mkeys x ++ j :: pidx l) =i undup (mkeys (minsert j (xcoord j) x) ++ pidx l).
  move=> k; rewrite !mem_undup mkeys_minsert !mem_cat in_cons.
  by case: ifP => [jx|_]; rewrite ?mem_rcons ?in_cons; case: (eqVneq k j) => [->|] //=; rewrite ?jx ?orbT.
have es : size (undup (mkeys x ++ j :: pidx l)) = size (undup (mkeys (minsert j (xcoord j) x) ++ pidx l)).
  by apply: perm_size; apply: uniq_perm; rewrite ?undup_uniq.
have u' : uniq (mkeys (minsert j (xcoord j) x)).
  by rewrite mkeys_minsert; case: ifP => //= n; rewrite rcons_uniq n u.
have s' : (size (minsert j (xcoord j) x) <= (size x).+1)%N.
  by rewrite -!size_mkeys mkeys_minsert; case: ifP; rewrite ?size_rcons.
case: eqP => [st|nst] /=.
  rewrite es st; apply/esym/minn_idPl; rewrite -st -size_mkeys.
  apply: uniq_leq_size => // k kin; by rewrite mem_undup mem_cat kin.
by rewrite IH ?es //; lia.
Qed.

(** For t = 0 the loop never stops early. *)
Lemma xy_loop_size0 l x y : uniq (mkeys x) ->
  size (xy_loop 0 l x y).1 = size (undup (mkeys x ++ pidx l)).
Proof.
elim: l x y => [|[j v] l IH] x y /= u; first by rewrite cats0 undup_id // size_mkeys.
have e : undup (mkeys x ++ j :: pidx l) =i undup (mkeys (minsert j (xcoord j) x) ++ pidx l).
  move=> k; rewrite !mem_undup mkeys_minsert !mem_cat in_cons.
  by case: ifP => [jx|_]; rewrite ?mem_rcons ?in_cons; case: (eqVneq k j) => [->|] //=; rewrite ?jx ?orbT.
have u' : uniq (mkeys (minsert j (xcoord j) x)).
  by rewrite mkeys_minsert; case: ifP => //= n; rewrite rcons_uniq n u.
rewrite (_ : (size (minsert j (xcoord j) x) == 0)%N = false) ?IH //; last first.
  by rewrite -size_mkeys mkeys_minsert; case: ifP => [|_]; rewrite ?size_rcons //; case: (mkeys x).
by apply: perm_size; apply: uniq_perm; rewrite ?undup_uniq // => k; rewrite e.
Qed.

Definition present (shares : seq (option (nat * T))) := pmap id shares.

Lemma In_mem_sort l i v :
  List.In (i, v) (sort (fun a b : nat * T => a.1 <= b.1)%N l) -> List.In (i, v) l.
Proof.
suff: forall a, List.In a (sort (fun a b : nat * T => a.1 <= b.1)%N l) -> List.In a l by move=> H; exact: H.
move=> a; set R := (fun a b : nat * T => _).
(* [sort] only rearranges: lift along an indexing *)
case: l => [|d l'] //; set l := d :: l'.
rewrite -(mkseq_nth d l) -(@map_sort _ _ (nth d l) (fun i j => R (nth d l i) (nth d l j))) //.
have memIn : forall (s : seq nat) b, List.In b (map (nth d l) s) -> exists2 k, k \in s & b = nth d l k.
  elim=> //= k s IH b [<-|/IH[k' k's ->]]; first by exists k; rewrite ?mem_head.
  by exists k'; rewrite // in_cons k's orbT.
case/memIn=> k; rewrite mem_sort mem_iota => kl ->.
have Inmem : forall (s : seq nat) k, k \in s -> List.In (nth d l k) (map (nth d l) s).
  elim=> //= k1 s IH k2; rewrite in_cons => /orP[/eqP->|/IH]; by [left|right].
by apply: (Inmem (iota 0 (size l))); rewrite mem_iota.
Qed.

Lemma mem_pidx_sort l : pidx (sort (fun a b : nat * T => a.1 <= b.1)%N l) =i pidx l.
Proof.
move=> i; by rewrite /pidx (@map_sort _ _ fst _ leq) // mem_sort.
Qed.

Lemma xy_collect_inv (R : nat -> T -> Prop) shares t :
  (forall i v, List.In (Some (i, v)) shares -> R i v) ->
  xy_inv R (xy_collect F shares t).1 (xy_collect F shares t).2.
Proof.
move=> H; apply: xy_loop_inv; first by split.
move=> i v /In_mem_sort.
elim: shares H => //= [[a|] sh] IH H /=; last by move/IH; apply=> j w jw; apply: H; right.
case=> [e|/IH]; first by apply: H; left; rewrite e.
apply=> j w jw; apply: H; by right.
Qed.

Lemma xy_collect_size shares t : (0 < t)%N ->
  size (xy_collect F shares t).1 = minn t (size (undup (pidx (present shares)))).
Proof.
move=> t0; rewrite xy_loop_size //=; congr minn.
apply: perm_size; apply: uniq_perm; rewrite ?undup_uniq // => i; rewrite !mem_undup.
exact: mem_pidx_sort.
Qed.

Lemma xy_collect_size0 shares :
  size (xy_collect F shares 0).1 = size (undup (pidx (present shares))).
Proof.
rewrite xy_loop_size0 //=.
apply: perm_size; apply: uniq_perm; rewrite ?undup_uniq // => i; rewrite !mem_undup.
exact: mem_pidx_sort.
Qed.

Lemma xy_collect_keys shares t i :
  i \in mkeys (xy_collect F shares t).1 -> i \in pidx (present shares).
Proof. by case/xy_loop_sub => //; rewrite mem_pidx_sort. Qed.

End Collect.

(** ** Interpolation loops *)

Lemma lag_loop_val i xi (l : seq (nat * F)) n0 d0 :
  (forall j v, List.In (j, v) l -> v = xcoord j) ->
  lag_loop i xi l (n0, d0) =
    (n0 * \prod_(j <- mkeys l | j != i) xcoord j, d0 * \prod_(j <- mkeys l | j != i) (xcoord j - xi)).
Proof.
elim: l n0 d0 => [|[j v] l IH] n0 d0 H /=; first by rewrite !big_nil !mulr1.
rewrite !big_cons eq_sym; have -> : v = xcoord j by apply: H; left.
case: (j == i) => /=; rewrite IH ?mulrA // => k w kw; apply: H; by right.
Qed.

Lemma foldl_sum (V : zmodType) (A : Type) (h : A -> V) l a : foldl (fun acc x => acc + h x) a l = a + \sum_(x <- l) h x.
Proof. by elim: l a => [|b l IH] a /=; rewrite ?big_nil ?addr0 // big_cons IH addrA. Qed.

Variable p : nat.
Hypothesis charF : p \in [char F].

Lemma xcoord_inj i j : (i.+1 < p)%N -> (j.+1 < p)%N -> xcoord i = xcoord j -> i = j.
Proof.
wlog ij : i j / (i <= j)%N => [H|] ip jp e; first by case/orP: (leq_total i j) => le; [|apply/esym]; apply: H.
have : (j - i)%:R == 0 :> F.
  have h : (j.+1 - i.+1)%:R = 0 :> F by rewrite natrB ?ltnS // [j.+1%:R](esym e) subrr.
  by rewrite subSS in h; rewrite h.
by rewrite -(dvdn_charf charF) => /dvdnP[[|k] ek]; nia.
Qed.

Lemma xcoord_neq0 i : (i.+1 < p)%N -> xcoord i != 0.
Proof.
move=> ip; rewrite /xcoord -(dvdn_charf charF); apply/negP => /dvdnP[[|k] ek]; nia.
Qed.

Lemma lag0_keys (K : seq nat) i : all (fun j => j.+1 < p)%N K -> i \in K ->
  lag0 (map xcoord K) (xcoord i) = \prod_(j <- K | j != i) (xcoord j / (xcoord j - xcoord i)).
Proof.
move=> /allP aK iK; rewrite /lag0 big_map big_seq_cond [RHS]big_seq_cond; apply: eq_bigl => j.
case jK: (j \in K) => //=; congr negb; apply/eqP/eqP => [|-> //]; apply: xcoord_inj; exact: aK.
Qed.

Lemma uniq_xcoord (K : seq nat) : all (fun j => j.+1 < p)%N K -> uniq K -> uniq (map xcoord K).
Proof.
move=> /allP aK uK; rewrite map_inj_in_uniq // => i j iK jK; apply: xcoord_inj; exact: aK.
Qed.

Lemma In_mem (T : eqType) (a : T) l : List.In a l <-> a \in l.
Proof.
elim: l => //= b l IH; rewrite in_cons; split; first by case=> [->|/IH ->]; rewrite ?eqxx ?orbT.
by case/orP=> [/eqP->|/IH]; [left|right].
Qed.

Lemma perm_mkeys (T : eqType) (l x : seq (nat * T)) : perm_eq l x -> perm_eq (mkeys l) (mkeys x).
Proof. exact: perm_map. Qed.

Lemma lag_loop_perm i xi (l x : seq (nat * F)) n0 : perm_eq l x ->
  (forall j v, List.In (j, v) x -> v = xcoord j) ->
  let nd := lag_loop i xi l (n0, 1) in
  nd.1 / nd.2 = n0 * \prod_(j <- mkeys x | j != i) (xcoord j / (xcoord j - xi)).
Proof.
move=> pe H; rewrite lag_loop_val; last first.
  by move=> j v /In_mem jl; apply: H; apply/In_mem; rewrite -(perm_mem pe).
rewrite /= mul1r -mulrA -prodfV -big_split /=; congr (_ * _).
by apply: perm_big; exact: perm_mkeys.
Qed.

Variable ord : hash_order F.
Hypothesis ord_perm : forall k s, perm_eq (ord k s) s.

Definition ps_pair (o : option (pri_share F)) := omap (fun s => (ps_i s, ps_v s)) o.
Definition us_pair (o : option (pub_share G)) := omap (fun s => (us_i s, us_v s)) o.

(** The distinct indices of a share list. *)
Definition pri_indices (shares : seq (option (pri_share F))) : seq nat :=
  undup (map (@ps_i F) (pmap id shares)).
Definition pub_indices (shares : seq (option (pub_share G))) : seq nat :=
  undup (map (@us_i _ G) (pmap id shares)).

Lemma pri_indices_E shares : size (pri_indices shares) = size (undup (pidx (present (map ps_pair shares)))).
Proof.
by congr (size (undup _)); elim: shares => //= [[a|]] s /= ->.
Qed.
Lemma pub_indices_E shares : size (pub_indices shares) = size (undup (pidx (present (map us_pair shares)))).
Proof.
by congr (size (undup _)); elim: shares => //= [[a|]] s /= ->.
Qed.

(** A share list all of whose members are genuine shares of f, with indices below the characteristic. *)
Definition genuine (f : seq F) (shares : seq (option (pri_share F))) :=
  forall s, List.In (Some s) shares -> s = pri_eval f (ps_i s) /\ ((ps_i s).+1 < p)%N.

Definition pub_genuine (cs : seq G) (shares : seq (option (pub_share G))) :=
  forall s, List.In (Some s) shares -> us_v s = gsum cs (xcoord (us_i s)) /\ ((us_i s).+1 < p)%N.

Lemma In_map_Some (A C : Type) (h : A -> C) (l : seq (option A)) c :
  List.In (Some c) (map (omap h) l) -> exists2 a, List.In (Some a) l & c = h a.
Proof.
elim: l => //= [[a|]] l IH /= [] //; first by case=> <-; exists a => //; left.
  by case/IH=> b bl ->; exists b => //; right.
by case/IH=> b bl ->; exists b => //; right.
Qed.

Lemma xy_scalar_ok f shares t : genuine f shares -> (t <= size (pri_indices shares))%N ->
  let xy := xy_scalar shares t in
  [/\ (t <= size xy.1)%N, (t > 0)%N -> size xy.1 = t &
      xy_inv (fun i v => v = (Poly f).[xcoord i] /\ (i.+1 < p)%N) xy.1 xy.2].
Proof.
move=> g le /=; rewrite pri_indices_E in le; rewrite /xy_scalar.
split.
- by case: t le => // t le; rewrite xy_collect_size // leq_min leqnn.
- by move=> t0; rewrite xy_collect_size //; apply/minn_idPl.
apply: xy_collect_inv => i v H; case: (In_map_Some H) => s sin [-> ->].
by have [e lt] := g _ sin; split=> //; rewrite [in LHS]e /= foldl_horner.
Qed.

Lemma xy_inv_bound T (R : nat -> T -> Prop) x y : xy_inv (fun i v => R i v /\ (i.+1 < p)%N) x y ->
  all (fun j => j.+1 < p)%N (mkeys x).
Proof.
case=> [e u _ _ hy]; apply/allP => i; rewrite e mget_in; case E: mget => [v|] // _.
by case: (hy _ _ E).
Qed.

Lemma recover_secret_correct f shares t :
  genuine f shares -> (size f <= t)%N -> (t <= size (pri_indices shares))%N ->
  recover_secret ord shares t = Ok (head 0 f).
Proof.
move=> g sf le; have [sx _ inv] := xy_scalar_ok g le.
rewrite /recover_secret; case: (xy_scalar shares t) sx inv => [x y] /= sx inv.
rewrite ltnNge sx /=.
have bK := xy_inv_bound inv; case: inv => [eK uK hx hx' hy].
pose h (ix : nat * F) := (Poly f).[xcoord ix.1] * \prod_(j <- mkeys x | j != ix.1) (xcoord j / (xcoord j - xcoord ix.1)).
rewrite (@foldo_ok _ _ _ (fun a => a \in x) _ (fun acc ix => acc + h ix)); first last.
- by move=> a /In_mem; rewrite (perm_mem (ord_perm _ _)).
- move=> acc [i xi] /In_mem /= ix.
  have iK : i \in mkeys x by apply/mapP; exists (i, xi) => //; exact/In_mem.
  have: i \in mkeys y by rewrite -eK.
  rewrite mget_in; case E: (mget i y) => [v|] // _ /=.
  have [-> _] := hy _ _ E; rewrite (lag_loop_perm _ _ _ (ord_perm _ _) hx') /h /=.
  by rewrite (hx' _ _ ix).
rewrite foldl_sum add0r (perm_big _ (ord_perm _ _)) /=; congr Ok.
have -> : \sum_(ix <- x) h ix = \sum_(z <- map xcoord (mkeys x)) lag0 (map xcoord (mkeys x)) z * (Poly f).[z].
  rewrite big_map /mkeys big_map big_seq [RHS]big_seq; apply: eq_bigr => [[i xi]] /= ix.
  rewrite /h /= mulrC lag0_keys //; by apply/mapP; exists (i, xi).
rewrite lagrange_at0.
- by rewrite horner_Poly; case: (f) => //= a f'; rewrite mulr0 add0r.
- exact: uniq_xcoord.
- by rewrite size_map size_mkeys; apply: leq_trans (size_Poly _) (leq_trans sf sx).
Qed.

Lemma recover_secret_short shares t : (size (pri_indices shares) < t)%N ->
  recover_secret ord shares t = Err NotEnoughSharesForSecret.
Proof.
rewrite pri_indices_E => lt; rewrite /recover_secret.
have sz : size (xy_scalar shares t).1 = size (undup (pidx (present (map ps_pair shares)))).
  by rewrite /xy_scalar xy_collect_size; [apply/minn_idPr/ltnW|apply: leq_ltn_trans lt].
by case: (xy_scalar shares t) sz => x y /= ->; rewrite lt.
Qed.


(** ** Recovering the commitment *)

Lemma xy_commit_ok cs shares t : pub_genuine cs shares -> (t <= size (pub_indices shares))%N ->
  let xy := xy_commit shares t in
  [/\ (t <= size xy.1)%N, (t > 0)%N -> size xy.1 = t &
      xy_inv (fun i v => v = gsum cs (xcoord i) /\ (i.+1 < p)%N) xy.1 xy.2].
Proof.
move=> g le /=; rewrite pub_indices_E in le; rewrite /xy_commit.
split.
- by case: t le => // t le; rewrite xy_collect_size // leq_min leqnn.
- by move=> t0; rewrite xy_collect_size //; apply/minn_idPl.
apply: xy_collect_inv => i v H; case: (In_map_Some H) => s sin [-> ->].
exact: g.
Qed.

Lemma lag_gsum (w : F -> F) (xs : seq F) (cs : seq G) (q : nat -> F) :
  (forall m, (m < size cs)%N -> \sum_(z <- xs) w z * z ^+ m = q m) ->
  \sum_(z <- xs) w z *: gsum cs z = \sum_(m < size cs) q m *: cs`_m.
Proof.
move=> H; under eq_bigr do rewrite /gsum scaler_sumr.
rewrite exchange_big /=; apply: eq_bigr => m _.
by under eq_bigr do rewrite scalerA; rewrite -scaler_suml H.
Qed.

Lemma recover_commit_correct cs shares t :
  pub_genuine cs shares -> (size cs <= t)%N -> (t <= size (pub_indices shares))%N ->
  recover_commit ord shares t = Ok (head 0 cs).
Proof.
move=> g sf le; have [sx _ inv] := xy_commit_ok g le.
rewrite /recover_commit; case: (xy_commit shares t) sx inv => [x y] /= sx inv.
rewrite ltnNge sx /=.
have bK := xy_inv_bound inv; case: inv => [eK uK hx hx' hy].
pose h (ix : nat * F) := (\prod_(j <- mkeys x | j != ix.1) (xcoord j / (xcoord j - xcoord ix.1))) *: gsum cs (xcoord ix.1).
rewrite (@foldo_ok _ _ _ (fun a => a \in x) _ (fun acc ix => acc + h ix)); first last.
- by move=> a /In_mem; rewrite (perm_mem (ord_perm _ _)).
- move=> acc [i xi] /In_mem /= ix.
  have iK : i \in mkeys x by apply/mapP; exists (i, xi) => //; exact/In_mem.
  have: i \in mkeys y by rewrite -eK.
  rewrite mget_in; case E: (mget i y) => [v|] // _ /=.
  have [-> _] := hy _ _ E; rewrite (lag_loop_perm _ _ _ (ord_perm _ _) hx') /h /=.
  by rewrite (hx' _ _ ix) mul1r.
rewrite foldl_sum add0r (perm_big _ (ord_perm _ _)) /=; congr Ok.
set xs := map xcoord (mkeys x).
have -> : \sum_(ix <- x) h ix = \sum_(z <- xs) lag0 xs z *: gsum cs z.
  rewrite big_map /mkeys big_map big_seq [RHS]big_seq; apply: eq_bigr => [[i xi]] /= ix.
  rewrite /h /= lag0_keys //; by apply/mapP; exists (i, xi).
rewrite (@lag_gsum _ _ _ (fun m => (m == 0%N)%:R)).
  case: (cs) => [|c cs'] /=; first by rewrite big_ord0.
  rewrite big_ord_recl /= scale1r big1 ?addr0 // => m _; by rewrite scale0r.
move=> m mcs; rewrite -(_ : ('X^m : {poly F}).[0] = (m == 0%N)%:R); last by rewrite hornerXn expr0n.
rewrite -(@lagrange_at0 _ _ xs) //.
- by apply: eq_bigr => z _; rewrite hornerXn.
- exact: uniq_xcoord.
- by rewrite size_polyXn size_map size_mkeys; apply: leq_trans mcs (leq_trans sf sx).
Qed.

Lemma recover_commit_short shares t : (size (pub_indices shares) < t)%N ->
  recover_commit ord shares t = Err NotEnoughtGoodPublics.
Proof.
rewrite pub_indices_E => lt; rewrite /recover_commit.
have sz : size (xy_commit shares t).1 = size (undup (pidx (present (map us_pair shares)))).
  by rewrite /xy_commit xy_collect_size; [apply/minn_idPr/ltnW|apply: leq_ltn_trans lt].
by case: (xy_commit shares t) sz => x y /= ->; rewrite lt.
Qed.

(** ** Recovering the polynomials *)

Lemma Poly_map_scale (k : F) s : Poly [seq c * k | c <- s] = k *: Poly s.
Proof.
apply/polyP => j; rewrite coefZ !coef_Poly; case: (ltnP j (size s)) => h.
  by rewrite (nth_map 0) // mulrC.
by rewrite !nth_default ?size_map ?mulr0.
Qed.

Definition lb_step (i : nat) (x : seq (nat * F)) (ba : seq F * F) (mx : nat * F) : outcome poly_error (seq F * F) :=
  if i == mx.1 then Ok ba else
  bindo (pri_mul ba.1 (minus_const mx.2)) (fun basis =>
  bindo (of_option (mget i x)) (fun xi => Ok (basis, ba.2 * (xi - mx.2)^-1))).

Lemma lagrange_basis_E i x l :
  lagrange_basis i x l = bindo (foldo (lb_step i x) ([:: 1], 1) l) (fun ba => Ok [seq c * ba.2 | c <- ba.1]).
Proof. by []. Qed.

Lemma lagrange_basis_ok i (x l : seq (nat * F)) : perm_eq l x -> uniq (mkeys x) -> i \in mkeys x ->
  (forall j, j \in mkeys x -> mget j x = Some (xcoord j)) ->
  (forall j v, List.In (j, v) x -> v = xcoord j) -> all (fun j => j.+1 < p)%N (mkeys x) ->
  exists2 b, lagrange_basis i x l = Ok b &
    size b = size x /\ Poly b = lagr (map xcoord (mkeys x)) (xcoord i).
Proof.
move=> pe uK iK hx hx' bK.
have hl : forall j v, List.In (j, v) l -> v = xcoord j.
  by move=> j v /In_mem jl; apply: hx'; apply/In_mem; rewrite -(perm_mem pe).
pose step := lb_step i x.
have loop : forall l b a, (forall j v, List.In (j, v) l -> v = xcoord j) -> b != [::] ->
  exists2 b', foldo step (b, a) l = Ok (b', a * \prod_(j <- mkeys l | j != i) (xcoord i - xcoord j)^-1) &
    size b' = (size b + count (fun j => j != i) (mkeys l))%N /\
    Poly b' = Poly b * \prod_(j <- mkeys l | j != i) ('X - (xcoord j)%:P).
  elim=> [|[j v] l' IH] b a H nb /=.
    by exists b; rewrite ?big_nil ?mulr1 ?addn0.
  rewrite !big_cons {1}/step /lb_step /= eq_sym.
  have ev : v = xcoord j by apply: H; left.
  have H' : forall j v, List.In (j, v) l' -> v = xcoord j by move=> k w kw; apply: H; right.
  case: eqP => [->|ne] /=; first exact: IH.
  have [r -> [sr pr]] := @pri_mul_ok b (minus_const v) nb isT; rewrite /= hx //=.
  have nr : r != [::] by rewrite -size_eq0 sr /=; case: (b) nb => //= c b' _; lia.
  have [b' e [sb pb]] := IH r (a * (xcoord i - v)^-1) H' nr.
  exists b'; first by rewrite e ev mulrA.
  rewrite sb pb sr /= pr; split; first by case: (b) nb => //= c b0 _; lia.
  rewrite -mulrA ev; congr (_ * (_ * _)); apply/polyP => k.
  by rewrite coef_Poly coefB coefX coefC; case: k => [|[|[|k]]] //=; rewrite ?subr0 ?sub0r.
have [b' e [sb pb]] := loop l [:: 1] 1 hl isT.
rewrite lagrange_basis_E -/step e /=; eexists; first reflexivity.
have pk := perm_mkeys pe.
split.
  rewrite size_map sb /= (permP pk) -(size_mkeys x) -(count_predC (pred1 i)).
  by rewrite (@count_uniq_mem _ _ i uK) iK.
rewrite (_ : [seq _ | _ <- _] = [seq c * (1 * \prod_(j <- mkeys l | j != i) (xcoord i - xcoord j)^-1) | c <- b']) //.
rewrite Poly_map_scale.
rewrite pb mul1r /= cons_poly_def mul0r add0r mul1r.
rewrite /lagr big_map !(perm_big _ pk) /=.
have -> : \prod_(j <- mkeys x | xcoord j != xcoord i) ((xcoord i - xcoord j)^-1 *: ('X - (xcoord j)%:P)) =
          \prod_(j <- mkeys x | j != i) ((xcoord i - xcoord j)^-1 *: ('X - (xcoord j)%:P)).
  rewrite big_seq_cond [RHS]big_seq_cond; apply: eq_bigl => j.
  case jK: (j \in mkeys x) => //=; congr negb; apply/eqP/eqP => [|-> //].
  move/allP: bK => bK; apply: xcoord_inj; exact: bK.
elim: (mkeys x) => [|j K IH]; first by rewrite !big_nil scale1r.
by rewrite !big_cons; case: eqP => //= _; rewrite -IH -scalerAl -scalerAr scalerA.
Qed.

Lemma Poly_size_inj (f g : seq F) : size f = size g -> Poly f = Poly g -> f = g.
Proof.
move=> es e; apply: (@eq_from_nth _ 0) => // k _; by rewrite -(coef_Poly f) e coef_Poly.
Qed.

Lemma Poly_pad (f : seq F) n : Poly (f ++ nseq n 0) = Poly f.
Proof.
apply/polyP => k; rewrite !coef_Poly nth_cat; case: ltnP => // le.
by rewrite nth_nseq if_same nth_default.
Qed.


(** The accumulation loop shared by [recover_pri_poly] and [recover_pub_poly]. *)
Lemma sum_loop (A : Type) (V : zmodType) (acc_t : Type) (cf : acc_t -> seq V)
    (step : acc_t -> A -> outcome poly_error acc_t) (h : A -> nat -> V) t (l : seq A) acc0 :
  (0 < t)%N -> l <> [::] -> cf acc0 = [::] ->
  (forall acc a, List.In a l -> cf acc = [::] ->
     exists2 r, step acc a = Ok r & size (cf r) = t /\ forall k, (k < t)%N -> (cf r)`_k = h a k) ->
  (forall acc a, List.In a l -> size (cf acc) = t ->
     exists2 r, step acc a = Ok r & size (cf r) = t /\ forall k, (k < t)%N -> (cf r)`_k = (cf acc)`_k + h a k) ->
  exists2 r, foldo step acc0 l = Ok r &
    size (cf r) = t /\ forall k, (k < t)%N -> (cf r)`_k = \sum_(a <- l) h a k.
Proof.
move=> t0; case: l => // a0 l _ e0 H0 H1 /=.
have [r1 -> [s1 c1]] := H0 acc0 a0 (or_introl erefl) e0; rewrite /=.
have gen : forall l' r1, size (cf r1) = t -> (forall a, List.In a l' -> List.In a (a0 :: l)) ->
  exists2 r, foldo step r1 l' = Ok r &
    size (cf r) = t /\ forall k, (k < t)%N -> (cf r)`_k = (cf r1)`_k + \sum_(a <- l') h a k.
  elim=> [|a l' IH] r2 s2 sub /=; first by exists r2 => //; split=> // k _; rewrite big_nil addr0.
  have [r3 -> [s3 c3]] := H1 r2 a (sub a (or_introl erefl)) s2; rewrite /=.
  have [|r4 -> [s4 c4]] := IH r3 s3; first by move=> b bl; apply: sub; right.
  by exists r4 => //; split=> // k kt; rewrite big_cons c4 // c3 // addrA.
have [a al|r -> [sr cr]] := gen l r1 s1; first by right.
by exists r => //; split=> // k kt; rewrite big_cons cr // c1.
Qed.

Lemma recover_pri_poly_correct f shares t :
  genuine f shares -> (0 < t)%N -> (size f <= t)%N -> (t <= size (pri_indices shares))%N ->
  recover_pri_poly ord shares t = Ok (f ++ nseq (t - size f) 0).
Proof.
move=> g t0 sf le; have [_ sx inv] := xy_scalar_ok g le.
rewrite /recover_pri_poly; case: (xy_scalar shares t) sx inv => [x y] /= /(_ t0) sx inv.
rewrite sx eqxx /=.
have bK := xy_inv_bound inv; case: inv => [eK uK hx hx' hy].
set xs := map xcoord (mkeys x); set step := (fun _ _ => _).
have bas i xi : List.In (i, xi) (ord 0%N x) -> exists b v, [/\ lagrange_basis i x (ord i.+1 x) = Ok b,
    mget i y = Some v, size [seq c * v | c <- b] = t &
    forall k, (k < t)%N -> [seq c * v | c <- b]`_k = (Poly f).[xcoord i] * (lagr xs (xcoord i))`_k].
  move=> /In_mem; rewrite (perm_mem (ord_perm _ _)) => ix.
  have iK : i \in mkeys x by apply/mapP; exists (i, xi).
  have [b /= -> [sb pb]] := lagrange_basis_ok (ord_perm i.+1 x) uK iK hx hx' bK.
  have: i \in mkeys y by rewrite -eK.
  rewrite mget_in; case E: (mget i y) => [v|] // _ /=.
  have [ev _] := hy _ _ E; exists b, v; split=> //; first by rewrite size_map sb sx.
  by move=> k kt; rewrite (nth_map 0) ?sb ?sx // -coef_Poly pb ev mulrC.
have [| |acc [i xi] ia|acc [i xi] ia sacc|r -> [sr cr]] := @sum_loop _ F (seq F) id step
   (fun a k => (Poly f).[xcoord a.1] * (lagr xs (xcoord a.1))`_k) t (ord 0%N x) [::] t0.
- by move=> e; move: (perm_size (ord_perm 0%N x)); rewrite e sx => e'; rewrite -e' in t0.
- by [].
- by move=> ->; have [b [v [e1 e2 e3 e4]]] := bas _ _ ia; rewrite /step e1 e2 /=; eexists; [reflexivity|].
- have [b [v [e1 e2 e3 e4]]] := bas _ _ ia; rewrite /step e1 e2 /=.
  case: acc sacc => [e|c acc]; first by rewrite -e in t0.
  move: (c :: acc) => {c} {}acc sacc.
  have [H _] := pri_add_ok acc [seq c * v | c <- b]; rewrite H ?sacc ?e3 //.
  eexists; first reflexivity; split; first by rewrite size_vadd sacc e3 minnn.
  by move=> k kt; rewrite nth_vadd ?sacc ?e3 // e4.
congr Ok; apply: Poly_size_inj; first by rewrite size_cat size_nseq sr subnKC.
rewrite Poly_pad; apply/polyP => k; rewrite coef_Poly.
case: (ltnP k t) => kt; last by rewrite nth_default ?sr // coef_Poly nth_default // (leq_trans sf).
rewrite cr // (perm_big _ (ord_perm _ _)) /=.
have uxs : uniq xs by exact: uniq_xcoord.
have sxs : (size (Poly f) <= size xs)%N by rewrite size_map size_mkeys sx; apply: leq_trans (size_Poly _) sf.
rewrite [in RHS](lagrange_interp uxs sxs) coef_sum /xs [in RHS]big_map /mkeys [in RHS]big_map.
by apply: eq_bigr => a _; rewrite coefZ.
Qed.

Lemma recover_pri_poly_short shares t : (size (pri_indices shares) < t)%N ->
  recover_pri_poly ord shares t = Err NotEnoughSharesForPublic.
Proof.
rewrite pri_indices_E => lt; rewrite /recover_pri_poly.
have sz : size (xy_scalar shares t).1 = size (undup (pidx (present (map ps_pair shares)))).
  by rewrite /xy_scalar xy_collect_size; [apply/minn_idPr/ltnW|apply: leq_ltn_trans lt].
by case: (xy_scalar shares t) sz => x y /= ->; rewrite neq_ltn lt.
Qed.


(** ** [recover_pub_poly]: which indices the collection keeps, and when the position loop survives *)

Lemma xy_loop_prefix (T : Type) t (l : seq (nat * T)) (x : seq (nat * F)) y :
  exists n, mkeys (xy_loop t l x y).1 =i mkeys x ++ pidx (take n l).
Proof.
elim: l x y => [|[j v] l IH] x y /=; first by exists 0%N => k; rewrite cats0.
have e : mkeys (minsert j (xcoord j) x) =i mkeys x ++ [:: j].
  move=> k; rewrite mkeys_minsert mem_cat inE; case: ifP => jx; last by rewrite mem_rcons inE orbC.
  by case: eqP => [->|]; rewrite ?jx ?orbF.
case: eqP => _ /=; first by exists 1%N => k; rewrite /= take0 e.
have [n en] := IH (minsert j (xcoord j) x) (minsert j v y).
by exists n.+1 => k; rewrite en /= !mem_cat e mem_cat !inE orbA.
Qed.

Lemma xy_collect_lowest (T : Type) (shares : seq (option (nat * T))) t i j :
  i \in mkeys (xy_collect F shares t).1 -> j \in pidx (present shares) -> (j < i)%N ->
  j \in mkeys (xy_collect F shares t).1.
Proof.
rewrite /xy_collect; set l := sort _ _; rewrite -(mem_pidx_sort (present shares)) -/l => ix jl ji.
have [n en] := xy_loop_prefix t l [::] [::]; rewrite en /= in ix; rewrite en /=.
have srt : sorted leq (pidx l).
  rewrite /pidx (@map_sort _ _ fst _ leq) //; apply: sort_sorted; exact: leq_total.
move: jl; rewrite -{1}(cat_take_drop n l) /pidx map_cat mem_cat => /orP[//|jd].
have: (i <= j)%N.
  move: srt; rewrite -{1}(cat_take_drop n l) /pidx map_cat.
  rewrite (sorted_pairwise leq_trans) pairwise_cat => /andP[/allrelP H _]; exact: H.
lia.
Qed.


Lemma recover_pub_poly_short shares t : (size (pub_indices shares) < t)%N ->
  recover_pub_poly B ord shares t = Err NotEnoughtGoodPublics.
Proof.
rewrite pub_indices_E => lt; rewrite /recover_pub_poly.
have sz : size (xy_commit shares t).1 = size (undup (pidx (present (map us_pair shares)))).
  by rewrite /xy_commit xy_collect_size; [apply/minn_idPr/ltnW|apply: leq_ltn_trans lt].
by case: (xy_commit shares t) sz => x y /= ->; rewrite lt.
Qed.

Lemma lagrange_basis_missing i (x l : seq (nat * F)) : perm_eq l x -> x != [::] -> i \notin mkeys x ->
  lagrange_basis i x l = Panic.
Proof.
move=> pe nx iK; rewrite lagrange_basis_E.
have : l != [::] by rewrite -size_eq0 (perm_size pe) size_eq0.
have: i \notin mkeys l by rewrite (perm_mem (perm_mkeys pe)).
case: l {pe} => // [[j v] l]; rewrite inE negb_or => /andP[ne _] _ /=.
rewrite /lb_step /= (negbTE ne) /=; have -> // : mget i x = None.
by move: iK; rewrite mget_in; case: mget.
Qed.

Lemma pub_indices_mem shares i : (i \in pub_indices shares) = (i \in pidx (present (map us_pair shares))).
Proof.
rewrite mem_undup; congr (_ \in _); by elim: (shares) => //= [[a|]] s /= ->.
Qed.

Definition idx_bounded (shares : seq (option (pub_share G))) :=
  forall s, List.In (Some s) shares -> ((us_i s).+1 < p)%N.

Lemma pub_commit_basis (b : seq F) (y : G) k : (k < size b)%N ->
  (pcommits (pri_commit B b (Some y)))`_k = b`_k *: y.
Proof. by move=> kb; rewrite /= (nth_map 0). Qed.

(** With t >= 1 and at least t distinct indices, the position loop visits 0 .. t-1. *)
Lemma recover_pub_poly_panics shares t j :
  idx_bounded shares ->
  (0 < t)%N -> (t <= size (pub_indices shares))%N -> (j < t)%N -> j \notin pub_indices shares ->
  recover_pub_poly B ord shares t = Panic.
Proof.
move=> ib t0 le jt nj.
have sx : size (xy_commit shares t).1 = t.
  by rewrite /xy_commit xy_collect_size //; apply/minn_idPl; rewrite -pub_indices_E.
have jx : j \notin mkeys (xy_commit shares t).1.
  by apply: contra nj => /xy_collect_keys; rewrite pub_indices_mem.
have inv : xy_inv (fun i v => True /\ (i.+1 < p)%N) (xy_commit shares t).1 (xy_commit shares t).2.
  by apply: xy_collect_inv => i v H; case: (In_map_Some H) => s /ib lt [-> _].
have bK := xy_inv_bound inv.
rewrite /recover_pub_poly; case: (xy_commit shares t) sx jx inv bK => [x y] /= sx jx [eK uK hx hx' hy] bK.
rewrite sx ltnn (perm_size (ord_perm _ _)) sx.
have nx : x != [::] by rewrite -size_eq0 sx -lt0n.
have : j \in iota 0 t by rewrite mem_iota.
have : pcommits (@PubPoly _ G None [::]) = [::] \/ size (pcommits (@PubPoly _ G None [::])) = t by left.
move: (PubPoly None [::]) (iota 0 t) => acc l; elim: l acc => // i l IH acc hacc; rewrite inE => ji.
rewrite /=; case iK: (i \in mkeys x); last first.
  by rewrite (lagrange_basis_missing (ord_perm _ _)) ?iK.
case/orP: ji => [/eqP e|jl]; first by rewrite -e (negbTE jx) in iK.
have [b /= -> [sb pb]] := lagrange_basis_ok (ord_perm i.+1 x) uK iK hx hx' bK.
have: i \in mkeys y by rewrite -eK.
rewrite mget_in; case E: (mget i y) => [v|] // _ /=.
have sbv : size [seq pmul B c (Some v) | c <- b] = t by rewrite size_map sb.
case: hacc => [->|sacc]; first by apply: IH => //; right.
case Ea: (pcommits acc) => [|c cs]; first by rewrite Ea in sacc; rewrite -sacc in t0.
rewrite /pub_add /= sacc sbv eqxx /=; apply: IH => //; right.
by rewrite /= size_vadd sacc sbv minnn.
Qed.

Definition rpp_step (x : seq (nat * F)) (y : seq (nat * G)) (acc : pub_poly G) (j : nat) :=
  bindo (lagrange_basis j x (ord j.+1 x)) (fun basis =>
  bindo (of_option (mget j y)) (fun yj =>
  match pcommits acc with
  | [::] => Ok (pri_commit B basis (Some yj))
  | _ :: _ => pub_add acc (pri_commit B basis (Some yj))
  end)).

Lemma recover_pub_poly_correct cs shares t :
  pub_genuine cs shares -> (0 < t)%N -> (size cs <= t)%N ->
  (forall j, (j < t)%N -> j \in pub_indices shares) ->
  exists2 P, recover_pub_poly B ord shares t = Ok P &
    pcommits P = cs ++ nseq (t - size cs) 0 /\ pb P = Some (gsum cs 1).
Proof.
move=> g t0 scs all_in.
have le : (t <= size (pub_indices shares))%N.
  rewrite -(size_iota 0 t); apply: uniq_leq_size; first exact: iota_uniq.
  by move=> j; rewrite mem_iota /= => /all_in.
have [_ sx inv] := xy_commit_ok g le.
have low := fun i j => @xy_collect_lowest _ (map us_pair shares) t i j.
have keys : forall j, (j < t)%N -> j \in mkeys (xy_commit shares t).1.
  move=> j jt; case jx: (j \in mkeys (xy_commit shares t).1) => //; exfalso.
  have sub : {subset mkeys (xy_commit shares t).1 <= rem j (iota 0 t)}.
    move=> i ix; rewrite rem_filter ?iota_uniq // mem_filter mem_iota /=.
    case: (eqVneq i j) => [e|ne] /=; first by rewrite e jx in ix.
    rewrite ltnNge; apply/negP => ti; move/negP: jx; apply; apply: (low i) => //.
      by rewrite -pub_indices_mem all_in.
    exact: leq_trans jt ti.
  have := uniq_leq_size _ sub; case: inv => [_ uK _ _ _] /(_ uK).
  rewrite size_rem ?mem_iota // size_iota size_mkeys sx //; lia.
rewrite /recover_pub_poly; case: (xy_commit shares t) sx inv keys {low} => [x y] /= /(_ t0) sx inv keys.
rewrite sx ltnn (perm_size (ord_perm _ _)) sx.
have bK := xy_inv_bound inv; case: inv => [eK uK hx hx' hy].
set xs := map xcoord (mkeys x); pose step := rpp_step x y.
change (exists2 P, foldo step (PubPoly None [::]) (iota 0 t) = Ok P &
    pcommits P = cs ++ nseq (t - size cs) 0 /\ pb P = Some (gsum cs 1)).
have bas i : List.In i (iota 0 t) -> exists b v, [/\ lagrange_basis i x (ord i.+1 x) = Ok b,
    mget i y = Some v, size [seq pmul B c (Some v) | c <- b] = t, v = gsum cs (xcoord i) &
    forall k, (k < t)%N -> [seq pmul B c (Some v) | c <- b]`_k = (lagr xs (xcoord i))`_k *: gsum cs (xcoord i)].
  move=> /In_mem; rewrite mem_iota /= => it.
  have iK := keys i it.
  have [b /= -> [sb pb]] := lagrange_basis_ok (ord_perm i.+1 x) uK iK hx hx' bK.
  have: i \in mkeys y by rewrite -eK.
  rewrite mget_in; case E: (mget i y) => [v|] // _ /=.
  have [ev _] := hy _ _ E; exists b, v; split=> //; first by rewrite size_map sb sx.
  by move=> k kt; rewrite (nth_map 0) ?sb ?sx // -coef_Poly pb ev.
have st1 acc i : List.In i (iota 0 t) -> pcommits acc = [::] ->
  exists2 r, step acc i = Ok r & size (pcommits r) = t /\ forall k, (k < t)%N ->
     (pcommits r)`_k = (lagr xs (xcoord i))`_k *: gsum cs (xcoord i).
  by move=> ia e0; have [b [v [e1 e2 e3 ev e4]]] := bas _ ia; rewrite /step /rpp_step e1 e2 /= e0; eexists; [reflexivity|].
have st2 acc i : List.In i (iota 0 t) -> size (pcommits acc) = t ->
  exists2 r, step acc i = Ok r & size (pcommits r) = t /\ forall k, (k < t)%N ->
     (pcommits r)`_k = (pcommits acc)`_k + (lagr xs (xcoord i))`_k *: gsum cs (xcoord i).
  move=> ia sacc; have [b [v [e1 e2 e3 ev e4]]] := bas _ ia; rewrite /step /rpp_step e1 e2 /=.
  case Ea: (pcommits acc) => [|c cs']; first by rewrite Ea in sacc; rewrite -sacc in t0.
  rewrite /pub_add /= sacc e3 eqxx /=.
  eexists; first reflexivity; split; first by rewrite /= size_vadd sacc e3 minnn.
  by move=> k kt; rewrite /= -Ea nth_vadd ?sacc ?e3 // e4.
have n0 : iota 0 t <> [::] by case: (t) t0.
have [r er [sr cr]] := @sum_loop _ G (pub_poly G) (@pcommits _ G) step
   (fun i k => (lagr xs (xcoord i))`_k *: gsum cs (xcoord i)) t (iota 0 t) (PubPoly None [::]) t0 n0 erefl st1 st2.
exists r => //; split.
  apply: (@eq_from_nth _ 0); rewrite sr ?size_cat ?size_nseq ?subnKC // => k kt.
  rewrite cr //.
  have pk : perm_eq (iota 0 t) (mkeys x).
    have sub : {subset iota 0 t <= mkeys x} by move=> j; rewrite mem_iota => /keys.
    apply: uniq_perm; rewrite ?iota_uniq //.
    by move=> j; have [_ ->] := uniq_min_size (iota_uniq 0 t) sub (eq_leq (etrans (size_mkeys x) (etrans sx (esym (size_iota 0 t))))).
  rewrite (perm_big _ pk) /=.
  have -> : \sum_(i <- mkeys x) (lagr xs (xcoord i))`_k *: gsum cs (xcoord i) =
            \sum_(z <- xs) (lagr xs z)`_k *: gsum cs z by rewrite -(big_map xcoord xpredT (fun z => (lagr xs z)`_k *: gsum cs z)).
  rewrite (@lag_gsum _ _ _ (fun m => (k == m)%:R)).
    rewrite nth_cat; case: ltnP => kc; last first.
      rewrite nth_nseq if_same big1 // => m _; case: eqP => [e|_]; last by rewrite scale0r.
      by move: (ltn_ord m); rewrite -e ltnNge kc.
    rewrite (bigD1 (Ordinal kc)) //= eqxx scale1r big1 ?addr0 // => m /eqP ne.
    case: eqP => [e|_]; last by rewrite scale0r.
    by case: ne; apply: val_inj.
  move=> m mcs.
  have uxs : uniq xs by exact: uniq_xcoord.
  have sxs : (size ('X^m : {poly F}) <= size xs)%N.
    by rewrite size_polyXn size_map size_mkeys sx; exact: leq_trans mcs scs.
  have := lagrange_interp uxs sxs => /(congr1 (fun q : {poly F} => q`_k)); rewrite coef_sum coefXn => ->.
  by apply: eq_bigr => z _; rewrite coefZ hornerXn mulrC.
(* the base of the result *)
have keep : forall l acc r, pcommits acc != [::] -> foldo step acc l = Ok r -> pb r = pb acc.
  elim=> [|i l IH] acc r1 na /=; first by case=> <-.
  rewrite {1}/step /rpp_step; case: lagrange_basis => //= b; case: mget => //= v.
  case Ea: (pcommits acc) => [|c cs'] //=; first by rewrite Ea in na.
  rewrite /pub_add /= Ea; case: eqP => //= sz; case: b sz => // c0 b sz /=.
  by move/IH => /= ->.
have [t' et] : exists t', t = t'.+1 by case: (t) t0 => // t' _; exists t'.
have in0 : List.In 0%N (iota 0 t) by rewrite et; left.
have [b [v [e1 e2 e3 ev e4]]] := bas 0%N in0.
move: er; rewrite et /= {1}/step /rpp_step e1 e2 /= => /keep ->.
  by rewrite ev /xcoord.
by rewrite -size_eq0 e3 et.
Qed.


(** ** Secrecy of t-1 shares *)

Lemma nth0_horner (f : seq F) : (Poly f).[0] = head 0 f.
Proof. by rewrite horner_Poly; case: f => //= a f'; rewrite mulr0 add0r. Qed.

Lemma shares_secrecy (K : seq nat) (vals : nat -> F) (s : F) :
  uniq K -> all (fun i => i.+1 < p)%N K ->
  exists! f : seq F, [/\ size f = (size K).+1, head 0 f = s &
    forall i, i \in K -> (Poly f).[xcoord i] = vals i].
Proof.
move=> uK bK.
have inj i j : i \in K -> j \in K -> xcoord i = xcoord j -> i = j.
  by move/allP: bK => bK iK jK; apply: xcoord_inj; exact: bK.
pose xs := 0 :: map xcoord K.
have uxs : uniq xs.
  rewrite /= uniq_xcoord // andbT; apply/mapP => [[i iK e]].
  by move/allP: bK => bK; move: (xcoord_neq0 (bK i iK)); rewrite -e eqxx.
pose c (x : F) := if x == 0 then s else vals (nth 0%N K (index x (map xcoord K))).
pose q := \sum_(x <- xs) c x *: lagr xs x.
have sq : (size q <= (size K).+1)%N by have := size_lagrange_sum c uxs; rewrite /= size_map.
have q0 : q.[0] = s by rewrite (lagrange_sum_eval c) ?mem_head // /c eqxx.
have qi i : i \in K -> q.[xcoord i] = vals i.
  move=> iK; rewrite (lagrange_sum_eval c) //; last by rewrite inE map_f ?orbT.
  rewrite /c (negbTE (xcoord_neq0 _)); last by move/allP: bK => bK; exact: bK.
  have xi : xcoord i \in map xcoord K by rewrite map_f.
  congr (vals _); apply: inj => //; first by rewrite mem_nth // -(size_map xcoord) index_mem.
  by rewrite -(nth_map _ 0) ?nth_index // -(size_map xcoord) index_mem.
pose f := mkseq (fun k => q`_k) (size K).+1.
have ef : Poly f = q.
  apply/polyP => k; rewrite coef_Poly; case: (ltnP k (size K).+1) => h; first by rewrite nth_mkseq.
  by rewrite !nth_default ?size_mkseq // (leq_trans sq).
exists f; split.
  split; first by rewrite size_mkseq.
    by rewrite -nth0_horner ef.
  by move=> i iK; rewrite ef qi.
move=> g [sg g0 gi]; apply: Poly_size_inj; first by rewrite size_mkseq.
rewrite ef; apply: (lagrange_unique uxs); rewrite /= ?size_map //.
  by apply: leq_trans (size_Poly _) _; rewrite sg.
move=> x; rewrite inE => /orP[/eqP->|/mapP[i iK ->]]; first by rewrite q0 nth0_horner.
by rewrite qi // gi.
Qed.

(** ** Equality tests *)

Lemma foldo_and (E A : Type) (f : bool -> A -> outcome E bool) (P : A -> bool) l b0 :
  (forall b a, List.In a l -> f b a = Ok (b && P a)) -> foldo f b0 l = Ok (b0 && all P l).
Proof.
elim: l b0 => [|a l IH] b0 H /=; first by rewrite andbT.
rewrite H /=; last by left.
by rewrite IH ?andbA // => b a' al; apply: H; right.
Qed.

Lemma seq_eq_all (T : eqType) (x0 : T) (p1 q1 : seq T) : size p1 = size q1 ->
  all (fun i => nth x0 p1 i == nth x0 q1 i) (iota 0 (size p1)) = (p1 == q1).
Proof.
move=> e; apply/allP/eqP => [H|-> i _ //].
by apply: (@eq_from_nth _ x0) => // i ip; apply/eqP/H; rewrite mem_iota.
Qed.

Lemma nth_Some (T : Type) (x0 : T) (s : seq T) i : (i < size s)%N -> nth None (map Some s) i = Some (nth x0 s i).
Proof. by move=> h; rewrite (nth_map x0). Qed.

Lemma pri_equal_correct (encF : F -> seq nat) (f g : seq F) : injective encF ->
  pri_equal encF f g = Ok (f == g).
Proof.
move=> inj; rewrite /pri_equal; case: eqP => [e|ne] /=; last first.
  by congr Ok; apply/esym/eqP => e; apply: ne; rewrite e.
rewrite (@foldo_and _ _ _ (fun i => f`_i == g`_i)) /=; first by rewrite seq_eq_all.
move=> b i /In_mem; rewrite mem_iota /= => h.
by rewrite !(nth_Some 0) -?e //= (inj_eq inj).
Qed.

Lemma pub_equal_same_size (encG : G -> seq nat) (P Q : pub_poly G) : injective encG ->
  size (pcommits P) = size (pcommits Q) -> pub_equal encG P Q = Ok (pcommits P == pcommits Q).
Proof.
move=> inj e; rewrite /pub_equal.
rewrite (@foldo_and _ _ _ (fun i => (pcommits P)`_i == (pcommits Q)`_i)) /=; first by rewrite seq_eq_all.
move=> b i /In_mem; rewrite mem_iota /= => h.
by rewrite !(nth_Some 0) -?e //= (inj_eq inj).
Qed.

(** What [PubPoly::equal] really decides. *)
Lemma pub_equal_longer (encG : G -> seq nat) (P Q : pub_poly G) : injective encG ->
  (size (pcommits P) <= size (pcommits Q))%N ->
  pub_equal encG P Q = Ok (pcommits P == take (size (pcommits P)) (pcommits Q)).
Proof.
move=> inj le; have e : size (pcommits P) = size (take (size (pcommits P)) (pcommits Q)) by rewrite size_takel.
rewrite -(@pub_equal_same_size encG P (PubPoly (pb Q) (take (size (pcommits P)) (pcommits Q)))) //.
rewrite /pub_equal /=; have H : all (fun i => i < size (pcommits P))%N (iota 0 (size (pcommits P))).
  by apply/allP => i; rewrite mem_iota.
elim: (iota _ _) true H => //= i l IH b /andP[h hl].
have h2 := leq_trans h le; rewrite !(nth_Some 0) ?size_takel //=.
by rewrite nth_take // IH.
Qed.

Lemma pub_equal_shorter_panics (encG : G -> seq nat) (P Q : pub_poly G) :
  (size (pcommits Q) < size (pcommits P))%N -> pub_equal encG P Q = Panic.
Proof.
move=> lt; rewrite /pub_equal.
have H : all (fun i => i < size (pcommits P))%N (iota 0 (size (pcommits P))).
  by apply/allP => i; rewrite mem_iota.
have : size (pcommits Q) \in iota 0 (size (pcommits P)) by rewrite mem_iota.
elim: (iota _ _) true H => //= i l IH b /andP[h hl].
rewrite (nth_Some 0) //=; case: (ltnP i (size (pcommits Q))) => hi.
  by rewrite (nth_Some 0) //= inE => /orP[/eqP e|]; [rewrite e ltnn in hi|exact: IH].
by rewrite [nth None _ _]nth_default ?size_map.
Qed.

End Poly.
