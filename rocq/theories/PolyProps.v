(** The property lemmas for src/share/poly.rs in specification vocabulary. *)
From mathcomp Require Import all_ssreflect all_algebra.
From mathcomp Require Import zify.
From Verif Require Import Base Lagrange PolyModel PolySpec PolyProofs.

Set Implicit Arguments.
Unset Strict Implicit.
Unset Printing Implicit Defensive.

Import GRing.Theory.
Local Open Scope ring_scope.

Section P.
Variable F : fieldType.
Variable G : lmodType F.
Variable B : G.

Lemma peval_horner (f : seq F) x : peval f x = (Poly f).[x].
Proof.
rewrite (horner_coef_wide _ (size_Poly f)) /peval; apply: eq_bigr => j _; by rewrite coef_Poly.
Qed.

Lemma share_value_eval (f : seq F) i : share_value f i = ps_v (pri_eval f i).
Proof. by rewrite pri_eval_v /share_value peval_horner. Qed.

Lemma pri_eval_spec (f : seq F) i : pri_eval f i = PriShare i (share_value f i).
Proof. by rewrite share_value_eval. Qed.

Lemma pri_shares_spec (f : seq F) n : pri_shares f n = [seq Some (PriShare i (share_value f i)) | i <- iota 0 n].
Proof. by apply: eq_map => i; rewrite pri_eval_spec. Qed.

Lemma distinctP (s : seq nat) k : distinct_at_least s k <-> (k <= size (undup s))%N.
Proof.
split=> [[s' [u <-] sub]|le].
  by apply: uniq_leq_size => // x /sub; rewrite mem_undup.
exists (take k (undup s)); last by move=> x /mem_take; rewrite mem_undup.
by rewrite take_uniq ?undup_uniq // size_takel.
Qed.

Lemma genuine_spec p f (shares : seq (option (pri_share F))) :
  (forall s, List.In (Some s) shares -> ps_v s = share_value f (ps_i s) /\ ((ps_i s).+1 < p)%N) ->
  genuine p f shares.
Proof. by move=> H s /H[e lt]; split=> //; rewrite pri_eval_spec -e; case: (s). Qed.

Lemma pub_genuine_spec p (cs : seq G) (shares : seq (option (pub_share G))) :
  (forall s, List.In (Some s) shares -> us_v s = pub_share_value cs (us_i s) /\ ((us_i s).+1 < p)%N) ->
  pub_genuine p cs shares.
Proof. by []. Qed.

Lemma C01_lemma (p : nat) (ord : hash_order F) (f : seq F) (shares : seq (option (pri_share F))) (t : nat) :
  p \in [char F] -> (forall k s, perm_eq (ord k s) s) -> size f = t ->
  (forall s, List.In (Some s) shares -> ps_v s = share_value f (ps_i s) /\ ((ps_i s).+1 < p)%N) ->
  distinct_at_least [seq ps_i s | s <- pmap id shares] t ->
  recover_secret ord shares t = Ok f`_0.
Proof.
move=> ch op st /genuine_spec g /distinctP d.
rewrite (recover_secret_correct ch op g) ?st ?nth0 //.
Qed.

Lemma C02_lemma (ord : hash_order F) (shares : seq (option (pri_share F))) (pshares : seq (option (pub_share G))) (t : nat) :
  (~ distinct_at_least [seq ps_i s | s <- pmap id shares] t ->
     is_err (recover_secret ord shares t) /\ is_err (recover_pri_poly ord shares t)) /\
  (~ distinct_at_least [seq us_i s | s <- pmap id pshares] t ->
     is_err (recover_commit ord pshares t) /\ is_err (recover_pub_poly B ord pshares t)).
Proof.
split=> /distinctP /negP; rewrite -ltnNge => lt.
  by rewrite recover_secret_short // recover_pri_poly_short.
by rewrite recover_commit_short // recover_pub_poly_short.
Qed.

Lemma C03_lemma (p : nat) (K : seq nat) (vals : nat -> F) (s : F) :
  p \in [char F] -> uniq K -> (forall i, i \in K -> (i.+1 < p)%N) ->
  exists! f : seq F, [/\ size f = (size K).+1, f`_0 = s & forall i, i \in K -> ps_v (pri_eval f i) = vals i].
Proof.
move=> ch uK /allP bK; have [f [[sf f0 fi] un]] := shares_secrecy ch vals s uK bK.
exists f; split; first by split; rewrite ?nth0 // => i iK; rewrite pri_eval_v fi.
move=> g [sg g0 gi]; apply: un; split; rewrite -?nth0 // => i iK; by rewrite -pri_eval_v gi.
Qed.

Lemma C04_lemma (p : nat) (ord : hash_order F) (f : seq F) (shares : seq (option (pri_share F))) (t : nat) :
  p \in [char F] -> (forall k s, perm_eq (ord k s) s) -> size f = t -> (0 < t)%N ->
  (forall s, List.In (Some s) shares -> ps_v s = share_value f (ps_i s) /\ ((ps_i s).+1 < p)%N) ->
  distinct_at_least [seq ps_i s | s <- pmap id shares] t ->
  recover_pri_poly ord shares t = Ok f.
Proof.
move=> ch op st t0 /genuine_spec g /distinctP d.
by rewrite (recover_pri_poly_correct ch op g) ?st ?subnn ?cats0.
Qed.

Lemma C05_add_lemma (f g : seq F) :
  (size f = size g ->
     exists2 h, pri_add f g = Ok h &
       [/\ size h = size f, h`_0 = f`_0 + g`_0 &
           forall i, ps_v (pri_eval h i) = ps_v (pri_eval f i) + ps_v (pri_eval g i)]) /\
  (size f <> size g -> is_err (pri_add f g)).
Proof.
have [H1 H2] := pri_add_ok f g; split=> [e|ne]; last by rewrite H2.
rewrite H1 //; eexists; first reflexivity; split.
- by rewrite size_vadd e minnn.
- by rewrite nth_vadd.
- by move=> i; rewrite !pri_eval_v Poly_vadd // hornerD.
Qed.

Lemma C05_mul_lemma (f g : seq F) : f <> [::] -> g <> [::] ->
  exists2 h, pri_mul f g = Ok h &
    [/\ size h = (size f + size g - 1)%N, h`_0 = f`_0 * g`_0 &
        forall i, ps_v (pri_eval h i) = ps_v (pri_eval f i) * ps_v (pri_eval g i)].
Proof.
move=> /eqP nf /eqP ng; have [h -> [sh ph]] := pri_mul_ok nf ng; exists h => //; split=> //.
  by rewrite !nth0 -!nth0_horner ph hornerM.
by move=> i; rewrite !pri_eval_v ph hornerM.
Qed.

Lemma C05_pub_add_lemma (P Q : pub_poly G) :
  (size (pcommits P) = size (pcommits Q) -> pcommits P <> [::] ->
     exists2 R, pub_add P Q = Ok R &
       pb R = pb P /\
       forall i, exists a b, [/\ pub_eval P i = Ok a, pub_eval Q i = Ok b & pub_eval R i = Ok (PubShare i (us_v a + us_v b))]) /\
  (size (pcommits P) <> size (pcommits Q) -> is_err (pub_add P Q)).
Proof.
rewrite /pub_add; case: eqP => //= e; split=> // _ nP.
have nQ : pcommits Q <> [::] by move=> q; apply: nP; apply: size0nil; rewrite e q.
eexists; first reflexivity; split=> // i.
move/eqP: nP => nP; move/eqP: nQ => nQ.
do 2!eexists; split; try exact: pub_eval_ok.
rewrite pub_eval_ok /= ?gsum_vadd //.
by rewrite -size_eq0 size_vadd -e minnn size_eq0.
Qed.

Lemma C05_commit_add_lemma (f g : seq F) (b : option G) h :
  pri_add f g = Ok h -> pub_add (pri_commit B f b) (pri_commit B g b) = Ok (pri_commit B h b).
Proof.
rewrite /pri_add /pub_add /= !size_map; case: eqP => //= e [<-]; congr (Ok (PubPoly _ _)).
elim: f g e => [|a f IH] [|c g] //= [e]; by rewrite IH // /pmul scalerDl.
Qed.

Lemma C06_lemma (f : seq F) (b : option G) (s : pri_share F) :
  f <> [::] -> odflt B b <> 0 ->
  pub_eval (pri_commit B f b) (ps_i s) = Ok (PubShare (ps_i s) (share_value f (ps_i s) *: odflt B b)) /\
  exists2 r, pub_check B (pri_commit B f b) s = Ok r & (r = true <-> ps_v s = share_value f (ps_i s)).
Proof.
move=> /eqP nf /eqP nb.
have ev : pub_eval (pri_commit B f b) (ps_i s) = Ok (PubShare (ps_i s) (share_value f (ps_i s) *: odflt B b)).
  rewrite pub_eval_ok /= ?gsum_commit -?peval_horner //.
  by case: (f) nf.
split=> //; rewrite (pub_check_correct _ nf nb); eexists; first reflexivity.
by rewrite share_value_eval; split=> /eqP.
Qed.

Lemma C06_neutral_lemma (f : seq F) (s : pri_share F) :
  f <> [::] -> pub_check B (pri_commit B f (Some 0)) s = Ok true.
Proof.
move=> /eqP nf; by rewrite /pub_check pri_commit_eval //= /pmul /= !scaler0 eqxx.
Qed.

Lemma C07_lemma (p : nat) (ord : hash_order F) (cs : seq G) (shares : seq (option (pub_share G))) (t : nat) :
  p \in [char F] -> (forall k s, perm_eq (ord k s) s) -> size cs = t ->
  (forall s, List.In (Some s) shares -> us_v s = pub_share_value cs (us_i s) /\ ((us_i s).+1 < p)%N) ->
  distinct_at_least [seq us_i s | s <- pmap id shares] t ->
  recover_commit ord shares t = Ok cs`_0.
Proof.
move=> ch op st /pub_genuine_spec g /distinctP d.
by rewrite (recover_commit_correct ch op g) ?st ?nth0.
Qed.

Lemma C08_lemma (p : nat) (ord : hash_order F) (cs : seq G) (shares : seq (option (pub_share G))) (t : nat) :
  p \in [char F] -> (forall k s, perm_eq (ord k s) s) -> size cs = t -> (0 < t)%N ->
  (forall s, List.In (Some s) shares -> us_v s = pub_share_value cs (us_i s) /\ ((us_i s).+1 < p)%N) ->
  distinct_at_least [seq us_i s | s <- pmap id shares] t ->
  ((forall j, (j < t)%N -> j \in [seq us_i s | s <- pmap id shares]) ->
     exists2 P, recover_pub_poly B ord shares t = Ok P &
       pcommits P = cs /\ pb P = Some (pub_share_value cs 0)) /\
  (forall j, (j < t)%N -> j \notin [seq us_i s | s <- pmap id shares] ->
     recover_pub_poly B ord shares t = Panic).
Proof.
move=> ch op st t0 /pub_genuine_spec g /distinctP d; split=> [H|j jt nj].
  have [||P e [e1 e2]] := @recover_pub_poly_correct F G B p ch ord op cs shares t g t0.
  - by rewrite st.
  - by move=> j /H; rewrite /pub_indices mem_undup.
  by exists P => //; rewrite e1 e2 st subnn cats0.
have ib : idx_bounded p shares by move=> s /g[].
by apply: (@recover_pub_poly_panics F G B p ch ord op shares t j ib t0 d jt); rewrite /pub_indices mem_undup.
Qed.

Lemma C09_pri_lemma (encF : F -> seq nat) (f g : seq F) :
  injective encF -> exists2 r, pri_equal encF f g = Ok r & (r = true <-> f = g).
Proof.
by move=> inj; rewrite pri_equal_correct //; eexists; [reflexivity|split=> /eqP].
Qed.

Lemma C09_pub_lemma (encG : G -> seq nat) (P Q : pub_poly G) :
  injective encG ->
  (size (pcommits P) = size (pcommits Q) ->
     exists2 r, pub_equal encG P Q = Ok r & (r = true <-> pcommits P = pcommits Q)) /\
  ((size (pcommits P) < size (pcommits Q))%N ->
     exists2 r, pub_equal encG P Q = Ok r & (r = true <-> exists tl, pcommits Q = pcommits P ++ tl)) /\
  ((size (pcommits Q) < size (pcommits P))%N -> pub_equal encG P Q = Panic).
Proof.
move=> inj; split; first by move=> e; rewrite pub_equal_same_size //; eexists; [reflexivity|split=> /eqP].
split; last exact: pub_equal_shorter_panics.
move=> lt; rewrite (pub_equal_longer inj (ltnW lt)); eexists; first reflexivity.
split=> [/eqP e|[tl e]]; last by rewrite e take_size_cat ?eqxx.
by exists (drop (size (pcommits P)) (pcommits Q)); rewrite {1}e cat_take_drop.
Qed.

Lemma C10_lemma (f : seq F) (b : option G) (i : nat) : f <> [::] ->
  [/\ is_ok (pri_secret f), is_ok (pub_commit (pri_commit B f b)), is_ok (pub_eval (pri_commit B f b) i),
     is_ok (pub_check B (pri_commit B f b) (pri_eval f i)) & is_ok (pri_mul f f)].
Proof.
move=> /eqP nf; split.
- by case: (f) nf.
- by case: (f) nf.
- by rewrite pri_commit_eval.
- by rewrite /pub_check pri_commit_eval.
- by have [r -> _] := pri_mul_ok nf nf.
Qed.

Lemma C10_new t s (picks : nat -> F) : new_pri_poly t s picks <> [::].
Proof. by case: s. Qed.

Lemma C10_add (f g h : seq F) : f <> [::] -> pri_add f g = Ok h -> h <> [::].
Proof.
rewrite /pri_add; case: eqP => //= e nf [<-] e2; apply: nf; apply: size0nil.
by move: (size_vadd f g); rewrite e2 -e minnn /= => <-.
Qed.

Lemma C10_mul (f g h : seq F) : f <> [::] -> g <> [::] -> pri_mul f g = Ok h -> h <> [::].
Proof.
move=> /eqP nf /eqP ng; have [r -> [sr _]] := pri_mul_ok nf ng => [[<-]] e; move: sr; rewrite e /=.
by case: (f) nf => // a f' _; case: (g) ng => // c g' _ /=; lia.
Qed.

Lemma lagrange_basis_nonempty i (x l : seq (nat * F)) b : lagrange_basis i x l = Ok b -> b <> [::].
Proof.
rewrite lagrange_basis_E.
have gen : forall l b0 a0, b0 <> [::] ->
  bindo (foldo (lb_step i x) (b0, a0) l) (fun ba => Ok [seq c * ba.2 | c <- ba.1]) = Ok b -> b <> [::].
  elim=> {l} [|[j v] l IH] b0 a0 nb0 /=; first by case=> <-; case: b0 nb0.
  rewrite {1}/lb_step /=; case: (i == j) => /=; first exact: IH.
  case E: (pri_mul b0 (minus_const v)) => [r| | |] //=; case: mget => //= xi; apply: IH.
  exact: (C10_mul nb0 _ E).
exact: gen.
Qed.

Lemma C10_recover (ord : hash_order F) (shares : seq (option (pri_share F))) t h :
  (forall k s, perm_eq (ord k s) s) -> (0 < t)%N -> recover_pri_poly ord shares t = Ok h -> h <> [::].
Proof.
move=> op t0; rewrite /recover_pri_poly; case: (xy_scalar shares t) => x y.
case: eqP => //= sx; set step := (fun _ _ => _).
have st acc a r : step acc a = Ok r -> r <> [::].
  rewrite /step; case E: lagrange_basis => [b| | |] //=; case: mget => //= v.
  have nb := lagrange_basis_nonempty E.
  have nbv : [seq c * v | c <- b] <> [::] by case: (b) nb.
  case: acc => [|c acc]; first by case=> <-.
  exact: C10_add.
have: ord 0%N x <> [::] by move=> e; move: (perm_size (op 0%N x)); rewrite e sx => e'; rewrite -e' in t0.
elim/last_ind: (ord 0%N x) => // l a _ _.
have -> : foldo step [::] (rcons l a) = bindo (foldo step [::] l) (fun acc => step acc a).
  by elim: l ([::] : seq F) => [|a' l IH] acc /=; [case: (step acc a)|case: (step acc a') => //=].
case: foldo => //= acc; exact: st.
Qed.

Lemma C10_refuted_lemma (ord : hash_order F) :
  (forall k s, perm_eq (ord k s) s) ->
  recover_pri_poly ord [::] 0 = Ok [::] /\ pri_secret ([::] : seq F) = Panic /\
  pub_eval (@PubPoly _ G None [::]) 0 = Panic /\ pri_mul ([::] : seq F) [::] = Panic.
Proof.
move=> op; split=> //; rewrite /recover_pri_poly /=.
by have /perm_nilP -> := op 0%N [::].
Qed.

End P.
