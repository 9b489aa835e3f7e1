(** Properties C103 and C104: what reconstruction does with wrong shares and with shares of different epochs, src/share/poly.rs and dkg.rs. *)
From mathcomp Require Import all_ssreflect all_algebra.
From mathcomp Require Import zify.
From Verif Require Import Base Lagrange PolyModel PolySpec PolyProofs PolyProps PropsPoly Suite VssModel Toy DkgModel PropsDkg ReshareSpec ReshareProofs.

Set Implicit Arguments.
Unset Strict Implicit.
Unset Printing Implicit Defensive.

Import GRing.Theory.
Local Open Scope ring_scope.

(** ** C103 *)
Section C103.
Variables (F : fieldType) (G : lmodType F).

(** The t smallest indices. *)
Definition lowest (t : nat) (K : seq nat) : seq nat := take t (sort leq K).

(** Shares of the holders K with arbitrary values. *)
Definition pri_of (v : nat -> F) (K : seq nat) : seq (option (pri_share F)) := [seq Some (PriShare i (v i)) | i <- K].
Definition pub_of (V : nat -> G) (K : seq nat) : seq (option (pub_share G)) := [seq Some (PubShare i (V i)) | i <- K].

Lemma minsert_fresh (T : Type) k (v : T) m : k \notin mkeys m -> minsert k v m = rcons m (k, v).
Proof. by elim: m => //= -[j w] m IH; rewrite inE negb_or eq_sym => /andP[/negbTE-> /IH->]. Qed.
Lemma mkeys_rcons (T : Type) (m : seq (nat * T)) a : mkeys (rcons m a) = rcons (mkeys m) a.1.
Proof. by rewrite /mkeys map_rcons. Qed.

Lemma xy_loop_uniq (T : Type) (v : nat -> T) n L (x : seq (nat * F)) (y : seq (nat * T)) :
  (0 < n <= size L)%N -> uniq (mkeys x ++ L) -> mkeys y = mkeys x -> size y = size x ->
  xy_loop (size x + n) [seq (i, v i) | i <- L] x y = (x ++ [seq (i, xcoord F i) | i <- take n L], y ++ [seq (i, v i) | i <- take n L]).
Proof.
elim: n L x y => // n IH [|i L] x y //= nL u ey sy.
have ni : i \notin mkeys x.
  by move: u; rewrite cat_uniq /= negb_or => /and3P[_ /andP[]].
rewrite !minsert_fresh ?ey // size_rcons.
case: n IH nL => [|n] IH nL; first by rewrite addn1 eqxx take0 -!cats1.
have -> : ((size x).+1 == size x + n.+2)%N = false by apply/eqP; lia.
have -> : (size x + n.+2 = size (rcons x (i, xcoord F i)) + n.+1)%N by rewrite size_rcons; lia.
rewrite IH ?mkeys_rcons ?size_rcons ?ey ?sy //=; last by rewrite cat_rcons.
by rewrite !cat_rcons.
Qed.

Lemma xy_collect_exact (T : Type) (v : nat -> T) K t : uniq K -> (0 < t <= size K)%N ->
  xy_collect F [seq Some (i, v i) | i <- K] t = ([seq (i, xcoord F i) | i <- lowest t K], [seq (i, v i) | i <- lowest t K]).
Proof.
move=> uK tK; rewrite /xy_collect.
have -> : pmap id [seq Some (i, v i) | i <- K] = [seq (i, v i) | i <- K] by elim: (K) => //= ? ? ->.
have -> : sort (fun a b : nat * T => a.1 <= b.1)%N [seq (i, v i) | i <- K] = [seq (i, v i) | i <- sort leq K] by rewrite sort_map.
by rewrite -[t in LHS]add0n -[0%N in LHS]/(size (@nil (nat * F))) xy_loop_uniq ?sort_uniq ?size_sort.
Qed.
Lemma mkeys_map (T : Type) (v : nat -> T) L : mkeys [seq (i, v i) | i <- L] = L.
Proof. by rewrite /mkeys -map_comp map_id_in. Qed.
Lemma mget_map (T : Type) (v : nat -> T) L i : i \in L -> mget i [seq (i, v i) | i <- L] = Some (v i).
Proof. by elim: L => //= j L IH; rewrite inE; case: eqP => [->|_ /= /IH]; rewrite ?eqxx // eq_sym; case: eqP. Qed.

(** From distinct indices the result is the sum of the values of the t smallest ones, times their Lagrange coefficients at 0,
    whatever the values are. *)
Theorem C103_secret (ord : hash_order F) (v : nat -> F) (K : seq nat) (t : nat) :
  (forall k s, perm_eq (ord k s) s) -> uniq K -> (0 < t <= size K)%N ->
  recover_secret ord (pri_of v K) t = Ok (\sum_(i <- lowest t K) weight F (lowest t K) i * v i).
Proof.
move=> po uK tK; rewrite /recover_secret /xy_scalar -map_comp (@xy_collect_exact _ v) //.
set L := lowest t K; rewrite size_map.
have sL : size L = t by rewrite size_takel // size_sort; case/andP: tK.
rewrite sL ltnn; pose x := [seq (i, xcoord F i) | i <- L]; rewrite -/x.
have hx' j w : List.In (j, w) x -> w = xcoord F j by move/In_mem/mapP => [k _ [-> ->]].
rewrite (@foldo_ok _ _ _ (fun a => a \in x) _ (fun acc ix => acc + weight F L ix.1 * v ix.1)); first last.
- by move=> a /In_mem; rewrite (perm_mem (po _ _)).
- move=> acc [i xi] /In_mem /= ix.
  have iL : i \in L by rewrite -(mkeys_map (xcoord F) L); apply/mapP; exists (i, xi) => //; exact/In_mem.
  by rewrite mget_map //= (lag_loop_perm _ _ _ (po _ _) hx') (hx' _ _ ix) mkeys_map mulrC.
by rewrite foldl_sum add0r (perm_big _ (po _ _)) /= /x big_map.
Qed.

(** The same for commitments. *)
Theorem C103_commit (ord : hash_order F) (V : nat -> G) (K : seq nat) (t : nat) :
  (forall k s, perm_eq (ord k s) s) -> uniq K -> (0 < t <= size K)%N ->
  recover_commit ord (pub_of V K) t = Ok (\sum_(i <- lowest t K) weight F (lowest t K) i *: V i).
Proof.
move=> po uK tK; rewrite /recover_commit /xy_commit -map_comp (@xy_collect_exact _ V) //.
set L := lowest t K; rewrite size_map.
have sL : size L = t by rewrite size_takel // size_sort; case/andP: tK.
rewrite sL ltnn; pose x := [seq (i, xcoord F i) | i <- L]; rewrite -/x.
have hx' j w : List.In (j, w) x -> w = xcoord F j by move/In_mem/mapP => [k _ [-> ->]].
rewrite (@foldo_ok _ _ _ (fun a => a \in x) _ (fun acc ix => acc + weight F L ix.1 *: V ix.1)); first last.
- by move=> a /In_mem; rewrite (perm_mem (po _ _)).
- move=> acc [i xi] /In_mem /= ix.
  have iL : i \in L by rewrite -(mkeys_map (xcoord F) L); apply/mapP; exists (i, xi) => //; exact/In_mem.
  by rewrite mget_map //= (lag_loop_perm _ _ _ (po _ _) hx') (hx' _ _ ix) mkeys_map mul1r.
by rewrite foldl_sum add0r (perm_big _ (po _ _)) /= /x big_map.
Qed.

Variable p : nat.
Hypothesis charF : p \in [char F].

Lemma weight_nz (L : seq nat) i : (forall j, j \in L -> (j.+1 < p)%N) -> i \in L -> weight F L i != 0.
Proof.
move=> bL iL; rewrite /weight big_seq_cond prodf_seq_neq0; apply/allP => j _; apply/implyP => /andP[jL ji].
rewrite mulf_neq0 ?(xcoord_neq0 charF (bL _ jL)) // invr_eq0 subr_eq0.
by apply: contra ji => /eqP e; apply/eqP; apply: (xcoord_inj charF) e; exact: bL.
Qed.
Lemma lowest_sub t K : {subset lowest t K <= K}.
Proof. by move=> i /mem_take; rewrite mem_sort. Qed.

(** Wrong values d i + (the share of i) are not noticed: the secret is shifted by their combination. *)
Theorem C103_shift (ord : hash_order F) (f : seq F) (d : nat -> F) (K : seq nat) (t : nat) :
  (forall k s, perm_eq (ord k s) s) -> uniq K -> (forall i, i \in K -> (i.+1 < p)%N) -> size f = t -> (0 < t <= size K)%N ->
  recover_secret ord (pri_of (fun i => share_value f i + d i) K) t = Ok (f`_0 + \sum_(i <- lowest t K) weight F (lowest t K) i * d i).
Proof.
move=> po uK bK sf tK; rewrite C103_secret //; congr Ok.
under eq_bigr do rewrite mulrDr; rewrite big_split /=; congr (_ + _).
suff : recover_secret ord (pri_of (share_value f) K) t = Ok f`_0 by rewrite C103_secret // => -[].
apply: (C01_recover_secret charF po) => //.
  by move=> s /List.in_map_iff [i [[<-] /In_mem iK]] /=; split=> //; exact: bK.
have -> : [seq ps_i s | s <- pmap id (pri_of (share_value f) K)] = K by elim: (K) => //= ? ? ->.
by exists (take t K) => [|q /mem_take //]; rewrite take_uniq // size_takel //; case/andP: tK.
Qed.

(** One wrong share among those used always gives a wrong secret, and its holder can choose the shift; wrong shares among the
    others have no effect. *)
Theorem C103_one_wrong (ord : hash_order F) (f : seq F) (i : nat) (e : F) (K : seq nat) (t : nat) :
  (forall k s, perm_eq (ord k s) s) -> uniq K -> (forall i, i \in K -> (i.+1 < p)%N) -> size f = t -> (0 < t <= size K)%N ->
  let wrong d j := share_value f j + (if j == i then d else 0) in
  if i \in lowest t K
  then (forall d, d != 0 -> exists2 s, recover_secret ord (pri_of (wrong d) K) t = Ok s & s != f`_0) /\
       exists d, recover_secret ord (pri_of (wrong d) K) t = Ok (f`_0 + e)
  else forall d, recover_secret ord (pri_of (wrong d) K) t = Ok f`_0.
Proof.
move=> po uK bK sf tK wrong; set L := lowest t K.
have uL : uniq L by rewrite take_uniq // sort_uniq.
have H d : recover_secret ord (pri_of (wrong d) K) t = Ok (f`_0 + if i \in L then weight F L i * d else 0).
  rewrite C103_shift //; congr (Ok (_ + _)); case: ifP => iL.
    rewrite (bigD1_seq i) //= eqxx big1 ?addr0 // => j /negbTE->; by rewrite mulr0.
  by rewrite big_seq big1 // => j jL; case: eqP => [ji|]; [move: jL; rewrite ji iL|rewrite mulr0].
case: ifP H => iL H; last by move=> d; rewrite H addr0.
have wn : weight F L i != 0 by apply: weight_nz => // j /lowest_sub; exact: bK.
split=> [d dn|].
  by rewrite H; eexists; first reflexivity; rewrite -subr_eq0 addrC addKr mulf_neq0.
by exists ((weight F L i)^-1 * e); rewrite H mulVKf.
Qed.
End C103.
Print Assumptions C103_secret.
Print Assumptions C103_commit.
Print Assumptions C103_shift.
Print Assumptions C103_one_wrong.

(** The shares 2 + X of holders 0, 2, 4: the last one is not looked at. *)
Example C103_nonvacuous :
  [/\ uniq [:: 4; 0; 2]%N, (forall i, i \in [:: 4; 0; 2]%N -> (i.+1 < 7)%N), size [:: K2 : K; K1 : K] = 2%N, (0 < 2 <= 3)%N &
      lowest 2 [:: 4; 0; 2]%N = [:: 0; 2]%N].
Proof. by split=> // i; rewrite !inE => /or3P[]/eqP->. Qed.
Example C103_example :
  recover_secret (fun _ s => s) (pri_of (fun i => (k7_of i.+3 : K) + (if i == 4%N then K5 : K else 0)) [:: 4; 0; 2]%N) 2 = Ok (K2 : K) /\
  recover_secret (fun _ s => s) (pri_of (fun i => (k7_of i.+3 : K) + (if i == 2%N then K5 : K else 0)) [:: 4; 0; 2]%N) 2 = Ok (K3 : K).
Proof. split; [by vm_cast_no_check (erefl (@Ok poly_error _ (K2 : K)))|by vm_cast_no_check (erefl (@Ok poly_error _ (K3 : K)))]. Qed.

(** ** C104 *)
Section C104.
Variables (F : fieldType) (G : lmodType F) (S : suite G) (p : nat).
Hypothesis charF : p \in [char F].
Notation B := (su_base S).

(** The key share of holder i under the polynomial f. *)
Definition key_of (f : seq F) (i : nat) : dkshare G := DKShare [seq c *: B | c <- f] (PriShare i (share_value f i)) [::].
(** What holder i has after the refreshes zs. *)
Definition held (f : seq F) (zs : seq (seq F)) (i : nat) : outcome dkg_error (dkshare G) := foldo (renew S) (key_of f i) [seq key_of z i | z <- zs].

Lemma share_vadd (f z : seq F) i : size f = size z -> share_value (vadd f z) i = share_value f i + share_value z i.
Proof. by move=> e; rewrite !share_value_eval !pri_eval_v Poly_vadd // hornerD. Qed.

Lemma renew_key f z i : size f = size z -> (0 < size z)%N -> z`_0 = 0 -> renew S (key_of f i) (key_of z i) = Ok (key_of (vadd f z) i).
Proof.
move=> se zn z0; have zN : z <> [::] by move=> e; move: zn; rewrite e.
have [h [r [E sh _ c s]]] := @C61_refreshed_shares F G S f z i [::] [::] se zN z0.
have pz : dk_public (key_of z i) = Ok 0 by rewrite /dk_public /=; case: (z) zn z0 => //= a z' _ ->; rewrite scale0r.
have [r' E' [_ h2 h3 h4 h5]] := @C61_renew F G S (key_of f i) (key_of z i) pz erefl (etrans (size_map _ _) (etrans se (esym (size_map _ _)))).
have pE : dk_poly r' = [::].
  move: E'; rewrite /renew pz /= scale0r eqxx /= eqxx /=; by case: foldo => //= cs [<-].
rewrite E'; congr Ok; case: r' h2 h3 h4 h5 pE {E'} => c' [i' v'] pp /= -> -> h4 h5 ->; rewrite /key_of share_vadd //; congr DKShare.
rewrite vadd_map_scale //; apply: (@eq_from_nth _ 0); first by rewrite h4 size_vadd !size_map se minnn.
by move=> m _; rewrite h5 nth_vadd // !size_map.
Qed.

(** Refreshes of threshold t: polynomials with constant term 0. *)
Definition refreshes (t : nat) (zs : seq (seq F)) : Prop := forall z, z \in zs -> size z = t /\ z`_0 = 0.

Lemma held_ok t f zs i : (0 < t)%N -> size f = t -> refreshes t zs -> held f zs i = Ok (key_of (foldl (@vadd F) f zs) i).
Proof.
move=> t0; rewrite /held; elim: zs f => [|z zs IH] f sf h //=.
have [sz z0] := h z (mem_head _ _); rewrite renew_key ?sf ?sz //= IH ?size_vadd ?sf ?sz ?minnn // => w wz.
by apply: h; rewrite inE wz orbT.
Qed.
Lemma size_total t (f : seq F) zs : size f = t -> refreshes t zs -> size (foldl (@vadd F) f zs) = t.
Proof.
elim: zs f => [|z zs IH] f sf h //=; have [sz _] := h z (mem_head _ _); apply: IH; first by rewrite size_vadd sf sz minnn.
by move=> w wz; apply: h; rewrite inE wz orbT.
Qed.
Lemma refreshes_take t zs e : refreshes t zs -> refreshes t (take e zs).
Proof. by move=> h z /mem_take/h. Qed.

(** An intruder who learns fewer than t shares in every epoch - other holders each time - learns nothing about the secret: for
    every s' there are a polynomial with the secret s' and refreshes under which these holders have the same shares. *)
Theorem C104_proactive (t : nat) (f : seq F) (zs : seq (seq F)) (A : nat -> seq nat) (s' : F) :
  (0 < t)%N -> size f = t -> refreshes t zs ->
  (forall e, uniq (A e) /\ (size (A e) < t)%N) -> (forall e i, i \in A e -> (i.+1 < p)%N) ->
  exists f' zs', [/\ size f' = t /\ f'`_0 = s', refreshes t zs', size zs' = size zs &
    forall e i, (e <= size zs)%N -> i \in A e ->
      exists r r', [/\ held f (take e zs) i = Ok r, held f' (take e zs') i = Ok r' & dk_share r' = dk_share r]].
Proof.
move=> t0 sf hz hA bA; pose tot e := foldl (@vadd F) f (take e zs).
have one e : exists g, [/\ size g = t, g`_0 = s' & forall i, i \in A e -> share_value g i = share_value (tot e) i].
  have [uA sA] := hA e; have [g [[sg g0 gi] _]] := C03_lemma (fun i => share_value (tot e) i) s' charF uA (bA e).
  exists (g ++ nseq (t - size g) 0); split; first by rewrite size_cat size_nseq sg; lia.
    by rewrite nth_cat sg.
  by move=> i iA; rewrite -(gi i iA) share_value_eval !pri_eval_v Poly_pad.
have [g hg] : exists g : nat -> seq F, forall e, (e <= size zs)%N -> [/\ size (g e) = t, (g e)`_0 = s' & forall i, i \in A e -> share_value (g e) i = share_value (tot e) i].
  elim: (size zs) => [|n [g IH]]; first by have [g h] := one 0%N; exists (fun _ => g) => -[].
  have [w hw] := one n.+1; exists (fun e => if (e <= n)%N then g e else w) => e le; case: ifP => len; first exact: IH.
  by have -> : e = n.+1 by lia.
pose z' e := mkseq (fun k => (g e.+1)`_k - (g e)`_k) t.
exists (g 0%N), (mkseq z' (size zs)).
have rz : refreshes t (mkseq z' (size zs)).
  move=> z /mapP [e]; rewrite mem_iota add0n => /= le ->; split; first by rewrite size_mkseq.
  have [_ h1 _] := hg e (ltnW le); have [_ h2 _] := hg e.+1 le; by rewrite nth_mkseq // h1 h2 subrr.
have [sg0 g00 _] := hg 0%N isT.
split=> //; first by rewrite size_mkseq.
have tE e : (e <= size zs)%N -> foldl (@vadd F) (g 0%N) (take e (mkseq z' (size zs))) = g e.
  elim: e => [|e IH] le; first by rewrite take0.
  rewrite (take_nth [::]) ?size_mkseq // -cats1 foldl_cat IH ?(ltnW le) //= nth_mkseq //.
  have [s1 _ _] := hg e (ltnW le); have [s2 _ _] := hg e.+1 le.
  apply: (@eq_from_nth _ 0); first by rewrite size_vadd size_mkseq s1 s2 minnn.
  rewrite size_vadd size_mkseq s1 minnn => k lk; rewrite nth_vadd ?size_mkseq ?s1 // nth_mkseq //.
  by rewrite addrC subrK.
move=> e i le iA; exists (key_of (tot e) i), (key_of (g e) i); split.
- by apply: (@held_ok t) => //; exact: refreshes_take.
- by rewrite (@held_ok t _ _ _ t0 sg0 (refreshes_take rz)) tE.
- by have [_ _ h] := hg e le; rewrite /= h.
Qed.

(** Shares of different epochs do not mix: old shares of O and renewed ones of N give the secret shifted by what the refresh
    polynomial has at O. *)
Theorem C104_mixed (ord : hash_order F) (t : nat) (f z : seq F) (O N : seq nat) :
  (forall k s, perm_eq (ord k s) s) -> (0 < t)%N -> size f = t -> size z = t -> z`_0 = 0 ->
  uniq (O ++ N) -> size (O ++ N) = t -> (forall i, i \in O ++ N -> (i.+1 < p)%N) ->
  exists r : nat -> dkshare G, (forall i, renew S (key_of f i) (key_of z i) = Ok (r i)) /\
    recover_secret ord ([seq Some (dk_share (key_of f i)) | i <- O] ++ [seq Some (dk_share (r i)) | i <- N]) t =
      Ok (f`_0 - \sum_(i <- O) weight F (O ++ N) i * share_value z i).
Proof.
move=> po t0 sf sz z0 u sON bON; exists (key_of (vadd f z)); split; first by move=> i; rewrite renew_key // sz.
pose d i := if i \in O then - share_value z i else 0.
have disj i : i \in N -> i \notin O.
  by move=> iN; apply/negP => iO; move: u; rewrite cat_uniq => /and3P[_ /hasP[]]; exists i.
have -> : [seq Some (dk_share (key_of f i)) | i <- O] ++ [seq Some (dk_share (key_of (vadd f z) i)) | i <- N] =
          pri_of (fun i => share_value (vadd f z) i + d i) (O ++ N).
  rewrite /pri_of map_cat; congr (_ ++ _); apply/eq_in_map => i iI /=; rewrite /d share_vadd ?sf ?sz //.
    by rewrite iI addrK.
  by rewrite (negbTE (disj i iI)) addr0.
have tON : (0 < t <= size (O ++ N))%N by rewrite sON leqnn t0.
rewrite (C103_shift charF) ?size_vadd ?sf ?sz ?minnn // nth_vadd ?sf ?sz // z0 addr0; congr (Ok (_ + _)).
have lE : perm_eq (lowest t (O ++ N)) (O ++ N) by rewrite /lowest take_oversize ?size_sort ?sON // perm_sort.
rewrite (perm_big _ lE) /= big_cat /= [X in _ + X]big_seq [X in _ + X]big1 ?addr0; last first.
  by move=> i iN; rewrite /d (negbTE (disj i iN)) mulr0.
rewrite -sumrN big_seq [RHS]big_seq; apply: eq_bigr => i iO; rewrite /d iO mulrN; congr (- (_ * _)).
by rewrite /weight (perm_big _ lE).
Qed.

(** In particular one old share among renewed ones gives the secret only if the refresh did not change it. *)
Theorem C104_one_old (ord : hash_order F) (t : nat) (f z : seq F) (i : nat) (N : seq nat) :
  (forall k s, perm_eq (ord k s) s) -> (0 < t)%N -> size f = t -> size z = t -> z`_0 = 0 ->
  uniq (i :: N) -> size (i :: N) = t -> (forall j, j \in i :: N -> (j.+1 < p)%N) ->
  exists r : nat -> dkshare G, (forall j, renew S (key_of f j) (key_of z j) = Ok (r j)) /\
    (recover_secret ord (Some (dk_share (key_of f i)) :: [seq Some (dk_share (r j)) | j <- N]) t = Ok f`_0 <->
     ps_v (dk_share (r i)) = ps_v (dk_share (key_of f i))).
Proof.
move=> po t0 sf sz z0 u sN bN; have [r [h E]] := C104_mixed po t0 sf sz z0 (O := [:: i]) u sN bN.
exists r; split=> //; move: E; rewrite /= => ->.
have -> : ps_v (dk_share (r i)) = share_value f i + share_value z i.
  by move: (h i); rewrite renew_key ?sf ?sz // => -[<-] /=; rewrite share_vadd ?sf ?sz.
rewrite big_seq1 /=.
have wn : weight F (i :: N) i != 0 by apply: (weight_nz charF) => //; exact: mem_head.
split=> [[/eqP]|/eqP].
  by rewrite -subr_eq0 addrC addKr oppr_eq0 mulf_eq0 (negbTE wn) => /eqP->; rewrite addr0.
by rewrite -subr_eq0 addrC addKr => /eqP->; rewrite mulr0 subr0.
Qed.
End C104.
Print Assumptions C104_proactive.
Print Assumptions C104_mixed.
Print Assumptions C104_one_old.

(** 2 + X, refreshed with 3 X and then with 5 X; the intruder knows one share in each of the three epochs. *)
Example C104_nonvacuous :
  refreshes 2 [:: [:: K0 : K; K3 : K]; [:: K0 : K; K5 : K]] /\
  (forall e, uniq [:: (e %% 3)%N] /\ (size [:: (e %% 3)%N] < 2)%N) /\ (forall e i, i \in [:: (e %% 3)%N] -> (i.+1 < 7)%N).
Proof.
split; first by move=> z; rewrite !inE => /orP[]/eqP->.
by split=> // e i; rewrite inE => /eqP->; rewrite (leq_trans (n := 4)) // ltnS ltn_mod.
Qed.
Example C104_one_old_nonvacuous :
  [/\ uniq [:: 1; 0]%N, size [:: 1; 0]%N = 2%N, (forall j, j \in [:: 1; 0]%N -> (j.+1 < 7)%N) &
      recover_secret (fun _ s => s) [:: Some (dk_share (key_of ktoy [:: K2 : K; K1 : K] 1)); Some (PriShare 0 (K6 : K))] 2 = Ok (K1 : K)].
Proof.
split=> //; first by move=> j; rewrite !inE => /orP[]/eqP->.
rewrite /key_of /=; have -> : share_value [:: K2 : K; K1 : K] 1 = (K4 : K) by apply/eqP; rewrite /share_value /peval !big_ord_recl big_ord0; vm_compute.
by vm_cast_no_check (erefl (@Ok poly_error _ (K1 : K))).
Qed.
