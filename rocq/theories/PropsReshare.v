(** Properties C59 and C60: resharing, src/share/dkg/pedersen/dkg.rs. *)
From mathcomp Require Import all_ssreflect all_algebra.
From mathcomp Require Import zify.
From Verif Require Import Base Lagrange PolyModel PolySpec PolyProofs PolyProps PropsPoly Suite SuiteProofs.
From Verif Require Import VssModel VssSpec VssProofs Toy DkgModel DkgSpec DkgProofs PropsDkg ReshareSpec ReshareProofs.

Set Implicit Arguments.
Unset Strict Implicit.
Unset Printing Implicit Defensive.

Import GRing.Theory.
Local Open Scope ring_scope.
Local Open Scope outcome_scope.

(** ** Toy data: old holders with keys 1, 2, 3 sharing 2 + X; new holders with keys 4, 5, 6 *)
Definition rold : seq V := [:: K1 : V; K2 : V; K3 : V].
Definition rnew : seq V := [:: K4 : V; K5 : V; K6 : V].
Definition rpoly : seq K := [:: K2 : K; K1 : K].
Definition rcoeffs : seq V := [:: K2 : V; K1 : V].
Definition rget (o : outcome dkg_error (dkg V)) : dkg V := if o is Ok g then g else kgen 0.
Definition rold_conf (x : K) (i : nat) (v : K) : config V :=
  Config x rold None rnew (Some (DKShare rcoeffs (PriShare i v) [::])) 2 2.
Definition rold_node (x : K) (i : nat) (v : K) : dkg V :=
  rget (new_dist_key_handler ktoy (rold_conf x i v) (K0 : K) (fun _ => K3 : K)).
Definition rnew_conf (x : K) : config V := Config x rold (Some rcoeffs) rnew None 2 2.
Definition rnew_node (x : K) : dkg V := rget (new_dist_key_handler ktoy (rnew_conf x) (K0 : K) (fun _ => K3 : K)).
Definition rdeal (g : dkg V) (i : nat) : ddeal V := odflt (kbad 0 (K0 : K) (K0 : K)) (mget i (kdeals_of g)).
Definition rhonest (j : nat) : dkg V := rold_node (k7_of j.+1) j (k7_of j.+3).
Definition rr (x : K) (g : dkg V) (i : nat) : dresponse := kanswer (rnew_node x) (rdeal g i).
(** What the new holder with key 4 sees when dealers 0 and 2 reshare and dealer 1 is absent. *)
Definition rrun : seq (devent V) :=
  [:: DEvDeal (rdeal (rhonest 0) 0) (K1 : K) (K1 : K); DEvResponse V (rr (K5 : K) (rhonest 2) 1) (K1 : K);
      DEvResponse V (rr (K6 : K) (rhonest 0) 2) (K1 : K); DEvDeal (rdeal (rhonest 2) 0) (K1 : K) (K1 : K);
      DEvResponse V (rr (K5 : K) (rhonest 0) 1) (K1 : K); DEvResponse V (rr (K6 : K) (rhonest 2) 2) (K1 : K)].
(** The dealers' polynomials: their share and 3 X. *)
Definition rf (j : nat) : seq K := [:: k7_of j.+3; K3 : K].

Lemma handler_reshare (F : fieldType) (G : lmodType F) (S : suite G) (c : config G) secret picks (g : dkg G) :
  new_dist_key_handler S c secret picks = Ok g -> isSome (c_share c) || isSome (c_coeffs c) -> g_new_present g ->
  [/\ g_old_t g = size (old_commits c), g_dpub g = PubPoly (Some (su_base S)) (old_commits c),
      g_new_t g = threshold_of c & c_old_t c != 0%N].
Proof.
rewrite /new_dist_key_handler; case: ifP => // _; case: ifP => // _; case: ifP => // ot.
case: dfind_pub => oidx op; case: dfind_pub => nidx np; case: ifP => // _.
have -> : (if c_t c != 0%N then c_t c else minimum_t (size (c_new c))) = threshold_of c.
  by rewrite /threshold_of /minimum_t; case: eqP => //= _; rewrite addn1.
move=> H rs npg; rewrite rs in ot H; move: H => /=.
rewrite /old_commits; case: np npg => npg; last first.
  by case: (c_share c) => [sh|] /=; [case: new_dealer => [d|||] //=|]; case=> e; rewrite -e in npg.
rewrite /= in ot.
case sh: (c_share c) rs => [h|] /= rs.
  case: new_dealer => [d|||] //=; case co: (c_coeffs c) => [cs|] /=.
    by case: init_verifiers => [vs|e||] // [<-] /=; rewrite ot.
  by rewrite sh /=; case: init_verifiers => [vs|e||] // [<-] /=; rewrite ot.
case co: (c_coeffs c) rs => [cs|] //= rs.
by case: init_verifiers => [vs|e||] // [<-] /=; rewrite ot.
Qed.

Lemma threshold_pos (F : fieldType) (G : lmodType F) (c : config G) : (0 < size (c_new c))%N -> (0 < threshold_of c)%N.
Proof. rewrite /threshold_of; case: eqP; lia. Qed.

Section C59.
Variables (F : fieldType) (G : lmodType F) (S : suite G).
Variable deal_enc : deal G -> bytestr.
Variable deal_dec : bytestr -> option (deal G).
Variable ddeal_enc : nat -> enc_deal G -> bytestr.
Notation run := (drun S deal_enc deal_dec ddeal_enc).

(** A holder of the old key deals its own share. *)
Theorem C59_dealer (c : config G) secret picks (g : dkg G) sh :
  new_dist_key_handler S c secret picks = Ok g -> c_share c = Some sh ->
  dl_poly (g_dealer g) = ps_v (dk_share sh) :: mkseq picks (threshold_of c - 1) /\
  dl_commits (g_dealer g) = [seq a *: su_base S | a <- dl_poly (g_dealer g)].
Proof.
rewrite /new_dist_key_handler; case: ifP => // _; case: ifP => // _; case: ifP => // _.
case: dfind_pub => oidx op; case: dfind_pub => nidx np; case: ifP => // _.
have -> : (if c_t c != 0%N then c_t c else minimum_t (size (c_new c))) = threshold_of c.
  by rewrite /threshold_of /minimum_t; case: eqP => //= _; rewrite addn1.
move=> H e; move: H; rewrite e /=.
have nd d : new_dealer S (c_long c) (ps_v (dk_share sh)) (c_new c) (threshold_of c) picks = Ok d ->
  dl_poly d = ps_v (dk_share sh) :: mkseq picks (threshold_of c - 1) /\
  dl_commits d = [seq a *: su_base S | a <- dl_poly d].
  by move/new_dealerP => [_ _ ->].
case N: new_dealer => [d|||] //=; have := nd _ N.
case: np => [|hd [<-]] //=.
case: (c_coeffs c) => [cs|] /= hd; first by case: init_verifiers => [vs|e'||] // [<-].
by rewrite e /=; case: init_verifiers => [vs|e'||] // [<-].
Qed.

(** A new holder's part in a resharing: it is created from configuration c, its key is in the new list, the old list has
    no duplicates; the old key was shared with the polynomial fo; old holder j deals the polynomial f j of its share;
    no response with the holder's own index comes from the network, every deal it can open under the name of dealer j is
    one of dealer j's polynomial, and it receives the deals it certifies.  Everything else is arbitrary: responses and
    justifications from anybody, repetitions, lost messages, timeouts. *)
Record reshare_history (fo : seq F) (f : nat -> seq F) (c : config G) (g0 : dkg G) (evs : seq (devent G)) : Prop := {
  rh_created : exists secret picks, new_dist_key_handler S c secret picks = Ok g0;
  rh_resharing : isSome (c_share c) || isSome (c_coeffs c);
  rh_new : (c_long c *: su_base S) \in c_new c;
  rh_uniq : uniq (c_old c);
  rh_old_nonempty : fo != [::];
  rh_old_size : size (old_commits c) = size fo;
  rh_old_threshold : (size fo <= c_old_t c)%N;
  rh_polys : forall j, (j < size (c_old c))%N -> size (f j) = threshold_of c /\ (f j)`_0 = share_value fo j;
  rh_foreign : all (foreign (seq.index (c_long c *: su_base S) (c_new c))) evs;
  rh_consistent : forall ev, List.In ev evs -> consistent S deal_dec g0 f ev;
  rh_holds : holds_certified (run g0 evs) }.

(** Such a holder ends with a share of a polynomial of the new threshold and the old secret, fixed by the dealers it
    certified, or is told that there are too few. *)
Theorem C59_any_history (p : nat) (fo : seq F) (f : nat -> seq F) (c : config G) (g0 : dkg G) (evs : seq (devent G)) vord hord :
  p \in [char F] -> (size (c_old c) < p)%N -> su_base S != 0 ->
  (forall l, perm_eq (vord l) l) -> (forall q k l, perm_eq (hord q k l) l) ->
  reshare_history fo f c g0 evs ->
  let i := seq.index (c_long c *: su_base S) (c_new c) in
  let g := run g0 evs in
  let fn := reshared f (take (size fo) (certified_dealers g)) (threshold_of c) in
  [/\ size fn = threshold_of c,
      (c_old_t c <= ncertified g)%N -> fn`_0 = fo`_0 /\ exists pp,
        dist_key_share S vord hord g = Ok (DKShare [seq a *: su_base S | a <- fn] (PriShare i (share_value fn i)) pp) &
      (ncertified g < c_old_t c)%N -> dist_key_share S vord hord g = Err DistributedKeyNotCertified].
Proof.
move=> ch np nb pv ph [[secret [picks nd]] rs pin u fo0 so ot hf fe co hc] i g fn.
rewrite -/i in fe; rewrite -/g in hc.
have [[h1 h2 h3 h4] h5 h6 h7 h8] := handlerP nd.
have pr : g_new_present g0 by rewrite h7.
have [n1 n2 n3] := h8 pr; have [r1 r2 r3 r4] := handler_reshare nd rs pr.
have rg : g_resharing g0 by rewrite h5.
rewrite rg in h6; rewrite h6 u in n3.
have li : (i < size (c_new c))%N by rewrite index_mem.
have al0 : all_P (good_ver S i (c_new c) f g0) g0.
  move=> j v M; split; last first.
  - by move=> d; move: M; rewrite n3 mget_map_iota; case: ifP => // _ [<-].
  - by exists v => //; exists (v_agg v); case: v {M}.
  by move: M; rewrite n3 mget_map_iota; case: ifP => // _ [<-]; split=> //=; rewrite h2.
have [al [[fr1 fr2 fr3] [fr4 _ fr5 fr6] [fr7 _] [fr8 fr9] fk]] := gv_run deal_enc ddeal_enc li rg fe co al0.
rewrite -/g in al fr1 fr2 fr3 fr4 fr5 fr6 fr7 fr8 fr9 fk.
have kE : mkeys (g_verifiers g) = iota 0 (size (c_old c)).
  by rewrite fk n3 /mkeys -map_comp -[RHS]map_id; apply: eq_map.
have nE : size (g_verifiers g) = size (c_old c) by rewrite -(size_iota 0 (size (c_old c))) -kE size_map.
have oE : c_old (g_c g) = c_old c by rewrite fr1 h6.
have cdE : certified_dealers g = [seq j <- iota 0 (size (g_verifiers g)) | cert g j] by rewrite /certified_dealers oE nE.
have qE : size (qual vord g) = ncertified g.
  rewrite /qual fr5 pr !andbF size_map /qual_entries /ncertified size_pmap oE.
  rewrite (eq_count (a2 := cert g)) => [|j /=]; last by rewrite /cert; case: mget => [v|] //; case: deal_certified.
  by rewrite (permP (pv _)) kE.
have tcE : threshold_certified vord g = (c_old_t c <= ncertified g)%N.
  by rewrite /threshold_certified fr2 rg fr1 h4 qE.
split; first by rewrite size_mkseq.
  move=> en; rewrite /dist_key_share tcE en fr3 n2 fr2 rg /=.
  have csz : size [seq j <- iota 0 (size (g_verifiers g)) | cert g j] = ncertified g.
    by rewrite size_filter /ncertified oE nE.
  have oldE : g_old_t g = size fo by rewrite fr8 r1.
  have newE : g_new_t g = threshold_of c by rewrite fr9.
  have iE : g_nidx g = i by rewrite fr4 n1.
  have t0 : (0 < threshold_of c)%N.
    by apply: threshold_pos; exact: leq_ltn_trans li.
  have cl j : cert g j -> (j < size (c_old c))%N.
    rewrite /cert; case M: mget => [v|] // _; move: (mget_keys M); by rewrite kE mem_iota.
  have dealt j v : mget j (g_verifiers g) = Some v -> deal_certified (v_agg v) ->
    exists2 d, a_deal (v_agg v) = Some d & d_commits d = [seq a *: su_base S | a <- f j] /\ ps_v (d_share d) = share_value (f j) (g_nidx g).
    move=> M ce; case D: (a_deal (v_agg v)) (hc _ _ M ce) => [d|] // _; exists d => //.
    rewrite iE; apply: (gv_certified li nb _ (al _ _ M) ce D).
    have lj : (j < size (c_old c))%N by apply: cl; rewrite /cert M.
    by case: (hf j lj) => s0 _; rewrite -size_eq0 s0 -lt0n.
  have np' : (size (g_verifiers g) < p)%N by rewrite nE.
  have kE' : mkeys (g_verifiers g) = iota 0 (size (g_verifiers g)) by rewrite kE nE.
  have sf j : cert g j -> size (f j) = g_new_t g by move/cl/hf => [-> _]; rewrite newE.
  have fo1 : (0 < g_old_t g)%N by rewrite oldE lt0n size_eq0.
  have t1 : (0 < g_new_t g)%N by rewrite newE.
  have en' : (g_old_t g <= size [seq j <- iota 0 (size (g_verifiers g)) | cert g j])%N.
    by rewrite csz oldE; exact: leq_trans en.
  have [pp rk] := resharing_key_ok ch np' kE' pv ph dealt sf fo1 t1 en'.
  have fnE : reshared f (take (g_old_t g) [seq j <- iota 0 (size (g_verifiers g)) | cert g j]) (g_new_t g) = fn.
    by rewrite /fn cdE oldE newE.
  rewrite fnE iE in rk; split; last by exists pp.
  rewrite -fnE; apply: (reshared_secret (p := p)) => //; first by rewrite oldE.
  by move=> j /mem_take; rewrite mem_filter => /andP[/cl/hf [_ ->]].
by move=> lt; rewrite /dist_key_share tcE leqNgt lt.
Qed.

(** New holders that certified the same dealers hold shares of the old secret under the old public key: any threshold
    many of them recover it. *)
Theorem C59_recover (p : nat) (fo : seq F) (f : nat -> seq F) (old new : seq G) (t ot : nat) (D : seq nat)
    (c : nat -> config G) (g0 : nat -> dkg G) (evs : nat -> seq (devent G)) (ord : hash_order F) vord hord (Q : seq nat) :
  p \in [char F] -> (size old < p)%N -> (size new < p)%N -> su_base S != 0 ->
  (forall l, perm_eq (vord l) l) -> (forall q k l, perm_eq (hord q k l) l) -> (forall k l, perm_eq (ord k l) l) ->
  uniq new -> uniq Q -> (0 < t <= size Q)%N ->
  (forall i, i \in Q -> [/\ (i < size new)%N, nth 0 new i = c_long (c i) *: su_base S,
     c_old (c i) = old /\ c_new (c i) = new, threshold_of (c i) = t /\ c_old_t (c i) = ot & reshare_history fo f (c i) (g0 i) (evs i)]) ->
  (forall i, i \in Q -> (ot <= ncertified (run (g0 i) (evs i)))%N /\ take (size fo) (certified_dealers (run (g0 i) (evs i))) = D) ->
  exists s : nat -> dkshare G,
  [/\ forall i, i \in Q -> dist_key_share S vord hord (run (g0 i) (evs i)) = Ok (s i),
      recover_secret ord [seq Some (dk_share (s i)) | i <- Q] t = Ok fo`_0 &
      forall i, i \in Q -> dk_public (s i) = Ok (fo`_0 *: su_base S) /\
        ps_v (dk_share (s i)) *: su_base S = pub_share_value (dk_commits (s i)) i].
Proof.
move=> ch po pn nb pv ph pord un uQ /andP[tpos tQ] hQ hD; set fn := reshared f D t.
have H i : i \in Q -> fn`_0 = fo`_0 /\ exists pp,
  dist_key_share S vord hord (run (g0 i) (evs i)) = Ok (DKShare [seq a *: su_base S | a <- fn] (PriShare i (share_value fn i)) pp).
  move=> iQ; have [li ni [oE nE] [tE otE] rh] := hQ i iQ; have [en dE] := hD i iQ.
  have po' : (size (c_old (c i)) < p)%N by rewrite oE.
  have [_ h _] := C59_any_history ch po' nb pv ph rh.
  have ii : seq.index (c_long (c i) *: su_base S) (c_new (c i)) = i by rewrite -ni nE index_uniq.
  by rewrite ii dE tE in h; apply: h; rewrite otE.
pose s i := if dist_key_share S vord hord (run (g0 i) (evs i)) is Ok s then s else DKShare [::] (PriShare 0 0) [::].
exists s; have sE i : i \in Q -> exists pp, s i = DKShare [seq a *: su_base S | a <- fn] (PriShare i (share_value fn i)) pp.
  by move=> iQ; have [_ [pp E]] := H i iQ; exists pp; rewrite /s E.
have e0 : fn`_0 = fo`_0.
  by case: (Q) H tQ => [|i0 Q'] H; [rewrite leqNgt tpos|case: (H i0 (mem_head _ _))].
split.
- by move=> i iQ; have [_ [pp E]] := H i iQ; rewrite /s E.
- rewrite -e0; apply: (C01_recover_secret ch pord).
  + by rewrite size_mkseq.
  + move=> sh /List.in_map_iff [i [[<-] /In_mem iQ]]; have [pp ->] := sE i iQ; split=> //=.
    by apply: leq_ltn_trans pn; case: (hQ i iQ).
  + have -> : [seq ps_i s0 | s0 <- pmap id [seq Some (dk_share (s i)) | i <- Q]] = Q.
      elim: (Q) sE => //= i K' IH Hs; have [pp ->] := Hs i (mem_head _ _); rewrite /= IH // => q qK.
      by apply: Hs; rewrite inE qK orbT.
    by exists (take t Q) => [|q /mem_take //]; rewrite take_uniq // size_takel.
move=> i iQ; have [pp ->] := sE i iQ; rewrite /dk_public /= -e0; split.
  rewrite /fn /reshared; case: (t) tpos => // t' _; by rewrite /mkseq.
rewrite /pub_share_value -[geval _ _]/(gsum _ (xcoord F i)).
have := gsum_commit (su_base S) fn None (xcoord F i); rewrite /pmul /= => ->.
by rewrite share_value_eval pri_eval_v.
Qed.
End C59.
Print Assumptions C59_dealer.
Print Assumptions C59_any_history.
Print Assumptions C59_recover.

Definition rnode : dkg V := rnew_node (K4 : K).
Lemma rnode_ok : new_dist_key_handler ktoy (rnew_conf (K4 : K)) (K0 : K) (fun _ => K3 : K) = Ok rnode.
Proof. by vm_cast_no_check (erefl (@Ok dkg_error _ rnode)). Qed.

(** The dealt commitments, for the deals the toy holder opens. *)
Definition opens (j : nat) (e : enc_deal V) : option (seq V) :=
  if mget j (g_verifiers rnode) is Some v then
    if decrypt_deal ktoy kdeal_dec v e is Ok d then Some (d_commits d) else None
  else None.
Lemma opens_consistent f dd k k' : opens (dd_index dd) (dd_deal dd) = Some [seq a *: su_base ktoy | a <- f (dd_index dd)] ->
  consistent ktoy kdeal_dec rnode f (DEvDeal dd k k').
Proof. by move=> h v d M D; move: h; rewrite /opens M D => -[]. Qed.

Lemma rdeal_consistent j : (j = 0 \/ j = 2)%N -> consistent ktoy kdeal_dec rnode rf (DEvDeal (rdeal (rhonest j) 0) (K1 : K) (K1 : K)).
Proof.
move=> h; apply: opens_consistent; case: h => ->.
  by vm_cast_no_check (erefl (Some [:: K3 : V; K3 : V])).
by vm_cast_no_check (erefl (Some [:: K5 : V; K3 : V])).
Qed.

Definition mem_certified (g : dkg V) : bool :=
  all (fun jv => ~~ deal_certified (v_agg jv.2) || isSome (a_deal (v_agg jv.2))) (g_verifiers g).
Lemma mem_certifiedP g : mem_certified g -> holds_certified g.
Proof.
rewrite /mem_certified => + j v; elim: (g_verifiers g) => //= -[k w] m IH /andP[h hs].
by case: eqP => [_ [<-] ce|_ /IH]; [move: h; rewrite ce /=; case: a_deal|apply].
Qed.

(** The resharing by dealers 0 and 2 meets the hypotheses; the result shares the old secret 2. *)
Example C59_nonvacuous :
  [/\ reshare_history ktoy kdeal_enc kdeal_dec kddeal_enc rpoly rf (rnew_conf (K4 : K)) rnode rrun,
      ncertified (krun rnode rrun) = 2%N, certified_dealers (krun rnode rrun) = [:: 0; 2]%N,
      exists pp, dist_key_share ktoy id (fun _ _ l => l) (krun rnode rrun) =
        Ok (DKShare [:: K2 : V; K3 : V] (@PriShare K 0 (K5 : K)) pp) &
      reshared rf [:: 0; 2]%N 2 = [:: K2 : K; K3 : K]].
Proof.
split.
- split; [|by []|by vm_cast_no_check (erefl true)|by vm_cast_no_check (erefl true)|by []|by []|by []| | | |].
  + by exists (K0 : K), (fun _ => K3 : K); exact: rnode_ok.
  + by case=> [|[|[|]]] //; split=> //; apply/eqP; rewrite /share_value /peval !big_ord_recl big_ord0; vm_compute.
  + by vm_cast_no_check (erefl true).
  + by move=> ev [<-|[<-|[<-|[<-|[<-|[<-|[]]]]]]] //; apply: rdeal_consistent; [left|right].
  + by apply: mem_certifiedP; vm_cast_no_check (erefl true).
- by vm_cast_no_check (erefl 2%N).
- by vm_cast_no_check (erefl [:: 0; 2]%N).
- exists [:: K5 : K; K1 : K].
  by vm_cast_no_check (erefl (@Ok dkg_error _ (@DKShare K V [:: K2 : V; K3 : V] (@PriShare K 0 (K5 : K)) [:: K5 : K; K1 : K]))).
- by rewrite /reshared /mkseq /= /weight !big_cons !big_nil /=; vm_compute.
Qed.

(** The hypothesis that certified deals have been received cannot be dropped: here the deal of dealer 1 got lost, the
    other new holders approved it, and whether the same holder, with enough other deals, obtains its share depends on the
    iteration order of a hash map. *)
Definition rlost : seq (devent V) :=
  rrun ++ [:: DEvResponse V (rr (K5 : K) (rhonest 1) 1) (K1 : K); DEvResponse V (rr (K6 : K) (rhonest 1) 2) (K1 : K);
              DEvTimeout V].
Definition r021 (l : seq nat) : seq nat := if l == [:: 0; 1; 2]%N then [:: 0; 2; 1]%N else l.
Theorem C59_lost_deal_refuted :
  [/\ new_dist_key_handler ktoy (rnew_conf (K4 : K)) (K0 : K) (fun _ => K3 : K) = Ok rnode,
      (forall l, perm_eq (r021 l) l),
      dist_key_share ktoy r021 (fun _ _ l => l) (krun rnode rlost) =
        Ok (@DKShare K V [:: K2 : V; K3 : V] (@PriShare K 0 (K5 : K)) [:: K5 : K; K1 : K]) &
      dist_key_share ktoy id (fun _ _ l => l) (krun rnode rlost) = Err (DPoly NotEnoughSharesForPublic)].
Proof.
split; first exact: rnode_ok.
- by move=> l; rewrite /r021; case: eqP => // ->.
- by vm_cast_no_check (erefl (@Ok dkg_error _ (@DKShare K V [:: K2 : V; K3 : V] (@PriShare K 0 (K5 : K)) [:: K5 : K; K1 : K]))).
by vm_cast_no_check (erefl (@Err dkg_error (dkshare V) (DPoly NotEnoughSharesForPublic))).
Qed.
Print Assumptions C59_lost_deal_refuted.

(** ** C60 *)
Section C60.
Variables (F : fieldType) (G : lmodType F) (S : suite G).
Variable deal_enc : deal G -> bytestr.
Variable deal_dec : bytestr -> option (deal G).
Variable ddeal_enc : nat -> enc_deal G -> bytestr.
Notation run := (drun S deal_enc deal_dec ddeal_enc).
Notation proc := (dprocess_deal S deal_dec ddeal_enc).

(** A complaint stays. *)
Lemma complaint_stays (ps : seq G) (j k : nat) (g : dkg G) evs : (k < size ps)%N ->
  (forall v, mget j (g_verifiers g) = Some v -> a_verifiers (v_agg v) = ps /\ status_of (v_agg v) k = Some false) ->
  forall v, mget j (g_verifiers (run g evs)) = Some v -> ~~ deal_certified (v_agg v).
Proof.
move=> lk h v M.
pose P j' (v : verifier G) := j' = j -> a_verifiers (v_agg v) = ps /\ status_of (v_agg v) k = Some false.
have [al _] : all_P P (run g evs) /\ frame g (run g evs).
  apply: (@drun_inv F G S deal_enc deal_dec ddeal_enc P _ _ _ _ predT) => //.
  - move=> j' w e kk w' o H E /H [h1 h2].
    case: (process_encrypted_dealP E) => [[-> _] //|[d D [_ [[-> _]|[st [-> _ [_ nn] _ _]]]]]].
      by rewrite /= /status_of stored_responses /stored; case: (a_deal _).
    rewrite stored_responses in nn; rewrite /= /status_of /= mget_minsert stored_responses; split.
      by rewrite /stored; case: (a_deal _).
    by case: eqP => // kE; move: h2; rewrite /status_of kE nn.
  - move=> j' w ju H /H [h1 h2]; rewrite /verifier_process_justification; case E: verify_justification => [a' o] /=.
    case: (vjustP E) => [[-> _]|[r [lt mr rs _ ->]]] //.
    by case: ifP => _; rewrite /status_of /= ?stored_responses; split=> //=; rewrite /stored; case: (a_deal _).
  - move=> j' w idx b H dn /H [h1 h2]; rewrite /unsafe_set_response_dkg; case E: add_response => [a' o] /=.
    case: (add_responseP E) => [[_ [_ [nn ->]]]|[_ ->]] //=; split=> //.
    by rewrite /status_of /= mget_minsert; case: eqP => // kE; move: h2; rewrite /status_of kE nn.
  - move=> r kk _ j' w H /H [h1 h2]; rewrite /verifier_process_response; case E: verify_response => [a' o] /=.
    case: (verify_responseP E) => [[_ [_ _ _ nn ->]]|[_ ->]] //=; split=> //.
    by rewrite /status_of /= mget_minsert; case: eqP => // kE; move: h2; rewrite /status_of kE nn.
  - exact: all_predT.
  by move=> j' w M' E; apply: h; rewrite -E.
have [h1 h2] := al _ _ M erefl.
by rewrite (@complaint_blocks _ _ _ k) // h1.
Qed.

(** When a deal is answered although its first commitment is not the dealer's public share of the old key, the answer is
    a signed complaint.  If the dealer is itself a new holder (other than this one) whose answer is not recorded yet, a
    complaint is recorded in its name, and whatever happens afterwards the deal is never certified.  What is missing:
    without that the participant's own record is the approval ([C60_own_approval_refuted]). *)
Theorem C60_mismatch_partial (c : config G) secret picks (g0 g' : dkg G) evs dd k k' r v d :
  new_dist_key_handler S c secret picks = Ok g0 -> isSome (c_share c) || isSome (c_coeffs c) ->
  (c_long c *: su_base S) \in c_new c ->
  let g := run g0 evs in
  let j := dd_index dd in
  let i := seq.index (c_long c *: su_base S) (c_new c) in
  let dealer := nth 0 (c_old c) j in
  let idx := seq.index dealer (c_new c) in
  proc g dd k k' = (g', Ok r) ->
  mget j (g_verifiers g') = Some v -> a_deal (v_agg v) = Some d ->
  nth 0 (d_commits d) 0 <> pub_share_value (old_commits c) j ->
  [/\ dr_index r = j, r_index (dr_resp r) = i, r_status (dr_resp r) = false,
      suite_ok S -> su_good S (c_long c) -> su_good S k' ->
        su_verify S (c_long c *: su_base S) (response_hash S (dr_resp r)) (r_sig (dr_resp r)) &
      forall v0, mget j (g_verifiers g) = Some v0 -> status_of (v_agg v0) idx = None ->
        dealer \in c_new c -> idx <> i ->
        forall evs' v', mget j (g_verifiers (run g' evs')) = Some v' -> ~~ deal_certified (v_agg v')].
Proof.
move=> nd rs pin g j i dealer idx.
have [[h1 h2 h3 h4] h5 h6 h7 h8] := handlerP nd.
have pr : g_new_present g0 by rewrite h7.
have [n1 n2 n3] := h8 pr; have [r1 r2 r3 r4] := handler_reshare nd rs pr.
have rg : g_resharing g0 by rewrite h5.
rewrite rg in h6.
pose P (j' : nat) (v : verifier G) := v_index v = i /\ a_verifiers (v_agg v) = c_new c.
have [al [[fr1 fr2 fr3] [fr4 _ fr5 fr6] [fr7 _] [fr8 fr9] fk]] : all_P P g /\ frame g0 g.
  apply: (@drun_inv F G S deal_enc deal_dec ddeal_enc P _ _ _ _ predT) => //.
  - move=> j' w e kk w' o [p1 p2] E.
    case: (process_encrypted_dealP E) => [[-> _] //|[d0 D [_ [[-> _]|[st [-> _ [_ nn] _ _]]]]]];
      by split=> //=; rewrite /stored; case: (a_deal _).
  - move=> j' w ju [p1 p2]; rewrite /verifier_process_justification; case E: verify_justification => [a' o] /=.
    case: (vjustP E) => [[-> _]|[r' [lt mr rs' _ ->]]] //.
    by case: ifP => _; split=> //=; rewrite /stored; case: (a_deal _).
  - move=> j' w idx' b [p1 p2] dn; rewrite /unsafe_set_response_dkg; case E: add_response => [a' o] /=.
    by case: (add_responseP E) => [[_ [_ [nn ->]]]|[_ ->]] //=.
  - move=> r' kk _ j' w [p1 p2]; rewrite /verifier_process_response; case E: verify_response => [a' o] /=.
    by case: (verify_responseP E) => [[_ [_ _ _ nn ->]]|[_ ->]] //=.
  - exact: all_predT.
  move=> j' w; rewrite n3; case: ifP => // _; rewrite mget_map_iota; case: ifP => // _ [<-].
  by split=> //=; rewrite ?h2 // n1.
rewrite /dprocess_deal fr5 pr fr2 rg /= fr1 h6.
case gp: get_pub => [pubb|] //.
have lj : (j < size (c_old c))%N.
  by rewrite ltnNge; apply/negP => ge; move: gp; rewrite /get_pub nth_default // size_map.
have pE : pubb = dealer by move: gp; rewrite /get_pub -/j (nth_map 0) // => -[<-].
case: ifP => // _; case M: mget => [v0|] //; case E: process_encrypted_deal => [v1 o].
have [p1 p2] := al _ _ M.
case: (process_encrypted_dealP E) => [[_]|[d1 D [si [[_]|[st [v1E oE [lt nn] ad _]]]]]]; try by case: o {E}.
rewrite oE /= ?fr1 ?fr2 ?fr3 ?rg ?n2 ?fr7 ?r2 ?h1 ?h2 ?fr4 ?n1 -?/i /=.
case PE: pub_eval => [ex|||] //.
have exE : us_v ex = pub_share_value (old_commits c) j.
  have ne : old_commits c != [::] by apply/eqP => e0; move: PE; rewrite e0.
  by move: PE; rewrite pub_eval_ok // => -[<-].
have vc w idx' b : a_deal (v_agg (unsafe_set_response_dkg w idx' b)) = a_deal (v_agg w).
  rewrite /unsafe_set_response_dkg; case A: add_response => [a' o'] /=.
  by case: (add_responseP A) => [[_ [_ [_ ->]]]|[_ ->]].
have vm gg w : mget j (g_verifiers (g_set_ver gg j w)) = Some w by rewrite /= /mset mget_minsert eqxx.
case VC: verifier_commits => [[|c0 cs]|] //.
have c0E w : a_deal (v_agg w) = a_deal (v_agg v1) -> a_deal (v_agg w) = Some d -> nth 0 (d_commits d) 0 = c0.
  by move=> e1 e2; move: VC; rewrite /verifier_commits -e1 e2 => -[->].
case: eqP => [e0|ne] /=.
  case: dfind_pub => ni fo; rewrite andbF => -[<- _]; rewrite vm => -[<-] ad1.
  by rewrite (c0E v1 erefl ad1) -e0 exE.
have -> : dfind_pub (c_new c) pubb = if dealer \in c_new c then (idx, true) else (0%N, false).
  by rewrite pE /dfind_pub index_mem.
pose w1 := if dealer \in c_new c then unsafe_set_response_dkg v1 idx false else v1.
rewrite (_ : (let '(idx0, present) := _ in _) =
   (g_set_ver (g_set_ver g j v1) j (unsafe_set_response_dkg w1 i false),
    Ok (DResponse j (Response (session_id S (v_dealer v0) (v_verifiers v0) (d_commits d1) (d_t d1)) (v_index v0) false
      (su_sign S (c_long c) (response_hash S (Response (session_id S (v_dealer v0) (v_verifiers v0) (d_commits d1) (d_t d1)) (v_index v0) false [::])) k')))));
  last by rewrite /w1; case: ifP.
case=> <- <- M'.
rewrite vm in M'; case: M' => vE ad2 _; split=> //=.
  by move=> ok x0 k0; apply: su_sign_ok.
move=> v0' [<-] st0 din ni evs' v'.
have li : (idx < size (c_new c))%N by rewrite index_mem.
apply: (complaint_stays (k := idx) li) => w; rewrite vm => -[<-].
have p2' : a_verifiers (v_agg v1) = c_new c by rewrite v1E /= /stored; case: (a_deal _).
have nn1 : mget idx (a_responses (v_agg v1)) = None.
  rewrite v1E /= mget_minsert p1 stored_responses; case: eqP => // _.
  by move: st0; rewrite /status_of; case: mget.
have b1 : a_verifiers (v_agg w1) = c_new c /\ status_of (v_agg w1) idx = Some false.
  rewrite /w1 din /unsafe_set_response_dkg /add_response find_pubE /= p2' li nn1 /=.
  by rewrite /status_of /= mget_minsert eqxx.
move: b1; rewrite /unsafe_set_response_dkg; case A: (add_response (v_agg w1)) => [a' o'] /= [q1 q2].
case: (add_responseP A) => [[_ [_ [nn2 ->]]]|[_ ->]] //=; split=> //.
by rewrite /status_of /= mget_minsert; case: eqP => // e; rewrite e in ni.
Qed.
End C60.
Print Assumptions C60_mismatch_partial.

(** The dealer with key 2 deals a polynomial of 6 instead of its share 4.  The participant answers with a complaint but
    keeps its own approval; with the approval of one corrupted new holder the deal is certified at the end of the period,
    and the participant obtains a share of the secret 0 instead of 2. *)
Definition rbad : dkg V := rold_node (K2 : K) 1 (K6 : K).
Definition rattack : seq (devent V) :=
  [:: DEvDeal (rdeal (rhonest 0) 0) (K1 : K) (K1 : K); DEvDeal (rdeal rbad 0) (K1 : K) (K1 : K);
      DEvResponse V (rr (K5 : K) (rhonest 0) 1) (K1 : K); DEvResponse V (rr (K6 : K) (rhonest 0) 2) (K1 : K);
      DEvResponse V (DResponse 1 (honest_response ktoy (K5 : K) (r_sid (dr_resp (rr (K4 : K) rbad 0))) 1 (K1 : K))) (K1 : K);
      DEvTimeout V].
Theorem C60_own_approval_refuted :
  [/\ new_dist_key_handler ktoy (rnew_conf (K4 : K)) (K0 : K) (fun _ => K3 : K) = Ok rnode,
      opens 1 (dd_deal (rdeal rbad 0)) = Some [:: K6 : V; K3 : V] /\ (K6 : V) <> pub_share_value rcoeffs 1,
      r_status (dr_resp (rr (K4 : K) rbad 0)) = false,
      certified_dealers (krun rnode rattack) = [:: 0; 1]%N &
      exists2 s, dist_key_share ktoy id (fun _ _ l => l) (krun rnode rattack) = Ok s &
        dk_public s = Ok (K0 : V) /\ rcoeffs`_0 <> (K0 : V)].
Proof.
split; first exact: rnode_ok.
- split; first by vm_cast_no_check (erefl (Some [:: K6 : V; K3 : V])).
  by rewrite /pub_share_value /geval /= !big_ord_recl big_ord0.
- by vm_cast_no_check (erefl false).
- by vm_cast_no_check (erefl [:: 0; 1]%N).
pose s := @DKShare K V [:: K0 : V; K3 : V] (@PriShare K 0 (K3 : K)) [:: K3 : K; K3 : K].
by exists s => //; vm_cast_no_check (erefl (@Ok dkg_error _ s)).
Qed.
Print Assumptions C60_own_approval_refuted.

(** The hypotheses of [C60_mismatch_partial], all of them: the bad dealer with key 2 is also the new holder 1. *)
Definition rnew' : seq V := [:: K4 : V; K2 : V; K6 : V].
Definition rconf' : config V := Config (K4 : K) rold (Some rcoeffs) rnew' None 2 2.
Definition rnode' : dkg V := rget (new_dist_key_handler ktoy rconf' (K0 : K) (fun _ => K3 : K)).
Definition rbad' : dkg V :=
  rget (new_dist_key_handler ktoy (Config (K2 : K) rold None rnew' (Some (DKShare rcoeffs (PriShare 1 (K6 : K)) [::])) 2 2)
          (K0 : K) (fun _ => K3 : K)).
Definition rproc' := dprocess_deal ktoy kdeal_dec kddeal_enc rnode' (rdeal rbad' 0) (K1 : K) (K1 : K).
Example C60_nonvacuous :
  [/\ new_dist_key_handler ktoy rconf' (K0 : K) (fun _ => K3 : K) = Ok rnode', is_ok rproc'.2,
      omap (fun v => omap (@d_commits _ _) (a_deal (v_agg v))) (mget 1 (g_verifiers rproc'.1)) = Some (Some [:: K6 : V; K3 : V]) /\
        (K6 : V) <> pub_share_value (old_commits rconf') 1,
      omap (fun v => status_of (v_agg v) 1) (mget 1 (g_verifiers rnode')) = Some None /\
        seq.index (nth 0 rold 1) rnew' = 1%N /\ seq.index (K4 : V) rnew' = 0%N &
      omap (fun v => [seq status_of (v_agg v) q | q <- [:: 0; 1]%N]) (mget 1 (g_verifiers rproc'.1)) =
        Some [:: Some true; Some false]].
Proof.
split.
- by vm_cast_no_check (erefl (@Ok dkg_error _ rnode')).
- by vm_cast_no_check (erefl true).
- split; first by vm_cast_no_check (erefl (Some (Some [:: K6 : V; K3 : V]))).
  by rewrite /pub_share_value /geval /= !big_ord_recl big_ord0.
- split; first by vm_cast_no_check (erefl (@Some (option bool) None)).
  by split; [vm_cast_no_check (erefl 1%N)|vm_cast_no_check (erefl 0%N)].
by vm_cast_no_check (erefl (Some [:: Some true; Some false])).
Qed.
