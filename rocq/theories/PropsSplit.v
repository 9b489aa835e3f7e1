(** Property C105: agreement on the public key when some participants are faulty, src/share/dkg/pedersen/dkg.rs. *)
From mathcomp Require Import all_ssreflect all_algebra.
From mathcomp Require Import zify.
From Verif Require Import Base Lagrange PolyModel PolySpec PolyProofs PolyProps PropsPoly Suite SuiteProofs.
From Verif Require Import VssModel VssSpec VssProofs Toy DkgModel DkgSpec DkgProofs PropsDkg ReshareSpec ReshareProofs PropsRecover.

Set Implicit Arguments.
Unset Strict Implicit.
Unset Printing Implicit Defensive.

Import GRing.Theory.
Local Open Scope ring_scope.
Local Open Scope outcome_scope.

(** ** What agreement takes *)
Section Agree.
Variables (F : fieldType) (G : lmodType F).

(** The commitments of the deal of dealer j that a participant uses: the ones it holds, if it regards the deal as certified. *)
Definition accepted (g : dkg G) (j : nat) : option (seq G) :=
  if mget j (g_verifiers g) is Some v then omap (@d_commits F G) (verifier_deal v) else None.

Variables (S : suite G) (deal_enc : deal G -> bytestr) (deal_dec : bytestr -> option (deal G)) (ddeal_enc : nat -> enc_deal G -> bytestr).
Notation run := (drun S deal_enc deal_dec ddeal_enc).
Notation B := (su_base S).

Lemma key_commits l acc sh p : foldo (key_step S) acc l = Ok (sh, Some p) ->
  [/\ (forall iv, List.In iv l -> exists2 d, verifier_deal iv.2 = Some d & size (d_commits d) = size (pcommits p)),
      (if acc.2 is Some q then size (pcommits q) = size (pcommits p) else True) &
      forall k, (pcommits p)`_k = (if acc.2 is Some q then (pcommits q)`_k else 0) +
        \sum_(iv <- l) (if verifier_deal iv.2 is Some d then (d_commits d)`_k else 0)].
Proof.
elim: l acc => [|iv l IH] [s0 p0] /=.
  by case=> _ ->; split=> // k; rewrite big_nil addr0.
case D: (verifier_deal iv.2) => [d|] //.
case: p0 => [q|] /=; last first.
  move/IH => /= [h1 h2 h3]; split=> // [iv' [<-|/h1 //]|k]; first by exists d.
  by rewrite big_cons D h3 add0r.
rewrite /pub_add; case: eqP => //= sz /IH /= [h1 h2 h3].
have sq : size (pcommits q) = size (pcommits p) by rewrite -h2 size_vadd sz minnn.
split=> // [iv' [<-|/h1 //]|k]; first by exists d => //; rewrite -sq.
rewrite big_cons D h3 addrA; congr (_ + _).
case: (ltnP k (size (pcommits q))) => lk; first by rewrite nth_vadd // -?sz.
by rewrite !nth_default ?addr0 // ?size_vadd -?sz ?minnn.
Qed.

Lemma key_accepted vord hord (g : dkg G) s : (forall l, perm_eq (vord l) l) -> g_resharing g = false ->
  dist_key_share S vord hord g = Ok s ->
  (forall j cs, j \in mkeys (g_verifiers g) -> accepted g j = Some cs -> size cs = size (dk_commits s)) /\
  (exists2 j, j \in mkeys (g_verifiers g) & isSome (accepted g j)) /\
  forall k, (dk_commits s)`_k = \sum_(j <- mkeys (g_verifiers g)) nth 0 (odflt [::] (accepted g j)) k.
Proof.
move=> pv nr; rewrite /dist_key_share; case: ifP => // _; case: ifP => // _; rewrite nr dkg_keyE.
case E: foldo => [[sh pubb]|||] //=; case: pubb E => [p|] //= E [<-] /=.
have [h1 _ h3] := key_commits E.
have ent j : j \in mkeys (g_verifiers g) -> forall v, mget j (g_verifiers g) = Some v -> deal_certified (v_agg v) -> List.In (j, v) (qual_entries vord g).
  move=> jm v M C; rewrite /qual_entries; have : j \in vord (mkeys (g_verifiers g)) by rewrite (perm_mem (pv _)).
  elim: (vord _) => //= a l IH; rewrite inE; case: (eqVneq j a) => [<- _|_ /= /IH h]; first by rewrite M C /=; left.
  by case: mget => [w|] //=; case: deal_certified => //=; right.
split; [|split].
- move=> j cs jm; rewrite /accepted; case M: mget => [v|] //=; case D: verifier_deal => [d|] //= -[<-].
  have C : deal_certified (v_agg v) by move: D; rewrite /verifier_deal; case: deal_certified.
  by have [d1 /= e <-] := h1 _ (ent j jm v M C); move: e; rewrite D => -[->].
- case: (qual_entries vord g) E h1 (@qual_entries_in _ _ vord g) => [//|iv l _ h1 /(_ iv (or_introl erefl)) [M C]].
  have [d D _] := h1 iv (or_introl erefl); exists iv.1; last by rewrite /accepted M D.
  by rewrite mget_in M.
move=> k; rewrite h3 add0r -(perm_big _ (pv (mkeys (g_verifiers g)))) /qual_entries /=.
elim: (vord _) => [|j l IH]; first by rewrite !big_nil.
rewrite big_cons -IH /= {1}/accepted; case M: mget => [v|] //=; last by rewrite nth_nil add0r.
rewrite {1 2}/verifier_deal; case C: deal_certified => /=; last by rewrite nth_nil add0r.
rewrite big_cons /= /verifier_deal C; case: (a_deal (v_agg v)) => [d|] //=; by rewrite nth_nil.
Qed.

Lemma fresh_facts (long : F) ps T secret picks (g0 : dkg G) evs vord hord s :
  new_dist_key_generator S long ps T secret picks = Ok g0 -> (forall l, perm_eq (vord l) l) -> dist_key_share S vord hord (run g0 evs) = Ok s ->
  [/\ g_resharing (run g0 evs) = false, mkeys (g_verifiers (run g0 evs)) = iota 0 (size ps) & (g_nidx g0 < size ps)%N].
Proof.
move=> nd pv dk; have [[h1 h2 h3 h4] h5 h6 h7 h8] := handlerP nd; rewrite /= in h1 h2 h3 h4 h5 h6 h7 h8.
have [[_ fr1 _] [_ _ fr2 _] _ _ fr3] := run_frame S deal_enc deal_dec ddeal_enc g0 evs.
case np: (g_new_present g0) h7 h8 => h7 h8; last first.
  move: nd; rewrite /new_dist_key_generator /new_dist_key_handler /=; case: ifP => // _.
  rewrite /pmul /dfind_pub /= index_mem -h7 /=; by case.
have nr : g_resharing (run g0 evs) = false by rewrite fr1 h5.
have [n1 n2 n3] := h8 isT; split=> //; last by rewrite n1 index_mem -h7.
have [_ [[j jm _] _]] := key_accepted pv nr dk; move: jm; rewrite fr3 n3 h6 h5 /=; case: ifP => // _ _.
by rewrite np /mkeys -map_comp map_id_in.
Qed.

(** Whatever happens - forged or malformed messages, replays, timeouts - two participants that regard the deals of the same
    dealers as certified and hold the same commitments for each of them finish with the same public polynomial. *)
Theorem C105_same_key_partial (x1 x2 : F) ps T1 T2 sec1 sec2 pick1 pick2 (g1 g2 : dkg G) evs1 evs2 vord1 vord2 hord1 hord2 s1 s2 :
  new_dist_key_generator S x1 ps T1 sec1 pick1 = Ok g1 -> new_dist_key_generator S x2 ps T2 sec2 pick2 = Ok g2 ->
  (forall l, perm_eq (vord1 l) l) -> (forall l, perm_eq (vord2 l) l) ->
  (forall j, (j < size ps)%N -> accepted (run g1 evs1) j = accepted (run g2 evs2) j) ->
  dist_key_share S vord1 hord1 (run g1 evs1) = Ok s1 -> dist_key_share S vord2 hord2 (run g2 evs2) = Ok s2 ->
  dk_commits s1 = dk_commits s2.
Proof.
move=> n1 n2 p1 p2 ac d1 d2.
have [r1 k1 _] := fresh_facts n1 p1 d1; have [r2 k2 _] := fresh_facts n2 p2 d2.
have [a1 [[j jm js] b1]] := key_accepted p1 r1 d1; have [a2 [_ b2]] := key_accepted p2 r2 d2.
rewrite k1 k2 in a1 a2 b1 b2 jm.
have lj : (j < size ps)%N by move: jm; rewrite mem_iota.
apply: (@eq_from_nth _ 0) => [|k _].
  case E: (accepted (run g1 evs1) j) js => [cs|//] _.
  by rewrite -(a1 j cs) // -(a2 j cs) // -ac.
rewrite b1 b2; apply: eq_big_seq => i; rewrite mem_iota => /andP[_ li].
by rewrite ac.
Qed.

(** A set Q of such participants, none of which accepts a response bearing its own index from the network: they hold shares
    of one sharing, and any of them as many as there are commitments recover the secret of the common public key. *)
Theorem C105_agreement_partial (p : nat) (Q : seq nat) (x : nat -> F) ps T sec pick (g0 : nat -> dkg G) evs vord hord (s : nat -> dkshare G) :
  p \in [char F] -> (size ps < p)%N -> Q != [::] ->
  (forall i, i \in Q -> [/\ new_dist_key_generator S (x i) ps T (sec i) (pick i) = Ok (g0 i), g_nidx (g0 i) = i, all (foreign i) (evs i),
     (forall l, perm_eq (vord i l) l) & dist_key_share S (vord i) (hord i) (run (g0 i) (evs i)) = Ok (s i)]) ->
  (forall i i' j, i \in Q -> i' \in Q -> (j < size ps)%N -> accepted (run (g0 i) (evs i)) j = accepted (run (g0 i') (evs i')) j) ->
  exists cs, (forall i, i \in Q -> dk_commits (s i) = cs) /\
    (cs <> [::] ->
     (forall i, i \in Q -> ps_i (dk_share (s i)) = i /\ ps_v (dk_share (s i)) *: B = pub_share_value cs i) /\
     forall (ord : hash_order F) K, (forall k l, perm_eq (ord k l) l) -> uniq K -> {subset K <= Q} -> (size cs <= size K)%N ->
       exists2 a, recover_secret ord [seq Some (dk_share (s i)) | i <- K] (size cs) = Ok a & a *: B = cs`_0).
Proof.
move=> ch np Q0 hQ ac; case: Q Q0 hQ ac => // i0 Q _ hQ ac; exists (dk_commits (s i0)).
have eqc i : i \in i0 :: Q -> dk_commits (s i) = dk_commits (s i0).
  move=> iQ; have [n1 _ _ v1 d1] := hQ i iQ; have [n2 _ _ v2 d2] := hQ i0 (mem_head _ _).
  by apply: (C105_same_key_partial n1 n2 v1 v2 _ d1 d2) => j; apply: ac => //; exact: mem_head.
split=> // ne; have sh i : i \in i0 :: Q -> ps_i (dk_share (s i)) = i /\ ps_v (dk_share (s i)) *: B = pub_share_value (dk_commits (s i0)) i.
  move=> iQ; have [n1 ni fo v1 d1] := hQ i iQ; rewrite -{1}ni in fo.
  have [h1 h2] := C57_share_matches_partial n1 fo d1; rewrite ni in h1 h2; split=> //.
  by rewrite -(eqc i iQ) h2 // (eqc i iQ).
split=> // ord K po uK sK tK; set cs := dk_commits (s i0) in ne sh tK *.
have t0 : (0 < size cs <= size K)%N by rewrite tK andbT lt0n size_eq0; apply/eqP.
have -> : [seq Some (dk_share (s i)) | i <- K] = pri_of (fun i => ps_v (dk_share (s i))) K.
  by apply/eq_in_map => i /sK /sh [h _]; rewrite -{2}h; case: (dk_share _).
rewrite C103_secret //; eexists; first by [].
have low i : i \in lowest (size cs) K -> i \in i0 :: Q by move/lowest_sub/sK.
rewrite scaler_suml; suff : Ok (\sum_(i <- lowest (size cs) K) (weight F (lowest (size cs) K) i * ps_v (dk_share (s i))) *: B) = Ok cs`_0 :> outcome poly_error G by case.
rewrite -(@C07_recover_commit F G p ord cs (pub_of (pub_share_value cs) K) (size cs)) //.
- rewrite C103_commit //; congr Ok; apply: eq_big_seq => i /low /sh [_ h].
  by rewrite -scalerA h.
- move=> u /List.in_map_iff [i [[<-] /In_mem /sK iQ]] /=; split=> //.
  have [n1 ni _ v1 d1] := hQ i iQ; have [_ _] := fresh_facts n1 v1 d1; rewrite ni; lia.
exists (take (size cs) K); first by rewrite take_uniq // size_takel.
have -> : [seq us_i u | u <- pmap id (pub_of (pub_share_value cs) K)] = K by elim: (K) => //= i l ->.
by move=> i /mem_take.
Qed.
End Agree.
Print Assumptions C105_same_key_partial.
Print Assumptions C105_agreement_partial.

(** ** An equivocating dealer *)
(** The deal of the corrupted participant 2 for participant i with key x: commitments cs, share v. *)
Definition sbad (cs : seq V) (i : nat) (x v : K) : ddeal V :=
  let d := @Deal K V (session_id ktoy (K3 : V) kkeys cs 2) (@PriShare K i v) 2 cs in
  let e := craft ktoy kdeal_enc (K3 : K) (K5 : K) (K1 : K) kkeys x d in
  DDeal 2 e (su_sign ktoy (K3 : K) (kddeal_enc 2 e) (K1 : K)).
Definition sdeal (i j : nat) : ddeal V := kdeal_for i j.
Definition s0 : dkg V := kstep (kgen 0) kev_deals.
Definition s1 : dkg V := kstep (kgen 1) kev_deals.
(** The answers of the honest participants to each other's deals. *)
Definition a01 : dresponse := kanswer s0 (sdeal 1 0).
Definition a10 : dresponse := kanswer s1 (sdeal 0 1).
Definition sid0 := r_sid (dr_resp a10).
Definition sid1 := r_sid (dr_resp a01).
(** Participant 2 gives 0 a share of 1 + X and 1 the share v of a polynomial with the commitments cs.  Before each of them it passes on the answer the other one
    gave to an honest deal, under its own index. *)
Definition sev0 : seq (devent V) :=
  [:: kev_deals; DEvDeal (sdeal 1 0) (K1 : K) (K1 : K); DEvResponse V a10 (K1 : K);
      DEvResponse V (kr_2 0 sid0) (K1 : K); DEvResponse V (kr_2 1 sid1) (K1 : K);
      DEvResponse V (DResponse 2 (dr_resp a10)) (K1 : K); DEvDeal (sbad [:: K1 : V; K1 : V] 0 (K1 : K) (K2 : K)) (K1 : K) (K1 : K)].
Definition sev1 (cs : seq V) (v : K) : seq (devent V) :=
  [:: kev_deals; DEvDeal (sdeal 0 1) (K1 : K) (K1 : K); DEvResponse V a01 (K1 : K);
      DEvResponse V (kr_2 1 sid1) (K1 : K); DEvResponse V (kr_2 0 sid0) (K1 : K);
      DEvResponse V (DResponse 2 (dr_resp a01)) (K1 : K); DEvDeal (sbad cs 1 (K2 : K) v) (K1 : K) (K1 : K)].

(** Agreement fails: with the commitments of 3 + X for participant 1 both finish, every deal certified, no complaint, no
    timeout, each with a share matching its own commitments - and with two different public keys. *)
Definition approved (g : dkg V) : bool := all (fun jv => all (fun r => r_status r.2) (a_responses (v_agg jv.2))) (g_verifiers g).
Theorem C105_split_key_refuted :
  let n0 := krun (kgen 0) sev0 in let n1 := krun (kgen 1) (sev1 [:: K3 : V; K1 : V] (K5 : K)) in
  new_dist_key_generator ktoy (K1 : K) kkeys 2 (ksec 0) (kpicks 0) = Ok (kgen 0) /\
  new_dist_key_generator ktoy (K2 : K) kkeys 2 (ksec 1) (kpicks 1) = Ok (kgen 1) /\
  all (foreign 0) sev0 && all (foreign 1) (sev1 [:: K3 : V; K1 : V] (K5 : K)) /\
  all (fun ev => if ev is DEvTimeout then false else true) (sev0 ++ sev1 [:: K3 : V; K1 : V] (K5 : K)) /\
  all (fun j => isSome (accepted n0 j) && isSome (accepted n1 j)) (iota 0 3) /\ approved n0 && approved n1 /\
  exists r0 r1, [/\ dist_key_share ktoy id (fun _ _ l => l) n0 = Ok r0, dist_key_share ktoy id (fun _ _ l => l) n1 = Ok r1,
    ps_v (dk_share r0) *: su_base ktoy = pub_share_value (dk_commits r0) 0,
    ps_v (dk_share r1) *: su_base ktoy = pub_share_value (dk_commits r1) 1 & dk_public r0 <> dk_public r1].
Proof.
split; first by have [_ _ H] := kfresh (T := 2%N) isT; exact: (H 0%N isT).
split; first by have [_ _ H] := kfresh (T := 2%N) isT; exact: (H 1%N isT).
split; first by vm_cast_no_check (erefl true).
split; first by vm_cast_no_check (erefl true).
split; first by vm_cast_no_check (erefl true).
split; first by vm_cast_no_check (erefl true).
pose r0 := @DKShare K V [:: K6 : V; K4 : V] (@PriShare K 0 (K3 : K)) [:: K2 : K; K1 : K].
pose r1 := @DKShare K V [:: K1 : V; K4 : V] (@PriShare K 1 (K2 : K)) [:: K3 : K; K2 : K].
exists r0, r1; split.
- by vm_cast_no_check (erefl (@Ok dkg_error _ r0)).
- by vm_cast_no_check (erefl (@Ok dkg_error _ r1)).
- by apply/eqP; rewrite /pub_share_value /geval /= !big_ord_recl big_ord0.
- by apply/eqP; rewrite /pub_share_value /geval /= !big_ord_recl big_ord0.
by [].
Qed.
Print Assumptions C105_split_key_refuted.

(** The same events with consistent deals of participant 2: the two agree and recover the secret of their key. *)
Example C105_nonvacuous :
  let evs i := if i == 0%N then sev0 else sev1 [:: K1 : V; K1 : V] (K3 : K) in
  [/\ (forall i, i \in [:: 0; 1]%N -> new_dist_key_generator ktoy (kkey i) kkeys 2 (ksec i) (kpicks i) = Ok (kgen i) /\ g_nidx (kgen i) = i),
      all (foreign 0) (evs 0%N) && all (foreign 1) (evs 1%N),
      (forall j, (j < size kkeys)%N -> accepted (krun (kgen 0) (evs 0%N)) j = accepted (krun (kgen 1) (evs 1%N)) j),
      dist_key_share ktoy id (fun _ _ l => l) (krun (kgen 0) (evs 0%N)) = Ok (@DKShare K V [:: K6 : V; K4 : V] (@PriShare K 0 (K3 : K)) [:: K2 : K; K1 : K]) &
      dist_key_share ktoy id (fun _ _ l => l) (krun (kgen 1) (evs 1%N)) = Ok (@DKShare K V [:: K6 : V; K4 : V] (@PriShare K 1 (K0 : K)) [:: K3 : K; K2 : K])] /\
  recover_secret (fun _ l => l) [:: Some (@PriShare K 0 (K3 : K)); Some (@PriShare K 1 (K0 : K))] 2 = Ok (K6 : K).
Proof.
move=> evs; split; [split|].
- have [_ _ H] := kfresh (T := 2%N) isT; by move=> i; rewrite !inE => /orP[] /eqP ->; (split; [exact: H|vm_compute]).
- by vm_cast_no_check (erefl true).
- case=> [|[|[|//]]] _.
  + apply: (etrans (y := Some [:: K2 : V; K1 : V])); vm_cast_no_check (erefl (Some [:: K2 : V; K1 : V])).
  + apply: (etrans (y := Some [:: K3 : V; K2 : V])); vm_cast_no_check (erefl (Some [:: K3 : V; K2 : V])).
  + apply: (etrans (y := Some [:: K1 : V; K1 : V])); vm_cast_no_check (erefl (Some [:: K1 : V; K1 : V])).
- by vm_cast_no_check (erefl (@Ok dkg_error _ (@DKShare K V [:: K6 : V; K4 : V] (@PriShare K 0 (K3 : K)) [:: K2 : K; K1 : K]))).
- by vm_cast_no_check (erefl (@Ok dkg_error _ (@DKShare K V [:: K6 : V; K4 : V] (@PriShare K 1 (K0 : K)) [:: K3 : K; K2 : K]))).
by vm_cast_no_check (erefl (@Ok poly_error _ (K6 : K))).
Qed.
