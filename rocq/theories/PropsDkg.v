(** Properties C57-C61 and C65: src/share/dkg/pedersen/dkg.rs. *)
From mathcomp Require Import all_ssreflect all_algebra.
From mathcomp Require Import zify.
From Verif Require Import Base Lagrange PolyModel PolySpec PolyProofs PolyProps PropsPoly Suite VssModel VssSpec VssProofs Toy.
From Verif Require Import DkgModel DkgSpec DkgProofs.

Set Implicit Arguments.
Unset Strict Implicit.
Unset Printing Implicit Defensive.

Import GRing.Theory.
Local Open Scope ring_scope.
Local Open Scope outcome_scope.

(** ** Toy data: three participants with secret keys 1, 2, 3 *)
Definition kkey (i : nat) : K := k7_of i.+1.
Definition kkeys : seq V := [:: K1 : V; K2 : V; K3 : V].
Definition ksec (i : nat) : K := k7_of i.+2.
Definition kpicks (i m : nat) : K := k7_of (i + m).+1.
Definition kcoins : coins K := Coins (fun _ _ => (K2 : K, K1 : K)) (fun _ _ => K1 : K) (fun _ _ => K1 : K) (fun _ => K1 : K).
Lemma kcoins_ok : coins_ok ktoy kcoins. Proof. by []. Qed.
(** A complete schedule in which responses overtake deals. *)
Definition kacts : seq act :=
  [:: ADeals 0; ADeal 0 2; AResp 0 2 1; ADeals 1; ADeal 0 1; AResp 0 2 0; ADeal 1 0; AResp 0 1 2; ADeals 2; AResp 1 0 2;
      ADeal 1 2; ADeal 2 1; AResp 2 1 0; ADeal 2 0; AResp 1 2 1; AResp 1 2 0; AResp 0 1 0; AResp 2 0 1; AResp 1 0 1;
      AResp 2 1 2; AResp 2 0 2].
(** Only the messages about the deal of participant 0. *)
Definition kacts0 : seq act := [:: ADeals 0; ADeal 0 2; AResp 0 2 1; ADeal 0 1; AResp 0 2 0; AResp 0 1 2; AResp 0 1 0].

(** ** C57 *)
Section C57.
Variables (F : fieldType) (G : lmodType F) (S : suite G).
Variable deal_enc : deal G -> bytestr.
Variable deal_dec : bytestr -> option (deal G).
Variable ddeal_enc : nat -> enc_deal G -> bytestr.

(** n participants with distinct keys and the configured threshold T create their handlers; [node] are those handlers. *)
Definition fresh_group (ps : seq G) (T : nat) (x sec : nat -> F) (picks : nat -> nat -> F) (node : nat -> dkg G) : Prop :=
  [/\ uniq ps, (forall i, (i < size ps)%N -> nth 0 ps i = x i *: su_base S /\ su_good S (x i)) &
      forall i, (i < size ps)%N -> new_dist_key_generator S (x i) ps T (sec i) (picks i) = Ok (node i)].

(** The threshold a configured value stands for. *)
Definition eff_threshold (T n : nat) : nat := if T == 0%N then ((n.+1) %/ 2)%N else T.

(** Handlers are created for every valid threshold. *)
Theorem C57_handlers (ps : seq G) (T : nat) (x sec : nat -> F) (picks : nat -> nat -> F) :
  uniq ps -> (forall i, (i < size ps)%N -> nth 0 ps i = x i *: su_base S /\ su_good S (x i)) ->
  (2 <= eff_threshold T (size ps) <= size ps)%N ->
  exists node, fresh_group ps T x sec picks node.
Proof.
move=> u h /andP[t2 tn]; exists (hnode0 S ps T x sec picks); split=> // i li.
by apply: hnode0E => // j lj; case: (h j lj).
Qed.

Lemma fresh_threshold ps T x sec picks node : fresh_group ps T x sec picks node -> (0 < size ps)%N ->
  (2 <= eff_threshold T (size ps))%N /\ (eff_threshold T (size ps) <= size ps)%N.
Proof.
move=> [u h nd] npos; have psE i : (i < size ps)%N -> nth 0 ps i = x i *: su_base S by move=> li; case: (h i li).
move: (nd 0%N npos); rewrite /new_dist_key_generator /new_dist_key_handler /=.
have -> : (ps == [::]) = false by apply/negbTE; rewrite -size_eq0 -lt0n.
have -> : (if T != 0%N then T else minimum_t (size ps)) = eff_threshold T (size ps) by rewrite /eff_threshold; case: eqP.
rewrite /pmul hfind //= /new_dealer /valid_t.
by case: (leqP 2 (eff_threshold _ _)) => //= a1; case: (leqP (eff_threshold _ _) (size ps)).
Qed.

(** Whatever the order of delivery, no message between honest participants is refused or answered with a complaint, and
    each participant that heard all answers about at least T dealers gets the sum of those dealers' polynomials: the same
    commitments as everybody who heard the same dealers, and its share. *)
Theorem C57_any_schedule (ps : seq G) (T : nat) (x sec : nat -> F) (picks : nat -> nat -> F) (node : nat -> dkg G)
    (co : coins F) (acts : seq act) :
  suite_ok S -> (forall d, deal_dec (deal_enc d) = Some d) -> fresh_group ps T x sec picks node -> coins_ok S co ->
  schedule (size ps) [::] acts ->
  let n := size ps in let t := eff_threshold T n in
  exists2 N, net_run S deal_enc deal_dec ddeal_enc co (net0 node) acts = Some N &
  forall i vord hord, (i < n)%N -> (forall s, perm_eq (vord s) s) ->
    let Q := heard n acts i in
    let f := joint_poly t sec picks Q in
    [/\ dcertified vord (n_node N i) = (Q == iota 0 n),
        perm_eq (qual vord (n_node N i)) Q &
        dist_key_share S vord hord (n_node N i) =
          if (T <= size Q)%N then
            if Q == [::] then Panic
            else Ok (DKShare [seq c *: su_base S | c <- f] (PriShare i (share_value f i)) (sec i :: mkseq (picks i) (t - 1)))
          else Err DistributedKeyNotCertified].
Proof.
move=> okS de fg cok sch n t; have [u h nd] := fg.
have psE i : (i < n)%N -> nth 0 ps i = x i *: su_base S by move=> li; case: (h i li).
have xn0 i : (i < n)%N -> su_good S (x i) by move=> li; case: (h i li).
case: (posnP n) => [n0|npos].
  exists (net0 node) => [|i vord hord]; last by rewrite n0.
  by case: acts sch => [|a acts] //=; rewrite -/n n0; case: a => [[i|[j i]]|[[j k] i]].
have [t2 tn] := fresh_threshold fg npos.
have ndE i : (i < n)%N -> node i = hnode0 S ps T x sec picks i.
  by move=> li; move: (nd i li); rewrite hnode0E // => -[->].
have ok0 : netok S deal_dec ddeal_enc ps T x sec picks [::] (net0 node).
  have [h1 h2 h3 h4] := net0_ok S deal_dec ddeal_enc ps T x sec picks; split=> // i li.
  by rewrite /= ndE //; exact: h2.
have [N E nok] := net_run_ok okS de u t2 tn psE xn0 cok ok0 sch.
exists N => // i vord hord li pm Q f.
exact: (@node_key F G S deal_dec ddeal_enc ps T x sec picks t2 tn acts N i vord hord nok li pm).
Qed.

(** When everything is delivered, all participants get the same commitments, to the sum of all the polynomials. *)
Theorem C57_honest_run (ps : seq G) (T : nat) (x sec : nat -> F) (picks : nat -> nat -> F) (node : nat -> dkg G)
    (co : coins F) (acts : seq act) :
  suite_ok S -> (forall d, deal_dec (deal_enc d) = Some d) -> fresh_group ps T x sec picks node -> coins_ok S co ->
  schedule (size ps) [::] acts -> complete (size ps) acts ->
  let n := size ps in let t := eff_threshold T n in
  let f := joint_poly t sec picks (iota 0 n) in
  exists2 N, net_run S deal_enc deal_dec ddeal_enc co (net0 node) acts = Some N &
  forall i vord hord, (i < n)%N -> (forall s, perm_eq (vord s) s) ->
    [/\ dcertified vord (n_node N i), threshold_certified vord (n_node N i) &
        dist_key_share S vord hord (n_node N i) =
          Ok (DKShare [seq c *: su_base S | c <- f] (PriShare i (share_value f i)) (sec i :: mkseq (picks i) (t - 1)))].
Proof.
move=> okS de fg cok sch comp n t f.
have [N E H] := C57_any_schedule okS de fg cok sch; exists N => // i vord hord li pm.
have [] := H i vord hord li pm; rewrite complete_heard // eqxx => h1 h2.
rewrite size_iota -/n -/f; have -> : (iota 0 n == [::]) = false by case: (n) li.
have [t2 tn] := fresh_threshold fg (leq_ltn_trans (leq0n i) li).
have -> : (T <= n)%N by move: tn; rewrite /eff_threshold; case: eqP => // -> _.
by move=> h3; split=> //; move: h3; rewrite /dist_key_share; case: threshold_certified.
Qed.

(** Any t of the resulting shares recover the sum of the participants' secrets, whose public key is the distributed key;
    every share matches the commitments. *)
Theorem C57_recover (p : nat) (ps : seq G) (T : nat) (x sec : nat -> F) (picks : nat -> nat -> F) (node : nat -> dkg G)
    (co : coins F) (acts : seq act) (N : net G) (ord : hash_order F) vord hord (K : seq nat) (s : nat -> dkshare G) :
  suite_ok S -> (forall d, deal_dec (deal_enc d) = Some d) -> fresh_group ps T x sec picks node -> coins_ok S co ->
  schedule (size ps) [::] acts -> complete (size ps) acts ->
  net_run S deal_enc deal_dec ddeal_enc co (net0 node) acts = Some N ->
  (forall l, perm_eq (vord l) l) -> (forall k l, perm_eq (ord k l) l) ->
  p \in [char F] -> (0 < size ps < p)%N ->
  uniq K -> (eff_threshold T (size ps) <= size K)%N -> (forall i, i \in K -> (i < size ps)%N) ->
  (forall i, i \in K -> dist_key_share S vord hord (n_node N i) = Ok (s i)) ->
  let secret := \sum_(j <- iota 0 (size ps)) sec j in
  recover_secret ord [seq Some (dk_share (s i)) | i <- K] (eff_threshold T (size ps)) = Ok secret /\
  forall i, i \in K -> dk_public (s i) = Ok (secret *: su_base S) /\
    ps_v (dk_share (s i)) *: su_base S = pub_share_value (dk_commits (s i)) i.
Proof.
move=> okS de fg cok sch comp E pv po ch /andP[npos np] uK sK lK sE secret.
have [N' E' H] := C57_honest_run okS de fg cok sch comp.
have [e0] : Some N = Some N' by rewrite -E -E'.
subst N'; set t := eff_threshold _ _ in H sK *; set f := joint_poly _ _ _ _ in H.
have Hs i : i \in K -> s i = DKShare [seq c *: su_base S | c <- f] (PriShare i (share_value f i)) (sec i :: mkseq (picks i) (t - 1)).
  by move=> iK; have [_ _] := H i vord hord (lK i iK) pv; rewrite sE // => -[].
have [t2 tn] := fresh_threshold fg npos; rewrite -/t in t2 tn.
have f0 : f`_0 = secret by rewrite nth_mkseq ?(leq_trans _ t2) //; apply: eq_bigr.
split; first rewrite -f0.
- apply: (C01_recover_secret ch po).
  + by rewrite size_mkseq.
  + move=> sh /List.in_map_iff [i [[<-] /In_mem iK]]; rewrite Hs //=; split=> //.
    by apply: leq_ltn_trans np; exact: lK.
  + have -> : [seq ps_i s0 | s0 <- pmap id [seq Some (dk_share (s i)) | i <- K]] = K.
      elim: (K) Hs => //= i K' IH Hs; rewrite (Hs i (mem_head _ _)) /= IH // => q qK.
      by apply: Hs; rewrite inE qK orbT.
    by exists (take t K) => [|q /mem_take //]; rewrite take_uniq // size_takel.
- move=> i iK; rewrite Hs //; cbn [dk_commits dk_share ps_v]; split.
    have st : (0 < size f)%N by rewrite size_mkseq (leq_trans _ t2).
    rewrite /dk_public /= (nth_map 0); last by rewrite size_map.
    by rewrite (nth_map 0) //= f0.
  by rewrite share_value_eval pri_eval_v /pub_share_value -[geval _ _]/(gsum _ (xcoord F i)) (gsum_commit (su_base S) f None).
Qed.
End C57.
Print Assumptions C57_handlers.
Print Assumptions C57_any_schedule.
Print Assumptions C57_honest_run.
Print Assumptions C57_recover.

Lemma kfresh T : T \in [:: 0; 2; 3]%N -> fresh_group ktoy kkeys T kkey ksec kpicks (hnode0 ktoy kkeys T kkey ksec kpicks).
Proof.
move=> hT; have h i : (i < size kkeys)%N -> nth 0 kkeys i = kkey i *: su_base ktoy /\ kkey i != 0.
  by case: i => [|[|[|]]] //; split; apply/eqP; vm_compute.
split=> // i li; apply: hnode0E => //.
- by move: hT; rewrite !inE => /or3P[]/eqP->.
- by move: hT; rewrite !inE => /or3P[]/eqP->.
- by move=> j /h [].
Qed.
Lemma kacts_complete : complete 3 kacts.
Proof.
split.
- by case=> [|[|[|]]].
- by case=> [|[|[|i]]] [|[|[|j]]].
- by case=> [|[|[|i]]] [|[|[|j]]] [|[|[|k]]].
Qed.
Example C57_nonvacuous :
  [/\ fresh_group ktoy kkeys 2 kkey ksec kpicks (hnode0 ktoy kkeys 2 kkey ksec kpicks), coins_ok ktoy kcoins,
      schedule (size kkeys) [::] kacts, complete (size kkeys) kacts &
      joint_poly 2 ksec kpicks (iota 0 3) = [:: K2 : K; K6 : K]].
Proof. split=> //; [exact: kfresh|exact: kacts_complete|by rewrite /joint_poly /= unlock; vm_compute]. Qed.

(** *** Against arbitrary histories *)
(** If no response with the participant's own index is accepted from the network, then whatever else happens - forged or
    malformed deals, responses, justifications in any order, timeouts - a key share that is handed out matches its
    commitments (unless there are none, which takes a deal without commitments: that call panics, C45). *)
Theorem C57_share_matches_partial (F : fieldType) (G : lmodType F) (S : suite G) deal_enc deal_dec ddeal_enc
    (long : F) (ps : seq G) (T : nat) (secret : F) (picks : nat -> F) (g0 : dkg G) (evs : seq (devent G)) vord hord (s : dkshare G) :
  new_dist_key_generator S long ps T secret picks = Ok g0 ->
  all (foreign (g_nidx g0)) evs ->
  dist_key_share S vord hord (drun S deal_enc deal_dec ddeal_enc g0 evs) = Ok s ->
  ps_i (dk_share s) = g_nidx g0 /\
  (dk_commits s <> [::] -> ps_v (dk_share s) *: su_base S = pub_share_value (dk_commits s) (g_nidx g0)).
Proof.
move=> nd fo.
have [[h1 h2 h3 h4] h5 h6 h7 h8] := handlerP nd.
rewrite /= in h1 h2 h3 h4 h5 h6 h7 h8.
move=> dk; case np: (g_new_present g0) h7 h8 => h7 h8; last first.
  move: nd; rewrite /new_dist_key_generator /new_dist_key_handler /=; case: ifP => // _.
  rewrite /pmul /dfind_pub /= index_mem -h7 /=; by case.
have [n1 n2 n3] := h8 isT.
have lt : (g_nidx g0 < size ps)%N by rewrite n1 index_mem -h7.
have al0 : all_P (fun _ => own_ok S (g_nidx g0) ps) g0.
  move=> j v; rewrite n3; case: ifP => // _; rewrite mget_map_iota; case: ifP => // _ [<-].
  by split=> //=; rewrite h2.
have [al fr] := own_run deal_enc deal_dec ddeal_enc lt fo al0.
case: fr => -[_ fr1 _] [fr2 _ _ _] _ _ _.
apply: (own_key lt al _ fr2 dk); by rewrite fr1 h5.
Qed.
Print Assumptions C57_share_matches_partial.

(** Without that condition it fails: responses are accepted before the deal, for any session, so the participant's own
    signed approval of another deal can be replayed under a corrupted dealer's index.  The corrupted dealer's wrong deal is
    then certified and the participant ends with a share that does not match the commitments.  Participants 0 (keys 1)
    and 1 (key 2) are honest; every message of theirs below was made by the model; participant 2 signs with its own key. *)
Definition kgen (i : nat) : dkg V := hnode0 ktoy kkeys 2 kkey ksec kpicks i.
Notation kstep := (dstep ktoy kdeal_enc kdeal_dec kddeal_enc).
Notation krun := (drun ktoy kdeal_enc kdeal_dec kddeal_enc).
Definition kev_deals : devent V := DEvDeals V (fun _ => (K2 : K, K1 : K)) (fun _ => K1 : K) (K1 : K) (K1 : K).
Definition kdeals_of (g : dkg V) : seq (nat * ddeal V) :=
  if (ddeals ktoy kdeal_enc kdeal_dec kddeal_enc g (fun _ => (K2 : K, K1 : K)) (fun _ => K1 : K) (K1 : K) (K1 : K)).2 is Ok ds
  then ds else [::].
(** The deal of the corrupted participant 2 for participant i with key x: polynomial 1 + X, share v. *)
Definition kbad (i : nat) (x v : K) : ddeal V :=
  let cs := [:: K1 : V; K1 : V] in
  let d := @Deal K V (session_id ktoy (K3 : V) kkeys cs 2) (@PriShare K i v) 2 cs in
  let e := craft ktoy kdeal_enc (K3 : K) (K5 : K) (K1 : K) kkeys x d in
  DDeal 2 e (su_sign ktoy (K3 : K) (kddeal_enc 2 e) (K1 : K)).
Definition kdeal_for (i j : nat) : ddeal V := odflt (kbad 0 (K0 : K) (K0 : K)) (mget j (kdeals_of (kgen i))).
Definition kanswer (g : dkg V) (dd : ddeal V) : dresponse :=
  if (dprocess_deal ktoy kdeal_dec kddeal_enc g dd (K1 : K) (K1 : K)).2 is Ok r then r else DResponse 99 (Response [::] 0 false [::]).
(** What participant 1 answers to the deals of 0 and 2, participant 0 to that of 1, and participant 2 to anything. *)
Definition kr_1_0 : dresponse := kanswer (kgen 1) (kdeal_for 0 1).
Definition kr_1_2 : dresponse := kanswer (kgen 1) (kbad 1 (K2 : K) (K3 : K)).
Definition kr_0_1 : dresponse := kanswer (kstep (kgen 0) kev_deals) (kdeal_for 1 0).
Definition kr_2 (j : nat) (sid : bytestr) : dresponse := DResponse j (honest_response ktoy (K3 : K) sid 2 (K1 : K)).
Definition kreplay : seq (devent V) :=
  [:: kev_deals; DEvDeal (kdeal_for 1 0) (K1 : K) (K1 : K); DEvResponse V kr_1_0 (K1 : K);
      DEvResponse V (kr_2 0 (r_sid (dr_resp kr_1_0))) (K1 : K);
      DEvResponse V (DResponse 2 (dr_resp kr_0_1)) (K1 : K);
      DEvDeal (kbad 0 (K1 : K) (K5 : K)) (K1 : K) (K1 : K);
      DEvResponse V kr_1_2 (K1 : K); DEvResponse V (kr_2 2 (r_sid (dr_resp kr_1_2))) (K1 : K)].

Theorem C57_replayed_response_refuted :
  new_dist_key_generator ktoy (K1 : K) kkeys 2 (ksec 0) (kpicks 0) = Ok (kgen 0) /\
  exists2 s, dist_key_share ktoy id (fun _ _ l => l) (krun (kgen 0) kreplay) = Ok s &
    dk_commits s <> [::] /\ ps_v (dk_share s) *: su_base ktoy <> pub_share_value (dk_commits s) (ps_i (dk_share s)).
Proof.
split; first by have [_ _ H] := kfresh (T := 2%N) isT; exact: (H 0%N isT).
pose s := @DKShare K V [:: K3 : V; K2 : V] (@PriShare K 0 (K1 : K)) [:: K2 : K; K1 : K].
exists s; first by vm_cast_no_check (erefl (@Ok dkg_error _ s)).
by split=> //; rewrite /pub_share_value /geval /= !big_ord_recl big_ord0.
Qed.
Print Assumptions C57_replayed_response_refuted.

(** ** C58 *)
(** The number of deals a configuration requires: the old threshold when resharing, otherwise the threshold or, left at
    zero, the default (n+1)/2. *)
Definition required (F : fieldType) (G : lmodType F) (c : config G) : nat :=
  if isSome (c_share c) || isSome (c_coeffs c) then c_old_t c else threshold_of c.

Lemma handler_receive (F : fieldType) (G : lmodType F) (S : suite G) (c : config G) secret picks (g : dkg G) :
  new_dist_key_handler S c secret picks = Ok g -> g_can_receive g = g_new_present g.
Proof.
rewrite /new_dist_key_handler; case: ifP => // _; case: ifP => // _; case: ifP => // _.
case: dfind_pub => oidx op; case: dfind_pub => nidx np; case: ifP => // _.
case: (match c_share c with Some _ => _ | None => _ end) => [[[[[d ci] c'] o'] op']|||] //=.
case: np => [|[<-]] //=; case: (_ || _) => //=; last by case: init_verifiers => [vs|e||] // [<-].
case: c_coeffs => [cs|] /=; first by case: init_verifiers => [vs|e||] // [<-].
by case: c_share => [sh|] //=; case: init_verifiers => [vs|e||] // [<-].
Qed.

Lemma run_frame (F : fieldType) (G : lmodType F) (S : suite G) deal_enc deal_dec ddeal_enc (g : dkg G) evs :
  frame g (drun S deal_enc deal_dec ddeal_enc g evs).
Proof.
have [] // := @drun_inv F G S deal_enc deal_dec ddeal_enc (fun _ _ => True) _ _ _ _ predT _ g evs.
exact: all_predT.
Qed.

Lemma qual_ncertified (F : fieldType) (G : lmodType F) (g : dkg G) vord : (forall l, perm_eq (vord l) l) ->
  mkeys (g_verifiers g) = [::] \/ mkeys (g_verifiers g) = iota 0 (size (c_old (g_c g))) ->
  (size (qual_entries vord g) <= ncertified g)%N.
Proof.
move=> pv hk; rewrite /qual_entries /ncertified size_pmap.
pose b j := if mget j (g_verifiers g) is Some v then deal_certified (v_agg v) else false.
rewrite (eq_count (a2 := b)) => [|i /=]; last by rewrite /b; case: mget => [v|] //; case: deal_certified.
rewrite (permP (pv _)).
by case: hk => ->.
Qed.

Theorem C58_threshold_partial (F : fieldType) (G : lmodType F) (S : suite G) deal_enc deal_dec ddeal_enc
    (c : config G) (secret : F) (picks : nat -> F) (g0 : dkg G) (evs : seq (devent G)) vord hord :
  new_dist_key_handler S c secret picks = Ok g0 -> (forall l, perm_eq (vord l) l) ->
  c_t c <> 0%N \/ isSome (c_share c) || isSome (c_coeffs c) ->
  let g := drun S deal_enc deal_dec ddeal_enc g0 evs in
  ((c_long c *: su_base S) \in c_new c -> threshold_certified vord g -> (required c <= ncertified g)%N) /\
  (forall s, dist_key_share S vord hord g = Ok s -> (required c <= ncertified g)%N) /\
  ((ncertified g < required c)%N -> is_err (dist_key_share S vord hord g)).
Proof.
move=> nd pv ht g; have [[h1 h2 h3 h4] h5 h6 h7 h8] := handlerP nd.
have hr := handler_receive nd.
have [[fr1 fr2 fr3] [_ _ fr5 fr6] _ _ fk] := run_frame S deal_enc deal_dec ddeal_enc g0 evs.
rewrite -/g in fr1 fr2 fr3 fr5 fr6 fk.
have main : g_new_present g0 -> threshold_certified vord g -> (required c <= ncertified g)%N.
  move=> np; have [n1 n2 n3] := h8 np.
  have q : (size (qual vord g) <= ncertified g)%N.
    rewrite /qual fr5 np !andbF size_map; apply: qual_ncertified => //.
    rewrite fk fr1 n3; case: ifP => _; [right|by left].
    by rewrite /mkeys -map_comp -[RHS]map_id; apply: eq_map.
  rewrite /threshold_certified fr2 fr1 h4 h3 h5 /required /threshold_of.
  case: (_ || _) ht => ht; first by move/leq_trans; apply.
  by case: ht => // /eqP/negPf->; move/leq_trans; apply.
split; first by rewrite -h7.
have e : is_ok (dist_key_share S vord hord g) || is_panic (dist_key_share S vord hord g) ||
  (if dist_key_share S vord hord g is OutOfFuel then true else false) -> (required c <= ncertified g)%N.
  rewrite /dist_key_share fr3 hr; case tc: threshold_certified => //=.
  by case np: (g_new_present g0) => //= _; exact: main.
split; first by move=> s E; apply: e; rewrite E.
by move=> lt; move: e; case: dist_key_share => [s|e||] //= /(_ isT); rewrite leqNgt lt.
Qed.
Print Assumptions C58_threshold_partial.

Example C58_nonvacuous :
  exists g0, new_dist_key_handler ktoy (Config (K1 : K) [::] None kkeys None 3 0) (ksec 0) (kpicks 0) = Ok g0 /\
             required (Config (K1 : K) [::] None kkeys None 3 0) = 3%N /\ ncertified g0 = 0%N.
Proof.
exists (hnode0 ktoy kkeys 3 kkey ksec kpicks 0); split; last by vm_cast_no_check (conj (erefl 3%N) (erefl 0%N)).
by have [_ _ H] := kfresh (T := 3%N) isT; exact: (H 0%N isT).
Qed.

(** With the default threshold the number compared is the configured zero: a handler that has seen nothing reports
    [threshold_certified] and [dist_key_share] panics; after the messages about one deal out of three (the default
    threshold is two) a key is handed out, entirely chosen by that one dealer. *)
Theorem C58_default_refuted :
  [/\ required (Config (K1 : K) [::] None kkeys None 0 0) = 2%N,
      (exists g0, [/\ new_dist_key_handler ktoy (Config (K1 : K) [::] None kkeys None 0 0) (ksec 0) (kpicks 0) = Ok g0,
         ncertified g0 = 0%N, threshold_certified id g0 & is_panic (dist_key_share ktoy id (fun _ _ l => l) g0)]) &
      exists N s, [/\ net_run ktoy kdeal_enc kdeal_dec kddeal_enc kcoins (net0 (hnode0 ktoy kkeys 0 kkey ksec kpicks)) kacts0 = Some N,
        ncertified (n_node N 1) = 1%N, dist_key_share ktoy id (fun _ _ l => l) (n_node N 1) = Ok s &
        dk_commits s = [seq c *: su_base ktoy | c <- [:: ksec 0; kpicks 0 0]]]].
Proof.
split; first by [].
  exists (hnode0 ktoy kkeys 0 kkey ksec kpicks 0).
  have [_ _ H] := kfresh (T := 0%N) isT.
  split; [exact: (H 0%N isT)|by vm_cast_no_check (erefl 0%N)|by vm_cast_no_check (erefl true)|by vm_cast_no_check (erefl true)].
set M := net_run _ _ _ _ _ _ _.
have : (if M is Some N then (ncertified (n_node N 1),
        if dist_key_share ktoy id (fun _ _ l => l) (n_node N 1) is Ok s then dk_commits s else [::]) else (0%N, [::]))
     = (1%N, [seq c *: su_base ktoy | c <- [:: ksec 0; kpicks 0 0]]).
  by vm_cast_no_check (erefl (1%N, [:: K2 : V; K1 : V])).
case: M => [N|] //; exists N; move: H.
by case: (dist_key_share _ _ _ _) => [s|||] //= -[e1 e2]; exists s.
Qed.
Print Assumptions C58_default_refuted.

(** ** C65 *)
(** A repeated key never stops the creation of a handler, but that handler has no verifiers: reading any deal signed by a
    listed node panics, and so does creating one's own deals. *)
Theorem C65_duplicates_refuted (F : fieldType) (G : lmodType F) (S : suite G) deal_enc deal_dec ddeal_enc
    (long : F) (ps : seq G) (T : nat) (secret : F) (picks : nat -> F) :
  suite_ok S -> ~~ uniq ps -> su_good S long -> (long *: su_base S) \in ps ->
  (2 <= eff_threshold T (size ps) <= size ps)%N ->
  exists2 g, new_dist_key_generator S long ps T secret picks = Ok g &
    (forall dd k k' pub, get_pub ps (dd_index dd) = Some pub ->
       su_verify S pub (ddeal_enc (dd_index dd) (dd_deal dd)) (dd_sig dd) ->
       is_panic (dprocess_deal S deal_dec ddeal_enc g dd k k').2) /\
    (forall rnd ks k k', (forall i, su_good S (rnd i).2 /\ su_good S (ks i)) ->
       is_panic (ddeals S deal_enc deal_dec ddeal_enc g rnd ks k k').2).
Proof.
move=> okS nu ln0 pin /andP[t2 tn].
set i := seq.index (long *: su_base S) ps.
have li : (i < size ps)%N by rewrite index_mem.
have ndx : dfind_pub ps (long *: su_base S) = (i, true) by rewrite /dfind_pub li.
pose X (_ : nat) := long; pose SE (_ : nat) := secret; pose PI (_ : nat) := picks.
pose g : dkg G := Dkg (hconf ps T X i) (long *: su_base S) (PubPoly None [::]) (hdealer S ps T X SE PI i) [::] [::] i i 0
   (thr ps T) false true true true true false false.
exists g.
  rewrite /new_dist_key_generator /new_dist_key_handler /pmul /= ndx.
  have -> : (ps == [::]) = false by case: (ps) li.
  have -> : (if T != 0%N then T else minimum_t (size ps)) = thr ps T by rewrite /thr; case: eqP.
  have iv : init_verifiers S (hconf ps T X i) = Err DuplicatePublicKeyInNewList.
    by rewrite init_verifiersP //= (negPf nu).
  rewrite /new_dealer /valid_t t2 tn /=; move: iv; rewrite /hconf => ->.
  by [].
have A dd k k' (g' : dkg G) : g_c g' = g_c g -> g_new_present g' -> g_resharing g' = false -> g_verifiers g' = [::] ->
    forall pub, get_pub ps (dd_index dd) = Some pub ->
       su_verify S pub (ddeal_enc (dd_index dd) (dd_deal dd)) (dd_sig dd) ->
       is_panic (dprocess_deal S deal_dec ddeal_enc g' dd k k').2.
  by move=> e1 e2 e3 e4 pub gp sv; rewrite /dprocess_deal e2 e3 e1 /= gp sv e4.
split; first by move=> dd k k' pub; exact: A.
move=> rnd ks k k' nz; rewrite ddealsE [g_can_issue g]/= [~~ true]/=.
rewrite (_ : g_dealer g = dl_set_agg (hdealer S ps T X SE PI i) (dl_agg (hdealer S ps T X SE PI i))) // hencE.
set a := dl_agg _; rewrite [size (c_new _)]/=.
set step := deals_step _ _ _ _ _ _ _.
have stay l o : is_panic o.2 -> is_panic (foldl step o l).2.
  by elim: l o => //= m l IH [g' o] po; apply: IH; case: o po.
have -> : iota 0 (size ps) = iota 0 i ++ i :: iota i.+1 (size ps - i.+1).
  by rewrite -{1}(subnKC (ltnW li)) iotaD add0n -(subnSK li).
rewrite foldl_cat.
have [ds ->] : exists ds, foldl step (g, Ok [::]) (iota 0 i) = (g, Ok ds).
  have: (i <= i)%N by []. move: {-2}(i) => m; elim: m => [|m IH] lm; first by exists [::].
  have [ds e] := IH (ltnW lm); rewrite -addn1 iotaD add0n foldl_cat e /= /step /deals_step.
  rewrite (nth_map (henc S deal_enc ps T X SE PI a i rnd 0)) ?size_mkseq ?(ltn_trans lm) //.
  by rewrite (ltn_eqF lm) /=; eexists.
rewrite -[foldl _ _ (i :: _)]/(foldl step (step (g, Ok ds) i) _); apply: stay; rewrite /step /deals_step.
rewrite (nth_map (henc S deal_enc ps T X SE PI a i rnd 0)) ?size_mkseq // [g_nidx g]/= eqxx [_ && _]/= [g_processed g]/=.
set dd := DDeal _ _ _; have [n1 n2] := nz i.
have : is_panic (dprocess_deal S deal_dec ddeal_enc (g_set_processed g) dd k k').2.
  apply: (A dd k k' (g_set_processed g) erefl isT erefl erefl (long *: su_base S)); last exact: (su_sign_ok okS).
  by rewrite get_pubE li nth_index.
by case: dprocess_deal => [g' []].
Qed.
Print Assumptions C65_duplicates_refuted.

Example C65_nonvacuous :
  [/\ ~~ uniq [:: K1 : V; K2 : V; K2 : V], (K1 : K) *: su_base ktoy \in [:: K1 : V; K2 : V; K2 : V] &
      (2 <= eff_threshold 0 3 <= 3)%N].
Proof. by []. Qed.

(** Without repetition the handler knows a verifier for every node from which it may receive a deal. *)
Theorem C65_distinct (F : fieldType) (G : lmodType F) (S : suite G) deal_enc deal_dec ddeal_enc
    (c : config G) (secret : F) (picks : nat -> F) (g0 : dkg G) (evs : seq (devent G)) (j : nat) :
  new_dist_key_handler S c secret picks = Ok g0 -> (c_long c *: su_base S) \in c_new c ->
  let resharing := isSome (c_share c) || isSome (c_coeffs c) in
  let dealers := if resharing then c_old c else c_new c in
  uniq dealers -> (j < size dealers)%N ->
  exists v, mget j (g_verifiers (drun S deal_enc deal_dec ddeal_enc g0 evs)) = Some v.
Proof.
move=> nd pin rs ds u lj; have [_ h5 h6 h7 h8] := handlerP nd.
have np : g_new_present g0 by rewrite h7.
have [n1 n2 n3] := h8 np; have [_ _ _ _ fk] := run_frame S deal_enc deal_dec ddeal_enc g0 evs.
have ods : c_old (g_c g0) = ds by rewrite h6 h5 np /ds /rs; case: ifP.
have : j \in mkeys (g_verifiers (drun S deal_enc deal_dec ddeal_enc g0 evs)).
  rewrite fk n3 ods u /mkeys -map_comp; apply/mapP; exists j => //; by rewrite mem_iota.
by rewrite mget_in; case: mget => [v|] // _; exists v.
Qed.
Print Assumptions C65_distinct.

(** ** C61 *)
Section C61.
Variables (F : fieldType) (G : lmodType F) (S : suite G).

(** A refresh whose first commitment is the neutral element, for the same participant and threshold, adds up. *)
Theorem C61_renew (d z : dkshare G) :
  dk_public z = Ok 0 -> ps_i (dk_share d) = ps_i (dk_share z) -> size (dk_commits d) = size (dk_commits z) ->
  exists2 r, renew S d z = Ok r &
    [/\ dk_public r = dk_public d, ps_i (dk_share r) = ps_i (dk_share d),
        ps_v (dk_share r) = ps_v (dk_share d) + ps_v (dk_share z),
        size (dk_commits r) = size (dk_commits d) &
        forall m, (dk_commits r)`_m = (dk_commits d)`_m + (dk_commits z)`_m].
Proof.
move=> z0 ie se; rewrite /renew z0 /= scale0r eqxx ie eqxx /=.
have H m : (m <= size (dk_commits d))%N -> foldo (fun acc i =>
      let! a := of_option (nth None (map Some (dk_commits d)) i) in
      let! b := of_option (nth None (map Some (dk_commits z)) i) in
      Ok (rcons acc (a + b))) [::] (iota 0 m) = Ok (mkseq (fun i => (dk_commits d)`_i + (dk_commits z)`_i) m) :> outcome dkg_error _.
  elim: m => // m IH lm; rewrite -addn1 iotaD add0n foldo_cat IH ?(ltnW lm) //=.
  rewrite (nth_map 0) // (nth_map 0) ?(leq_trans lm) ?se //=.
  by rewrite /mkseq iotaD add0n map_cat /= cats1.
rewrite H //=; eexists; first reflexivity.
have dk m : (mkseq (fun i => (dk_commits d)`_i + (dk_commits z)`_i) (size (dk_commits d)))`_m = (dk_commits d)`_m + (dk_commits z)`_m.
  by case: (ltnP m (size (dk_commits d))) => lm; [rewrite nth_mkseq|rewrite !nth_default ?size_mkseq ?addr0 // -se].
split=> //=; rewrite ?size_mkseq //.
move: z0; rewrite /dk_public /=; case E: (dk_commits z) se => [|c cs] //= se [c0].
by case D: (dk_commits d) se => [|e es] //= _; rewrite c0 addr0.
Qed.

(** In terms of polynomials: shares of f refreshed with shares of z, z(0) = 0, are shares of f + z, which has the same
    secret; so any t refreshed shares recover the old secret (C01). *)
Theorem C61_refreshed_shares (f z : seq F) (i : nat) (pf pz : seq F) :
  size f = size z -> z <> [::] -> z`_0 = 0 ->
  exists h r, [/\ renew S (DKShare [seq c *: su_base S | c <- f] (PriShare i (share_value f i)) pf)
                        (DKShare [seq c *: su_base S | c <- z] (PriShare i (share_value z i)) pz) = Ok r,
                size h = size f, h`_0 = f`_0,
                dk_commits r = [seq c *: su_base S | c <- h] & dk_share r = PriShare i (share_value h i)].
Proof.
move=> se zn z0; exists (vadd f z).
have [||| r -> [h1 h2 h3 h4 h5]] := @C61_renew (DKShare [seq c *: su_base S | c <- f] (PriShare i (share_value f i)) pf)
                        (DKShare [seq c *: su_base S | c <- z] (PriShare i (share_value z i)) pz).
- by case: (z) zn z0 => //= a z' _ ->; rewrite /dk_public /= scale0r.
- by [].
- by rewrite /= !size_map.
exists r; split=> //.
- by rewrite size_vadd se minnn.
- by rewrite nth_vadd // z0 addr0.
- rewrite vadd_map_scale //; apply: (@eq_from_nth _ 0); first by rewrite h4 /= size_vadd !size_map se minnn.
  by move=> m _; rewrite h5 nth_vadd // !size_map.
- by case: (dk_share r) h2 h3 => a b /= -> ->; rewrite !share_value_eval !pri_eval_v Poly_vadd // hornerD.
Qed.

(** Everything else that has a first commitment is refused. *)
Theorem C61_rejects (d z : dkshare G) (c : G) :
  dk_public z = Ok c ->
  (c <> 0 -> renew S d z = Err WrongRenewal) /\
  (c = 0 -> ps_i (dk_share d) <> ps_i (dk_share z) -> renew S d z = Err DifferentParty).
Proof.
move=> zc; rewrite /renew zc /= scale0r; split; first by move/eqP->.
by move=> ->; rewrite eqxx /= => /eqP->.
Qed.

(** It panics exactly when the refresh has no commitments, or is accepted but has fewer than the share. *)
Theorem C61_panics_iff (d z : dkshare G) :
  is_panic (renew S d z) <->
  dk_commits z = [::] \/
  [/\ dk_public z = Ok 0, ps_i (dk_share d) = ps_i (dk_share z) & (size (dk_commits z) < size (dk_commits d))%N].
Proof.
rewrite /renew /dk_public; case E: (dk_commits z) => [|c cs] /=; first by split=> // _; left.
rewrite scale0r; case: eqP => [->|c0] /=; last by split=> // -[|[[]]].
case: eqP => [ei|ne] /=; last by split=> // -[|[]].
set stp := (fun _ _ => _).
have F1 l a : is_panic (foldo stp a l) = has (fun i => ~~ (i < size (dk_commits d))%N || ~~ (i < (size cs).+1)%N) l.
  elim: l a => //= m l IH a; rewrite {1}/stp.
  case: (ltnP m (size (dk_commits d))) => l1 /=; last by rewrite nth_default ?size_map.
  rewrite (nth_map 0) //=; case: (ltnP m (size cs).+1) => l2 /=; last by rewrite nth_default //= size_map.
  by rewrite -[_ :: map _ _]/(map Some (0 :: cs)) (nth_map 0) //= IH.
have -> : is_panic (let! cs0 := foldo stp [::] (iota 0 (size (dk_commits d))) in
   Ok (DKShare cs0 (PriShare (ps_i (dk_share d)) (ps_v (dk_share d) + ps_v (dk_share z))) [::])) = is_panic (foldo stp [::] (iota 0 (size (dk_commits d)))).
  by case: foldo.
rewrite F1; split.
  case/hasP => m; rewrite mem_iota add0n => /andP[_ lt]; rewrite lt /= -leqNgt => lm; right; split=> //=.
  exact: leq_ltn_trans lm lt.
case=> // -[_ _ /= lt]; apply/hasP; exists (size cs).+1; first by rewrite mem_iota.
by rewrite ltnn orbT.
Qed.
End C61.
Print Assumptions C61_renew.
Print Assumptions C61_refreshed_shares.
Print Assumptions C61_rejects.
Print Assumptions C61_panics_iff.

(** f = 2 + X, z = 3X, participant 1: refreshed share 2 + 4*2 of 2 + 4X. *)
Example C61_nonvacuous :
  exists2 r, renew ktoy (DKShare [:: K2 : V; K1 : V] (PriShare 1 (K4 : K)) [::]) (DKShare [:: K0 : V; K3 : V] (PriShare 1 (K6 : K)) [::]) = Ok r &
    dk_commits r = [:: K2 : V; K4 : V] /\ dk_share r = PriShare 1 (K3 : K).
Proof. by exists (DKShare [:: K2 : V; K4 : V] (PriShare 1 (K3 : K)) [::]). Qed.
Example C61_rejects_nonvacuous :
  renew ktoy (DKShare [:: K2 : V; K1 : V] (PriShare 1 (K4 : K)) [::]) (DKShare [:: K1 : V; K3 : V] (PriShare 1 (K0 : K)) [::]) = Err WrongRenewal.
Proof. by []. Qed.

(** A genuine refresh of lower threshold makes it panic. *)
Theorem C61_panics_refuted :
  exists d z : dkshare V, [/\ dk_commits z <> [::], dk_public z = Ok 0, ps_i (dk_share d) = ps_i (dk_share z) & is_panic (renew ktoy d z)].
Proof. by exists (DKShare [:: K2 : V; K1 : V] (PriShare 1 (K4 : K)) [::]), (DKShare [:: K0 : V] (PriShare 1 (K0 : K)) [::]). Qed.
Print Assumptions C61_panics_refuted.
