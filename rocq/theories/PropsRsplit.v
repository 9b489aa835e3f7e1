(** Property C107: agreement on the public key in the Rabin key generation, src/share/dkg/rabin/dkg.rs. *)
From mathcomp Require Import all_ssreflect all_algebra.
From mathcomp Require Import zify.
From Verif Require Import Base Lagrange PolyModel PolySpec PolyProofs PolyProps PropsPoly Suite SuiteProofs.
From Verif Require Import VssModel VssSpec VssProofs RvssModel RvssSpec RvssProofs Toy DkgModel DkgSpec DkgProofs RdkgModel RdkgSpec RdkgProofs PropsRdkg ReshareSpec ReshareProofs PropsRecover.

Set Implicit Arguments.
Unset Strict Implicit.
Unset Printing Implicit Defensive.

Import GRing.Theory.
Local Open Scope ring_scope.
Local Open Scope outcome_scope.

Section Agree.
Variables (F : fieldType) (G : lmodType F) (S : suite G).
Variables (rdeal_enc : rdeal G -> bytestr) (rdeal_dec : bytestr -> option (rdeal G)).
Notation run := (rgrun S rdeal_enc rdeal_dec).
Notation B := (su_base S).

(** The commitments of dealer j that a participant uses: the revealed or reconstructed ones, if j is in its QUAL. *)
Definition revealed_of (g : rdkg G) (j : nat) : option (seq G) :=
  if mget j (rg_verifiers g) is Some v then if rv_certified v then omap (@pcommits F G) (mget j (rg_commits g)) else None else None.

Definition ukeys (g : rdkg G) : Prop := uniq (mkeys (rg_verifiers g)).
Lemma ukeys_ver g j v : ukeys g -> ukeys (rg_set_ver g j v).
Proof. exact: mkeys_minsert_uniq. Qed.

Lemma ukeys_deal g dd k : ukeys g -> ukeys (rgprocess_deal S rdeal_dec g dd k).1.
Proof.
move=> u; rewrite /rgprocess_deal; case: rg_find_pub => // P; case: mget => // ; case: new_rverifier => // v.
by case: rprocess_encrypted_deal => v' [] //= r; exact: ukeys_ver.
Qed.
Lemma ukeys_deals g rnd k : ukeys g -> ukeys (rgdeals S rdeal_enc rdeal_dec g rnd k).1.
Proof.
move=> u; rewrite /rgdeals; case: rencrypted_deals => // ds.
have {u} : ukeys (g, Ok [::] : outcome rdkg_error (seq (nat * rddeal G))).1 := u.
elim: (iota _ _) (g, _) => //= a l IH [{}g [dd|e||]] //= u; apply: IH => //=.
case: (nth None _ _) => [e|] //; case: ifP => // _; case: mget => //.
have := @ukeys_deal g (RDDeal (rg_index g) e) k u.
by case: rgprocess_deal => g' [r|e'||] //= u'; case: ifP.
Qed.
Lemma ukeys_step g ev : ukeys g -> ukeys (rgstep S rdeal_enc rdeal_dec g ev).
Proof.
move=> u; case: ev => [rnd k|dd k|r k|j||k|sc k|cc k|hord rc] /=.
- exact: ukeys_deals.
- exact: ukeys_deal.
- rewrite /rgprocess_response; case: mget => // v; case: rverifier_process_response => v' [x|e||] /=; try exact: ukeys_ver.
  case: ifP => _ /=; first exact: ukeys_ver.
  case: rdealer_process_response => d [[j|]|e||] /=; try exact: ukeys_ver.
  by case: rverifier_process_justification => v2 o /=; apply: ukeys_ver; exact: ukeys_ver.
- rewrite /rgprocess_justification; case: mget => // v; case: rverifier_process_justification => v' o /=; exact: ukeys_ver.
- by rewrite /ukeys /rgset_timeout /= /mkeys -map_comp.
- by rewrite /rsecret_commits; case: ifP => // _; case: rdealer_commits.
- rewrite /rprocess_secret_commits; case: rg_find_pub => // P; case: ifP => // _; case: mget => // v.
  case: rverifier_session_id => // sid; case: ifP => // _; case: ifP => // _; case: rverifier_deal => // d.
  by case: pub_check => // -[].
- rewrite /rprocess_complaint_commits; case: rg_find_pub => // P; case: ifP => // _; case: ifP => // _; case: mget => // v.
  case: rv_agg => // a; case: rverify_deal => a' [x|e||] /=; try exact: ukeys_ver.
  case: mget => [p|] /=; last exact: ukeys_ver.
  case: pub_check => [[]|e||] /=; try exact: ukeys_ver.
  by case: rverifier_deal => [d|] /=; exact: ukeys_ver.
rewrite /rprocess_reconstruct_commits; case: ifP => // _; case: mget => //; case: rg_find_pub => // P; case: ifP => // _.
by case: rscan => // ; case: ifP => // _; case: recover_pri_poly.
Qed.
Lemma ukeys_run g evs : ukeys g -> ukeys (run g evs).
Proof. by elim: evs g => //= ev evs IH g /(ukeys_step ev); exact: IH. Qed.

Lemma rkey_commits (g : rdkg G) l acc sh p : foldo (rkey_step g) acc l = Ok (sh, Some p) ->
  [/\ (forall iv, List.In iv l -> exists2 q, mget iv.1 (rg_commits g) = Some q & size (pcommits q) = size (pcommits p)),
      (if acc.2 is Some q then size (pcommits q) = size (pcommits p) else True) &
      forall k, (pcommits p)`_k = (if acc.2 is Some q then (pcommits q)`_k else 0) +
        \sum_(iv <- l) (if mget iv.1 (rg_commits g) is Some q then (pcommits q)`_k else 0)].
Proof.
elim: l acc => [|iv l IH] [s0 p0] /=.
  by case=> _ ->; split=> // k; rewrite big_nil addr0.
case D: (rverifier_deal iv.2) => [d|] //; case C: (mget iv.1 _) => [c|] //.
case: p0 => [q|] /=; last first.
  move/IH => /= [h1 h2 h3]; split=> // [iv' [<-|/h1 //]|k]; first by exists c.
  by rewrite big_cons C h3 add0r.
rewrite /pub_add; case: eqP => //= sz /IH /= [h1 h2 h3].
have sq : size (pcommits q) = size (pcommits p) by rewrite -h2 size_vadd sz minnn.
split=> // [iv' [<-|/h1 //]|k]; first by exists c => //; rewrite -sq.
rewrite big_cons C h3 addrA; congr (_ + _).
case: (ltnP k (size (pcommits q))) => lk; first by rewrite nth_vadd // -?sz.
by rewrite !nth_default ?addr0 // ?size_vadd -?sz ?minnn.
Qed.

Lemma rqualE vord (g : rdkg G) : rqual vord g = [seq j <- vord (mkeys (rg_verifiers g)) | ris_in_qual g j].
Proof. by rewrite /rqual /rqual_entries /ris_in_qual; elim: (vord _) => //= j l <-; case: mget => //= v; case: rv_certified. Qed.

Lemma rkey_revealed vord (g : rdkg G) s : (forall l, perm_eq (vord l) l) -> ukeys g -> rdist_key_share vord g = Ok s ->
  exists L : seq nat, [/\ uniq L, L != [::], (forall j, (j \in L) = isSome (revealed_of g j)),
    (forall j cs, revealed_of g j = Some cs -> size cs = size (rk_commits s)) &
    forall k, (rk_commits s)`_k = \sum_(j <- L) nth 0 (odflt [::] (revealed_of g j)) k].
Proof.
move=> pv u; rewrite rdist_key_shareE; case: ifP => // _.
case E: foldo => [[sh [p|]]|||] //= -[<-] /=; have [h1 _ h3] := rkey_commits E; exists (rqual vord g).
have inq j : (j \in rqual vord g) = ris_in_qual g j.
  rewrite rqualE mem_filter (perm_mem (pv _)) mget_in /ris_in_qual; case: mget => [v|] //=; exact: andbT.
have hq j : ris_in_qual g j -> exists2 q, mget j (rg_commits g) = Some q & size (pcommits q) = size (pcommits p).
  rewrite -inq /rqual; elim: (rqual_entries vord g) h1 => //= iv l IH h1; rewrite inE => /orP[/eqP->|]; first by apply: h1; left.
  by apply: IH => w wl; apply: h1; right.
have rv j : revealed_of g j = if ris_in_qual g j then omap (@pcommits F G) (mget j (rg_commits g)) else None.
  by rewrite /revealed_of /ris_in_qual; case: mget.
split.
- by rewrite rqualE filter_uniq // (perm_uniq (pv _)).
- by rewrite /rqual; case: (rqual_entries vord g) E.
- by move=> j; rewrite inq rv; case: ifP => // /hq [q -> _].
- by move=> j cs; rewrite rv; case: ifP => // /hq [q -> <-] [<-].
move=> k; rewrite h3 add0r -(big_map fst predT (fun j => if mget j (rg_commits g) is Some q then (pcommits q)`_k else 0)) -/(rqual vord g).
by apply: eq_big_seq => j; rewrite inq rv => qj; rewrite qj; have [q -> _] := hq j qj.
Qed.

(** Two participants with the same QUAL and the same commitments for each of its members have the same public polynomial,
    whatever messages they received. *)
Theorem C107_same_key_partial (x1 x2 : F) ps1 ps2 t1 t2 sec1 sec2 fp1 fp2 gp1 gp2 (g1 g2 : rdkg G) evs1 evs2 vord1 vord2 s1 s2 :
  new_rdkg S x1 ps1 t1 sec1 fp1 gp1 = Ok g1 -> new_rdkg S x2 ps2 t2 sec2 fp2 gp2 = Ok g2 ->
  (forall l, perm_eq (vord1 l) l) -> (forall l, perm_eq (vord2 l) l) ->
  (forall j, revealed_of (run g1 evs1) j = revealed_of (run g2 evs2) j) ->
  rdist_key_share vord1 (run g1 evs1) = Ok s1 -> rdist_key_share vord2 (run g2 evs2) = Ok s2 -> rk_commits s1 = rk_commits s2.
Proof.
have u0 x ps t sec fp gp g : new_rdkg S x ps t sec fp gp = Ok g -> ukeys g.
  by rewrite /new_rdkg; case: ifP => // _; case: new_rdealer => //= d [<-].
move=> /u0 /(ukeys_run evs1) u1 /u0 /(ukeys_run evs2) u2 p1 p2 ac d1 d2.
have [L1 [v1 n1 m1 z1 k1]] := rkey_revealed p1 u1 d1; have [L2 [v2 _ m2 z2 k2]] := rkey_revealed p2 u2 d2.
have pL : perm_eq L1 L2 by apply: uniq_perm => // j; rewrite m1 m2 ac.
apply: (@eq_from_nth _ 0) => [|k _].
  case: L1 n1 m1 {v1 k1 pL} => // j L _ /(_ j); rewrite mem_head; case C: revealed_of => [cs|] // _.
  by rewrite -(z1 _ _ C) -(z2 j cs) // -ac.
by rewrite k1 k2 (perm_big _ pL); apply: eq_bigr => j _; rewrite ac.
Qed.

(** A set Q of such participants that get no deal under their own index from outside and reconstructed nobody's commitments:
    they hold shares of one sharing, and any of them as many as there are commitments recover the secret of the key. *)
Theorem C107_agreement_partial (p : nat) (Q : seq nat) (x : nat -> F) ps t sec fp gp (g0 : nat -> rdkg G) evs vord (s : nat -> rdkshare G) :
  suite_ok S -> (forall d, rdeal_dec (rdeal_enc d) = Some d) -> p \in [char F] -> (size ps < p)%N -> Q != [::] ->
  (forall i, i \in Q -> [/\ new_rdkg S (x i) ps t (sec i) (fp i) (gp i) = Ok (g0 i), rg_index (g0 i) = i,
     (forall dd k, List.In (RGDeal dd k) (evs i) -> rdd_index dd <> i),
     (forall l, perm_eq (vord i l) l) /\ (forall j, j \in rqual (vord i) (run (g0 i) (evs i)) -> j \notin rg_reconstructed (run (g0 i) (evs i))) &
     rdist_key_share (vord i) (run (g0 i) (evs i)) = Ok (s i)]) ->
  (forall i i' j, i \in Q -> i' \in Q -> revealed_of (run (g0 i) (evs i)) j = revealed_of (run (g0 i') (evs i')) j) ->
  exists cs, [/\ (forall i, i \in Q -> rk_commits (s i) = cs),
     (forall i, i \in Q -> ps_i (rk_share (s i)) = i /\ ps_v (rk_share (s i)) *: B = pub_share_value cs i) &
     forall (ord : hash_order F) K, (forall k l, perm_eq (ord k l) l) -> uniq K -> {subset K <= Q} -> (0 < size cs <= size K)%N ->
       exists2 a, recover_secret ord [seq Some (rk_share (s i)) | i <- K] (size cs) = Ok a & a *: B = cs`_0].
Proof.
move=> sok de ch np Q0 hQ ac; case: Q Q0 hQ ac => // i0 Q _ hQ ac; exists (rk_commits (s i0)).
have eqc i : i \in i0 :: Q -> rk_commits (s i) = rk_commits (s i0).
  move=> iQ; have [n1 _ _ [v1 _] d1] := hQ i iQ; have [n2 _ _ [v2 _] d2] := hQ i0 (mem_head _ _).
  by apply: (C107_same_key_partial n1 n2 v1 v2 _ d1 d2) => j; apply: ac => //; exact: mem_head.
have sh i : i \in i0 :: Q -> ps_i (rk_share (s i)) = i /\ ps_v (rk_share (s i)) *: B = pub_share_value (rk_commits (s i0)) i.
  move=> iQ; have [n1 ni fo [_ nr] d1] := hQ i iQ.
  have {}fo dd k : List.In (RGDeal dd k) (evs i) -> rdd_index dd <> rg_index (g0 i) by rewrite ni; exact: fo.
  by have [h1 h2] := C62_share_matches sok de n1 fo nr d1; rewrite ni (eqc i iQ) in h1 h2.
split=> // ord K po uK sK tK; set cs := rk_commits (s i0) in sh tK *.
have -> : [seq Some (rk_share (s i)) | i <- K] = pri_of (fun i => ps_v (rk_share (s i))) K.
  by apply/eq_in_map => i /sK /sh [h _]; rewrite -{2}h; case: (rk_share _).
rewrite C103_secret //; eexists; first by [].
have low i : i \in lowest (size cs) K -> i \in i0 :: Q by move/lowest_sub/sK.
rewrite scaler_suml.
suff : Ok (\sum_(i <- lowest (size cs) K) (weight F (lowest (size cs) K) i * ps_v (rk_share (s i))) *: B) = Ok cs`_0 :> outcome poly_error G by case.
rewrite -(@C07_recover_commit F G p ord cs (pub_of (pub_share_value cs) K) (size cs)) //.
- rewrite C103_commit //; congr Ok; apply: eq_big_seq => i /low /sh [_ h].
  by rewrite -scalerA h.
- move=> u /List.in_map_iff [i [[<-] /In_mem /sK iQ]] /=; split=> //.
  have [n1 ni _ _ _] := hQ i iQ; move: n1; rewrite /new_rdkg; case: ltnP => // li; case: new_rdealer => //= d [ge].
  by move: ni; rewrite -ge /= => <-; exact: leq_ltn_trans li np.
exists (take (size cs) K); first by rewrite take_uniq // size_takel //; case/andP: tK.
have -> : [seq us_i u | u <- pmap id (pub_of (pub_share_value cs) K)] = K by elim: (K) => //= i l ->.
by move=> i /mem_take.
Qed.
End Agree.
Print Assumptions C107_same_key_partial.
Print Assumptions C107_agreement_partial.

(** Agreement fails when the revealed commitments are not broadcast: participant 2, whose deal is fine, reveals 3 + 4X to
    participant 0 and 1 + X to participant 1.  Each list fits the receiver's share, so nobody complains, and the two finish
    with different public keys. *)
Definition rsev (i : nat) (cs : seq V) : seq (rgevent V) :=
  [:: RGDeals V (fun _ => (K2 : K, K1 : K)) (K1 : K); kmsg_deal (1 - i) i; kmsg_deal 2 i; kmsg_resp i (1 - i); kmsg_resp i 2; kmsg_resp (1 - i) 2;
      kmsg_resp 2 (1 - i); RGSecret V (K1 : K); RGSecretCommits (ksc (1 - i)) (K1 : K); RGSecretCommits (kbad_sc cs) (K1 : K)].
Definition rsrun (i : nat) (cs : seq V) : rdkg V := rgrun ktoy krdeal_enc krdeal_dec (krgen i) (rsev i cs).
Theorem C107_split_key_refuted :
  let c0 := [:: K3 : V; K4 : V] in let c1 := [:: K1 : V; K1 : V] in
  (forall i, (i < 2)%N -> new_rdkg ktoy (krkey i) krkeys 2 (krsec i) (krfp i) (krgp i) = Ok (krgen i)) /\
  [/\ all (fun ev => if ev is RGTimeout then false else true) (rsev 0 c0 ++ rsev 1 c1),
      all (fun ev => if ev is RGDeal dd _ then rdd_index dd != 0%N else true) (rsev 0 c0) && all (fun ev => if ev is RGDeal dd _ then rdd_index dd != 1%N else true) (rsev 1 c1),
      (rprocess_secret_commits ktoy krdeal_enc (rgrun ktoy krdeal_enc krdeal_dec (krgen 0) (take 9 (rsev 0 c0))) (kbad_sc c0) (K1 : K)).2 = Ok None,
      (rprocess_secret_commits ktoy krdeal_enc (rgrun ktoy krdeal_enc krdeal_dec (krgen 1) (take 9 (rsev 1 c1))) (kbad_sc c1) (K1 : K)).2 = Ok None &
      exists r0 r1, [/\ rdist_key_share id (rsrun 0 c0) = Ok r0, rdist_key_share id (rsrun 1 c1) = Ok r1,
        ps_v (rk_share r0) *: su_base ktoy = pub_share_value (rk_commits r0) 0,
        ps_v (rk_share r1) *: su_base ktoy = pub_share_value (rk_commits r1) 1 & rk_public r0 <> rk_public r1]].
Proof.
move=> c0 c1; split; first by have [_ _ H] := krfresh => i li; apply: H; apply: leq_trans li _.
split.
- by vm_cast_no_check (erefl true).
- by vm_cast_no_check (erefl true).
- by vm_cast_no_check (erefl (@Ok rdkg_error (option (complaint_commits V)) None)).
- by vm_cast_no_check (erefl (@Ok rdkg_error (option (complaint_commits V)) None)).
pose r0 := @RDKShare K V [:: K1 : V; K0 : V] (@PriShare K 0 (K1 : K)).
pose r1 := @RDKShare K V [:: K6 : V; K4 : V] (@PriShare K 1 (K0 : K)).
exists r0, r1; split.
- by vm_cast_no_check (erefl (@Ok rdkg_error _ r0)).
- by vm_cast_no_check (erefl (@Ok rdkg_error _ r1)).
- by apply/eqP; rewrite /pub_share_value /geval /= !big_ord_recl big_ord0.
- by apply/eqP; rewrite /pub_share_value /geval /= !big_ord_recl big_ord0.
by [].
Qed.
Print Assumptions C107_split_key_refuted.

(** With its own commitments 4 + 3X for both, they agree and recover the secret of their key. *)
Example C107_nonvacuous :
  let cs := [:: K4 : V; K3 : V] in
  [/\ (forall i, i \in [:: 0; 1]%N -> new_rdkg ktoy (krkey i) krkeys 2 (krsec i) (krfp i) (krgp i) = Ok (krgen i) /\ rg_index (krgen i) = i),
      (forall j, revealed_of (rsrun 0 cs) j = revealed_of (rsrun 1 cs) j),
      rg_reconstructed (rsrun 0 cs) = [::] /\ rg_reconstructed (rsrun 1 cs) = [::],
      rdist_key_share id (rsrun 0 cs) = Ok (@RDKShare K V [:: K2 : V; K6 : V] (@PriShare K 0 (K1 : K))) &
      rdist_key_share id (rsrun 1 cs) = Ok (@RDKShare K V [:: K2 : V; K6 : V] (@PriShare K 1 (K0 : K)))] /\
  recover_secret (fun _ l => l) [:: Some (@PriShare K 0 (K1 : K)); Some (@PriShare K 1 (K0 : K))] 2 = Ok (K2 : K).
Proof.
move=> cs; split; [split|].
- have [_ _ H] := krfresh; by move=> i; rewrite !inE => /orP[] /eqP ->; (split; [exact: H|vm_compute]).
- have e0 : mkeys (rg_verifiers (rsrun 0 cs)) = [:: 0; 1; 2]%N by vm_cast_no_check (erefl [:: 0; 1; 2]%N).
  have e1 : mkeys (rg_verifiers (rsrun 1 cs)) = [:: 1; 0; 2]%N by vm_cast_no_check (erefl [:: 1; 0; 2]%N).
  have out (g : rdkg V) j : j \notin mkeys (rg_verifiers g) -> revealed_of g j = None.
    by rewrite mget_in /revealed_of; case: mget.
  case=> [|[|[|j]]]; last by rewrite !out ?e0 ?e1.
  + apply: (etrans (y := Some [:: K2 : V; K1 : V])); vm_cast_no_check (erefl (Some [:: K2 : V; K1 : V])).
  + apply: (etrans (y := Some [:: K3 : V; K2 : V])); vm_cast_no_check (erefl (Some [:: K3 : V; K2 : V])).
  + apply: (etrans (y := Some [:: K4 : V; K3 : V])); vm_cast_no_check (erefl (Some [:: K4 : V; K3 : V])).
- split; vm_cast_no_check (erefl (@nil nat)).
- by vm_cast_no_check (erefl (@Ok rdkg_error _ (@RDKShare K V [:: K2 : V; K6 : V] (@PriShare K 0 (K1 : K))))).
- by vm_cast_no_check (erefl (@Ok rdkg_error _ (@RDKShare K V [:: K2 : V; K6 : V] (@PriShare K 1 (K0 : K))))).
by vm_cast_no_check (erefl (@Ok poly_error _ (K2 : K))).
Qed.
