(** Properties C62 and C63: src/share/dkg/rabin/dkg.rs. *)
From mathcomp Require Import all_ssreflect all_algebra.
From mathcomp Require Import zify.
From Verif Require Import Base Lagrange PolyModel PolySpec PolyProofs PolyProps PropsPoly Suite VssModel VssSpec VssProofs Toy.
From Verif Require Import RvssModel RvssSpec RvssProofs DkgSpec DkgProofs RdkgModel RdkgSpec RdkgProofs.

Set Implicit Arguments.
Unset Strict Implicit.
Unset Printing Implicit Defensive.

Import GRing.Theory.
Local Open Scope ring_scope.
Local Open Scope outcome_scope.

(** ** Toy data: three participants with secret keys 1, 2, 3, threshold 2 *)
Definition krkey (i : nat) : K := k7_of i.+1.
Definition krkeys : seq V := [:: K1 : V; K2 : V; K3 : V].
Definition krsec (i : nat) : K := k7_of i.+2.
Definition krfp (i m : nat) : K := k7_of (i + m).+1.
Definition krgp (i m : nat) : K := k7_of (i + m).+2.
Definition krcoins : coins K := Coins (fun _ _ => (K2 : K, K1 : K)) (fun _ _ => K1 : K) (fun _ _ => K1 : K) (fun _ => K1 : K).
Lemma krcoins_ok : coins_ok ktoy krcoins. Proof. by []. Qed.
(** A serialisation of deals (length in front). *)
Definition krdeal_enc (d : rdeal V) : bytestr :=
  size (rd_sid d) :: rd_sid d ++ [:: ps_i (rd_sec d); k7_val (ps_v (rd_sec d)); ps_i (rd_rnd d); k7_val (ps_v (rd_rnd d)); rd_t d] ++
  map k7_val (rd_commits d).
Definition krdeal_dec (b : bytestr) : option (rdeal V) :=
  if b is n :: b' then
    if drop n b' is i :: x :: j :: y :: t :: cs
    then Some (@RDeal K V (take n b') (@PriShare K i (k7_of x)) (@PriShare K j (k7_of y)) t (map k7_of cs)) else None
  else None.
Lemma krdeal_dec_enc d : krdeal_dec (krdeal_enc d) = Some d.
Proof.
case: d => sid [i x] [j y] t cs; rewrite /krdeal_dec /krdeal_enc /= drop_size_cat // take_size_cat //=.
by rewrite !k7_valK -map_comp (@eq_map _ _ _ id) ?map_id //; exact: k7_valK.
Qed.
Definition krphase1 : seq act :=
  [:: ADeals 0; ADeal 0 2; ADeals 1; ADeal 0 1; AResp 0 2 0; AResp 0 2 1; ADeal 1 0; AResp 0 1 2; ADeals 2; ADeal 1 2;
      AResp 1 0 2; ADeal 2 1; ADeal 2 0; AResp 2 1 0; AResp 1 2 1; AResp 1 2 0; AResp 0 1 0; AResp 2 0 1; AResp 1 0 1;
      AResp 2 1 2; AResp 2 0 2].
(** A complete schedule: the second phase of one dealer overlaps the first phase of the others. *)
Definition kracts : seq ract :=
  map RAct (take 17 krphase1) ++ [:: RSec 0; RCom 0 1; RCom 0 2] ++ map RAct (drop 17 krphase1) ++
  [:: RSec 2; RCom 2 0; RSec 1; RCom 1 0; RCom 2 1; RCom 1 2].

(** ** C62 *)
Section C62.
Variables (F : fieldType) (G : lmodType F) (S : suite G).
Variable rdeal_enc : rdeal G -> bytestr.
Variable rdeal_dec : bytestr -> option (rdeal G).

(** n participants with distinct keys create their generators with the same threshold; [node] are those. *)
Definition rfresh_group (ps : seq G) (t : nat) (x sec : nat -> F) (fp gp : nat -> nat -> F) (node : nat -> rdkg G) : Prop :=
  [/\ uniq ps, (forall i, (i < size ps)%N -> nth 0 ps i = x i *: su_base S /\ su_good S (x i)) &
      forall i, (i < size ps)%N -> new_rdkg S (x i) ps t (sec i) (fp i) (gp i) = Ok (node i)].

(** Generators are created for exactly the valid thresholds. *)
Theorem C62_generators (ps : seq G) (t : nat) (x sec : nat -> F) (fp gp : nat -> nat -> F) :
  uniq ps -> (forall i, (i < size ps)%N -> nth 0 ps i = x i *: su_base S /\ su_good S (x i)) -> (0 < size ps)%N ->
  (exists node, rfresh_group ps t x sec fp gp node) <-> (2 <= t <= size ps)%N.
Proof.
move=> u h npos; split=> [[node [_ _ nd]]|/andP[t2 tn]].
  move: (nd 0%N npos); rewrite /new_rdkg; case: ifP => // _; case E: new_rdealer => [d|e||] // _.
  by have [-> -> _] := new_rdealerP E.
exists (rhnode0 S ps t x sec fp gp); split=> // i li.
by apply: rhnode0E => // j lj; case: (h j lj).
Qed.

Lemma rfresh_threshold ps t x sec fp gp node : rfresh_group ps t x sec fp gp node -> (0 < size ps)%N -> (2 <= t)%N /\ (t <= size ps)%N.
Proof.
move=> fg npos; have [u h _] := fg; apply/andP.
by apply/(C62_generators t sec fp gp u h npos); exists node.
Qed.

(** Whatever the order of delivery, no message between honest participants is refused or answered with a complaint, and
    each participant's QUAL is the set of dealers it heard all answers about.  With at least t of them it is certified, and
    once it has their revealed commitments it gets the sum of those dealers' polynomials. *)
Theorem C62_any_schedule (ps : seq G) (t : nat) (x sec : nat -> F) (fp gp : nat -> nat -> F) (node : nat -> rdkg G)
    (co : coins F) (acts : seq ract) :
  suite_ok S -> (forall d, rdeal_dec (rdeal_enc d) = Some d) -> rfresh_group ps t x sec fp gp node -> coins_ok S co ->
  rschedule (size ps) [::] acts ->
  let n := size ps in
  exists2 N, rnet_run S rdeal_enc rdeal_dec co (rnet0 node) acts = Some N &
  forall i vord, (i < n)%N -> (forall s, perm_eq (vord s) s) ->
    let Q := heard n (phase1 acts) i in
    let f := joint_poly t sec fp Q in
    [/\ perm_eq (rqual vord (rn_node N i)) Q, rcertified vord (rn_node N i) = (t <= size Q)%N,
        rfinished vord (rn_node N i) = (t <= size Q)%N && all (revealed acts i) Q &
        rdist_key_share vord (rn_node N i) =
          if (t <= size Q)%N then
            if all (revealed acts i) Q then Ok (RDKShare [seq c *: su_base S | c <- f] (PriShare i (share_value f i)))
            else Err ProtocolNotFinished
          else Err RDistributedKeyNotCertified].
Proof.
move=> okS de fg cok sch n; have [u h nd] := fg.
have psE i : (i < n)%N -> nth 0 ps i = x i *: su_base S by move=> li; case: (h i li).
have xn0 i : (i < n)%N -> su_good S (x i) by move=> li; case: (h i li).
case: (posnP n) => [n0|npos].
  exists (rnet0 node) => [|i vord]; last by rewrite n0.
  by case: acts sch => [|a acts] //=; rewrite -/n n0; case: a => [[[i|[j i]]|[[j k] i]]|[i|[j i]]].
have [t2 tn] := rfresh_threshold fg npos.
have ndE i : (i < n)%N -> node i = rhnode0 S ps t x sec fp gp i.
  by move=> li; move: (nd i li); rewrite rhnode0E // => -[->].
have ok0 : rnetok S rdeal_enc ps t x sec fp gp [::] (rnet0 node).
  have [h1 h2 h3 h4 h5] := rnet0_ok S rdeal_enc ps t x sec fp gp; split=> // i li.
  by rewrite /= ndE //; exact: h2.
have [N E nok] := rnet_run_ok okS de u t2 tn psE xn0 cok ok0 sch.
exists N => // i vord li pm Q f.
exact: (rnode_key t2 tn nok li pm).
Qed.

(** When everything is delivered, all participants are finished with the same commitments, to the sum of all the
    polynomials. *)
Theorem C62_honest_run (ps : seq G) (t : nat) (x sec : nat -> F) (fp gp : nat -> nat -> F) (node : nat -> rdkg G)
    (co : coins F) (acts : seq ract) :
  suite_ok S -> (forall d, rdeal_dec (rdeal_enc d) = Some d) -> rfresh_group ps t x sec fp gp node -> coins_ok S co ->
  rschedule (size ps) [::] acts -> rcomplete (size ps) acts ->
  let n := size ps in
  let f := joint_poly t sec fp (iota 0 n) in
  exists2 N, rnet_run S rdeal_enc rdeal_dec co (rnet0 node) acts = Some N &
  forall i vord, (i < n)%N -> (forall s, perm_eq (vord s) s) ->
    [/\ perm_eq (rqual vord (rn_node N i)) (iota 0 n), rcertified vord (rn_node N i), rfinished vord (rn_node N i) &
        rdist_key_share vord (rn_node N i) = Ok (RDKShare [seq c *: su_base S | c <- f] (PriShare i (share_value f i)))].
Proof.
move=> okS de fg cok sch [comp rev] n f.
have [N E H] := C62_any_schedule okS de fg cok sch; exists N => // i vord li pm.
have := H i vord li pm; rewrite complete_heard // => -[].
have [t2 tn] := rfresh_threshold fg (leq_ltn_trans (leq0n i) li).
rewrite size_iota tn -/n; have -> : all (revealed acts i) (iota 0 n).
  by apply/allP => j; rewrite mem_iota /= add0n => lj; exact: rev.
by move=> h1 h2 h3 h4; split.
Qed.

(** Any t of the resulting shares recover the sum of the participants' secrets, whose public key is the distributed key;
    every share matches the commitments. *)
Theorem C62_recover (p : nat) (ps : seq G) (t : nat) (x sec : nat -> F) (fp gp : nat -> nat -> F) (node : nat -> rdkg G)
    (co : coins F) (acts : seq ract) (N : rnet G) (ord : hash_order F) vord (K : seq nat) (s : nat -> rdkshare G) :
  suite_ok S -> (forall d, rdeal_dec (rdeal_enc d) = Some d) -> rfresh_group ps t x sec fp gp node -> coins_ok S co ->
  rschedule (size ps) [::] acts -> rcomplete (size ps) acts ->
  rnet_run S rdeal_enc rdeal_dec co (rnet0 node) acts = Some N ->
  (forall l, perm_eq (vord l) l) -> (forall k l, perm_eq (ord k l) l) ->
  p \in [char F] -> (0 < size ps < p)%N ->
  uniq K -> (t <= size K)%N -> (forall i, i \in K -> (i < size ps)%N) ->
  (forall i, i \in K -> rdist_key_share vord (rn_node N i) = Ok (s i)) ->
  let secret := \sum_(j <- iota 0 (size ps)) sec j in
  recover_secret ord [seq Some (rk_share (s i)) | i <- K] t = Ok secret /\
  forall i, i \in K -> rk_public (s i) = Ok (secret *: su_base S) /\
    ps_v (rk_share (s i)) *: su_base S = pub_share_value (rk_commits (s i)) i.
Proof.
move=> okS de fg cok sch comp E pv po ch /andP[npos np] uK sK lK sE secret.
have [N' E' H] := C62_honest_run okS de fg cok sch comp.
have [e0] : Some N = Some N' by rewrite -E -E'.
subst N'; set f := joint_poly _ _ _ _ in H.
have Hs i : i \in K -> s i = RDKShare [seq c *: su_base S | c <- f] (PriShare i (share_value f i)).
  by move=> iK; have [_ _ _] := H i vord (lK i iK) pv; rewrite sE // => -[].
have [t2 tn] := rfresh_threshold fg npos.
have f0 : f`_0 = secret by rewrite nth_mkseq ?(leq_trans _ t2) //; apply: eq_bigr.
split; first rewrite -f0.
- apply: (C01_recover_secret ch po).
  + by rewrite size_mkseq.
  + move=> sh /List.in_map_iff [i [[<-] /In_mem iK]]; rewrite Hs //=; split=> //.
    by apply: leq_ltn_trans np; exact: lK.
  + have -> : [seq ps_i s0 | s0 <- pmap id [seq Some (rk_share (s i)) | i <- K]] = K.
      elim: (K) Hs => //= i K' IH Hs; rewrite (Hs i (mem_head _ _)) /= IH // => q qK.
      by apply: Hs; rewrite inE qK orbT.
    by exists (take t K) => [|q /mem_take //]; rewrite take_uniq // size_takel.
- move=> i iK; rewrite Hs //; cbn [rk_commits rk_share ps_v]; split.
    have st : (0 < size f)%N by rewrite size_mkseq (leq_trans _ t2).
    rewrite /rk_public /= (nth_map 0); last by rewrite size_map.
    by rewrite (nth_map 0) //= f0.
  by rewrite share_value_eval pri_eval_v /pub_share_value -[geval _ _]/(gsum _ (xcoord F i)) (gsum_commit (su_base S) f None).
Qed.

(** Whatever a participant receives - forged or malformed messages of any kind, in any order, timeouts - a key share it
    hands out matches its commitments, as long as no deal bearing its own index comes from outside and no member of QUAL
    had its commitments reconstructed (for those see [C63_reconstruct] and [C63_forged_refuted]). *)
Theorem C62_share_matches (long : F) (ps : seq G) (t : nat) (secret : F) (fp gp : nat -> F) (g0 : rdkg G)
    (evs : seq (rgevent G)) vord (s : rdkshare G) :
  suite_ok S -> (forall d, rdeal_dec (rdeal_enc d) = Some d) ->
  new_rdkg S long ps t secret fp gp = Ok g0 ->
  (forall dd k, List.In (RGDeal dd k) evs -> rdd_index dd <> rg_index g0) ->
  let g := rgrun S rdeal_enc rdeal_dec g0 evs in
  (forall j, j \in rqual vord g -> j \notin rg_reconstructed g) ->
  rdist_key_share vord g = Ok s ->
  ps_i (rk_share s) = rg_index g0 /\ ps_v (rk_share s) *: su_base S = pub_share_value (rk_commits s) (rg_index g0).
Proof.
move=> okS de ng fo g nr ks; have := ng; rewrite /new_rdkg /pmul /=; case: ltnP => // li.
case E: new_rdealer => [d0|e||] //= -[ge].
have ie : rg_index g0 = seq.index (long *: su_base S) ps by rewrite -ge.
have I : rginv S long ps t secret fp true d0 g.
  apply: (rginv_run okS de li E) (rginv0 li _ E ng).
  elim: (evs) fo => //= ev l IH fo; rewrite IH ?andbT => [|dd k h]; last by apply: (fo dd k); right.
  by case: ev fo => //= dd k fo; apply/eqP; rewrite -ie; apply: (fo dd k); left.
by rewrite ie; exact: (share_matches isT I nr ks).
Qed.
End C62.
Print Assumptions C62_generators.
Print Assumptions C62_any_schedule.
Print Assumptions C62_honest_run.
Print Assumptions C62_recover.
Print Assumptions C62_share_matches.

Definition krgen (i : nat) : rdkg V := rhnode0 ktoy krkeys 2 krkey krsec krfp krgp i.
Lemma krfresh : rfresh_group ktoy krkeys 2 krkey krsec krfp krgp krgen.
Proof.
have h i : (i < size krkeys)%N -> nth 0 krkeys i = krkey i *: su_base ktoy /\ krkey i != 0.
  by case: i => [|[|[|]]] //; split; apply/eqP; vm_compute.
split=> // i li; apply: rhnode0E => // j /h [] //.
Qed.
Lemma kracts_complete : rcomplete 3 kracts.
Proof.
split; first split.
- by case=> [|[|[|]]].
- by case=> [|[|[|i]]] [|[|[|j]]].
- by case=> [|[|[|i]]] [|[|[|j]]] [|[|[|k]]].
- by case=> [|[|[|i]]] [|[|[|j]]].
Qed.
Example C62_nonvacuous :
  [/\ rfresh_group ktoy krkeys 2 krkey krsec krfp krgp krgen, coins_ok ktoy krcoins,
      rschedule (size krkeys) [::] kracts, rcomplete (size krkeys) kracts &
      joint_poly 2 krsec krfp (iota 0 3) = [:: K2 : K; K6 : K]].
Proof. split=> //; [exact: krfresh|exact: kracts_complete|by rewrite /joint_poly /= unlock; vm_compute]. Qed.

(** ** C63 *)
Section C63.
Variables (F : fieldType) (G : lmodType F) (S : suite G).
Variable rdeal_enc : rdeal G -> bytestr.
Notation B := (su_base S).

(** What a participant checks before it compares revealed commitments with its share: the sender's index, its membership
    in QUAL, the session of its deal and the signature. *)
Definition sc_admissible (g : rdkg G) (sc : secret_commits G) (v : rverifier G) (d : rdeal G) : Prop :=
  [/\ (sc_index sc < size (rg_parts g))%N, mget (sc_index sc) (rg_verifiers g) = Some v, rverifier_deal v = Some d,
      rverifier_session_id v = Ok (sc_sid sc) & su_verify S (nth 0 (rg_parts g) (sc_index sc)) (sc_hash S sc) (sc_sig sc)].

Lemma deal_in_qual (g : rdkg G) j v d : mget j (rg_verifiers g) = Some v -> rverifier_deal v = Some d -> ris_in_qual g j.
Proof.
rewrite /ris_in_qual /rverifier_deal /rv_certified => ->; case: (rv_agg v) => // a.
by case: (rdeal_certified a) => //; rewrite orbT.
Qed.

(** Admissible commitments that fit the received share are stored and nothing is sent; ones that do not are answered by a
    complaint containing the received deal, signed by the participant, and nothing changes. *)
Theorem C63_complaint (g : rdkg G) (sc : secret_commits G) (k : F) (v : rverifier G) (d : rdeal G) :
  suite_ok S -> su_good S (rg_long g) -> su_good S k -> sc_admissible g sc v d -> sc_commits sc <> [::] ->
  if ps_v (rd_sec d) *: B == pub_share_value (sc_commits sc) (ps_i (rd_sec d)) then
    exists2 g', rprocess_secret_commits S rdeal_enc g sc k = (g', Ok None) &
      [/\ rg_verifiers g' = rg_verifiers g, rg_pending g' = rg_pending g, rg_reconstructed g' = rg_reconstructed g &
          forall j, mget j (rg_commits g') = if j == sc_index sc then Some (PubPoly (Some B) (sc_commits sc)) else mget j (rg_commits g)]
  else
    exists2 cc, rprocess_secret_commits S rdeal_enc g sc k = (g, Ok (Some cc)) &
      [/\ cc_index cc = rg_index g, cc_dealer cc = sc_index sc, cc_deal cc = d &
          su_verify S (rg_long g *: B) (cc_hash S rdeal_enc cc) (cc_sig cc)].
Proof.
move=> okS l0 k0 [lj mv D sid sig] ne; rewrite /rprocess_secret_commits /rg_find_pub find_pubE lj.
rewrite (deal_in_qual mv D) mv sid eqxx sig D /= /pub_check pub_eval_ok /=; last by case: (sc_commits sc) ne.
rewrite eq_sym; case: eqP => e.
- by eexists; first reflexivity; split=> //= j; rewrite mget_minsert.
- by eexists; first reflexivity; split=> //=; exact: (su_sign_ok okS).
Qed.

(** Anything inadmissible is refused and changes nothing. *)
Theorem C63_inadmissible (g : rdkg G) (sc : secret_commits G) (k : F) :
  ~ (exists v d, sc_admissible g sc v d) ->
  exists o, rprocess_secret_commits S rdeal_enc g sc k = (g, o) /\ ~~ is_ok o.
Proof.
move=> H; rewrite /rprocess_secret_commits /rg_find_pub find_pubE.
case: ltnP => lj; last by eexists.
case: ifP => // q; first by eexists.
case mv: mget => [v|]; last by eexists.
case sid: rverifier_session_id => [s|e||]; try by eexists.
case: eqP => [es|_]; last by eexists.
case sig: su_verify; last by eexists.
case D: rverifier_deal => [d|]; last by eexists.
by case: H; exists v, d; split=> //; rewrite sid es.
Qed.

(** An admissible message without commitments makes the participant panic. *)
Theorem C63_empty_commits_panic (g : rdkg G) (sc : secret_commits G) (k : F) (v : rverifier G) (d : rdeal G) :
  sc_admissible g sc v d -> sc_commits sc = [::] -> rprocess_secret_commits S rdeal_enc g sc k = (g, Panic).
Proof.
move=> [lj mv D sid sig] e; rewrite /rprocess_secret_commits /rg_find_pub find_pubE lj.
by rewrite (deal_in_qual mv D) mv sid eqxx sig D /= /pub_check pub_eval_panic.
Qed.

(** A complaint: signed by a member of QUAL, about a dealer whose commitments are stored, with a deal that passes the
    deal checks. *)
Definition cc_admissible (g : rdkg G) (cc : complaint_commits G) (v : rverifier G) (a : raggregator G) (poly : pub_poly G) : Prop :=
  [/\ (cc_index cc < size (rg_parts g))%N /\ ris_in_qual g (cc_index cc),
      su_verify S (nth 0 (rg_parts g) (cc_index cc)) (cc_hash S rdeal_enc cc) (cc_sig cc),
      mget (cc_dealer cc) (rg_verifiers g) = Some v /\ rv_agg v = Some a,
      isSome (ra_deal a) /\ (rverify_deal S a (cc_deal cc) false).2 = Ok tt &
      mget (cc_dealer cc) (rg_commits g) = Some poly].

(** If the deal in the complaint does not fit the stored commitments they are dropped and the participant publishes its
    own share of that dealer, signed; if it does, the complaint is refused and the commitments stay. *)
Theorem C63_complaint_processed (g : rdkg G) (cc : complaint_commits G) (k : F) v a poly own :
  suite_ok S -> su_good S (rg_long g) -> su_good S k -> cc_admissible g cc v a poly -> rverifier_deal v = Some own ->
  pb poly = Some B -> pcommits poly <> [::] ->
  if ps_v (rd_sec (cc_deal cc)) *: B == pub_share_value (pcommits poly) (ps_i (rd_sec (cc_deal cc))) then
    exists2 g', rprocess_complaint_commits S rdeal_enc g cc k = (g', Err CommitComplaintInvalid) &
      rg_commits g' = rg_commits g /\ rg_pending g' = rg_pending g
  else
    exists g' rc, [/\ rprocess_complaint_commits S rdeal_enc g cc k = (g', Ok rc),
      [/\ rc_sid rc = rd_sid (cc_deal cc), rc_index rc = rg_index g, rc_dealer rc = cc_dealer cc, rc_share rc = rd_sec own &
          su_verify S (rg_long g *: B) (rc_hash S rc) (rc_sig rc)],
      forall j, mget j (rg_commits g') = if j == cc_dealer cc then None else mget j (rg_commits g) &
      forall j, odflt [::] (mget j (rg_pending g')) =
        if j == cc_dealer cc then rcons (odflt [::] (mget j (rg_pending g))) rc else odflt [::] (mget j (rg_pending g))].
Proof.
move=> okS l0 k0 [[lj q] sig [mv av] [ad vd] mc] D bp nc.
rewrite /rprocess_complaint_commits /rg_find_pub find_pubE lj q sig /= mv av.
have sa := rverify_deal_state S a (cc_deal cc) false.
have sae : rstored a (cc_deal cc) = a by rewrite /rstored; case: (ra_deal a) ad.
move: sa vd; rewrite sae; case: rverify_deal => [a1 o] /= -> ->.
have ve : rv_set_agg v a = v by case: (v) av => ??????? /= ->.
rewrite ve mc /pub_check pub_eval_ok /=; last by case: (pcommits poly) nc.
rewrite bp D eq_sym /=; case: eqP => e; first by eexists.
eexists; eexists; split; [reflexivity| | |].
- by split=> //=; exact: (su_sign_ok okS).
- by move=> j /=; rewrite mget_mremove.
- by move=> j /=; rewrite mget_minsert; case: eqP => // ->; case: mget.
Qed.

(** A participant that has no commitments of the dealer - it complained itself, or has not heard from the dealer -
    answers no complaint: it never contributes its share. *)
Theorem C63_no_commits_no_answer (g : rdkg G) (cc : complaint_commits G) (k : F) :
  mget (cc_dealer cc) (rg_commits g) = None -> forall rc, (rprocess_complaint_commits S rdeal_enc g cc k).2 <> Ok rc.
Proof.
move=> nc rc; rewrite /rprocess_complaint_commits; case: rg_find_pub => // P; case: ifP => // _; case: ifP => // _.
case M: mget => [v|] //; case A: (rv_agg v) => [a|] //; case V: rverify_deal => [a1 [u|e||]] //=.
by rewrite nc.
Qed.

(** Reconstruct messages for a dealer whose commitments are still stored are refused and lost. *)
Theorem C63_early_reconstruct_lost (hord : hash_order F) (g : rdkg G) (rc : reconstruct_commits F) :
  rc_dealer rc \notin rg_reconstructed g -> mget (rc_dealer rc) (rg_commits g) <> None ->
  rprocess_reconstruct_commits S hord g rc = (g, Err CommitmentsNotInvalidated).
Proof. by rewrite /rprocess_reconstruct_commits => /negPf ->; case: mget. Qed.

(** *** Reconstruction *)
(** A genuine reconstruct message for dealer j with polynomial f. *)
Definition rc_genuine (g : rdkg G) (sid : bytestr) (j : nat) (f : seq F) (rc : reconstruct_commits F) : Prop :=
  [/\ rc_dealer rc = j, rc_sid rc = sid, (rc_index rc < size (rg_parts g))%N,
      su_verify S (nth 0 (rg_parts g) (rc_index rc)) (rc_hash S rc) (rc_sig rc) &
      rc_share rc = PriShare (rc_index rc) (share_value f (rc_index rc))].

Definition reconstruct_run (hord : hash_order F) (g : rdkg G) (rcs : seq (reconstruct_commits F)) : rdkg G * bool :=
  foldl (fun gb rc => let '(g', o) := rprocess_reconstruct_commits S hord gb.1 rc in (g', gb.2 && is_ok o)) (g, true) rcs.

Lemma rscan_genuine sid (rc : reconstruct_commits F) arr : (forall r, List.In r arr -> rc_sid r = sid) -> rc_sid rc = sid ->
  rscan rc arr = if rc_index rc \in map (@rc_index F) arr then Some (Ok tt) else None.
Proof.
move=> H e; elim: arr H => //= r arr IH H; rewrite inE eq_sym (H r) ?e ?eqxx; last by left.
by case: eqP => //= _; apply: IH => r' h; apply: H; right.
Qed.

(** Nothing about the dealer is decided yet: pending messages arr. *)
Definition rc_open (g : rdkg G) (sid : bytestr) (j : nat) (f : seq F) (arr : seq (reconstruct_commits F)) : Prop :=
  [/\ j \notin rg_reconstructed g, mget j (rg_commits g) = None, odflt [::] (mget j (rg_pending g)) = arr,
      (forall r, List.In r arr -> rc_genuine g sid j f r) & uniq (map (@rc_index F) arr)].
Definition rc_done (g : rdkg G) (j : nat) (f : seq F) : Prop :=
  j \in rg_reconstructed g /\ mget j (rg_commits g) = Some (PubPoly (Some B) [seq c *: B | c <- f]).

Lemma rc_step (p : nat) hord g sid j f arr rc : p \in [char F] -> (forall k l, perm_eq (hord k l) l) -> (0 < rg_t g)%N ->
  (size (rg_parts g) < p)%N ->
  size f = rg_t g -> rc_open g sid j f arr -> rc_genuine g sid j f rc ->
  exists2 g', rprocess_reconstruct_commits S hord g rc = (g', Ok tt) &
    [/\ rg_parts g' = rg_parts g, rg_t g' = rg_t g, (forall i, i != j -> mget i (rg_commits g') = mget i (rg_commits g)) &
    if rc_index rc \in map (@rc_index F) arr then rc_open g' sid j f arr
    else if (rg_t g <= (size arr).+1)%N then rc_done g' j f else rc_open g' sid j f (rcons arr rc)].
Proof.
move=> ch po t0 np sf [h1 h2 h3 h4 h5] gn; have [g1 g2 g3 g4 g5] := gn.
rewrite /rprocess_reconstruct_commits g1 (negPf h1) h2 /rg_find_pub find_pubE g3 g4 /=.
have -> : (if mget j (rg_pending g) is Some l then l else [::]) = arr by rewrite -h3; case: mget.
rewrite (rscan_genuine (sid := sid)) // => [|r /h4 []] //.
case: ifP => mi.
  eexists; first reflexivity; split=> //=; split=> //=.
  by rewrite mget_minsert eqxx.
rewrite size_rcons; case: ifP => lt; last first.
  eexists; first reflexivity; split=> //=; split=> //=.
  - by rewrite mget_minsert eqxx.
  - by move=> r; rewrite -cats1 => /List.in_app_iff [/h4|[<-|]].
  - by rewrite map_rcons rcons_uniq mi.
rewrite (C04_recover_pri_poly (f := f) ch po) //; first last.
- have -> : [seq ps_i s | s <- pmap id [seq Some (rc_share r) | r <- rcons arr rc]] = map (@rc_index F) (rcons arr rc).
    have : forall r, List.In r (rcons arr rc) -> ps_i (rc_share r) = rc_index r.
      by move=> r; rewrite -cats1 => /List.in_app_iff [/h4 [_ _ _ _ ->]|[<-|]] //; rewrite g5.
    elim: (rcons arr rc) => //= r l IH H; rewrite (H r) ?IH //; first by move=> r' h; apply: H; right.
    by left.
  exists (take (rg_t g) (map (@rc_index F) (rcons arr rc))) => [|q /mem_take //].
  split; last by rewrite size_takel // size_map size_rcons.
  by apply: take_uniq; rewrite map_rcons rcons_uniq mi.
- move=> s /List.in_map_iff [r [[<-]]]; rewrite -cats1 => /List.in_app_iff [/h4 [_ _ q _ ->]|[<-|]] //=.
    by split=> //; exact: leq_ltn_trans np.
  by rewrite g5 /=; split=> //; exact: leq_ltn_trans np.
eexists; first reflexivity; split=> //=.
  by move=> i nj; rewrite mget_minsert (negPf nj).
by split=> /=; rewrite ?inE ?eqxx // mget_minsert eqxx.
Qed.

(** Genuine messages from any participants, in any order, repeated or not: none is refused, and as soon as t different
    participants have contributed, the stored commitments of the dealer are those of its polynomial and stay so. *)
Theorem C63_reconstruct (p : nat) (hord : hash_order F) (g : rdkg G) (sid : bytestr) (j : nat) (f : seq F)
    (arr rcs : seq (reconstruct_commits F)) :
  p \in [char F] -> (forall k l, perm_eq (hord k l) l) -> (0 < rg_t g)%N -> (size (rg_parts g) < p)%N -> size f = rg_t g ->
  rc_open g sid j f arr -> (size arr < rg_t g)%N -> (forall rc, List.In rc rcs -> rc_genuine g sid j f rc) ->
  let '(g', ok) := reconstruct_run hord g rcs in
  [/\ ok, forall i, i != j -> mget i (rg_commits g') = mget i (rg_commits g) &
  if (rg_t g <= size (undup (map (@rc_index F) (arr ++ rcs))))%N then
    mget j (rg_commits g') = Some (PubPoly (Some B) [seq c *: B | c <- f])
  else mget j (rg_commits g') = None].
Proof.
move=> ch po; rewrite /reconstruct_run; elim: rcs g arr => [|rc rcs IH] g arr t0 np sf op lt gn /=.
  have [h1 h2 _ _ u] := op.
  by rewrite cats0 undup_id // size_map leqNgt lt.
have gr : rc_genuine g sid j f rc by apply: gn; left.
have [g' E [ep et ec H]] := rc_step ch po t0 np sf op gr; rewrite E /=.
have gn' r : List.In r rcs -> rc_genuine g' sid j f r.
  by move=> h; have [a1 a2 a3 a4 a5] : rc_genuine g sid j f r by [apply: gn; right]; split=> //; rewrite ep.
case: ifP H => mi H.
  have := IH g' arr; rewrite ep et => /(_ t0 np sf H lt gn').
  case: foldl => g2 ok [k1 k2 k3]; split=> //; first by move=> i ni; rewrite k2 // ec.
  suff -> : size (undup [seq rc_index i | i <- arr ++ rc :: rcs]) = size (undup [seq rc_index i | i <- arr ++ rcs]) by [].
  rewrite !map_cat /=; apply/perm_size/uniq_perm; rewrite ?undup_uniq // => q.
  rewrite !mem_undup !mem_cat inE; case: eqP => [->|] //=; by rewrite mi.
have [_ _ _ _ u] := op.
case: ifP H => lt2 H; last first.
  have lt3 : (size (rcons arr rc) < rg_t g)%N by rewrite size_rcons ltnNge lt2.
  have := IH g' (rcons arr rc); rewrite ep et => /(_ t0 np sf H lt3 gn').
  case: foldl => g2 ok [k1 k2 k3]; split=> //; first by move=> i ni; rewrite k2 // ec.
  by move: k3; rewrite cat_rcons.
have tl : (rg_t g <= size (undup [seq rc_index i | i <- arr ++ rc :: rcs]))%N.
  apply: (leq_trans lt2); rewrite -(size_map (@rc_index F)) -[in X in (X <= _)%N]/(size (rc_index rc :: _)).
  apply: uniq_leq_size; first by rewrite /= mi.
  by move=> q; rewrite inE mem_undup map_cat mem_cat /= inE orbCA => /orP[->|->]; rewrite ?orbT.
rewrite tl {IH gn E op lt mi lt2 tl u}.
have K : forall rcs0 (gb : rdkg G), rc_done gb j f -> (forall r, List.In r rcs0 -> rc_dealer r = j) ->
    foldl (fun gb rc => let '(g', o) := rprocess_reconstruct_commits S hord gb.1 rc in (g', gb.2 && is_ok o)) (gb, true) rcs0 = (gb, true).
  elim=> //= r l IH gb [d1 d2] h; rewrite /rprocess_reconstruct_commits (h r) ?d1 //=; last by left.
  by apply: IH => // r' h'; apply: h; right.
rewrite K => // [|r /gn' []] //.
by case: H => _ ->.
Qed.
End C63.
Print Assumptions C63_complaint.
Print Assumptions C63_inadmissible.
Print Assumptions C63_empty_commits_panic.
Print Assumptions C63_complaint_processed.
Print Assumptions C63_no_commits_no_answer.
Print Assumptions C63_early_reconstruct_lost.
Print Assumptions C63_reconstruct.

(** *** Toy runs *)
Definition kno_sc : secret_commits V := @SecretCommits K V 99 [::] [::] [::].
Definition knet (acts : seq ract) : rnet V :=
  odflt (rnet0 krgen) (rnet_run ktoy krdeal_enc krdeal_dec krcoins (rnet0 krgen) acts).
(** Everybody has all deals and answers. *)
Definition kq (i : nat) : rdkg V := rn_node (knet (map RAct krphase1)) i.
Definition kstepr := rgstep ktoy krdeal_enc krdeal_dec.
Definition kprocess_sc (g : rdkg V) (sc : secret_commits V) := rprocess_secret_commits ktoy krdeal_enc g sc (K1 : K).
Definition kprocess_cc (g : rdkg V) (cc : complaint_commits V) := rprocess_complaint_commits ktoy krdeal_enc g cc (K1 : K).
Definition kprocess_rc (g : rdkg V) (rc : reconstruct_commits K) := rprocess_reconstruct_commits ktoy (fun _ l => l) g rc.
Definition ksc (i : nat) : secret_commits V := if (rsecret_commits ktoy (kq i) (K1 : K)).2 is Ok sc then sc else kno_sc.
(** Participant 2 reveals these commitments instead of its own. *)
Definition kbad_sc (cs : seq V) : secret_commits V :=
  let sc := @SecretCommits K V 2 cs (sc_sid (ksc 2)) [::] in
  @SecretCommits K V 2 cs (sc_sid (ksc 2)) (su_sign ktoy (K3 : K) (sc_hash ktoy sc) (K1 : K)).
Definition kdeal_of (i j : nat) : rdeal V :=
  nth (@RDeal K V [::] (@PriShare K 0 (K0 : K)) (@PriShare K 0 (K0 : K)) 0 [::]) (rl_deals (rhdealer ktoy krkeys 2 krkey krsec krfp krgp j)) i.
(** Participants 0 and 1 revealed their commitments to each other. *)
Definition kr (i : nat) : rdkg V := (kprocess_sc (rsecret_commits ktoy (kq i) (K1 : K)).1 (ksc (1 - i))).1.

Definition get_cc (o : outcome rdkg_error (option (complaint_commits V))) : complaint_commits V :=
  if o is Ok (Some cc) then cc else @ComplaintCommits K V 99 99 (kdeal_of 0 0) [::].
Definition get_rc (o : outcome rdkg_error (reconstruct_commits K)) : reconstruct_commits K :=
  if o is Ok rc then rc else @ReconstructCommits K [::] 99 99 (@PriShare K 0 (K0 : K)) [::].
Lemma get_ccE o : (if o is Ok (Some _) then true else false) -> o = Ok (Some (get_cc o)). Proof. by case: o => // -[]. Qed.
Lemma get_rcE o : is_ok o -> o = Ok (get_rc o). Proof. by case: o. Qed.
(** Participant 2 reveals 1 + X instead of 4 + 3X: right at participant 1, wrong at participant 0, which complains; 1
    answers with its share. *)
Definition kwrong : secret_commits V := kbad_sc [:: K1 : V; K1 : V].
Definition kcc : complaint_commits V := get_cc (kprocess_sc (kr 0) kwrong).2.
Definition kr1' : rdkg V := (kprocess_sc (kr 1) kwrong).1.
Definition krc1 : reconstruct_commits K := get_rc (kprocess_cc kr1' kcc).2.
Definition kforged : reconstruct_commits K :=
  let rc := @ReconstructCommits K (rc_sid krc1) 2 2 (@PriShare K 2 (K1 : K)) [::] in
  @ReconstructCommits K (rc_sid krc1) 2 2 (@PriShare K 2 (K1 : K)) (su_sign ktoy (K3 : K) (rc_hash ktoy rc) (K1 : K)).
(** Participant 2 forges a deal of participant 0 and complains about participant 0, which did nothing wrong. *)
Definition kfalse_cc : complaint_commits V :=
  let d := @RDeal K V (rd_sid (kdeal_of 2 0)) (@PriShare K 2 (K1 : K)) (@PriShare K 2 (K0 : K)) 2 [:: K1 : V; K0 : V] in
  let cc := @ComplaintCommits K V 2 0 d [::] in
  @ComplaintCommits K V 2 0 d (su_sign ktoy (K3 : K) (cc_hash ktoy krdeal_enc cc) (K1 : K)).
Definition kver (g : rdkg V) (j : nat) : rverifier V := odflt (rhver ktoy krkeys krkey 0 0) (mget j (rg_verifiers g)).
Definition kagg (g : rdkg V) (j : nat) : raggregator V := odflt (rl_agg (rg_dealer g)) (rv_agg (kver g j)).
Definition kpoly (g : rdkg V) (j : nat) : pub_poly V := odflt (@PubPoly K V None [::]) (mget j (rg_commits g)).

(** Participant 0 finds the commitments wrong and participant 1 finds them right; both are admissible. *)
Example C63_complaint_nonvacuous :
  [/\ sc_admissible ktoy (kr 0) kwrong (kver (kr 0) 2) (kdeal_of 0 2), sc_admissible ktoy (kr 1) kwrong (kver (kr 1) 2) (kdeal_of 1 2),
      ps_v (rd_sec (kdeal_of 0 2)) *: su_base ktoy != pub_share_value (sc_commits kwrong) (ps_i (rd_sec (kdeal_of 0 2))) &
      ps_v (rd_sec (kdeal_of 1 2)) *: su_base ktoy == pub_share_value (sc_commits kwrong) (ps_i (rd_sec (kdeal_of 1 2)))].
Proof.
have E (b c : K) i : pub_share_value ([:: b; c] : seq V) i = b *: su_base ktoy + (i.+1%:R : K) *: (c : V).
  rewrite /pub_share_value /geval /= !big_ord_recl big_ord0 addr0 expr0 expr1 scale1r; congr (_ + _).
  by rewrite /GRing.scale /= mulr1.
split.
- split.
  + by vm_cast_no_check (erefl true).
  + by vm_cast_no_check (erefl (Some (kver (kr 0) 2))).
  + by vm_cast_no_check (erefl (Some (kdeal_of 0 2))).
  + by vm_cast_no_check (erefl (@Ok vss_error _ (sc_sid kwrong))).
  + by vm_cast_no_check (erefl true).
- split.
  + by vm_cast_no_check (erefl true).
  + by vm_cast_no_check (erefl (Some (kver (kr 1) 2))).
  + by vm_cast_no_check (erefl (Some (kdeal_of 1 2))).
  + by vm_cast_no_check (erefl (@Ok vss_error _ (sc_sid kwrong))).
  + by vm_cast_no_check (erefl true).
- have -> : sc_commits kwrong = ([:: K1 : K; K1 : K] : seq V) by [].
  by rewrite E; vm_cast_no_check (erefl true).
- have -> : sc_commits kwrong = ([:: K1 : K; K1 : K] : seq V) by [].
  by rewrite E; vm_cast_no_check (erefl true).
Qed.

(** Participant 1 answers the complaint of participant 0 with its share. *)
Example C63_complaint_processed_nonvacuous :
  [/\ cc_admissible ktoy krdeal_enc kr1' kcc (kver kr1' 2) (kagg kr1' 2) (kpoly kr1' 2), rverifier_deal (kver kr1' 2) = Some (kdeal_of 1 2),
      pb (kpoly kr1' 2) = Some (su_base ktoy), pcommits (kpoly kr1' 2) = [:: K1 : V; K1 : V] & rc_share krc1 = @PriShare K 1 (K3 : K)].
Proof.
split.
- split.
  + by split; vm_cast_no_check (erefl true).
  + by vm_cast_no_check (erefl true).
  + by split; [vm_cast_no_check (erefl (Some (kver kr1' 2)))|vm_cast_no_check (erefl (Some (kagg kr1' 2)))].
  + by split; [vm_cast_no_check (erefl true)|vm_cast_no_check (erefl (@Ok vss_error _ tt))].
  + by vm_cast_no_check (erefl (Some (kpoly kr1' 2))).
- by vm_cast_no_check (erefl (Some (kdeal_of 1 2))).
- by vm_cast_no_check (erefl (Some (su_base ktoy))).
- by vm_cast_no_check (erefl ([:: K1 : V; K1 : V])).
- by vm_cast_no_check (erefl (@PriShare K 1 (K3 : K))).
Qed.

(** The full statement "after t valid reconstruct messages ... forged shares cannot change it" fails: the share in a
    reconstruct message is believed.  Dealer 2 reveals wrong commitments; the complaint and the answer of the honest
    participants are as they should be; then dealer 2 sends one reconstruct message with a made-up share.  Both honest
    participants end with commitments that are not those of the dealer's polynomial 4 + 3X, and participant 0 with a share
    that does not match them. *)
Theorem C63_forged_refuted :
  exists s0 s1, let g0 := (kprocess_rc (kprocess_rc (kr 0) krc1).1 kforged).1 in let g1 := (kprocess_rc (kprocess_cc kr1' kcc).1 kforged).1 in
  [/\ rdist_key_share id g0 = Ok s0, rdist_key_share id g1 = Ok s1, rk_commits s0 = rk_commits s1,
      pcommits (kpoly g0 2) <> [seq c *: su_base ktoy | c <- rhpoly 2 krsec krfp 2] &
      ps_v (rk_share s0) *: su_base ktoy <> pub_share_value (rk_commits s0) (ps_i (rk_share s0))].
Proof.
pose s i v := @RDKShare K V [:: K5 : V; K1 : V] (@PriShare K i v).
exists (s 0%N (K1 : K)), (s 1%N (K0 : K)); split.
- by vm_cast_no_check (erefl (@Ok rdkg_error _ (s 0%N (K1 : K)))).
- by vm_cast_no_check (erefl (@Ok rdkg_error _ (s 1%N (K0 : K)))).
- by [].
- have -> : pcommits (kpoly (kprocess_rc (kprocess_rc (kr 0) krc1).1 kforged).1 2) = [:: K0 : V; K5 : V].
    by vm_cast_no_check (erefl ([:: K0 : V; K5 : V])).
  by [].
- by rewrite /pub_share_value /geval /= !big_ord_recl big_ord0.
Qed.
Print Assumptions C63_forged_refuted.

(** The full statement also fails without forgery: the complainer has no commitments to answer its own complaint with, so
    its share never enters.  Dealer 2 reveals commitments that are wrong at participant 0 only and then stays silent: with
    all messages of the t = 2 honest participants delivered, neither can ever finish. *)
Theorem C63_stuck_refuted :
  let g0 := (kprocess_rc (kprocess_sc (kr 0) kwrong).1 krc1).1 in let g1 := (kprocess_cc kr1' kcc).1 in
  [/\ (kprocess_sc (kr 0) kwrong).2 = Ok (Some kcc), (kprocess_cc kr1' kcc).2 = Ok krc1,
      (kprocess_cc (kr 0) kcc).2 = Err CommitComplaintNoCommits,
      rdist_key_share id g0 = Err ProtocolNotFinished & rdist_key_share id g1 = Err ProtocolNotFinished].
Proof.
split.
- by apply: get_ccE; vm_cast_no_check (erefl true).
- by apply: get_rcE; vm_cast_no_check (erefl true).
- by vm_cast_no_check (erefl (@Err rdkg_error (reconstruct_commits K) CommitComplaintNoCommits)).
- by vm_cast_no_check (erefl (@Err rdkg_error (rdkshare V) ProtocolNotFinished)).
- by vm_cast_no_check (erefl (@Err rdkg_error (rdkshare V) ProtocolNotFinished)).
Qed.
Print Assumptions C63_stuck_refuted.

(** Commitments of the wrong length that fit the honest shares are accepted without complaint, and then nobody gets a
    key: dealer 2 reveals 6 + X^2. *)
Definition klong_sc : secret_commits V := kbad_sc [:: K6 : V; K0 : V; K1 : V].
Theorem C63_length_refuted :
  [/\ (kprocess_sc (kr 0) klong_sc).2 = Ok None, (kprocess_sc (kr 1) klong_sc).2 = Ok None,
      rfinished id (kprocess_sc (kr 0) klong_sc).1,
      is_err (rdist_key_share id (kprocess_sc (kr 0) klong_sc).1) & is_err (rdist_key_share id (kprocess_sc (kr 1) klong_sc).1)].
Proof.
split.
- by vm_cast_no_check (erefl (@Ok rdkg_error (option (complaint_commits V)) None)).
- by vm_cast_no_check (erefl (@Ok rdkg_error (option (complaint_commits V)) None)).
- by vm_cast_no_check (erefl true).
- by vm_cast_no_check (erefl true).
- by vm_cast_no_check (erefl true).
Qed.
Print Assumptions C63_length_refuted.

(** ** C74: only a dealer that revealed wrong commitments has its shares published *)
(** If the deal in a complaint is the one the dealer gave to that participant, and the stored commitments are those of the
    dealer's polynomial, the complaint is refused and nothing is published. *)
Theorem C74_honest_dealer_partial (F : fieldType) (G : lmodType F) (S : suite G) rdeal_enc (g : rdkg G) (cc : complaint_commits G) (k : F)
    v a own (f : seq F) :
  suite_ok S -> su_good S (rg_long g) -> su_good S k ->
  cc_admissible S rdeal_enc g cc v a (PubPoly (Some (su_base S)) [seq c *: su_base S | c <- f]) -> rverifier_deal v = Some own ->
  f <> [::] -> ps_v (rd_sec (cc_deal cc)) = share_value f (ps_i (rd_sec (cc_deal cc))) ->
  exists2 g', rprocess_complaint_commits S rdeal_enc g cc k = (g', Err CommitComplaintInvalid) &
    rg_commits g' = rg_commits g /\ rg_pending g' = rg_pending g.
Proof.
move=> okS l0 k0 ad D nf e; have := C63_complaint_processed okS l0 k0 ad D erefl.
have nc : pcommits (PubPoly (Some (su_base S)) [seq c *: su_base S | c <- f]) <> [::] by case: f nf {ad e}.
move=> /(_ nc); rewrite e share_value_eval pri_eval_v.
by rewrite /pub_share_value -[geval _ _]/(gsum _ (xcoord F _)) (gsum_commit (su_base S) f None) eqxx.
Qed.
Print Assumptions C74_honest_dealer_partial.
(** The full statement - for every complaint about an honest dealer - fails: the deal in a complaint is only compared with
    itself.  A deal with commitments of the complainer's choosing under the right session id passes, does not fit the
    revealed commitments, and every honest participant publishes its share of the honest dealer 0; two of them reveal its
    polynomial 2 + X. *)
Definition kleak (i : nat) : reconstruct_commits K := get_rc (kprocess_cc (kr i) kfalse_cc).2.
Theorem C74_false_complaint_refuted :
  [/\ pcommits (kpoly (kr 0) 0) = [seq c *: su_base ktoy | c <- rhpoly 2 krsec krfp 0], pcommits (kpoly (kr 1) 0) = pcommits (kpoly (kr 0) 0),
      (kprocess_cc (kr 0) kfalse_cc).2 = Ok (kleak 0), (kprocess_cc (kr 1) kfalse_cc).2 = Ok (kleak 1) &
      recover_pri_poly (fun _ l => l) [:: Some (rc_share (kleak 0)); Some (rc_share (kleak 1))] 2 = Ok (rhpoly 2 krsec krfp 0)].
Proof.
split.
- by vm_cast_no_check (erefl ([:: K2 : V; K1 : V])).
- by vm_cast_no_check (erefl ([:: K2 : V; K1 : V])).
- by apply: get_rcE; vm_cast_no_check (erefl true).
- by apply: get_rcE; vm_cast_no_check (erefl true).
- by vm_cast_no_check (erefl (@Ok poly_error _ [:: K2 : K; K1 : K])).
Qed.
Print Assumptions C74_false_complaint_refuted.

(** Comparison by fields, to keep the kernel from comparing unevaluated messages. *)
Definition rc_eqb (a b : reconstruct_commits K) : bool :=
  [&& rc_sid a == rc_sid b, rc_index a == rc_index b, rc_dealer a == rc_dealer b, ps_i (rc_share a) == ps_i (rc_share b),
      ps_v (rc_share a) == ps_v (rc_share b) & rc_sig a == rc_sig b].
Lemma rc_single l b : (if l is [:: a] then rc_eqb a b else false) -> l = [:: b].
Proof.
case: l => [//|[s i d [j w] g] [|//]]; case: b => s' i' d' [j' w'] g' /and5P[/eqP/= -> /eqP/= -> /eqP/= -> /eqP/= -> ].
by case/andP => /eqP/= -> /eqP/= ->.
Qed.
(** Non-vacuity of [C63_reconstruct]: participant 1 after that complaint, receiving the message of 0 twice. *)
Example C63_reconstruct_nonvacuous :
  let g := (kprocess_cc (kr 1) kfalse_cc).1 in let sid := rd_sid (kdeal_of 2 0) in let f := rhpoly 2 krsec krfp 0 in
  [/\ rc_open ktoy g sid 0 f [:: kleak 1], (forall rc, List.In rc [:: kleak 0; kleak 0] -> rc_genuine ktoy g sid 0 f rc),
      7%N \in [char K], size f = rg_t g & (size (rg_parts g) < 7)%N].
Proof.
have S0 : share_value (rhpoly 2 krsec krfp 0) 0 = (K3 : K) by rewrite share_value_eval; vm_compute.
have S1 : share_value (rhpoly 2 krsec krfp 0) 1 = (K4 : K) by rewrite share_value_eval; vm_compute.
have G0 i : (i < 2)%N -> rc_genuine ktoy (kprocess_cc (kr 1) kfalse_cc).1 (rd_sid (kdeal_of 2 0)) 0 (rhpoly 2 krsec krfp 0) (kleak i).
  case: i => [|[|//]] _; split.
  - by vm_cast_no_check (erefl 0%N).
  - by apply/eqP; vm_cast_no_check (erefl true).
  - by vm_cast_no_check (erefl true).
  - by vm_cast_no_check (erefl true).
  - by have -> : rc_index (kleak 0) = 0%N; [vm_cast_no_check (erefl 0%N)|rewrite S0; vm_cast_no_check (erefl (@PriShare K 0 (K3 : K)))].
  - by vm_cast_no_check (erefl 0%N).
  - by apply/eqP; vm_cast_no_check (erefl true).
  - by vm_cast_no_check (erefl true).
  - by vm_cast_no_check (erefl true).
  - by have -> : rc_index (kleak 1) = 1%N; [vm_cast_no_check (erefl 1%N)|rewrite S1; vm_cast_no_check (erefl (@PriShare K 1 (K4 : K)))].
split.
- split.
  + by vm_cast_no_check (erefl true).
  + by vm_cast_no_check (erefl (@None (pub_poly V))).
  + by apply: rc_single; vm_cast_no_check (erefl true).
  + by move=> r [<-|[]]; exact: G0.
  + by [].
- by move=> rc [<-|[<-|[]]]; exact: G0.
- exact: charK.
- by vm_cast_no_check (erefl 2%N).
- by vm_cast_no_check (erefl true).
Qed.

(** Non-vacuity of [C62_share_matches]: participant 0, with the wrong commitments of participant 2 first. *)
Definition kmsg_deal (j i : nat) : rgevent V :=
  if rn_deal (knet (map RAct krphase1)) j i is Some dd then RGDeal dd (K1 : K) else RGTimeout V.
Definition kmsg_resp (j k : nat) : rgevent V :=
  if rn_resp (knet (map RAct krphase1)) j k is Some r then RGResponse V r (K1 : K) else RGTimeout V.
Definition kevents : seq (rgevent V) :=
  [:: RGDeals V (fun _ => (K2 : K, K1 : K)) (K1 : K); kmsg_deal 1 0; kmsg_deal 2 0; kmsg_resp 0 1; kmsg_resp 0 2; kmsg_resp 1 2;
      kmsg_resp 2 1; RGSecret V (K1 : K); RGSecretCommits (ksc 1) (K1 : K); RGSecretCommits kwrong (K1 : K); RGSecretCommits (ksc 2) (K1 : K)].
Example C62_share_matches_nonvacuous :
  let g := rgrun ktoy krdeal_enc krdeal_dec (krgen 0) kevents in
  [/\ new_rdkg ktoy (krkey 0) krkeys 2 (krsec 0) (krfp 0) (krgp 0) = Ok (krgen 0),
      [seq (if ev is RGDeal dd _ then rdd_index dd else 99%N) | ev <- kevents] = [:: 99; 1; 2; 99; 99; 99; 99; 99; 99; 99; 99]%N,
      rg_reconstructed g = [::], rqual id g = [:: 0; 1; 2]%N &
      rdist_key_share id g = Ok (@RDKShare K V [:: K2 : V; K6 : V] (@PriShare K 0 (K1 : K)))].
Proof.
split.
- by have [_ _ H] := krfresh; exact: (H 0%N isT).
- by vm_cast_no_check (erefl [:: 99; 1; 2; 99; 99; 99; 99; 99; 99; 99; 99]%N).
- by vm_cast_no_check (erefl (@nil nat)).
- by vm_cast_no_check (erefl [:: 0; 1; 2]%N).
- by vm_cast_no_check (erefl (@Ok rdkg_error _ (@RDKShare K V [:: K2 : V; K6 : V] (@PriShare K 0 (K1 : K))))).
Qed.
