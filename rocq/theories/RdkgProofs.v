(** Proofs about the Rabin DKG model (RdkgModel.v). *)
From mathcomp Require Import all_ssreflect all_algebra.
From mathcomp Require Import zify.
From Verif Require Import Base Lagrange PolyModel PolySpec PolyProofs PolyProps Suite VssModel VssSpec VssProofs.
From Verif Require Import RvssModel RvssSpec RvssProofs DkgModel DkgSpec DkgProofs RdkgModel RdkgSpec.

Set Implicit Arguments.
Unset Strict Implicit.
Unset Printing Implicit Defensive.

Import GRing.Theory.
Local Open Scope ring_scope.
Local Open Scope outcome_scope.

Lemma phase1_rcons A a : phase1 (rcons A a) = if a is inl b then rcons (phase1 A) b else phase1 A.
Proof. by rewrite /phase1 -cats1 pmap_cat; case: a => [b|b] /=; rewrite ?cats1 ?cats0. Qed.
Lemma phase1_in A b : (b \in phase1 A) = (RAct b \in A).
Proof. by elim: A => //= -[c|c] A IH /=; rewrite ?inE IH. Qed.

Section Rdkg.
Variables (F : fieldType) (G : lmodType F) (S : suite G).
Notation B := (su_base S).
Variable rdeal_enc : rdeal G -> bytestr.
Variable rdeal_dec : bytestr -> option (rdeal G).

Lemma radd_state (a : raggregator G) r : [/\ ra_verifiers (radd_response a r).1 = ra_verifiers a, ra_bad (radd_response a r).1 = ra_bad a,
  ra_deal (radd_response a r).1 = ra_deal a, ra_sid (radd_response a r).1 = ra_sid a & ra_t (radd_response a r).1 = ra_t a].
Proof. by rewrite /radd_response; case: find_pub => // q; case: mget. Qed.

Lemma rwf_add (a : raggregator G) r : rwf a -> rwf (radd_response a r).1.
Proof.
move=> w; case E: (radd_response a r) => [a' o]; case: (radd_responseP E) => [[_ [h1 [_ ->]]]|[_ ->]] //=.
exact: rwf_insert.
Qed.

(** ** The key *)
Definition rkey_step (g : rdkg G) (acc : F * option (pub_poly G)) (iv : nat * rverifier G) : outcome rdkg_error (F * option (pub_poly G)) :=
  let '(sh, pubb) := acc in
  match rverifier_deal iv.2 with
  | None => Err RDealsNotFound
  | Some d =>
      let sh := sh + ps_v (rd_sec d) in
      match mget iv.1 (rg_commits g) with
      | None => Err ProtocolNotFinished
      | Some poly =>
          match pubb with
          | Some p => let! p' := rpoly (pub_add p poly) in Ok (sh, Some p')
          | None => Ok (sh, Some poly)
          end
      end
  end.
Lemma rdist_key_shareE vord (g : rdkg G) : rdist_key_share vord g =
  if ~~ rcertified vord g then Err RDistributedKeyNotCertified else
  bindo (foldo (rkey_step g) (0, None) (rqual_entries vord g)) (fun r => let '(sh, pubb) := r in
    let! p := of_option pubb in Ok (RDKShare (pcommits p) (PriShare (rg_index g) sh))).
Proof. by []. Qed.

Lemma rkey_fold g (d : nat -> rdeal G) (cs : nat -> seq G) (b : option G) (m : nat) (l : seq (nat * rverifier G)) sh p :
  (forall iv, List.In iv l -> rverifier_deal iv.2 = Some (d iv.1)) ->
  (forall j, j \in map fst l -> mget j (rg_commits g) = Some (PubPoly b (cs j)) /\ size (cs j) = m) ->
  size (pcommits p) = m ->
  foldo (rkey_step g) (sh, Some p) l =
  Ok (sh + \sum_(j <- map fst l) ps_v (rd_sec (d j)),
      Some (PubPoly (pb p) (mkseq (fun q => nth 0 (pcommits p) q + \sum_(j <- map fst l) nth 0 (cs j) q) m))).
Proof.
elim: l sh p => [|[j v] l IH] sh p hv hs sp /=.
  rewrite !big_nil addr0; case: p sp => b' cs' /= <-; congr (Ok (_, Some (PubPoly _ _))).
  by rewrite -[LHS](mkseq_nth 0); apply: eq_map => q; rewrite big_nil addr0.
rewrite (hv (j, v)) /=; last by left.
have [e1 e2] := hs j (mem_head _ _); rewrite e1 /pub_add sp /= e2 eqxx /=.
have sv : size (vadd (pcommits p) (cs j)) = m by rewrite size_vadd sp e2 minnn.
rewrite IH //; first 1 last.
- by move=> iv h; apply: hv; right.
- by move=> q h; apply: hs; rewrite inE h orbT.
rewrite big_cons addrA /=; congr (Ok (_, Some (PubPoly _ _))).
by apply: eq_map => q; rewrite big_cons addrA nth_vadd // sp e2.
Qed.

Lemma rkey_fold0 g (d : nat -> rdeal G) (cs : nat -> seq G) (b : option G) (m : nat) (l : seq (nat * rverifier G)) :
  (forall iv, List.In iv l -> rverifier_deal iv.2 = Some (d iv.1)) ->
  (forall j, j \in map fst l -> mget j (rg_commits g) = Some (PubPoly b (cs j)) /\ size (cs j) = m) ->
  l <> [::] ->
  foldo (rkey_step g) (0, None) l =
  Ok (\sum_(j <- map fst l) ps_v (rd_sec (d j)),
      Some (PubPoly b (mkseq (fun q => \sum_(j <- map fst l) nth 0 (cs j) q) m))).
Proof.
case: l => // [[j v] l] hv hs _ /=; rewrite (hv (j, v)) /=; last by left.
have [e1 e2] := hs j (mem_head _ _); rewrite e1 /= (@rkey_fold g d cs b m) //=; first 1 last.
- by move=> iv h; apply: hv; right.
- by move=> q h; apply: hs; rewrite inE h orbT.
rewrite add0r big_cons; congr (Ok (_, Some (PubPoly _ _))).
by apply: eq_map => q; rewrite big_cons.
Qed.

(** Some member's commitments are missing. *)
Lemma rkey_fold_missing g (d : nat -> rdeal G) (cs : nat -> seq G) (b : option G) (m : nat) (l : seq (nat * rverifier G)) acc :
  (forall iv, List.In iv l -> rverifier_deal iv.2 = Some (d iv.1)) ->
  (forall j, j \in map fst l -> mget j (rg_commits g) = None \/ mget j (rg_commits g) = Some (PubPoly b (cs j)) /\ size (cs j) = m) ->
  (forall p, acc.2 = Some p -> size (pcommits p) = m) ->
  has (fun j => ~~ isSome (mget j (rg_commits g))) (map fst l) ->
  foldo (rkey_step g) acc l = Err ProtocolNotFinished.
Proof.
elim: l acc => [|[j v] l IH] [sh pubb] //= hv hs sp hh.
rewrite (hv (j, v)) /=; last by left.
case: (hs j (mem_head _ _)) => [->//|[e1 e2]]; rewrite e1 /=; rewrite e1 /= in hh.
have K acc : (forall p, acc.2 = Some p -> size (pcommits p) = m) -> foldo (rkey_step g) acc l = Err ProtocolNotFinished.
  move=> sp'; apply: IH => //; first by move=> iv h; apply: hv; right.
  by move=> q h; apply: hs; rewrite inE h orbT.
case: pubb sp => [p|] sp; last by apply: K => p [<-].
rewrite /pub_add (sp p) //= e2 eqxx /=; apply: K => p0 [<-] /=.
by rewrite size_vadd (sp p) // e2 minnn.
Qed.

(** ** Honest runs *)
Section Honest.
Hypothesis okS : suite_ok S.
Hypothesis dec_enc : forall d, rdeal_dec (rdeal_enc d) = Some d.
Variables (ps : seq G) (t : nat) (x sec : nat -> F) (fp gp : nat -> nat -> F).
Notation n := (size ps).
Hypothesis ups : uniq ps.
Hypothesis t2 : (2 <= t)%N.
Hypothesis tn : (t <= n)%N.
Hypothesis psE : forall i, (i < n)%N -> nth 0 ps i = x i *: B.
Hypothesis xn0 : forall i, (i < n)%N -> su_good S (x i).

Definition rhpoly i : seq F := sec i :: mkseq (fp i) (t - 1).
Definition rhcommits i : seq G := [seq c *: B | c <- rhpoly i].
Definition rhdeal j i : rdeal G := the_rdeal S (x j) (sec j) ps t (fp j) (gp j) i.
Definition rhsid j : bytestr := rd_sid (rhdeal j 0).
Definition rhdealer i : rdealer G :=
  RDealer (x i) (x i *: B) (sec i) (rhcommits i) ps (context S (x i *: B) ps) t (rhsid i)
    [seq RDeal (rhsid i) (pri_eval (rhpoly i) m) (pri_eval (gp i 0%N :: mkseq (fun k => gp i k.+1) (t - 1)) m) t (rd_commits (rhdeal i 0)) | m <- iota 0 n]
    (RAggregator (x i *: B) ps (rd_commits (rhdeal i 0)) [::] (rhsid i) None t false).
Definition rhnode0 i : rdkg G := Rdkg i (x i) (x i *: B) ps t (rhdealer i) [::] [::] [::] [::].
Definition rhver i j : rverifier G :=
  RVerifier (x i) (x i *: B) (nth 0 ps j) i ps (context S (nth 0 ps j) ps) None.

Lemma rhdealerE i : new_rdealer S (x i) (sec i) ps t (fp i) (gp i) = Ok (rhdealer i).
Proof.
have : exists dl, new_rdealer S (x i) (sec i) ps t (fp i) (gp i) = Ok dl.
  by rewrite /new_rdealer /valid_t t2 tn /= /pub_add /= !size_map !size_iota eqxx /=; eexists.
by case=> dl E; rewrite E; have [_ _ ->] := new_rdealerP E.
Qed.

Lemma rhidx i : (i < n)%N -> seq.index (x i *: B) ps = i.
Proof. by move=> lt; rewrite -psE // index_uniq. Qed.

Lemma rhnode0E i : (i < n)%N -> new_rdkg S (x i) ps t (sec i) (fp i) (gp i) = Ok (rhnode0 i).
Proof. by move=> lt; rewrite /new_rdkg /pmul /= rhidx // lt rhdealerE. Qed.

Lemma rhverE i j : (i < n)%N -> new_rverifier S (x i) (nth 0 ps j) ps = Ok (rhver i j).
Proof. by move=> lt; rewrite /new_rverifier /pmul /= rhidx // lt. Qed.

(** What the aggregator for the deal of j looks like at participant i: [hs k], the response of k is there. *)
Definition rshape (hs : nat -> bool) j (a : raggregator G) : Prop :=
  [/\ ra_verifiers a = ps, ra_bad a = false, ra_sid a = rhsid j /\ ra_t a = t, rwf a &
      forall k, rstatus_of a k = if hs k then Some true else None].

Definition rgenuine_deal j i (dd : rddeal G) : Prop :=
  rdd_index dd = j /\ exists dh k, su_good S k /\ rencrypted_deal S rdeal_enc (rhdealer j) i dh k = Ok (rdd_deal dd).
Definition rgenuine_resp j k (r : response) : Prop :=
  [/\ r_sid r = rhsid j, r_index r = k, r_status r = true & su_verify S (nth 0 ps k) (response_hash S r) (r_sig r)].
Definition rgenuine_sc j (sc : secret_commits G) : Prop :=
  [/\ sc_index sc = j, sc_commits sc = rhcommits j, sc_sid sc = rhsid j & su_verify S (nth 0 ps j) (sc_hash S sc) (sc_sig sc)].

Lemma rstatus_none (a : raggregator G) k : rstatus_of a k = None -> mget k (ra_responses a) = None.
Proof. by rewrite /rstatus_of; case: mget. Qed.

Lemma rshape_ext hs hs' j a : (forall k, hs k = hs' k) -> rshape hs j a -> rshape hs' j a.
Proof. by move=> e [h1 h2 h3 h4 h5]; split=> // k; rewrite h5 e. Qed.

Lemma rshape_unsafe hs j a idx : (idx < n)%N -> rshape hs j a ->
  rshape (fun k => hs k || (k == idx)) j (runsafe_set_response_dkg a idx true).
Proof.
move=> li [h1 h2 h3 h4 h5]; rewrite /runsafe_set_response_dkg.
set r := Response _ _ _ _; have [e1 e2 e3 e4 e5] := radd_state a r; split; rewrite ?e1 ?e2 ?e4 ?e5 //.
  exact: rwf_add.
move=> k; case E: (radd_response a r) => [a' o] /=; case: (radd_responseP E) => [[_ [_ [nn ->]]]|[er ->]].
  by rewrite /rstatus_of /= mget_minsert; case: (eqVneq k idx) => [_|ne]; rewrite ?orbT // orbF -h5.
rewrite h5; case: (eqVneq k idx) => [->|ne]; rewrite ?orbF ?orbT //.
case: ifP => // nh; move: E er; rewrite /radd_response find_pubE h1 [r_index _]/= li.
by rewrite (rstatus_none (k := idx)) ?h5 ?nh // => -[_ <-].
Qed.

(** Processing a genuine deal. *)
Lemma rprocess_genuine i j dd (g : rdkg G) k : (i < n)%N -> (j < n)%N -> rg_long g = x i -> rg_parts g = ps ->
  mget j (rg_verifiers g) = None -> rgenuine_deal j i dd -> su_good S k ->
  exists a, [/\ rgprocess_deal S rdeal_dec g dd k =
      (rg_set_ver g j (rv_set_agg (rhver i j) a), Ok (RDResponse j (honest_response S (x i) (rhsid j) i k))),
      rshape (fun m => (m == i) || (m == j)) j a, ra_deal a = Some (rhdeal j i) &
      rgenuine_resp j i (honest_response S (x i) (rhsid j) i k)].
Proof.
move=> li lj gl gp_ nv [di [dh [kk [nk en]]]] nk'.
rewrite /rgprocess_deal /rg_find_pub gp_ find_pubE di lj nv gl rhverE //=.
have nv' := rhverE j li; rewrite psE // in nv'.
have := rhonest_process okS dec_enc k (rhdealerE j) en nv' ups (psE li) li (xn0 lj) nk.
rewrite -(psE lj) => -> /=.
set r := honest_response _ _ _ _ _; set a0 := RAggregator _ _ _ _ _ _ _ _.
exists (runsafe_set_response_dkg a0 j true); split=> //.
- apply: rshape_unsafe => //; split=> //; first by split=> // q; rewrite inE => /eqP ->.
  by move=> q; rewrite /rstatus_of /=; case: eqP.
- by rewrite /runsafe_set_response_dkg; case: (radd_state a0 (Response (ra_sid a0) j true [::])) => _ _ ->.
- by split=> //; rewrite psE //; apply: (honest_verifies okS) => //; exact: xn0.
Qed.

(** ** The invariant of honest runs *)
Notation got := received.
Notation hasr := answered.
Definition rgok (A : seq ract) i (g : rdkg G) : Prop :=
  [/\ g = Rdkg i (x i) (x i *: B) ps t (rg_dealer g) (rg_verifiers g) (rg_commits g) [::] [::],
      exists2 a, rg_dealer g = rl_set_agg (rhdealer i) a & rshape (hasr (phase1 A) i i) i a,
      uniq (mkeys (rg_verifiers g)),
      forall j, (if (j < n)%N && got (phase1 A) i j then
                  exists2 a, mget j (rg_verifiers g) = Some (rv_set_agg (rhver i j) a) &
                    rshape (hasr (phase1 A) i j) j a /\ ra_deal a = Some (rhdeal j i)
                else mget j (rg_verifiers g) = None : Prop) &
      forall j, mget j (rg_commits g) = if revealed A i j then Some (PubPoly (Some B) (rhcommits j)) else None].
Definition rrespwf (A : seq act) := forall j k i, AResp j k i \in A -> [/\ (j < n)%N, (k < n)%N, (i < n)%N, k != j & k != i].
Definition rrespgot (A : seq act) := forall j k i, AResp j k i \in A -> got A i j.
Definition rnetok (A : seq ract) (N : rnet G) : Prop :=
  [/\ rrespwf (phase1 A) /\ rrespgot (phase1 A),
      forall i, (i < n)%N -> rgok A i (rn_node N i),
      forall j i, (j < n)%N -> (i < n)%N -> i != j -> ADeals j \in phase1 A ->
        exists2 dd, rn_deal N j i = Some dd & rgenuine_deal j i dd,
      forall j k, ADeal j k \in phase1 A -> exists2 r, rn_resp N j k = Some (RDResponse j r) & rgenuine_resp j k r &
      forall j, RSec j \in A -> exists2 sc, rn_sc N j = Some sc & rgenuine_sc j sc].

Lemma rnet0_ok : rnetok [::] (rnet0 rhnode0).
Proof.
split=> // i li; split=> //=.
- exists (rl_agg (rhdealer i)) => //; split=> //=; last by move=> k; rewrite /answered /received eqxx.
- by move=> j; rewrite /received if_same andbF.
- by move=> j; rewrite /revealed if_same.
Qed.

Definition rtarget (a : ract) : nat := match a with inl b => target b | inr (inl i) => i | inr (inr (_, i)) => i end.
Lemma rtarget_ne a b : rtarget a != rtarget b -> (a == b) = false.
Proof. by move=> ne; apply/negP => /eqP e; rewrite e eqxx in ne. Qed.

Lemma p1in A a b : (b \in phase1 (rcons A a)) = (a == RAct b) || (b \in phase1 A).
Proof. by rewrite !phase1_in mem_rcons inE eq_sym. Qed.

Lemma rgok_ext A A' i g : got (phase1 A) i =1 got (phase1 A') i -> (forall j, hasr (phase1 A) i j =1 hasr (phase1 A') i j) ->
  revealed A i =1 revealed A' i -> rgok A i g -> rgok A' i g.
Proof.
move=> e1 e2 e3 [h1 h2 h3 h4 h5]; split=> //.
- by case: h2 => a q1 q2; exists a => //; apply: rshape_ext q2; exact: e2.
- move=> j; have := h4 j; rewrite e1; case: ifP => // _ [a q1 [q2 q3]]; exists a => //; split=> //; apply: rshape_ext q2; exact: e2.
- by move=> j; rewrite h5 e3.
Qed.

Lemma rgok_other A a i g : rtarget a != i -> rgok A i g -> rgok (rcons A a) i g.
Proof.
move=> ne; have K b : rtarget b = i -> (b \in rcons A a) = (b \in A).
  by move=> e; rewrite mem_rcons inE eq_sym rtarget_ne // e.
have eG : got (phase1 A) i =1 got (phase1 (rcons A a)) i.
  by move=> j; rewrite /received !phase1_in !K.
apply: rgok_ext => //.
- by move=> j k; rewrite /answered eG !phase1_in K.
- by move=> j; rewrite /revealed !K.
Qed.

Lemma revealed_act A b i : revealed A i =1 revealed (rcons A (inl b)) i.
Proof. by move=> j; rewrite /revealed !mem_rcons !inE. Qed.

Lemma rgok_deal A i j g dd k : rrespwf (phase1 A) -> rrespgot (phase1 A) -> (i < n)%N -> (j < n)%N -> i != j ->
  ADeal j i \notin phase1 A -> rgok A i g -> rgenuine_deal j i dd -> su_good S k ->
  exists g' r, [/\ rgprocess_deal S rdeal_dec g dd k = (g', Ok (RDResponse j r)),
     rgok (rcons A (RAct (ADeal j i))) i g' & rgenuine_resp j i r].
Proof.
move=> wf wg li lj ne nin [h1 h2 h3 h4 h5] gd nk.
have g0 : got (phase1 A) i j = false by rewrite /received (negPf ne) (negPf nin).
have nv : mget j (rg_verifiers g) = None by have := h4 j; rewrite g0 andbF.
have [gl gp_] : rg_long g = x i /\ rg_parts g = ps by rewrite h1.
have [a [E sh ad gr]] := rprocess_genuine li lj gl gp_ nv gd nk.
eexists; eexists; split; [exact: E| |exact: gr].
have p1 : phase1 (rcons A (RAct (ADeal j i))) = rcons (phase1 A) (ADeal j i) by rewrite phase1_rcons.
split=> /=; rewrite ?p1.
- by rewrite {1}h1.
- case: h2 => d e q; exists d => //; apply: rshape_ext q => m.
  by rewrite /answered /received eqxx inD inR.
- exact: mkeys_minsert_uniq.
- move=> m; rewrite mget_minsert; case: (eqVneq m j) => [->|nm].
    rewrite lj /received (negPf ne) inE' eqxx /=; exists a => //; split=> //; apply: rshape_ext sh => q.
    rewrite /answered /received (negPf ne) inE' eqxx inR /=.
    have -> : (AResp j q i \in phase1 A) = false by apply/negP => /wg; rewrite g0.
    by rewrite orbF.
  have eg : got (rcons (phase1 A) (ADeal j i)) i m = got (phase1 A) i m.
    rewrite /received inD inE'; case: eqP => // _; have -> // : (ADeal j i == ADeal m i) = false.
    by apply/negP => /eqP [e]; rewrite e eqxx in nm.
  have := h4 m; rewrite eg; case: ifP => // _ [b f1 [f2 f3]]; exists b => //; split=> //.
  by apply: rshape_ext f2 => q; rewrite /answered eg inR.
- by move=> m; rewrite h5 (@revealed_act A (ADeal j i)).
Qed.

Lemma rgok_own A i g dd k : rrespwf (phase1 A) -> rrespgot (phase1 A) -> (i < n)%N ->
  ADeals i \notin phase1 A -> rgok A i g -> rgenuine_deal i i dd -> su_good S k ->
  exists g' r, [/\ rgprocess_deal S rdeal_dec g dd k = (g', Ok (RDResponse i r)), r_status r, rg_index g' = i &
     rgok (rcons A (RAct (ADeals i))) i (rg_set_dealer g' (rl_set_agg (rg_dealer g')
                            (runsafe_set_response_dkg (rl_agg (rg_dealer g')) (rg_index g') true)))].
Proof.
move=> wf wg li nin [h1 h2 h3 h4 h5] gd nk.
have g0 : got (phase1 A) i i = false by rewrite /received eqxx (negPf nin).
have nv : mget i (rg_verifiers g) = None by have := h4 i; rewrite g0 andbF.
have [gl gp_] : rg_long g = x i /\ rg_parts g = ps by rewrite h1.
have [a [E sh ad gr]] := rprocess_genuine li li gl gp_ nv gd nk.
have gi : rg_index g = i by rewrite h1.
eexists; eexists; split; [exact: E|by case: gr|by []|].
have p1 : phase1 (rcons A (RAct (ADeals i))) = rcons (phase1 A) (ADeals i) by rewrite phase1_rcons.
have nr j q : got (phase1 A) i j = false -> (AResp j q i \in phase1 A) = false by move=> e; apply/negP => /wg; rewrite e.
split=> /=; rewrite ?p1.
- by rewrite {1}h1.
- case: h2 => d e q; eexists; first by rewrite e /=.
  rewrite gi; apply: rshape_ext (rshape_unsafe li q) => m.
  by rewrite {1}/answered g0 /= nr //= /answered /received eqxx inD eqxx /= inR /= nr // orbF orbb.
- exact: mkeys_minsert_uniq.
- move=> m; rewrite mget_minsert; case: (eqVneq m i) => [->|nm].
    rewrite li /received eqxx inD eqxx /=; exists a => //; split=> //; apply: rshape_ext sh => q.
    by rewrite /answered /received eqxx inD eqxx inR /= nr // orbF.
  have eg : got (rcons (phase1 A) (ADeals i)) i m = got (phase1 A) i m.
    by rewrite /received inE' inD eq_sym (negPf nm).
  have := h4 m; rewrite eg; case: ifP => // _ [b f1 [f2 f3]]; exists b => //; split=> //.
  by apply: rshape_ext f2 => q; rewrite /answered eg inR.
- by move=> m; rewrite h5 (@revealed_act A (ADeals i)).
Qed.

Lemma rshape_resp hs j k a r : (k < n)%N -> hs k = false -> rshape hs j a -> rgenuine_resp j k r ->
  rverify_response S a r = (ra_set_responses a (minsert k r (ra_responses a)), Ok tt) /\
  rshape (fun m => hs m || (m == k)) j (ra_set_responses a (minsert k r (ra_responses a))).
Proof.
move=> lk nh [h1 h2 [h3 h3'] h4 h5] [rs ri rt rv]; split.
  rewrite -ri; apply: rverify_response_ok; rewrite ?h1 ?ri ?h3 //.
  by apply: rstatus_none; rewrite h5 nh.
split=> //; first by apply: rwf_insert => //; rewrite h1.
move=> m; rewrite /rstatus_of /= mget_minsert; case: (eqVneq m k) => [_|ne]; first by rewrite orbT /= rt.
by rewrite orbF -h5.
Qed.

Lemma rgok_resp A i j k g r kj : rrespwf (phase1 A) -> (i < n)%N -> (j < n)%N -> (k < n)%N -> k != j -> k != i ->
  AResp j k i \notin phase1 A -> got (phase1 A) i j -> rgok A i g -> rgenuine_resp j k r ->
  exists2 g', rgprocess_response S rdeal_enc g (RDResponse j r) kj = (g', Ok None) &
              rgok (rcons A (RAct (AResp j k i))) i g'.
Proof.
move=> wf li lj lk nkj nki nin gt [h1 h2 h3 h4 h5] gr.
have := h4 j; rewrite lj gt /= => -[a e1 [sh ad]].
have s0 : hasr (phase1 A) i j k = false by rewrite /answered (negPf nkj) (negPf nki) andbF (negPf nin).
have [V sh'] := rshape_resp lk s0 sh gr.
rewrite /rgprocess_response /= e1 /rverifier_process_response /= V /=.
set a' := ra_set_responses _ _ in sh' *.
have p1 : phase1 (rcons A (RAct (AResp j k i))) = rcons (phase1 A) (AResp j k i) by rewrite phase1_rcons.
have eg m : got (rcons (phase1 A) (AResp j k i)) i m = got (phase1 A) i m by rewrite /received inD inE'.
have eh m q : hasr (rcons (phase1 A) (AResp j k i)) i m q = hasr (phase1 A) i m q || ((m == j) && (q == k)).
  rewrite /answered eg inR -orbA; congr (_ || _); rewrite orbC; congr (_ || _).
  by apply/eqP/andP => [[-> ->]|[/eqP -> /eqP ->]].
have gi : rg_index g = i by rewrite h1.
have vers m : (if (m < n)%N && got (rcons (phase1 A) (AResp j k i)) i m then
     exists2 b, mget m (minsert j (rv_set_agg (rhver i j) a') (rg_verifiers g)) = Some (rv_set_agg (rhver i m) b) &
     rshape (hasr (rcons (phase1 A) (AResp j k i)) i m) m b /\ ra_deal b = Some (rhdeal m i)
     else mget m (minsert j (rv_set_agg (rhver i j) a') (rg_verifiers g)) = None : Prop).
  rewrite mget_minsert eg; case: (eqVneq m j) => [->|nm].
    by rewrite lj gt; exists a' => //; split=> //; apply: rshape_ext sh' => q; rewrite eh eqxx.
  have := h4 m; case: ifP => // _ [b f1 [f2 f3]]; exists b => //; split=> //; apply: rshape_ext f2 => q.
  by rewrite eh (negPf nm) orbF.
have rev m : mget m (rg_commits g) = if revealed (rcons A (RAct (AResp j k i))) i m then Some (PubPoly (Some B) (rhcommits m)) else None.
  by rewrite h5 (@revealed_act A (AResp j k i)).
have uk : uniq (mkeys (minsert j (rv_set_agg (rhver i j) a') (rg_verifiers g))) by exact: mkeys_minsert_uniq.
rewrite gi; case: (eqVneq j i) => [ji|nji] /=; last first.
  eexists; first by []; split=> //=; rewrite ?p1 //.
  - by rewrite {1}h1.
  - case: h2 => d e q; exists d => //; apply: rshape_ext q => m.
    by rewrite eh eq_sym (negPf nji) orbF.
case: h2 => d e q.
have s1 : hasr (phase1 A) i i k = false by rewrite -[X in hasr _ _ X _]ji.
have gr' : rgenuine_resp i k r by rewrite -ji.
have [W sd] := rshape_resp lk s1 q gr'.
rewrite e /rdealer_process_response /= W /=; case: gr => _ _ -> _.
eexists; first by []; split=> //=; rewrite ?p1 //.
- by rewrite {1}h1.
- eexists; first by []; apply: rshape_ext sd => m; by rewrite eh ji eqxx.
Qed.

(** ** [deals] *)
Definition rhenc i (rnd : nat -> F * F) m : enc_deal G :=
  EncDeal ((rnd m).1 *: B) (su_sign S (x i) (su_enc S ((rnd m).1 *: B)) (rnd m).2) (nseq 12 0%N)
    (su_seal S ((rnd m).1 *: nth 0 ps m) (context S (x i *: B) ps) (nseq 12 0%N) (rdeal_enc (rhdeal i m))).

Lemma rhenc1 a i rnd m : (m < n)%N ->
  rencrypted_deal S rdeal_enc (rl_set_agg (rhdealer i) a) m (rnd m).1 (rnd m).2 = Ok (rhenc i rnd m).
Proof.
move=> lm; rewrite /rencrypted_deal find_pubE /= lm.
rewrite (nth_map (rhdeal i 0)) ?size_map ?size_iota // (nth_map 0%N) ?size_iota // nth_iota //=.
by rewrite /rhenc /rhdeal /the_rdeal !share_value_eval.
Qed.

Lemma rhencE a i rnd : rencrypted_deals S rdeal_enc (rl_set_agg (rhdealer i) a) rnd = Ok (mkseq (rhenc i rnd) n).
Proof.
rewrite /rencrypted_deals [rl_verifiers _]/= /mkseq.
have H m : (m <= n)%N -> foldo (fun acc i0 => let! e := rencrypted_deal S rdeal_enc (rl_set_agg (rhdealer i) a) i0 (rnd i0).1 (rnd i0).2 in
    Ok (rcons acc e)) [::] (iota 0 m) = Ok (map (rhenc i rnd) (iota 0 m)).
  elim: m => // m IH lm; rewrite -addn1 iotaD add0n /= foldo_cat IH ?(ltnW lm) //= rhenc1 //=.
  by rewrite map_cat cats1.
exact: H.
Qed.

Lemma rgenuine_henc i rnd m : (m < n)%N -> su_good S (rnd m).2 -> rgenuine_deal i m (RDDeal i (rhenc i rnd m)).
Proof.
move=> lm nr; split=> //; exists (rnd m).1, (rnd m).2; split=> //=.
by rewrite -(rhenc1 (rl_agg (rhdealer i))) //; case: (rhdealer i).
Qed.

Definition rdeals_step ds (k : F) (acc : rdkg G * outcome rdkg_error (seq (nat * rddeal G))) (i : nat) :=
  match acc with
  | (g, Ok dd) =>
    match nth None (map Some ds) i with
    | None => (g, Panic)
    | Some e =>
      let distd := RDDeal (rg_index g) e in
      if i == rg_index g then
        if mget (rg_index g) (rg_verifiers g) is Some _ then (g, Ok dd) else
        let '(g, o) := rgprocess_deal S rdeal_dec g distd k in
        match o with
        | Ok r =>
            if ~~ r_status (rdr_resp r) then (g, Panic)
            else (rg_set_dealer g (rl_set_agg (rg_dealer g)
                    (runsafe_set_response_dkg (rl_agg (rg_dealer g)) (rg_index g) true)), Ok dd)
        | Err e => (g, Err e)
        | Panic => (g, Panic)
        | OutOfFuel => (g, OutOfFuel)
        end
      else (g, Ok (minsert i distd dd))
    end
  | _ => acc
  end.
Lemma rgdealsE (g : rdkg G) rnd k : rgdeals S rdeal_enc rdeal_dec g rnd k =
  match rencrypted_deals S rdeal_enc (rg_dealer g) rnd with
  | Ok ds => foldl (rdeals_step ds k) (g, Ok [::]) (iota 0 (size (rg_parts g)))
  | Err e => (g, Err (RVss e))
  | Panic => (g, Panic)
  | OutOfFuel => (g, OutOfFuel)
  end.
Proof. by []. Qed.

Lemma rgok_deals A i g rnd k : rrespwf (phase1 A) -> rrespgot (phase1 A) -> (i < n)%N -> ADeals i \notin phase1 A ->
  rgok A i g -> (forall m, su_good S (rnd m).2) -> su_good S k ->
  exists g' ds, [/\ rgdeals S rdeal_enc rdeal_dec g rnd k = (g', Ok ds), rgok (rcons A (RAct (ADeals i))) i g' &
    forall m, (m < n)%N -> m != i -> exists2 dd, mget m ds = Some dd & rgenuine_deal i m dd].
Proof.
move=> wf wg li nin gk nr nk.
case: (gk) => h1 [a e _] _ h4 _.
have gd m lm := @rgenuine_henc i rnd m lm (nr m).
have [g1 [r [E rs gi' gk']]] := rgok_own wf wg li nin gk (gd i li) nk.
set g' := rg_set_dealer _ _ in gk'; exists g'.
rewrite rgdealsE e rhencE.
set step := rdeals_step _ _.
have gi : rg_index g = i by rewrite h1.
have sne m g0 dd : (m < n)%N -> m != i -> rg_index g0 = i ->
    step (g0, Ok dd) m = (g0, Ok (minsert m (RDDeal i (rhenc i rnd m)) dd)).
  by move=> lm ne e1; rewrite /step /rdeals_step (nth_map (rhenc i rnd 0)) ?size_mkseq // nth_mkseq // e1 (negPf ne).
have nv : mget i (rg_verifiers g) = None by have := h4 i; rewrite /received eqxx (negPf nin) andbF.
have sown dd : step (g, Ok dd) i = (g', Ok dd).
  by rewrite /step /rdeals_step (nth_map (rhenc i rnd 0)) ?size_mkseq // nth_mkseq // gi eqxx nv E /= rs.
have H m : (m <= n)%N -> exists2 ds, foldl step (g, Ok [::]) (iota 0 m) = (if (i < m)%N then g' else g, Ok ds) &
    forall q, mget q ds = if (q < m)%N && (q != i) then Some (RDDeal i (rhenc i rnd q)) else None.
  elim: m => [|m IH] lm; first by exists [::].
  have [ds f1 f2] := IH (ltnW lm).
  rewrite -addn1 iotaD add0n foldl_cat f1 addn1 -[foldl _ _ [:: m]]/(step _ m).
  case: (eqVneq m i) => [mi|ne].
    rewrite mi ltnn sown ltnSn; exists ds => // q; rewrite f2 mi ltnS.
    by case: (eqVneq q i) => [->|nq]; rewrite ?andbF // !andbT ltn_neqAle nq.
  exists (minsert m (RDDeal i (rhenc i rnd m)) ds) => [|q].
    have -> : (i < m.+1)%N = (i < m)%N by rewrite ltnS leq_eqVlt eq_sym (negPf ne).
    by case: ifP => _; rewrite sne.
  rewrite mget_minsert f2 ltnS; case: (eqVneq q m) => [->|nq]; first by rewrite leqnn ne.
  by have -> : (q < m)%N = (q <= m)%N by lia.
have [ds f1 f2] := H n (leqnn n).
have -> : size (rg_parts g) = n by rewrite h1.
by exists ds; rewrite f1 li; split=> // m lm ne; rewrite f2 lm ne; eexists; [by []|exact: gd].
Qed.

(** ** The second phase *)
Lemma rshape_certified A i j a : rshape (hasr (phase1 A) i j) j a -> settled n A i j -> rdeal_certified a /\ enough_approvals a.
Proof.
move=> [h1 h2 [h3 h3'] h4 h5] st.
have C : rdeal_certified a.
  apply: rall_approved_certified; rewrite ?h1 ?h2 ?h3' // => k lk.
  by rewrite h5 (allP st) // mem_iota.
by split=> //; move: C; rewrite /rdeal_certified => /andP[].
Qed.

Lemma settled_sec A b i j : settled n (rcons A (inr b)) i j = settled n A i j.
Proof. by rewrite /settled phase1_rcons. Qed.

Lemma rgok_sec A i g k : (i < n)%N -> settled n A i i -> rgok A i g -> su_good S k ->
  exists g' sc, [/\ rsecret_commits S g k = (g', Ok sc), rgok (rcons A (RSec i)) i g' & rgenuine_sc i sc].
Proof.
move=> li st [h1 h2 h3 h4 h5] nk; case: (h2) => a e sh.
have [C E] := rshape_certified sh st.
have ea : rl_agg (rg_dealer g) = a by rewrite e.
rewrite /rsecret_commits /rdealer_commits !ea C E /=.
eexists; eexists; split; first by [].
  split=> //=; rewrite ?phase1_rcons //=.
  - by rewrite {1}h1.
  - move=> j; have -> : rg_index g = i by rewrite h1.
    rewrite mget_minsert h5 /revealed !mem_rcons !inE; case: (eqVneq j i) => [->|ne].
      by rewrite !eqxx e.
    by [].
have -> : rg_index g = i by rewrite h1.
split=> //=; rewrite ?e //= psE //.
have -> : rg_long g = x i by rewrite h1.
by apply: (su_sign_ok okS) => //; exact: xn0.
Qed.

Lemma rhcommitsE j : PubPoly (Some B) (rhcommits j) = pri_commit B (rhpoly j) (Some B).
Proof. by []. Qed.

Lemma rhcommits_check j i : pub_check B (PubPoly (Some B) (rhcommits j)) (rd_sec (rhdeal j i)) = Ok true.
Proof.
rewrite rhcommitsE pub_check_correct //=; last exact: (su_base_nz okS).
by rewrite share_value_eval eqxx.
Qed.

Lemma rgok_com A i j g sc k : rrespwf (phase1 A) -> (i < n)%N -> (j < n)%N -> i != j -> settled n A i j -> rgok A i g ->
  rgenuine_sc j sc ->
  exists2 g', rprocess_secret_commits S rdeal_enc g sc k = (g', Ok None) & rgok (rcons A (RCom j i)) i g'.
Proof.
move=> wf li lj ne st [h1 h2 h3 h4 h5] [s1 s2 s3 s4].
have gt : got (phase1 A) i j.
  have := allP st i; rewrite mem_iota li => /(_ isT) /orP[/andP[]//|/wf [_ _ _ _]].
  by rewrite eqxx.
have := h4 j; rewrite lj gt => -[a e [sh ad]].
have [C E] := rshape_certified sh st.
have gp_ : rg_parts g = ps by rewrite h1.
rewrite /rprocess_secret_commits /rg_find_pub gp_ s1 find_pubE lj /ris_in_qual e /rv_certified /= C /=.
have [_ _ [-> _] _ _] := sh; rewrite s3 eqxx /= s4 /= /rverifier_deal /= C E /= ad s2 rhcommits_check.
eexists; first by []; split=> //=; rewrite ?phase1_rcons //=.
- by rewrite {1}h1.
- move=> m; rewrite mget_minsert h5 /revealed !mem_rcons !inE; case: (eqVneq m j) => [->|nm].
    by rewrite (negPf ne) eqxx.
  have -> : (RCom m i == RCom j i) = false by apply/negP => /eqP [em]; rewrite em eqxx in nm.
  by [].
Qed.

Lemma rnet_step_ok co A N a : coins_ok S co -> rnetok A N -> renabled n A a -> a \notin A ->
  exists2 N', rnet_step S rdeal_enc rdeal_dec co N a = Some N' & rnetok (rcons A a) N'.
Proof.
move=> cok [[wf wg] gk dg rg sg] en nin.
have wf' : rrespwf (phase1 (rcons A a)).
  move=> j k i; rewrite p1in => /orP[/eqP E|/wf //]; move: en; rewrite E /= => /andP[en _]; move: en.
  by case/and5P=> ??? ? /andP[? _]; split.
have wg' : rrespgot (phase1 (rcons A a)).
  have mono j i : got (phase1 A) i j -> got (phase1 (rcons A a)) i j.
    by rewrite /received !p1in; case: eqP => _ ->; rewrite orbT.
  move=> j k i; rewrite p1in => /orP[/eqP E|/wg]; last exact: mono.
  by move: en; rewrite E /= => /andP[_ gt]; rewrite -E; apply: mono.
have oth i N' : (forall m, m != rtarget a -> rn_node N' m = rn_node N m) -> i != rtarget a -> (i < n)%N -> rgok (rcons A a) i (rn_node N' i).
  by move=> h ne li; rewrite h //; apply: rgok_other; [rewrite eq_sym|exact: gk].
case: a en nin wf' wg' oth => [[[i|[j i]]|[[j k] i]]|[i|[j i]]] /= en nin wf' wg' oth.
- rewrite andbT in en; rewrite -(phase1_in A (ADeals i)) in nin.
  have nr m : su_good S (co_rnd co i m).2 by case: (cok i m).
  have nk : su_good S (co_kr co i i) by case: (cok i i).
  have [g' [ds [E ok' G1]]] := rgok_deals wf wg en nin (gk i en) nr nk.
  rewrite E; eexists; first by []; split=> //=.
  + move=> m lm; case: (eqVneq m i) => [->|ne]; first by rewrite /upd eqxx.
    by apply: (oth m (RNet (upd (rn_node N) i g') (rn_deal N) (rn_resp N) (rn_sc N))) => //= q nq; rewrite /upd (negPf nq).
  + move=> m q lm lq ne; rewrite p1in => /orP[/eqP[im]|A1]; rewrite /upd; last first.
      case: (eqVneq m i) => [e1|_]; first by rewrite -e1 A1 in nin.
      exact: dg.
    by rewrite -im eqxx; apply: G1 => //; rewrite im.
  + by move=> m q; rewrite p1in => /rg.
  + by move=> m; rewrite mem_rcons inE => /sg.
- rewrite andbT in en; rewrite -(phase1_in A (ADeal j i)) in nin.
  case/and4P: en => lj li ne Aj.
  have [dd e1 gd] := dg j i lj li ne Aj.
  have nk : su_good S (co_kr co i j) by case: (cok i j).
  have [g' [r [E ok' G1]]] := rgok_deal wf wg li lj ne nin (gk i li) gd nk.
  rewrite e1 E; eexists; first by []; split=> //=.
  + move=> m lm; case: (eqVneq m i) => [->|nm]; first by rewrite /upd eqxx.
    by apply: (oth m (RNet (upd (rn_node N) i g') (rn_deal N) (rn_resp N) (rn_sc N))) => //= q nq; rewrite /upd (negPf nq).
  + by move=> m q lm lq nm; rewrite p1in; apply: dg.
  + move=> m q; rewrite p1in => /orP[/eqP[<- <-]|A1]; first by rewrite /upd !eqxx; exists r.
    rewrite /upd; case: (eqVneq m j) => [mj|_]; last exact: rg.
    case: (eqVneq q i) => [qi|_]; last by rewrite -mj; exact: rg.
    by rewrite mj qi (negPf nin) in A1.
  + by move=> m; rewrite mem_rcons inE => /sg.
- rewrite -(phase1_in A (AResp j k i)) in nin; case/andP: en => /and5P[lj lk li nkj /andP[nki Ak]] gt.
  have [r e1 gr] := rg j k Ak.
  have [g' E ok'] := rgok_resp (co_kj co i) wf li lj lk nkj nki nin gt (gk i li) gr.
  rewrite e1 E; eexists; first by []; split=> //=.
  + move=> m lm; case: (eqVneq m i) => [->|nm]; first by rewrite /upd eqxx.
    by apply: (oth m (RNet (upd (rn_node N) i g') (rn_deal N) (rn_resp N) (rn_sc N))) => //= q nq; rewrite /upd (negPf nq).
  + by move=> m q lm lq nm; rewrite p1in; apply: dg.
  + by move=> m q; rewrite p1in => /rg.
  + by move=> m; rewrite mem_rcons inE => /sg.
- case/andP: en => li st; have nk : su_good S (co_ks co i i) by case: (cok i i).
  have [g' [sc [E ok' G1]]] := rgok_sec li st (gk i li) nk.
  rewrite E; eexists; first by []; split=> //=.
  + move=> m lm; case: (eqVneq m i) => [->|nm]; first by rewrite /upd eqxx.
    by apply: (oth m (RNet (upd (rn_node N) i g') (rn_deal N) (rn_resp N) (rn_sc N))) => //= q nq; rewrite /upd (negPf nq).
  + by move=> m q lm lq nm; rewrite p1in; apply: dg.
  + by move=> m q; rewrite p1in => /rg.
  + move=> m; rewrite mem_rcons inE /upd; case: (eqVneq m i) => [->|nm]; first by exists sc.
    case/orP => [/eqP [em]|]; first by rewrite em eqxx in nm.
    exact: sg.
- case/and5P: en => lj li ne Sj st.
  have [sc e1 gsc] := sg j Sj.
  have [g' E ok'] := rgok_com (co_kj co i) wf li lj ne st (gk i li) gsc.
  rewrite e1 E; eexists; first by []; split=> //=.
  + move=> m lm; case: (eqVneq m i) => [->|nm]; first by rewrite /upd eqxx.
    by apply: (oth m (RNet (upd (rn_node N) i g') (rn_deal N) (rn_resp N) (rn_sc N))) => //= q nq; rewrite /upd (negPf nq).
  + by move=> m q lm lq nm; rewrite p1in; apply: dg.
  + by move=> m q; rewrite p1in => /rg.
  + by move=> m; rewrite mem_rcons inE => /sg.
Qed.

Lemma rnet_run_ok co A N acts : coins_ok S co -> rnetok A N -> rschedule n A acts ->
  exists2 N', rnet_run S rdeal_enc rdeal_dec co N acts = Some N' & rnetok (A ++ acts) N'.
Proof.
move=> cok; elim: acts A N => [|a acts IH] A N nok /=; first by exists N; rewrite ?cats0.
case/and3P=> en nin sch; have [N1 E nok1] := rnet_step_ok cok nok en nin.
by rewrite E -cat_rcons; exact: IH.
Qed.

Notation joint := (joint_poly t sec fp).
Lemma size_rhpoly j : size (rhpoly j) = t.
Proof. by rewrite /= size_mkseq subn1 prednK // (leq_trans _ t2). Qed.

Lemma rjoint_share Q i : share_value (joint Q) i = \sum_(j <- Q) share_value (rhpoly j) i.
Proof.
rewrite /share_value /peval size_mkseq.
rewrite (eq_bigr (fun m : 'I_t => \sum_(j <- Q) (rhpoly j)`_m * (i.+1)%:R ^+ m)); last first.
  by move=> m _; rewrite nth_mkseq // mulr_suml.
by rewrite exchange_big; apply: eq_bigr => j _; rewrite size_rhpoly.
Qed.

Lemma rnode_key acts N i vord : rnetok acts N -> (i < n)%N -> (forall s, perm_eq (vord s) s) ->
  let Q := heard n (phase1 acts) i in
  let g := rn_node N i in
  [/\ perm_eq (rqual vord g) Q, rcertified vord g = (t <= size Q)%N,
      rfinished vord g = (t <= size Q)%N && all (revealed acts i) Q &
      rdist_key_share vord g =
        if (t <= size Q)%N then
          if all (revealed acts i) Q then Ok (RDKShare [seq c *: B | c <- joint Q] (PriShare i (share_value (joint Q) i)))
          else Err ProtocolNotFinished
        else Err RDistributedKeyNotCertified].
Proof.
case=> [[wf wg] gk _ _ _] li pm Q g.
have [h1 h2 h3 h4 h5] := gk i li; rewrite -/g in h1 h2 h3 h4 h5.
pose h j := odflt (rhver i j) (mget j (rg_verifiers g)).
pose c j := (j < n)%N && settled n acts i j.
have cgot j : c j -> (j < n)%N && got (phase1 acts) i j.
  case/andP=> lj /allP st; rewrite lj; have := st i; rewrite mem_iota li => /(_ isT) /orP[/andP[]//|/wf [_ _ _ _]].
  by rewrite eqxx.
have H j : [/\ (if mget j (rg_verifiers g) is Some v then if rv_certified v then Some (j, v) else None else None)
     = (if c j then Some (j, h j) else None) & c j -> rverifier_deal (h j) = Some (rhdeal j i)].
  have := h4 j; case: ifP => [/andP[lj gt] [a e [sh ad]]|ng e]; last first.
    rewrite e; case cj: (c j) => //; by move: (cgot j cj); rewrite ng.
  have eh : h j = rv_set_agg (rhver i j) a by rewrite /h e.
  rewrite e -eh.
  have C : rdeal_certified a = c j.
    rewrite /c lj /=; apply/idP/idP => [|st]; last by have [] := rshape_certified sh st.
    case: sh => s1 s2 [_ s3] s4 s5.
    rewrite rcertified_count // s2 => /and3P[_ + _]; rewrite /ranswers s1 -leqn0 leqNgt -has_count => nh.
    apply/allP => k kn; apply/negPn/negP => na; case/negP: nh; apply/hasP; exists k => //.
    by rewrite s5 (negPf na).
  rewrite eh /rv_certified /= C; split=> // cj; rewrite /rverifier_deal /= C cj.
  have : rdeal_certified a by rewrite C.
  by rewrite /rdeal_certified => /andP[-> _].
set l := vord (mkeys (rg_verifiers g)).
have E : rqual_entries vord g = [seq (j, h j) | j <- [seq j <- l | c j]].
  rewrite /rqual_entries -/l; elim: (l) => //= j l' IH.
  by have [-> _] := H j; case: (c j) => /=; rewrite IH.
have pQ : perm_eq [seq j <- l | c j] Q.
  apply: uniq_perm.
  - by rewrite filter_uniq // (perm_uniq (pm _)).
  - by rewrite filter_uniq // iota_uniq.
  move=> j; rewrite !mem_filter (perm_mem (pm _)) mem_iota add0n /= /c.
  case: (ltnP j n) => lj /=; rewrite ?andbF // andbT -/(settled n acts i j).
  case st: (settled n acts i j) => //=.
  have cj : c j by rewrite /c lj st.
  have [+ _] := H j; rewrite cj mget_in; by case: mget.
have lQ j : j \in [seq j <- l | c j] -> c j by rewrite mem_filter => /andP[].
have qE : rqual vord g = [seq j <- l | c j] by rewrite /rqual E -map_comp map_id.
have gt : rg_t g = t by rewrite h1.
have cE : rcertified vord g = (t <= size Q)%N by rewrite /rcertified qE (perm_size pQ) gt.
have aE : all (fun j => isSome (mget j (rg_commits g))) [seq j <- l | c j] = all (revealed acts i) Q.
  rewrite -(perm_all _ pQ); apply: eq_all => j; rewrite h5; by case: revealed.
split=> //; first by rewrite qE.
  by rewrite /rfinished E size_map (perm_size pQ) gt all_map -aE.
rewrite rdist_key_shareE cE; case: leqP => //= tQ.
have dl : forall iv, List.In iv [seq (j, h j) | j <- [seq j <- l | c j]] -> rverifier_deal iv.2 = Some (rhdeal iv.1 i).
  by move=> iv /List.in_map_iff [j [<- jl]] /=; move/In_mem: jl => /lQ cj; have [_ ->] := H j.
have sc j : size (rhcommits j) = t by rewrite size_map size_rhpoly.
have ml : [seq iv.1 | iv <- [seq (j, h j) | j <- [seq j <- l | c j]]] = [seq j <- l | c j] by rewrite -map_comp map_id.
rewrite E; case: ifP => al.
  rewrite (@rkey_fold0 g (rhdeal^~ i) rhcommits (Some B) t) ?ml //.
  - rewrite /= rjoint_share /joint_poly; have -> : rg_index g = i by rewrite h1.
    congr (Ok (RDKShare _ (PriShare _ _))); last by rewrite (perm_big _ pQ).
    rewrite -map_comp; apply: eq_map => q /=; rewrite scaler_suml (perm_big _ pQ); apply: eq_bigr => j _.
    rewrite /rhcommits; case: (ltnP q (size (rhpoly j))) => lq; first by rewrite (nth_map 0).
    by rewrite !nth_default ?size_map // scale0r.
  - move=> j jl; split=> //; rewrite h5; have -> // : revealed acts i j.
    by apply: (allP al); rewrite -(perm_mem pQ).
  - by move/(congr1 size); rewrite size_map (perm_size pQ) => e; move: t2 tQ; rewrite e; case: (t).
rewrite (@rkey_fold_missing g (rhdeal^~ i) rhcommits (Some B) t) ?ml //.
- by move=> j _; rewrite h5; case: revealed; [right|left].
- by rewrite -[has _ _]negbK -all_predC; move: aE; rewrite al => /negbT; apply: contra; apply: sub_all => j /=; rewrite negbK.
Qed.
End Honest.

(** ** Arbitrary histories *)
(** The deal a verifier holds. *)
Definition held (v : rverifier G) : option (rdeal G) := if rv_agg v is Some a then ra_deal a else None.

Lemma held_stored (a : raggregator G) d d' : ra_deal a = Some d -> ra_deal (rstored a d') = Some d.
Proof. by rewrite /rstored => e; rewrite e. Qed.

Lemma held_resp v r : held (rverifier_process_response S v r).1 = held v.
Proof.
rewrite /held /rverifier_process_response; case E: (rv_agg v) => [a|] /=; last by rewrite E.
case R: rverify_response => [a' o] /=; by case: (rverify_responseP R) => [[_ [_ _ _ _ ->]]|[_ ->]].
Qed.

Lemma held_just v j d : held v = Some d -> held (rverifier_process_justification S v j).1 = Some d.
Proof.
rewrite /held /rverifier_process_justification; case E: (rv_agg v) => [a|] //= h.
case R: rverify_justification => [a' o] /=; case: (rvjustP R) => [[-> _]|[r [_ _ _ _ ->]]] //.
by case: o {R} => [u|e||] /=; exact: held_stored.
Qed.

Lemma held_timeout v : held (rverifier_set_timeout v) = held v.
Proof. by rewrite /held /rverifier_set_timeout; case E: (rv_agg v) => [a|] //=; rewrite E. Qed.

Lemma held_unsafe v idx b : held (rv_unsafe_set v idx b) = held v.
Proof.
rewrite /held /rv_unsafe_set; case E: (rv_agg v) => [a|] /=; last by rewrite E.
by rewrite /runsafe_set_response_dkg; case: (radd_state a (Response (ra_sid a) idx b [::])).
Qed.

Lemma held_process v e k v' r : rv_agg v = None -> rprocess_encrypted_deal S rdeal_dec v e k = (v', Ok r) ->
  exists2 d, rdecrypt_deal S rdeal_dec v e = Ok d & ps_i (rd_sec d) = rv_index v /\ held v' = Some d.
Proof.
move=> na E; case: (rprocess_encrypted_dealP E) => [[_ //]|[d D [ei H]]]; exists d => //; split=> //.
have hs : ra_deal (rstored (ragg_for v d) d) = Some d by rewrite /ragg_for na.
by case: H => [[-> _]|[st [-> _ _ _ _]]].
Qed.

Lemma held_deal v d : rverifier_deal v = Some d -> held v = Some d.
Proof. by rewrite /rverifier_deal /held; case: (rv_agg v) => // a; case: ifP. Qed.

Section History.
Hypothesis okS : suite_ok S.
Hypothesis dec_enc : forall d, rdeal_dec (rdeal_enc d) = Some d.
Variables (long : F) (ps : seq G) (t : nat) (secret : F) (fp gp : nat -> F).
Notation pub := (long *: B).
Notation i := (seq.index pub ps).
Hypothesis li : (i < size ps)%N.
Definition own_poly : seq F := secret :: mkseq fp (t - 1).
Variable strict : bool.
Variable d0 : rdealer G.
Hypothesis d0E : new_rdealer S long secret ps t fp gp = Ok d0.

Definition rginv (g : rdkg G) : Prop :=
  [/\ [/\ rg_index g = i, rg_long g = long, rg_parts g = ps & rg_t g = t], exists a, rg_dealer g = rl_set_agg d0 a,
      (forall j v, mget j (rg_verifiers g) = Some v -> exists2 d, held v = Some d &
         ps_i (rd_sec d) = i /\ (strict -> j = i -> rd_sec d = PriShare i (share_value own_poly i))) &
      forall j p, mget j (rg_commits g) = Some p -> j \notin rg_reconstructed g ->
        pb p = Some B /\ ((j = i /\ pcommits p = [seq c *: B | c <- own_poly]) \/
          exists v d, [/\ mget j (rg_verifiers g) = Some v, held v = Some d & pub_check B p (rd_sec d) = Ok true])].

Lemma rginv0 g : new_rdkg S long ps t secret fp gp = Ok g -> rginv g.
Proof.
rewrite /new_rdkg /pmul /= li d0E /= => -[<-]; split=> //=.
by exists (rl_agg d0); case: (d0).
Qed.

Lemma rginv_dealer g a : rginv g -> rginv (rg_set_dealer g (rl_set_agg (rg_dealer g) a)).
Proof. by case=> h1 [b h2] h3 h4; split=> //=; exists a; rewrite h2. Qed.

(** Replacing a verifier by one that holds the same deal, or adding one. *)
Lemma rginv_ver g j v d : rginv g -> held v = Some d -> ps_i (rd_sec d) = i ->
  (strict -> j = i -> rd_sec d = PriShare i (share_value own_poly i)) ->
  (forall w, mget j (rg_verifiers g) = Some w -> held w = Some d) -> rginv (rg_set_ver g j v).
Proof.
move=> [h1 h2 h3 h4] hv hi ho hw; split=> //=.
  move=> m w; rewrite mget_minsert; case: (eqVneq m j) => [->|_]; last exact: h3.
  by case=> <-; exists d.
move=> m p hp nr; have [e1 e2] := h4 m p hp nr; split=> //; case: e2 => [e2|[w [d' [w1 w2 w3]]]]; [by left|right].
rewrite mget_minsert; case: (eqVneq m j) => [mj|_]; last by exists w, d'.
exists v, d; split=> //; rewrite -mj in hw; move: (hw w w1); rewrite w2 => -[<-]; exact: w3.
Qed.

Lemma rginv_same g j v w : rginv g -> mget j (rg_verifiers g) = Some w -> held v = held w -> rginv (rg_set_ver g j v).
Proof.
move=> I mw hv; have [_ _ h3 _] := I; have [d hd [e1 e2]] := h3 j w mw.
by apply: (rginv_ver (d := d)) => //; [rewrite hv|move=> w'; rewrite mw => -[<-]].
Qed.

Lemma rginv_deal g dd k : rginv g ->
  (strict -> rdd_index dd = i -> forall v d, new_rverifier S long pub ps = Ok v -> rdecrypt_deal S rdeal_dec v (rdd_deal dd) = Ok d ->
     rd_sec d = PriShare i (share_value own_poly i)) ->
  rginv (rgprocess_deal S rdeal_dec g dd k).1.
Proof.
move=> I own; have [[h1 h1' h1'' _] _ _ _] := I; rewrite /rgprocess_deal /rg_find_pub find_pubE h1''.
case: ltnP => // lj; case M: mget => [v0|] //.
rewrite h1'; case N: new_rverifier => [v|e||] //.
case P: rprocess_encrypted_deal => [v' [r|e||]] //=.
have [vi va] : rv_index v = i /\ rv_agg v = None by move: N; rewrite /new_rverifier /pmul /= li => -[<-].
have [d D [e1 e2]] := held_process va P.
apply: (rginv_ver (d := d)) => //; rewrite ?held_unsafe ?e1 //.
- by move=> st ji; apply: (own st ji v) => //; rewrite -N ji nth_index // -index_mem.
- by rewrite M.
Qed.

Lemma own_encrypted a rnd ds e v d : rencrypted_deals S rdeal_enc (rl_set_agg d0 a) rnd = Ok ds ->
  nth None (map Some ds) i = Some e -> new_rverifier S long pub ps = Ok v -> rdecrypt_deal S rdeal_dec v e = Ok d ->
  rd_sec d = PriShare i (share_value own_poly i).
Proof.
have [h1 h2 d0E'] := new_rdealerP d0E.
set enc := fun m => EncDeal ((rnd m).1 *: B) (su_sign S long (su_enc S ((rnd m).1 *: B)) (rnd m).2) (nseq 12 0%N)
    (su_seal S ((rnd m).1 *: nth 0 ps m) (context S pub ps) (nseq 12 0%N) (rdeal_enc (the_rdeal S long secret ps t fp gp m))).
have enc1 m : (m < size ps)%N -> rencrypted_deal S rdeal_enc (rl_set_agg d0 a) m (rnd m).1 (rnd m).2 = Ok (enc m).
  move=> lm; rewrite d0E' /rencrypted_deal find_pubE /= lm.
  rewrite (nth_map (the_rdeal S long secret ps t fp gp 0)) ?size_map ?size_iota // (nth_map 0%N) ?size_iota // nth_iota //=.
  by rewrite /enc /the_rdeal !share_value_eval.
have -> : rencrypted_deals S rdeal_enc (rl_set_agg d0 a) rnd = Ok (mkseq enc (size ps)).
  have vs : rl_verifiers (rl_set_agg d0 a) = ps by rewrite d0E'.
  rewrite /rencrypted_deals vs /mkseq.
  have H m : (m <= size ps)%N -> foldo (fun acc i0 => let! e := rencrypted_deal S rdeal_enc (rl_set_agg d0 a) i0 (rnd i0).1 (rnd i0).2 in
      Ok (rcons acc e)) [::] (iota 0 m) = Ok (map enc (iota 0 m)).
    by elim: m => // m IH lm; rewrite -addn1 iotaD add0n /= foldo_cat IH ?(ltnW lm) //= enc1 //= map_cat cats1.
  exact: H.
move=> [<-]; rewrite (nth_map (enc 0%N)) ?size_mkseq // nth_mkseq // => -[<-].
rewrite /new_rverifier /pmul /= li => -[<-]; rewrite /rdecrypt_deal /=; case: ifP => // _.
rewrite nth_index -?index_mem // !scalerA mulrC (su_open_seal okS) dec_enc => -[<-].
by [].
Qed.

Lemma rginv_deals g rnd k : rginv g -> rginv (rgdeals S rdeal_enc rdeal_dec g rnd k).1.
Proof.
move=> I; have [_ [a da] _ _] := I; rewrite rgdealsE da; case E: rencrypted_deals => [ds|e||] //.
have {da I} : rginv (g, Ok [::] : outcome rdkg_error (seq (nat * rddeal G))).1 := I.
move: (iota 0 _) => l; move: (g, Ok [::]); elim: l => [//|m l IH] [{}g o] /= I; apply: IH.
move: I => /= I; have [[h1 h1' h1'' _] _ _ _] := I.
rewrite /rdeals_step; case: o => //= dd; case N: (nth None (map Some ds) m) => [e|] //=.
rewrite h1; case: (eqVneq m i) => //= mi; case M: mget => [v|] //.
set distd := RDDeal _ _.
have I1 : rginv (rgprocess_deal S rdeal_dec g distd k).1.
  by apply: rginv_deal => // _ _ v d nv D; apply: (own_encrypted E) nv D; rewrite -mi.
case: rgprocess_deal I1 => g' [r|e'||] //= I1; case: ifP => //= _; exact: rginv_dealer.
Qed.

Lemma rginv_response g r k : rginv g -> rginv (rgprocess_response S rdeal_enc g r k).1.
Proof.
move=> I; rewrite /rgprocess_response; case M: mget => [v|] //.
have hv := held_resp v (rdr_resp r); case: rverifier_process_response hv => v1 o /= hv.
have I1 : rginv (rg_set_ver g (rdr_index r) v1) by apply: rginv_same M hv.
case: o => [u|e||] //; case: ifP => //= _.
rewrite /rdealer_process_response; case R: rverify_response => [a' o'] /=.
have Id : rginv (rg_set_dealer (rg_set_ver g (rdr_index r) v1) (rl_set_agg (rg_dealer g) a')).
  exact: (@rginv_dealer (rg_set_ver g (rdr_index r) v1)).
set oj := bindo _ _; case: oj => [[j|]|e||] //=.
have [_ _ h3 _] := I; have [d hd [e1 e2]] := h3 _ _ M; rewrite -hv in hd.
have hj := held_just j hd; case: rverifier_process_justification hj => v2 o2 /= hj.
apply: (rginv_same (w := v1)) => //=; first by rewrite mget_minsert eqxx.
by rewrite hj hd.
Qed.

Lemma rginv_just g j : rginv g -> rginv (rgprocess_justification S g j).1.
Proof.
move=> I; rewrite /rgprocess_justification; case M: mget => [v|] //.
have [_ _ h3 _] := I; have [d hd [e1 e2]] := h3 _ _ M.
have hj := held_just (rdj_just j) hd; case: rverifier_process_justification hj => v2 o2 /= hj.
by apply: (rginv_same I M); rewrite hj hd.
Qed.

Lemma rginv_timeout g : rginv g -> rginv (rgset_timeout g).
Proof.
have mm (f : rverifier G -> rverifier G) m l : mget m [seq (iv.1, f iv.2) | iv <- l] = omap f (mget m l).
  by elim: l => //= [[q v] l] IH /=; case: eqP.
case=> h1 h2 h3 h4; split=> //=.
  move=> j v; rewrite mm; case M: mget => [w|] //= -[<-]; have [d hd e] := h3 j w M.
  by exists d => //; rewrite held_timeout.
move=> j p hp nr; have [e1 e2] := h4 j p hp nr; split=> //; case: e2 => [|[v [d [w1 w2 w3]]]]; [by left|right].
by exists (rverifier_set_timeout v), d; rewrite mm w1 /= held_timeout.
Qed.

Lemma rginv_secret g k : rginv g -> rginv (rsecret_commits S g k).1.
Proof.
move=> I; rewrite /rsecret_commits; case: ifP => // _; case C: rdealer_commits => [cs|] //=.
have [[h1 h1' h1'' ht] [a h2] h3 h4] := I; split=> //=; first by exists a.
move=> j p; rewrite mget_minsert h1; case: (eqVneq j i) => [->|_]; last exact: h4.
move=> [<-] _; split=> //; left; split=> //=; move: C; rewrite h2 /rdealer_commits; case: ifP => // _ [<-] /=.
by have [_ _ ->] := new_rdealerP d0E.
Qed.

Lemma rginv_commits g sc k : rginv g -> rginv (rprocess_secret_commits S rdeal_enc g sc k).1.
Proof.
move=> I; rewrite /rprocess_secret_commits; case: rg_find_pub => // P; case: ifP => // _; case M: mget => [v|] //.
case: rverifier_session_id => // sid; case: ifP => // _; case: ifP => // _; case D: rverifier_deal => [d|] //.
case C: pub_check => [[|]|e||] //=.
have [h1 h2 h3 h4] := I; split=> //= j p; rewrite mget_minsert; case: (eqVneq j (sc_index sc)) => [->|_]; last exact: h4.
by move=> [<-] _; split=> //; right; exists v, d; split=> //; exact: held_deal.
Qed.

Lemma mget_mremove (T : Type) (l : seq (nat * T)) m q : mget m (mremove q l) = if m == q then None else mget m l.
Proof.
elim: l => [|[b y] l IH] /=; first by rewrite if_same.
case: (eqVneq b q) => [bq|nb] /=; rewrite IH; case: (eqVneq m q) => [mq|nm] //=.
  by rewrite bq (negPf nm).
by rewrite mq eq_sym (negPf nb).
Qed.

Lemma rginv_complaint g cc k : rginv g -> rginv (rprocess_complaint_commits S rdeal_enc g cc k).1.
Proof.
move=> I; rewrite /rprocess_complaint_commits; case: rg_find_pub => // P; case: ifP => // _; case: ifP => // _.
case M: mget => [v|] //; case A: (rv_agg v) => [a|] //.
have [_ _ h3 _] := I; have [d hd [e1 e2]] := h3 _ _ M.
have sa := rverify_deal_state S a (cc_deal cc) false.
case V: rverify_deal => [a1 o] /=; rewrite V /= in sa.
have hd' : held (rv_set_agg v a1) = Some d by rewrite /held /= sa; apply: held_stored; move: hd; rewrite /held A.
have I1 : rginv (rg_set_ver g (cc_dealer cc) (rv_set_agg v a1)) by apply: (rginv_same I M); rewrite hd' hd.
case: o {V} => [u|e||] //; case Cm: mget => [poly|] //; case: pub_check => [[|]|e||] //; case D: rverifier_deal => [deal|] //=.
case: I1 => h1 h2 h3' h4; split=> //= j p.
by rewrite mget_mremove; case: eqP => // _; exact: h4.
Qed.

Lemma rginv_reconstruct hord g rc : rginv g -> rginv (rprocess_reconstruct_commits S hord g rc).1.
Proof.
move=> I; rewrite /rprocess_reconstruct_commits; case: ifP => // _; case Cm: (mget _ (rg_commits g)) => [p|] //.
case: rg_find_pub => // P; case: ifP => // _; case: rscan => [o|] //; case: ifP => //= _.
case: recover_pri_poly => [pri|e||] //=; case: I => h1 h2 h3 h4; split=> //= j p.
by rewrite mget_minsert inE negb_or; case: (eqVneq j (rc_dealer rc)) => //= _; exact: h4.
Qed.

(** If [strict], no deal bearing the participant's own index comes from the network. *)
Definition rforeign (ev : rgevent G) : bool := if ev is RGDeal dd _ then ~~ strict || (rdd_index dd != i) else true.

Lemma rginv_step g ev : rforeign ev -> rginv g -> rginv (rgstep S rdeal_enc rdeal_dec g ev).
Proof.
case: ev => [rnd k|dd k|r k|j||k|sc k|cc k|hord rc] /= fo I.
- exact: rginv_deals.
- by apply: rginv_deal => // st e; rewrite e eqxx st in fo.
- exact: rginv_response.
- exact: rginv_just.
- exact: rginv_timeout.
- exact: rginv_secret.
- exact: rginv_commits.
- exact: rginv_complaint.
- exact: rginv_reconstruct.
Qed.

Lemma rginv_run g evs : all rforeign evs -> rginv g -> rginv (rgrun S rdeal_enc rdeal_dec g evs).
Proof. by elim: evs g => //= ev evs IH g /andP[f fs] /(rginv_step f); exact: IH. Qed.

Lemma rqual_in vord (g : rdkg G) iv : List.In iv (rqual_entries vord g) -> mget iv.1 (rg_verifiers g) = Some iv.2 /\ rv_certified iv.2.
Proof.
rewrite /rqual_entries; elim: (vord _) => //= j l IH.
case M: mget => [v|] //; case C: rv_certified => //= -[<-|] //=.
Qed.

Lemma check_value (p : pub_poly G) s : pb p = Some B -> pub_check B p s = Ok true ->
  ps_v s *: B = pub_share_value (pcommits p) (ps_i s).
Proof.
rewrite /pub_check; case: (eqVneq (pcommits p) [::]) => [e|ne]; first by rewrite pub_eval_panic.
by rewrite pub_eval_ok //= => -> [/eqP e]; exact: esym e.
Qed.

Lemma own_value : share_value own_poly i *: B = pub_share_value [seq c *: B | c <- own_poly] i.
Proof. by rewrite share_value_eval pri_eval_v; exact: esym (gsum_commit B own_poly None (xcoord F i)). Qed.

Lemma rkey_good (g : rdkg G) l acc sh pubb :
  (forall iv, List.In iv l -> forall d p, rverifier_deal iv.2 = Some d -> mget iv.1 (rg_commits g) = Some p ->
     ps_v (rd_sec d) *: B = pub_share_value (pcommits p) i) ->
  (if acc.2 is Some p then acc.1 *: B = pub_share_value (pcommits p) i else acc.1 = 0) ->
  foldo (rkey_step g) acc l = Ok (sh, pubb) ->
  if pubb is Some p then sh *: B = pub_share_value (pcommits p) i else sh = 0.
Proof.
elim: l acc => [|iv l IH] [s0 p0] hl /= ha; first by case=> <- <-.
case D: (rverifier_deal iv.2) => [d|] //; case C: (mget iv.1 _) => [q|] //.
have gd := hl iv (or_introl erefl) d q D C.
have hl' : forall iv0, List.In iv0 l -> forall d0 p, rverifier_deal iv0.2 = Some d0 -> mget iv0.1 (rg_commits g) = Some p ->
     ps_v (rd_sec d0) *: B = pub_share_value (pcommits p) i by move=> ??; apply: hl; right.
case: p0 ha => [p|] /= ha; last by apply: IH => //=; rewrite ha add0r.
rewrite /pub_add; case: eqP => //= sz; apply: IH => //=.
by rewrite scalerDl ha gd pub_add_value.
Qed.

Lemma share_matches vord g s : strict -> rginv g -> (forall j, j \in rqual vord g -> j \notin rg_reconstructed g) -> rdist_key_share vord g = Ok s ->
  ps_i (rk_share s) = i /\ ps_v (rk_share s) *: B = pub_share_value (rk_commits s) i.
Proof.
move=> st [[h1 _ _ _] _ h3 h4] nr; rewrite rdist_key_shareE; case: ifP => // _.
case E: foldo => [[sh [p|]]|e||] //= -[<-] /=; split=> //.
apply: (rkey_good _ _ E) => //= iv vi d p' D C; have [mv _] := rqual_in vi.
have qi : iv.1 \in rqual vord g by rewrite /rqual; elim: (rqual_entries vord g) vi => //= w l IH [->|/IH h]; rewrite inE ?eqxx ?h ?orbT.
have [pbE ck] := h4 _ _ C (nr _ qi).
have [d1 hd [ei eo]] := h3 _ _ mv; move: hd; rewrite (held_deal D) => -[?]; subst d1.
case: ck => [[ji ->]|[v [d2 [mv2 hd2 ck]]]]; first by rewrite (eo st ji) own_value.
move: mv2 hd2; rewrite mv => -[<-]; rewrite (held_deal D) => -[?]; subst d2.
by rewrite (check_value pbE ck) ei.
Qed.

End History.

(** After any history every stored verifier has an aggregator holding a deal for this participant. *)
Lemma stored_aggregators (okS : suite_ok S) (dec_enc : forall d, rdeal_dec (rdeal_enc d) = Some d) long ps t secret fp gp g evs j v :
  new_rdkg S long ps t secret fp gp = Ok g ->
  mget j (rg_verifiers (rgrun S rdeal_enc rdeal_dec g evs)) = Some v ->
  exists a d, [/\ rv_agg v = Some a, ra_deal a = Some d & ps_i (rd_sec d) = rg_index g].
Proof.
move=> ng; have := ng; rewrite /new_rdkg /pmul /=; case: ltnP => // li.
case E: new_rdealer => [d0|e||] //= -[ge].
have : rginv long ps t secret fp false d0 (rgrun S rdeal_enc rdeal_dec g evs).
  apply: (rginv_run okS dec_enc li E); first by elim: (evs) => //= -[].
  exact: (rginv0 li _ E ng).
case=> _ _ h3 _ mv; have [d hd [e _]] := h3 j v mv; move: hd; rewrite /held; case A: (rv_agg v) => [a|] // hd.
by exists a, d; split=> //; rewrite e -ge.
Qed.
End Rdkg.
