(** Proofs about the Pedersen DKG model (DkgModel.v). *)
From mathcomp Require Import all_ssreflect all_algebra.
From mathcomp Require Import zify.
From Verif Require Import Base Lagrange PolyModel PolySpec PolyProofs PolyProps Suite VssModel VssSpec VssProofs.
From Verif Require Import DkgModel DkgSpec.

Set Implicit Arguments.
Unset Strict Implicit.
Unset Printing Implicit Defensive.

Import GRing.Theory.
Local Open Scope ring_scope.
Local Open Scope outcome_scope.

Lemma minsert_new (T : Type) k (v : T) m : k \notin mkeys m -> minsert k v m = m ++ [:: (k, v)].
Proof.
by elim: m => [|[k' v'] m IH] //=; rewrite inE negb_or => /andP[/negPf -> /IH ->].
Qed.

Lemma mget_map_iota (T : Type) (h : nat -> T) k0 n j :
  mget j [seq (i, h i) | i <- iota k0 n] = if (k0 <= j < k0 + n)%N then Some (h j) else None.
Proof.
elim: n k0 => [|n IH] k0 /=; first by rewrite addn0; case: ifP => //; lia.
rewrite IH; case: (eqVneq j k0) => [->|ne].
  by rewrite leqnn /= ifT //; lia.
by have -> : (k0 < j < k0.+1 + n)%N = (k0 <= j < k0 + n.+1)%N by lia.
Qed.

Lemma mkeys_map_iota (T : Type) (h : nat -> T) k0 n : mkeys [seq (i, h i) | i <- iota k0 n] = iota k0 n.
Proof. by rewrite /mkeys -map_comp map_id. Qed.

Lemma foldo_cat (E A X : Type) (f : A -> X -> outcome E A) a l l' :
  foldo f a (l ++ l') = bindo (foldo f a l) (fun b => foldo f b l').
Proof. by elim: l a => //= y l IH a; case: (f a y) => //= b; rewrite IH. Qed.

Section Dkg.
Variables (F : fieldType) (G : lmodType F) (S : suite G).
Notation B := (su_base S).
Variable deal_enc : deal G -> bytestr.
Variable deal_dec : bytestr -> option (deal G).
Variable ddeal_enc : nat -> enc_deal G -> bytestr.

Lemma get_pubE (l : seq G) i : get_pub l i = if (i < size l)%N then Some (nth 0 l i) else None.
Proof. exact: find_pubE. Qed.

Lemma dfind_pub_at (l : seq G) i : uniq l -> (i < size l)%N -> dfind_pub l (nth 0 l i) = (i, true).
Proof. by move=> u lt; rewrite /dfind_pub index_uniq // lt. Qed.

(** ** Making the verifiers *)
Definition init_step (c : config G) (acc : seq G * seq (nat * verifier G)) (ip : nat * G) :
    outcome dkg_error (seq G * seq (nat * verifier G)) :=
  let '(taken, vers) := acc in
  let '(i, p) := ip in
  if p \in taken then Err DuplicatePublicKeyInNewList else
  let! ver := dvss (new_verifier S (c_long c) p (c_new c)) in
  let ver := v_set_agg ver (set_threshold (v_agg ver) (c_t c)) in
  Ok (p :: taken, mset i ver vers).

Lemma init_verifiersE c : init_verifiers S c =
  let! r := foldo (init_step c) ([::], [::]) (zip (iota 0 (size (c_old c))) (c_old c)) in Ok r.2.
Proof. by []. Qed.

Definition ver_for (c : config G) (idx : nat) (p : G) : verifier G :=
  Verifier (c_long c) (c_long c *: B) p idx (c_new c) (context S p (c_new c)) (set_threshold (new_empty_aggregator (c_new c)) (c_t c)).

Lemma init_loop c (l : seq G) k taken vers : (seq.index (c_long c *: B) (c_new c) < size (c_new c))%N ->
  uniq l -> (forall p, p \in l -> p \notin taken) -> (forall j, j \in mkeys vers -> (j < k)%N) ->
  foldo (init_step c) (taken, vers) (zip (iota k (size l)) l) =
  Ok (rev l ++ taken, vers ++ [seq ((k + m)%N, ver_for c (seq.index (c_long c *: B) (c_new c)) (nth 0 l m)) | m <- iota 0 (size l)]).
Proof.
move=> present; elim: l k taken vers => [|p l IH] k taken vers; first by rewrite /= cats0.
rewrite [uniq _]/= => /andP[np ul] nt lk; rewrite [zip _ _]/= [foldo _ _ _]/=.
have pt : p \notin taken by apply: nt; rewrite inE eqxx.
rewrite (negPf pt) /new_verifier present [dvss _]/= [bindo (Ok _) _]/= [bindo (Ok _) _]/=.
rewrite [mset _ _ _]minsert_new; last by apply/negP => /lk; rewrite ltnn.
rewrite IH //=.
- rewrite rev_cons cat_rcons -catA addn0 /=; congr (Ok (_, _ ++ _ :: _)).
  rewrite -[1%N]/(1 + 0)%N iotaDl -map_comp; apply: eq_map => m /=.
  by rewrite add1n addSnnS.
- move=> q ql; rewrite inE negb_or nt ?inE ?ql ?orbT // andbT.
  by apply/eqP => e; rewrite -e ql in np.
- move=> j; rewrite /mkeys map_cat mem_cat /= inE => /orP[/lk|/eqP ->] //; lia.
Qed.

Lemma init_dup c (l : seq G) k taken vers : (seq.index (c_long c *: B) (c_new c) < size (c_new c))%N ->
  ~~ uniq l || has (mem taken) l ->
  foldo (init_step c) (taken, vers) (zip (iota k (size l)) l) = Err DuplicatePublicKeyInNewList.
Proof.
move=> present; elim: l k taken vers => [|p l IH] k taken vers //=.
case: ifP => // pt; rewrite /new_verifier present [dvss _]/= [bindo (Ok _) _]/= [bindo (Ok _) _]/=.
rewrite negb_and negbK /= => H; apply: IH.
case/orP: H => [/orP[pl|->]|/hasP[q ql qt]] //=.
- by apply/orP; right; apply/hasP; exists p => //=; rewrite inE eqxx.
- by apply/orP; right; apply/hasP; exists q => //=; rewrite inE [q \in taken]qt orbT.
Qed.

Definition deals_step ds (ks : nat -> F) (k k' : F) (acc : dkg G * outcome dkg_error (seq (nat * ddeal G))) (i : nat) :=
  match acc with
  | (g, Ok dd) =>
    match nth None (map Some ds) i with
    | None => (g, Panic)
    | Some e =>
      let distd := DDeal (g_oidx g) e (su_sign S (c_long (g_c g)) (ddeal_enc (g_oidx g) e) (ks i)) in
      if [&& i == g_nidx g, g_new_present g & ~~ g_resharing g] then
        if g_processed g then (g, Ok dd) else
        let '(g, o) := dprocess_deal S deal_dec ddeal_enc (g_set_processed g) distd k k' in
        match o with
        | Ok r => if ~~ r_status (dr_resp r) then (g, Err OwnDealComplaint) else (g, Ok dd)
        | Err _ => (g, Err CannotProcessOwnDeal)
        | Panic => (g, Panic)
        | OutOfFuel => (g, OutOfFuel)
        end
      else (g, Ok (minsert i distd dd))
    end
  | _ => acc
  end.
Lemma ddealsE g rnd ks k k' : ddeals S deal_enc deal_dec ddeal_enc g rnd ks k k' =
  if ~~ g_can_issue g then (g, Ok [::]) else
  match encrypted_deals S deal_enc (g_dealer g) rnd with
  | Ok ds => foldl (deals_step ds ks k k') (g, Ok [::]) (iota 0 (size (c_new (g_c g))))
  | Err e => (g, Err (DVss e))
  | Panic => (g, Panic)
  | OutOfFuel => (g, OutOfFuel)
  end.
Proof. by []. Qed.

(** ** The key *)
Definition key_step (acc : F * option (pub_poly G)) (iv : nat * verifier G) : outcome dkg_error (F * option (pub_poly G)) :=
  let '(sh, pubb) := acc in
  match verifier_deal iv.2 with
  | None => Err DealsNotFound
  | Some d =>
      let sh := sh + ps_v (d_share d) in
      let poly := PubPoly (Some B) (d_commits d) in
      match pubb with
      | Some p => let! p' := dpoly (pub_add p poly) in Ok (sh, Some p')
      | None => Ok (sh, Some poly)
      end
  end.
Lemma dkg_keyE vord g : dkg_key S vord g =
  bindo (foldo key_step (0, None) (qual_entries vord g)) (fun r => let '(sh, pubb) := r in
    let! p := of_option pubb in Ok (DKShare (pcommits p) (PriShare (g_nidx g) sh) (dl_poly (g_dealer g)))).
Proof. by []. Qed.

Lemma key_fold (d : nat -> deal G) (m : nat) (l : seq (nat * verifier G)) sh p :
  (forall iv, List.In iv l -> verifier_deal iv.2 = Some (d iv.1)) -> (forall j, j \in map fst l -> size (d_commits (d j)) = m) ->
  size (pcommits p) = m ->
  foldo key_step (sh, Some p) l =
  Ok (sh + \sum_(j <- map fst l) ps_v (d_share (d j)),
      Some (PubPoly (pb p) (mkseq (fun q => nth 0 (pcommits p) q + \sum_(j <- map fst l) nth 0 (d_commits (d j)) q) m))).
Proof.
elim: l sh p => [|[j v] l IH] sh p hv hs sp /=.
  rewrite !big_nil addr0; case: p sp => b cs /= <-; congr (Ok (_, Some (PubPoly _ _))).
  by rewrite -[LHS](mkseq_nth 0); apply: eq_map => q; rewrite big_nil addr0.
rewrite (hv (j, v)) /=; last by left.
rewrite /pub_add sp /= hs ?inE ?eqxx //=.
have sv : size (vadd (pcommits p) (d_commits (d j))) = m by rewrite size_vadd sp hs ?inE ?eqxx // minnn.
rewrite IH //; first 1 last.
- by move=> iv h; apply: hv; right.
- by move=> q h; apply: hs; rewrite inE h orbT.
rewrite big_cons addrA /=; congr (Ok (_, Some (PubPoly _ _))).
by apply: eq_map => q; rewrite big_cons addrA nth_vadd // sp hs // inE eqxx.
Qed.

Lemma key_fold0 (d : nat -> deal G) (m : nat) (l : seq (nat * verifier G)) :
  (forall iv, List.In iv l -> verifier_deal iv.2 = Some (d iv.1)) -> (forall j, j \in map fst l -> size (d_commits (d j)) = m) ->
  l <> [::] ->
  foldo key_step (0, None) l =
  Ok (\sum_(j <- map fst l) ps_v (d_share (d j)),
      Some (PubPoly (Some B) (mkseq (fun q => \sum_(j <- map fst l) nth 0 (d_commits (d j)) q) m))).
Proof.
case: l => // [[j v] l] hv hs _ /=; rewrite (hv (j, v)) /=; last by left.
rewrite (@key_fold d m) //=; first 1 last.
- by move=> iv h; apply: hv; right.
- by move=> q h; apply: hs; rewrite inE h orbT.
- by rewrite hs // inE eqxx.
rewrite add0r big_cons; congr (Ok (_, Some (PubPoly _ _))).
by apply: eq_map => q; rewrite big_cons.
Qed.

Lemma qual_entries_all (h : nat -> verifier G) vord g m : perm_eq (vord (mkeys (g_verifiers g))) (iota 0 m) ->
  (forall j, (j < m)%N -> mget j (g_verifiers g) = Some (h j) /\ deal_certified (v_agg (h j))) ->
  qual_entries vord g = [seq (j, h j) | j <- vord (mkeys (g_verifiers g))].
Proof.
move=> /perm_mem pm H; rewrite /qual_entries.
have: forall j, j \in vord (mkeys (g_verifiers g)) -> (j < m)%N by move=> j; rewrite pm mem_iota.
elim: (vord _) => //= j l IH hl.
have [-> ->] := H j (hl j (mem_head _ _)); rewrite /= IH // => q hq; apply: hl.
by rewrite inE hq orbT.
Qed.

Lemma take_while_all (A : Type) (p : A -> bool) l : all p l -> take_while p l = l.
Proof. by elim: l => //= a l IH /andP[-> /IH ->]. Qed.

(** ** Honest runs *)
Section Honest.
Hypothesis okS : suite_ok S.
Hypothesis dec_enc : forall d, deal_dec (deal_enc d) = Some d.
Variables (ps : seq G) (T : nat) (x sec : nat -> F) (picks : nat -> nat -> F).
Notation n := (size ps).
Definition thr : nat := if T == 0%N then minimum_t n else T.
Notation t := thr.
Hypothesis ups : uniq ps.
Hypothesis t2 : (2 <= t)%N.
Hypothesis tn : (t <= n)%N.
Hypothesis psE : forall i, (i < n)%N -> nth 0 ps i = x i *: B.
Hypothesis xn0 : forall i, (i < n)%N -> su_good S (x i).

Definition hpoly i : seq F := sec i :: mkseq (picks i) (t - 1).
Definition hcommits i : seq G := [seq c *: B | c <- hpoly i].
Definition hsid i : bytestr := session_id S (x i *: B) ps (hcommits i) t.
Definition hdeal j i : deal G := the_deal S (x j) (sec j) ps t (picks j) i.
Definition hdealer i : dealer G :=
  Dealer (x i) (x i *: B) (sec i) (hcommits i) (hpoly i) ps (context S (x i *: B) ps) t (hsid i)
    [seq Deal (hsid i) (pri_eval (hpoly i) m) t (hcommits i) | m <- iota 0 n] (Aggregator (x i *: B) ps (hcommits i) [::] (hsid i) None t false false).
Definition hconf i : config G := Config (x i) ps None ps None T 0.
Definition hver i j : verifier G := ver_for (hconf i) i (nth 0 ps j).
Definition hnode0 i : dkg G :=
  Dkg (hconf i) (x i *: B) (PubPoly None [::]) (hdealer i) [seq (j, hver i j) | j <- iota 0 n] [::] i i 0 t
      false true true true true false false.

Lemma hfind i : (i < n)%N -> dfind_pub ps (x i *: B) = (i, true).
Proof. by move=> lt; rewrite -psE // dfind_pub_at. Qed.
Lemma hidx i : (i < n)%N -> seq.index (x i *: B) ps = i.
Proof. by move=> lt; rewrite -psE // index_uniq. Qed.

Lemma hnode0E i : (i < n)%N -> new_dist_key_generator S (x i) ps T (sec i) (picks i) = Ok (hnode0 i).
Proof.
move=> lt; rewrite /new_dist_key_generator /new_dist_key_handler /pmul /= hfind //.
have -> : (ps == [::]) = false by case: (ps) lt.
have -> : (if T != 0%N then T else minimum_t n) = t by rewrite /thr; case: eqP.
have iv : init_verifiers S (hconf i) = Ok [seq (j, hver i j) | j <- iota 0 n].
  by rewrite init_verifiersE [c_old _]/= (@init_loop (hconf i)) //=; rewrite hidx.
rewrite /new_dealer /valid_t t2 tn /=; move: iv; rewrite /hconf => ->.
by [].
Qed.

(** What an honest aggregator for the deal of j looks like at participant i: [got], the deal is there; [has k], the
    response of k is there. *)
Definition aok (got : bool) (hs : nat -> bool) i j (a : aggregator G) : Prop :=
  [/\ a_verifiers a = ps, a_bad a = false /\ a_timeout a = false,
      a_deal a = (if got then Some (hdeal j i) else None), a_sid a = (if got then hsid j else [::]) /\ (got -> a_t a = t) &
      forall k, status_of a k = if hs k then Some true else None].

Definition genuine_deal j i (dd : ddeal G) : Prop :=
  [/\ dd_index dd = j, su_verify S (nth 0 ps j) (ddeal_enc j (dd_deal dd)) (dd_sig dd) &
      forall a, decrypt_deal S deal_dec (v_set_agg (hver i j) a) (dd_deal dd) = Ok (hdeal j i)].
Definition genuine_resp j k (r : response) : Prop :=
  [/\ r_sid r = hsid j, r_index r = k, r_status r = true & su_verify S (nth 0 ps k) (response_hash S r) (r_sig r)].

(** The static part of a participant. *)
Definition gstatic (processed : bool) i (g : dkg G) : Prop :=
  g = Dkg (hconf i) (x i *: B) (PubPoly None [::]) (g_dealer g) (g_verifiers g) [::] i i 0 t
        false true true true true processed false.

Lemma status_none (a : aggregator G) k : status_of a k = None -> mget k (a_responses a) = None.
Proof. by rewrite /status_of; case: mget. Qed.

Lemma hdeal_checks j i (a : aggregator G) : (i < n)%N -> (j < n)%N -> a_verifiers a = ps ->
  deal_checks S (a_set_deal a (hdeal j i)) (hdeal j i) = Ok tt.
Proof.
move=> li lj av; have := the_deal_checks S (x j) (sec j) (picks j) t2 tn li.
by rewrite /deal_checks /= av.
Qed.

Lemma step_deal p i j g dd a hs k k' : (i < n)%N -> (j < n)%N -> gstatic p i g ->
  mget j (g_verifiers g) = Some (v_set_agg (hver i j) a) -> aok false hs i j a -> hs i = false -> su_good S k ->
  (i = j -> hs i = false) -> genuine_deal j i dd ->
  exists v1 a', [/\ dprocess_deal S deal_dec ddeal_enc g dd k k' =
      (g_set_ver (g_set_ver g j v1) j (v_set_agg (hver i j) a'), Ok (DResponse j (honest_response S (x i) (hsid j) i k))),
      aok true (fun m => hs m || (m == i) || (m == j)) i j a' & genuine_resp j i (honest_response S (x i) (hsid j) i k)].
Proof.
move=> li lj gs mv [av [ab at0] ad [as_ _] st] hsi nk _ [di dv dd_].
rewrite /dprocess_deal gs /= get_pubE di lj dv /= mv.
rewrite (approve_if k (dd_ a)) //=; last first.
- exact: hdeal_checks.
- by apply: status_none; rewrite st hsi.
- by rewrite av.
rewrite dfind_pub_at //= -gs /=.
have -> : own_response S (v_set_agg (hver i j) a) (session_id S (nth 0 ps j) ps [seq c *: B | c <- sec j :: mkseq (picks j) (t - 1)] t) true k
          = honest_response S (x i) (hsid j) i k.
  by rewrite /own_response /honest_response /= /hsid /hcommits psE.
set r := honest_response _ _ _ _ _.
set v1 := v_set_agg _ _; exists v1.
set a1 := a_set_responses _ _ in v1 *.
have G1 : genuine_resp j i r.
  by split=> //; rewrite psE //; apply: (honest_verifies okS) => //; exact: xn0.
have s1 m : status_of a1 m = if hs m || (m == i) then Some true else None.
  rewrite /status_of /a1 /= mget_minsert; case: (eqVneq m i) => [_|ne]; first by rewrite orbT.
  by rewrite orbF -st.
have s2 : a_verifiers a1 = ps by rewrite /a1 /= av.
rewrite /unsafe_set_response_dkg.
case A: (add_response _ _) => [a2 o2] /=; exists a2; split=> //.
case: (add_responseP A) => [[_ [_ [nn ->]]]|[er a2E]] /=; split=> //=; try by rewrite a2E.
- by move=> m; rewrite /status_of /= mget_minsert; case: (eqVneq m j) => [_|ne]; rewrite ?orbT // orbF -s1.
- move=> m; rewrite a2E /= s1; case: (eqVneq m j) => [e|ne]; rewrite ?orbT ?orbF //.
  move: A er; rewrite /add_response find_pubE /= s2 lj -e.
  have := s1 m; rewrite /status_of /v1 /=; case M: mget => [r0|] /=; first by case: ifP.
  by move=> _ [_ <-].
Qed.

Lemma minsert2 (A : Type) k (u v : A) m : minsert k v (minsert k u m) = minsert k v m.
Proof.
by elim: m => [|[k' w] m IH] /=; rewrite ?eqxx //; case: eqP => e /=; rewrite ?e ?eqxx // IH; case: eqP.
Qed.

Lemma g_set_ver2 (g : dkg G) j u v : g_set_ver (g_set_ver g j u) j v = g_set_ver g j v.
Proof. by rewrite /g_set_ver /g_set_verifiers /= /mset minsert2. Qed.

(** ** The invariant of honest runs *)
Notation got := received.
Notation hasr := answered.
Definition dealer_ok (A : seq act) i (d : dealer G) : Prop :=
  exists2 a, d = dl_set_agg (hdealer i) a &
    [/\ a_verifiers a = ps, a_sid a = hsid i & forall k, AResp i k i \notin A -> mget k (a_responses a) = None].
Definition gok (A : seq act) i (g : dkg G) : Prop :=
  [/\ gstatic (ADeals i \in A) i g, dealer_ok A i (g_dealer g), mkeys (g_verifiers g) = iota 0 n &
      forall j, (j < n)%N -> exists2 a, mget j (g_verifiers g) = Some (v_set_agg (hver i j) a) & aok (got A i j) (hasr A i j) i j a].
Definition netok (A : seq act) (N : net G) : Prop :=
  [/\ forall j k i, AResp j k i \in A -> [/\ (j < n)%N, (k < n)%N, (i < n)%N, k != j & k != i],
      forall i, (i < n)%N -> gok A i (n_node N i),
      forall j i, (j < n)%N -> (i < n)%N -> i != j -> ADeals j \in A -> exists2 dd, n_deal N j i = Some dd & genuine_deal j i dd &
      forall j k, ADeal j k \in A -> exists2 r, n_resp N j k = Some (DResponse j r) & genuine_resp j k r].

Lemma aok_ext b b' hs hs' i j a : b = b' -> (forall k, hs k = hs' k) -> aok b hs i j a -> aok b' hs' i j a.
Proof. by move=> <- e [h1 h2 h3 h4 h5]; split=> // k; rewrite h5 e. Qed.

Lemma mkeys_set (A : Type) j (v : A) m : j \in mkeys m -> mkeys (minsert j v m) = mkeys m.
Proof. by move=> h; rewrite mkeys_minsert h. Qed.

Lemma net0_ok : netok [::] (net0 hnode0).
Proof.
split=> // i li; split=> //=.
- by exists (dl_agg (hdealer i)); [case: (hdealer i)|].
- by rewrite mkeys_map_iota.
- move=> j lj; rewrite mget_map_iota add0n lj /=; eexists; first by rewrite -{1}(v_set_agg_id (hver i j)).
  by rewrite /received /answered /received !if_same.
Qed.

Definition target (a : act) : nat := match a with inl (inl i) => i | inl (inr (_, i)) => i | inr (_, _, i) => i end.

Lemma inD (A : seq act) a i : ADeals i \in rcons A a = (a == ADeals i) || (ADeals i \in A).
Proof. by rewrite mem_rcons inE eq_sym. Qed.
Lemma inE' (A : seq act) a j i : ADeal j i \in rcons A a = (a == ADeal j i) || (ADeal j i \in A).
Proof. by rewrite mem_rcons inE eq_sym. Qed.
Lemma inR (A : seq act) a j k i : AResp j k i \in rcons A a = (a == AResp j k i) || (AResp j k i \in A).
Proof. by rewrite mem_rcons inE eq_sym. Qed.
Lemma target_ne a b : target a != target b -> (a == b) = false.
Proof. by move=> ne; apply/negP => /eqP e; rewrite e eqxx in ne. Qed.

Lemma gok_other A a i g : target a != i -> gok A i g -> gok (rcons A a) i g.
Proof.
move=> ne [h1 h2 h3 h4].
have eD : ADeals i \in rcons A a = (ADeals i \in A) by rewrite inD target_ne.
have eR j k : AResp j k i \in rcons A a = (AResp j k i \in A) by rewrite inR target_ne.
have eG j : got (rcons A a) i j = got A i j by rewrite /received eD inE' (@target_ne a (ADeal j i)).
split=> //; first by rewrite eD.
- by case: h2 => d e [e1 e2 e3]; exists d => //; split=> // k; rewrite eR; apply: e3.
- move=> j lj; have [b e1 e2] := h4 j lj; exists b => //; apply: aok_ext e2 => // k; by rewrite /answered ?eG ?eR.
Qed.

Definition respwf (A : seq act) := forall j k i, AResp j k i \in A -> [/\ (j < n)%N, (k < n)%N, (i < n)%N, k != j & k != i].

Lemma gok_deal A i j g dd k k' : respwf A -> (i < n)%N -> (j < n)%N -> i != j -> ADeal j i \notin A -> gok A i g ->
  genuine_deal j i dd -> su_good S k ->
  exists g' r, [/\ dprocess_deal S deal_dec ddeal_enc g dd k k' = (g', Ok (DResponse j r)),
     gok (rcons A (ADeal j i)) i g' & genuine_resp j i r].
Proof.
move=> wf li lj ne nin [h1 h2 h3 h4] gd nk.
have [a e1 e2] := h4 j lj.
have g0 : got A i j = false by rewrite /received (negPf ne) (negPf nin).
have r0 : hasr A i j i = false.
  by rewrite /answered g0 /=; apply/negP => /wf [_ _ _ _]; rewrite eqxx.
rewrite g0 in e2.
have [v1 [a' [E ok' G1]]] := step_deal k' li lj h1 e1 e2 r0 nk (fun _ => r0) gd.
exists (g_set_ver g j (v_set_agg (hver i j) a')), (honest_response S (x i) (hsid j) i k); split=> //.
  by rewrite E g_set_ver2.
have eD m : ADeals m \in rcons A (ADeal j i) = (ADeals m \in A) by rewrite inD.
split=> /=.
- by rewrite /gstatic eD {1}h1.
- by case: h2 => d e [f1 f2 f3]; exists d => //; split=> // m; rewrite inR; apply: f3.
- by rewrite /mset mkeys_set h3 // mem_iota.
move=> m lm; rewrite /mset mget_minsert; case: (eqVneq m j) => [->|nm].
- exists a' => //; apply: aok_ext ok'; first by rewrite /received (negPf ne) inE' eqxx.
  move=> q; rewrite /answered g0 /received (negPf ne) inE' eqxx inR /=.
  by rewrite -orbA orbC.
- have [b f1 f2] := h4 m lm; exists b => //.
  have eg : got A i m = got (rcons A (ADeal j i)) i m.
    rewrite /received eD inE'; case: eqP => // _; have -> // : (ADeal j i == ADeal m i) = false.
    by apply/negP => /eqP [e]; rewrite e eqxx in nm.
  by apply: aok_ext f2 => // q; rewrite /answered ?eg // inR.
Qed.

Lemma gok_own A i g dd k k' : respwf A -> (i < n)%N -> ADeals i \notin A -> gok A i g ->
  genuine_deal i i dd -> su_good S k ->
  exists g' r, [/\ dprocess_deal S deal_dec ddeal_enc (g_set_processed g) dd k k' = (g', Ok (DResponse i r)),
     gok (rcons A (ADeals i)) i g' & genuine_resp i i r].
Proof.
move=> wf li nin [h1 h2 h3 h4] gd nk.
have [a e1 e2] := h4 i li.
have g0 : got A i i = false by rewrite /received eqxx (negPf nin).
have r0 : hasr A i i i = false.
  by rewrite /answered g0 /=; apply/negP => /wf [_ _ _ _]; rewrite eqxx.
rewrite g0 in e2.
have h1' : gstatic true i (g_set_processed g) by rewrite /gstatic {1}h1.
have [v1 [a' [E ok' G1]]] := step_deal k' li li h1' e1 e2 r0 nk (fun _ => r0) gd.
exists (g_set_ver (g_set_processed g) i (v_set_agg (hver i i) a')), (honest_response S (x i) (hsid i) i k); split=> //.
  by rewrite E g_set_ver2.
have eD : ADeals i \in rcons A (ADeals i) by rewrite inD eqxx.
split=> /=.
- by rewrite /gstatic eD {1}h1'.
- by case: h2 => d e [f1 f2 f3]; exists d => //; split=> // m; rewrite inR; apply: f3.
- by rewrite /mset mkeys_set h3 // mem_iota.
move=> m lm; rewrite /mset mget_minsert; case: (eqVneq m i) => [->|nm].
- exists a' => //; apply: aok_ext ok'; first by rewrite /received eqxx eD.
  move=> q; rewrite /answered g0 /received eqxx eD inR /=.
  by rewrite -orbA orbC.
- have [b f1 f2] := h4 m lm; exists b => //.
  have eg : got A i m = got (rcons A (ADeals i)) i m.
    by rewrite /received inE' inD eq_sym (negPf nm).
  by apply: aok_ext f2 => // q; rewrite /answered ?eg // inR.
Qed.

Lemma gok_resp A i j k g r kj : (i < n)%N -> (j < n)%N -> (k < n)%N -> k != j -> k != i -> AResp j k i \notin A ->
  gok A i g -> genuine_resp j k r ->
  exists2 g', dprocess_response S deal_enc g (DResponse j r) kj = (g', Ok None) & gok (rcons A (AResp j k i)) i g'.
Proof.
move=> li lj lk nkj nki nin [h1 h2 h3 h4] [rs ri rt rv].
have [a e1 e2] := h4 j lj.
have s0 : hasr A i j k = false by rewrite /answered (negPf nkj) (negPf nki) andbF (negPf nin).
rewrite /dprocess_response h1 /= e1.
case: (e2) => av [ab at0] ad [as_ at1] st.
have V : verify_response S a r = (a_set_responses a (minsert k r (a_responses a)), Ok tt).
  rewrite -ri; apply: verify_response_ok; rewrite ?av ?ri //.
  - by rewrite as_; case: got; [right|left].
  - by apply: status_none; rewrite st s0.
rewrite /verifier_process_response /= V.
set a' := a_set_responses _ _.
have ok' : aok (got (rcons A (AResp j k i)) i j) (hasr (rcons A (AResp j k i)) i j) i j a'.
  rewrite /received inD inE' /= -/(got A i j); split=> // q.
  rewrite /status_of /a' /= mget_minsert /answered /received inD inE' /= -/(got A i j) inR.
  case: (eqVneq q k) => [->|nq] /=; first by rewrite rt eqxx orbT.
  have -> : (AResp j k i == AResp j q i) = false by apply/negP => /eqP [e]; rewrite e eqxx in nq.
  exact: st.
have eD : ADeals i \in rcons A (AResp j k i) = (ADeals i \in A) by rewrite inD.
have vers : forall q, (q < n)%N -> exists2 b, mget q (minsert j (v_set_agg (hver i j) a') (g_verifiers g)) =
     Some (v_set_agg (hver i q) b) & aok (got (rcons A (AResp j k i)) i q) (hasr (rcons A (AResp j k i)) i q) i q b.
  move=> q lq; rewrite mget_minsert; case: (eqVneq q j) => [->|nq]; first by exists a'.
  have [b f1 f2] := h4 q lq; exists b => //; apply: aok_ext f2; first by rewrite /received inD inE'.
  move=> m; rewrite /answered /received inD inE' inR /=; congr (_ || _).
  by have -> : (AResp j k i == AResp q m i) = false by apply/negP => /eqP [e]; rewrite e eqxx in nq.
have keys : mkeys (minsert j (v_set_agg (hver i j) a') (g_verifiers g)) = iota 0 n by rewrite mkeys_set h3 // mem_iota.
case: (eqVneq j i) => [ji|nji] /=; last first.
  eexists; first by []; split=> //=; first by rewrite /gstatic eD.
  case: h2 => d e [f1 f2 f3]; exists d => //; split=> // m; rewrite inR negb_or => /andP[_]; exact: f3.
case: h2 => d e [f1 f2 f3].
rewrite e /dealer_process_response /=.
have W : verify_response S d r = (a_set_responses d (minsert k r (a_responses d)), Ok tt).
  rewrite -ri; apply: verify_response_ok; rewrite ?f1 ?ri //; first by right; rewrite rs f2 ji.
  by apply: f3; rewrite -{1}ji.
rewrite W /= rt; eexists; first by []; split=> //=.
- by rewrite /gstatic eD.
- eexists; first by []; split=> //= m; rewrite inR negb_or mget_minsert => /andP[n1 n2].
  case: (eqVneq m k) => [mk|_]; last exact: f3.
  by rewrite mk -ji eqxx in n1.
Qed.

(** ** [deals] *)
Definition henc (a : aggregator G) i (rnd : nat -> F * F) m : enc_deal G :=
  EncDeal ((rnd m).1 *: B) (su_sign S (x i) (su_enc S ((rnd m).1 *: B)) (rnd m).2) (nseq 12 0%N)
    (su_seal S ((rnd m).1 *: nth 0 ps m) (context S (x i *: B) ps) (nseq 12 0%N) (deal_enc (hdeal i m))).

Lemma hencE a i rnd : encrypted_deals S deal_enc (dl_set_agg (hdealer i) a) rnd = Ok (mkseq (henc a i rnd) n).
Proof.
rewrite /encrypted_deals [dl_verifiers _]/= /mkseq.
have H m : (m <= n)%N -> foldo (fun acc i0 => let! e := encrypted_deal S deal_enc (dl_set_agg (hdealer i) a) i0 (rnd i0).1 (rnd i0).2 in
    Ok (rcons acc e)) [::] (iota 0 m) = Ok (map (henc a i rnd) (iota 0 m)).
  elim: m => // m IH lm; rewrite -addn1 iotaD add0n /= foldo_cat IH ?(ltnW lm) //= /encrypted_deal find_pubE /= lm.
  rewrite (nth_map (hdeal i 0)) ?size_map ?size_iota // (nth_map 0%N) ?size_iota // nth_iota //= map_cat cats1.
  by rewrite /henc /hdeal /the_deal share_value_eval.
exact: H.
Qed.

Lemma genuine_henc a i rnd m ks : (i < n)%N -> (m < n)%N -> su_good S (rnd m).2 -> su_good S ks ->
  genuine_deal i m (DDeal i (henc a i rnd m) (su_sign S (x i) (ddeal_enc i (henc a i rnd m)) ks)).
Proof.
move=> li lm nr nk; split=> //=.
- by rewrite psE //; apply: (su_sign_ok okS) => //; exact: xn0.
move=> b; rewrite /decrypt_deal /= psE // (su_sign_ok okS) ?xn0 //=.
by rewrite psE // scalerA mulrC -scalerA (su_open_seal okS) dec_enc.
Qed.

Lemma gok_deals A i g rnd ks k k' : respwf A -> (i < n)%N -> ADeals i \notin A -> gok A i g ->
  (forall m, su_good S (rnd m).2) -> (forall m, su_good S (ks m)) -> su_good S k ->
  exists g' ds, [/\ ddeals S deal_enc deal_dec ddeal_enc g rnd ks k k' = (g', Ok ds), gok (rcons A (ADeals i)) i g' &
    forall m, (m < n)%N -> m != i -> exists2 dd, mget m ds = Some dd & genuine_deal i m dd].
Proof.
move=> wf li nin gk nr nks nk.
case: (gk) => h1 [a e _] _ _.
have gd m lm := genuine_henc a li lm (nr m) (nks m).
have [g' [r [E gk' gr]]] := gok_own k' wf li nin gk (gd i li) nk.
exists g'.
rewrite ddealsE e hencE; rewrite {1}h1 [g_can_issue _]/= [~~ true]/=.
set step := deals_step _ _ _ _.
pose mk m := DDeal i (henc a i rnd m) (su_sign S (x i) (ddeal_enc i (henc a i rnd m)) (ks m)).
have sne m g0 dd : (m < n)%N -> m != i -> g_nidx g0 = i -> g_oidx g0 = i -> c_long (g_c g0) = x i ->
    step (g0, Ok dd) m = (g0, Ok (minsert m (mk m) dd)).
  by move=> lm ne e1 e2 e3; rewrite /step /deals_step (nth_map (henc a i rnd 0)) ?size_mkseq // nth_mkseq // e1 e2 e3 (negPf ne).
have sown dd : step (g, Ok dd) i = (g', Ok dd).
  rewrite /step /deals_step (nth_map (henc a i rnd 0)) ?size_mkseq // nth_mkseq //.
  have [-> -> ->] : [/\ g_nidx g = i, g_oidx g = i & c_long (g_c g) = x i] by rewrite h1.
  have [-> -> ->] : [/\ g_new_present g = true, g_resharing g = false & g_processed g = false].
    by rewrite h1 (negPf nin).
  rewrite eqxx /= E /=.
  by case: gr => _ _ ->.
have [gs' _ _ _] := gk'.
have st0 : [/\ g_nidx g = i, g_oidx g = i & c_long (g_c g) = x i] by rewrite h1.
have st1 : [/\ g_nidx g' = i, g_oidx g' = i & c_long (g_c g') = x i] by rewrite gs'.
have H m : (m <= n)%N -> exists2 ds, foldl step (g, Ok [::]) (iota 0 m) = (if (i < m)%N then g' else g, Ok ds) &
    forall q, mget q ds = if (q < m)%N && (q != i) then Some (mk q) else None.
  elim: m => [|m IH] lm; first by exists [::].
  have [ds f1 f2] := IH (ltnW lm).
  rewrite -addn1 iotaD add0n foldl_cat f1 addn1 -[foldl _ _ [:: m]]/(step _ m).
  case: (eqVneq m i) => [mi|ne].
    rewrite mi ltnn sown ltnSn; exists ds => // q; rewrite f2 mi ltnS.
    by case: (eqVneq q i) => [->|nq]; rewrite ?andbF // !andbT ltn_neqAle nq.
  exists (minsert m (mk m) ds) => [|q].
    have -> : (i < m.+1)%N = (i < m)%N by rewrite ltnS leq_eqVlt eq_sym (negPf ne).
    by case: st0 st1 => ??? [???]; case: ifP => _; rewrite sne.
  rewrite mget_minsert f2 ltnS; case: (eqVneq q m) => [->|nq]; first by rewrite leqnn ne.
  by have -> : (q < m)%N = (q <= m)%N by lia.
have [ds f1 f2] := H n (leqnn n).
have -> : size (c_new (g_c g)) = n by rewrite h1.
by exists ds; rewrite f1 li; split=> // m lm ne; rewrite f2 lm ne; exists (mk m) => //; exact: gd.
Qed.

Lemma net_step_ok co A N a : coins_ok S co -> netok A N -> enabled n A a -> a \notin A ->
  exists2 N', net_step S deal_enc deal_dec ddeal_enc co N a = Some N' & netok (rcons A a) N'.
Proof.
move=> cok [wf gk dg rg] en nin.
have wf' : respwf (rcons A a).
  move=> j k i; rewrite inR => /orP[/eqP E|/wf //]; move: en; rewrite E /=.
  by case/and5P=> ??? ? /andP[? _]; split.
case: a en nin wf' => [[i|[j i]]|[[j k] i]] /= en nin wf'.
- have nr m : su_good S (co_rnd co i m).2 by case: (cok i m).
  have nks m : su_good S (co_ks co i m) by case: (cok i m).
  have nk : su_good S (co_kr co i i) by case: (cok i i).
  have [g' [ds [E ok' G1]]] := gok_deals (co_kr co i i) wf en nin (gk i en) nr nks nk.
  rewrite E; eexists; first by []; split=> //=.
  + move=> m lm; rewrite /upd; case: (eqVneq m i) => [->|ne] //; apply: gok_other => /=; [by rewrite eq_sym|exact: gk].
  + move=> m q lm lq ne; rewrite inD => /orP[/eqP[im]|A1]; rewrite /upd; last first.
      case: (eqVneq m i) => [e1|_]; first by rewrite -e1 A1 in nin.
      exact: dg.
    by rewrite -im eqxx; apply: G1 => //; rewrite im.
  + by move=> m q; rewrite inE' => /rg.
- case/and4P: en => lj li ne Aj.
  have [dd e1 gd] := dg j i lj li ne Aj.
  have nk : su_good S (co_kr co i j) by case: (cok i j).
  have [g' [r [E ok' G1]]] := gok_deal (co_kr co i j) wf li lj ne nin (gk i li) gd nk.
  rewrite e1 E; eexists; first by []; split=> //=.
  + move=> m lm; rewrite /upd; case: (eqVneq m i) => [->|nm] //; apply: gok_other => /=; [by rewrite eq_sym|exact: gk].
  + by move=> m q lm lq nm; rewrite inD; apply: dg.
  + move=> m q; rewrite inE' => /orP[/eqP[<- <-]|A1]; first by rewrite /upd !eqxx; exists r.
    rewrite /upd; case: (eqVneq m j) => [mj|_]; last exact: rg.
    case: (eqVneq q i) => [qi|_]; last by rewrite -mj; exact: rg.
    by rewrite mj qi (negPf nin) in A1.
- case/and5P: en => lj lk li nkj /andP[nki Ak].
  have [r e1 gr] := rg j k Ak.
  have [g' E ok'] := gok_resp (co_kj co i) li lj lk nkj nki nin (gk i li) gr.
  rewrite e1 E; eexists; first by []; split=> //=.
  + move=> m lm; rewrite /upd; case: (eqVneq m i) => [->|nm] //; apply: gok_other => /=; [by rewrite eq_sym|exact: gk].
  + by move=> m q lm lq nm; rewrite inD; apply: dg.
  + by move=> m q; rewrite inE' => /rg.
Qed.

Lemma net_run_ok co A N acts : coins_ok S co -> netok A N -> schedule n A acts ->
  exists2 N', net_run S deal_enc deal_dec ddeal_enc co N acts = Some N' & netok (A ++ acts) N'.
Proof.
move=> cok; elim: acts A N => [|a acts IH] A N nok /=; first by exists N; rewrite ?cats0.
case/and3P=> en nin sch; have [N1 E nok1] := net_step_ok cok nok en nin.
by rewrite E -cat_rcons; exact: IH.
Qed.

Lemma status_missing (a : aggregator G) : (forall k, (k < size (a_verifiers a))%N -> status_of a k = Some true) ->
  missing_responses a = [::].
Proof.
move=> H; rewrite /missing_responses -(filter_pred0 (iota 0 (size (a_verifiers a)))).
apply: eq_in_filter => k; rewrite mem_iota add0n => /andP[_ /H].
by rewrite /status_of; case: mget.
Qed.

Notation joint := (joint_poly t sec picks).

Lemma size_hpoly j : size (hpoly j) = t.
Proof. by rewrite /= size_mkseq subn1 prednK // (leq_trans _ t2). Qed.

Lemma joint_share Q i : share_value (joint Q) i = \sum_(j <- Q) share_value (hpoly j) i.
Proof.
rewrite /share_value /peval size_mkseq.
rewrite (eq_bigr (fun m : 'I_t => \sum_(j <- Q) (hpoly j)`_m * (i.+1)%:R ^+ m)); last first.
  by move=> m _; rewrite nth_mkseq // mulr_suml.
by rewrite exchange_big; apply: eq_bigr => j _; rewrite size_hpoly.
Qed.

Lemma joint_perm Q Q' : perm_eq Q Q' -> joint Q = joint Q'.
Proof. by move=> pq; apply: eq_map => m; rewrite (perm_big _ pq). Qed.

Lemma node_key acts N i vord hord : netok acts N -> (i < n)%N -> (forall s, perm_eq (vord s) s) ->
  let Q := heard n acts i in
  [/\ dcertified vord (n_node N i) = (Q == iota 0 n),
      perm_eq (qual vord (n_node N i)) Q &
      dist_key_share S vord hord (n_node N i) =
        if (T <= size Q)%N then
          if Q == [::] then Panic else Ok (DKShare [seq c *: B | c <- joint Q] (PriShare i (share_value (joint Q) i)) (hpoly i))
        else Err DistributedKeyNotCertified].
Proof.
case=> wf gk _ _ li pm Q.
have [h1 h2 h3 h4] := gk i li; set g := n_node N i in h1 h2 h3 h4 *.
pose h j := odflt (hver i j) (mget j (g_verifiers g)).
pose c j := all (answered acts i j) (iota 0 n).
have H j : (j < n)%N -> [/\ mget j (g_verifiers g) = Some (h j), a_verifiers (v_agg (h j)) = ps,
    forall k, status_of (v_agg (h j)) k = if answered acts i j k then Some true else None,
    deal_certified (v_agg (h j)) = c j & c j -> verifier_deal (h j) = Some (hdeal j i)].
  move=> lj; have [a e [av [ab at0] ad [as_ at1] st]] := h4 j lj.
  have eh : h j = v_set_agg (hver i j) a by rewrite /h e.
  have rc : c j -> received acts i j.
    move/allP=> al; have := al i; rewrite mem_iota li => /(_ isT) /orP[/andP[]//|/wf [_ _ _ _]].
    by rewrite eqxx.
  have C : deal_certified a = c j.
    apply/idP/idP => [|cj].
      rewrite certified_count ab at0 av /= => /and3P[_ _]; rewrite -leqn0 leqNgt -has_count => nh.
      apply/allP => k kn; apply/negPn/negP => na; case/negP: nh; apply/hasP; exists k => //.
      by rewrite st (negPf na).
    apply: all_approved_certified; rewrite ?ab ?av ?at1 ?rc // => k lk.
    by rewrite st (allP cj) // mem_iota.
  by split; rewrite ?eh //= => cj; rewrite /verifier_deal /= C cj /= ad rc.
have pv : perm_eq (vord (mkeys (g_verifiers g))) (iota 0 n) by rewrite -h3.
set l := vord (mkeys (g_verifiers g)) in pv.
have E : qual_entries vord g = [seq (j, h j) | j <- [seq j <- l | c j]].
  rewrite /qual_entries -/l.
  have: forall j, j \in l -> (j < n)%N by move=> j; rewrite (perm_mem pv) mem_iota.
  elim: (l) => //= j l' IH hl.
  have [-> _ _ -> _] := H j (hl j (mem_head _ _)).
  have {}IH : pmap (fun i0 => match mget i0 (g_verifiers g) with Some v => if deal_certified (v_agg v) then Some (i0, v) else None | None => None end) l' = [seq (j0, h j0) | j0 <- l' & c j0].
    by apply: IH => q hq; apply: hl; rewrite inE hq orbT.
  by case: (c j); rewrite /= IH.
have pQ : perm_eq [seq j <- l | c j] Q by exact: perm_filter.
have lQ j : j \in [seq j <- l | c j] -> (j < n)%N /\ c j.
  by rewrite mem_filter (perm_mem pv) mem_iota add0n => /andP[-> /andP[_ ->]].
have qE : qual vord g = [seq j <- l | c j].
  by rewrite /qual E -map_comp map_id h1.
split.
- rewrite /dcertified E h1 /= add0n take_while_all; last first.
    rewrite all_map; apply/allP => j /lQ [lj cj] /=; have [_ av st _ _] := H j lj.
    by rewrite status_missing // av => k lk; rewrite st (allP cj) // mem_iota.
  rewrite size_map (perm_size pQ); apply/idP/eqP => [|->]; last by rewrite size_iota.
  rewrite /Q /heard => le; apply/all_filterP; rewrite all_count size_iota eqn_leq; move: le.
  rewrite size_filter => ->; rewrite andbT; apply: leq_trans (count_size _ _) _.
  by rewrite size_iota.
- by rewrite qE.
rewrite /dist_key_share /threshold_certified qE (perm_size pQ).
have [-> -> ->] : [/\ g_resharing g = false, g_can_receive g = true & c_t (g_c g) = T] by rewrite h1.
case: leqP => //= _; rewrite dkg_keyE E.
have [gi gp] : g_nidx g = i /\ dl_poly (g_dealer g) = hpoly i.
  by split; [rewrite h1|case: h2 => a -> _].
case: (eqVneq Q [::]) => [Q0|Q0].
  by have := perm_size pQ; rewrite Q0; case: filter.
rewrite (@key_fold0 (hdeal^~ i) t) //; first 1 last.
- move=> iv /List.in_map_iff [j [<- jl]] /=.
  by move/In_mem: jl => /lQ [lj cj]; case: (H j lj) => _ _ _ _ ->.
- by move=> j _; rewrite /hdeal /the_deal /= size_map size_mkseq subn1 prednK // (leq_trans _ t2).
- by move: (perm_size pQ) Q0; case: filter => //=; case: (Q).
rewrite gi gp /= -map_comp map_id joint_share /joint_poly; congr (Ok (DKShare _ (PriShare _ _) _)).
- rewrite -map_comp; apply: eq_map => q /=; rewrite scaler_suml (perm_big _ pQ); apply: eq_bigr => j _.
  rewrite /hdeal /the_deal /= -[_ :: [seq _ | _ <- _]]/([seq c *: B | c <- hpoly j]) -[_ :: mkseq _ _]/(hpoly j).
  case: (ltnP q (size (hpoly j))) => lq; first by rewrite (nth_map 0).
  by rewrite !nth_default ?size_map // scale0r.
- by rewrite (perm_big _ pQ).
Qed.

Lemma complete_heard acts i : complete n acts -> (i < n)%N -> heard n acts i = iota 0 n.
Proof.
move=> [c1 c2 c3] li; apply/all_filterP/allP => j; rewrite mem_iota add0n => /andP[_ lj].
apply/allP => k; rewrite mem_iota add0n => /andP[_ lk]; rewrite /answered /received.
case: (eqVneq i j) => [e|ne]; first rewrite c1 //=.
  by case: (eqVneq k i) => //= /eqP n1; case: (eqVneq k j) => //= /eqP n2; exact: c3.
rewrite c2 //=; last by apply/eqP.
by case: (eqVneq k i) => //= /eqP n1; case: (eqVneq k j) => //= /eqP n2; exact: c3.
Qed.
End Honest.

(** ** Any history *)
Notation step := (dstep S deal_enc deal_dec ddeal_enc).
Notation run := (drun S deal_enc deal_dec ddeal_enc).
Notation proc := (dprocess_deal S deal_dec ddeal_enc).

(** What no event changes. *)
Definition frame (g g' : dkg G) : Prop :=
  [/\ [/\ g_c g' = g_c g, g_resharing g' = g_resharing g & g_can_receive g' = g_can_receive g],
      [/\ g_nidx g' = g_nidx g, g_oidx g' = g_oidx g, g_new_present g' = g_new_present g & g_can_issue g' = g_can_issue g],
      g_dpub g' = g_dpub g /\ dl_poly (g_dealer g') = dl_poly (g_dealer g), [/\ g_old_t g' = g_old_t g & g_new_t g' = g_new_t g] &
      mkeys (g_verifiers g') = mkeys (g_verifiers g)].
Lemma frame_refl g : frame g g. Proof. by []. Qed.
Lemma frame_trans g1 g2 g3 : frame g1 g2 -> frame g2 g3 -> frame g1 g3.
Proof.
move=> [[a1 a2 a3] [b1 b2 b3 b4] [c1 c2] [d1 d2] e1] [[a1' a2' a3'] [b1' b2' b3' b4'] [c1' c2'] [d1' d2'] e1'].
by split; [split; congruence|split; congruence|split; congruence|split; congruence|congruence].
Qed.
Lemma mget_keys (A : Type) j (v : A) m : mget j m = Some v -> j \in mkeys m.
Proof. by elim: m => [|[k w] m IH] //=; rewrite inE; case: (eqVneq j k) => //= _ /IH. Qed.
Lemma frame_set_ver g j v v' : mget j (g_verifiers g) = Some v -> frame g (g_set_ver g j v').
Proof. by move=> M; split=> //=; rewrite /mset mkeys_set //; exact: mget_keys M. Qed.
Lemma frame_set_ver_in g j v' : j \in mkeys (g_verifiers g) -> frame g (g_set_ver g j v').
Proof. by move=> m; split=> //=; rewrite /mset mkeys_set. Qed.

Section Inv.
Variable P : nat -> verifier G -> Prop.
Definition own_done (v : verifier G) := status_of (v_agg v) (v_index v) <> None.
Variable okd : nat -> enc_deal G -> Prop.
Hypothesis P_deal : forall j v e k v' o, okd j e -> P j v -> process_encrypted_deal S deal_dec v e k = (v', o) -> P j v'.
Hypothesis P_just : forall j v ju, P j v -> P j (verifier_process_justification S v ju).1.
Hypothesis P_timeout : forall j v, P j v -> P j (verifier_set_timeout v).
Hypothesis P_unsafe : forall j v idx b, P j v -> own_done v -> P j (unsafe_set_response_dkg v idx b).
Definition all_P (g : dkg G) := forall j v, mget j (g_verifiers g) = Some v -> P j v.

Lemma all_P_set g j v : all_P g -> P j v -> all_P (g_set_ver g j v).
Proof. by move=> al pv q w; rewrite /= /mset mget_minsert; case: (eqVneq q j) => [-> [<-]|_] //; exact: al. Qed.

Lemma unsafe_done v idx b : own_done v -> own_done (unsafe_set_response_dkg v idx b).
Proof.
rewrite /own_done /unsafe_set_response_dkg /=; case E: add_response => [a' o] /=.
case: (add_responseP E) => [[_ [_ [_ ->]]]|[_ ->]] //.
by rewrite /status_of /= mget_minsert; case: eqP.
Qed.
Lemma process_done v e k v' r : process_encrypted_deal S deal_dec v e k = (v', Ok r) -> own_done v'.
Proof.
case/process_encrypted_dealP => [[_ //]|[d _ [_ [[_ //]|[st [-> _ _ _ _]]]]]].
by rewrite /own_done /status_of /= mget_minsert eqxx.
Qed.

Lemma dprocess_inv g dd k k' : okd (dd_index dd) (dd_deal dd) -> all_P g -> all_P (proc g dd k k').1 /\ frame g (proc g dd k k').1.
Proof.
move=> okk al; rewrite /dprocess_deal; case: ifP => // _.
case: get_pub => [pubb|] //; case: ifP => // _.
case M: mget => [v|] //; case E: process_encrypted_deal => [v' o].
have pv := al _ _ M; have pv' := P_deal okk pv E.
have f1 w : frame g (g_set_ver g (dd_index dd) w) := frame_set_ver w M.
have f2 w u : frame g (g_set_ver (g_set_ver g (dd_index dd) w) (dd_index dd) u).
  by rewrite g_set_ver2; apply: f1.
have al1 := all_P_set al pv'.
have keep : all_P (g_set_ver g (dd_index dd) v') /\ frame g (g_set_ver g (dd_index dd) v') by split.
case: o E => [r|er||] E //.
have dn := process_done E.
have fin : let '(new_idx, found) := dfind_pub (c_new (g_c (g_set_ver g (dd_index dd) v'))) pubb in
  let ver := if found && ~~ g_resharing (g_set_ver g (dd_index dd) v') then unsafe_set_response_dkg v' new_idx true else v' in
  all_P (g_set_ver (g_set_ver g (dd_index dd) v') (dd_index dd) ver) /\
  frame g (g_set_ver (g_set_ver g (dd_index dd) v') (dd_index dd) ver).
  case: dfind_pub => ni fo; case: ifP => _; split=> //; apply: all_P_set => //; exact: P_unsafe.
case: ifP => _; last by case: dfind_pub fin.
case: pub_eval => [ex|er||] //; case: verifier_commits => [[|c0 cs]|] //.
case: ifP => _; last by case: dfind_pub fin.
case: dfind_pub => idx pr; split=> //=.
by apply: all_P_set => //; apply: P_unsafe; case: (pr); rewrite ?P_unsafe //; first [exact: P_unsafe | exact: unsafe_done].
Qed.

Lemma ddeals_inv g rnd ks k k' : g_resharing g \/ (forall j e, okd j e) -> all_P g ->
  all_P (ddeals S deal_enc deal_dec ddeal_enc g rnd ks k k').1 /\ frame g (ddeals S deal_enc deal_dec ddeal_enc g rnd ks k k').1.
Proof.
move=> ro al; rewrite ddealsE; case: ifP => // _; case: encrypted_deals => [ds|||] //.
set n := size _; move: (iota 0 n) => l; move: (@Ok dkg_error (seq (nat * ddeal G)) [::]) => o.
suff H acc : all_P acc.1 /\ frame g acc.1 -> all_P (foldl (deals_step ds ks k k') acc l).1 /\ frame g (foldl (deals_step ds ks k k') acc l).1.
  exact: (H (g, o)).
elim: l acc => //= i l IH acc h; apply: IH.
case: acc h => g1 [dd|||] //= [al1 f1].
case: nth => [e|] //; case: ifP => // /and3P[_ _ nr]; case: ifP => // _.
have al2 : all_P (g_set_processed g1) by [].
have okk : okd (g_oidx g1) e by case: ro f1 => // rs [[_ e1 _] _ _ _ _]; rewrite e1 rs in nr.
have [al3 f3] := @dprocess_inv _ (DDeal (g_oidx g1) e (su_sign S (c_long (g_c g1)) (ddeal_enc (g_oidx g1) e) (ks i))) k k' okk al2.
case E: (dprocess_deal _ _ _ _ _ _) al3 f3 => [g2 o2] /= al3 f3.
have f4 : frame g g2 by apply: frame_trans f1 _; exact: f3.
by case: o2 E => [r|||] E //; case: ifP.
Qed.

Lemma just_inv g j v w : all_P g -> mget j (g_verifiers g) = Some v -> P j w -> all_P (g_set_ver g j w) /\ frame g (g_set_ver g j w).
Proof. by move=> al M pw; split; [exact: all_P_set|exact: frame_set_ver M]. Qed.

Lemma dresponse_inv g r k : (forall j v, P j v -> P j (verifier_process_response S v (dr_resp r)).1) -> all_P g ->
  all_P (dprocess_response S deal_enc g r k).1 /\ frame g (dprocess_response S deal_enc g r k).1.
Proof.
move=> P_resp al; rewrite /dprocess_response; case: ifP => _.
  by rewrite /process_resharing_response; case: verify_response.
case M: mget => [v|] //; have := P_resp _ _ (al _ _ M); case E: verifier_process_response => [v' o] /= pv'.
have [al1 f1] := just_inv al M pv'.
case: o E => [u|||] E //; case: ifP => _ //.
case D: dealer_process_response => [d oj].
have dp : dl_poly d = dl_poly (g_dealer g).
  by move: D; rewrite /dealer_process_response; case: verify_response => a o [<- _].
have f2 : frame g (g_set_dealer (g_set_ver g (dr_index r) v') d).
  by case: f1 => h1 h2 [h3 h4] h5 h6; split=> //; split.
have al2 : all_P (g_set_dealer (g_set_ver g (dr_index r) v') d) by [].
case: oj D => [[ju|]|||] D //=.
have := P_just ju pv'; case J: verifier_process_justification => [v2 o2] /= pv2; split; first exact: all_P_set.
apply: frame_trans f2 _; apply: frame_set_ver_in => /=; rewrite /mset mkeys_set; exact: mget_keys M.
Qed.

Lemma djust_inv g j : all_P g -> all_P (dprocess_justification S g j).1 /\ frame g (dprocess_justification S g j).1.
Proof.
move=> al; rewrite /dprocess_justification; case M: mget => [v|] //.
have := P_just (dj_just j) (al _ _ M); case: verifier_process_justification => [v' o] /= pv'.
exact: just_inv M pv'.
Qed.

Lemma mget_map (A : Type) (f : A -> A) j m : mget j [seq (iv.1, f iv.2) | iv <- m] = omap f (mget j m).
Proof. by elim: m => [|[k w] m IH] //=; case: (eqVneq j k). Qed.

Lemma dtimeout_inv g : all_P g -> all_P (dset_timeout g) /\ frame g (dset_timeout g).
Proof.
move=> al; split; last by split=> //=; rewrite /mkeys -map_comp.
by move=> j v /=; rewrite mget_map; case M: mget => [w|] //= [<-]; apply: P_timeout; exact: al.
Qed.

Variable okev : devent G -> Prop.
Hypothesis okev_deal : forall dd k k', okev (DEvDeal dd k k') -> okd (dd_index dd) (dd_deal dd).
Hypothesis P_resp : forall r k, okev (DEvResponse G r k) -> forall j v, P j v -> P j (verifier_process_response S v (dr_resp r)).1.
Lemma dstep_inv g ev : g_resharing g \/ (forall j e, okd j e) -> okev ev -> all_P g -> all_P (step g ev) /\ frame g (step g ev).
Proof.
move=> ro; case: ev => [rnd ks k k'|dd k k'|r k|j|] okv al /=.
- exact: ddeals_inv.
- exact: (dprocess_inv _ _ (okev_deal okv)).
- exact: (dresponse_inv _ (P_resp okv) al).
- exact: djust_inv.
- exact: dtimeout_inv.
Qed.
Lemma drun_inv_gen g evs : g_resharing g \/ (forall j e, okd j e) -> (forall ev, List.In ev evs -> okev ev) -> all_P g ->
  all_P (run g evs) /\ frame g (run g evs).
Proof.
elim: evs g => //= ev evs IH g ro oke al; have [al1 f1] := dstep_inv ro (oke ev (or_introl erefl)) al.
have ro1 : g_resharing (step g ev) \/ (forall j e, okd j e).
  by case: ro => [rs|]; [left; case: f1 => -[_ -> _] _ _ _ _|right].
have [al2 f2] := IH _ ro1 (fun e' h' => oke e' (or_intror h')) al1; split=> //; exact: frame_trans f1 f2.
Qed.
End Inv.

Lemma drun_inv (P : nat -> verifier G -> Prop)
  (P_deal : forall j v e k v' o, P j v -> process_encrypted_deal S deal_dec v e k = (v', o) -> P j v')
  (P_just : forall j v ju, P j v -> P j (verifier_process_justification S v ju).1)
  (P_timeout : forall j v, P j v -> P j (verifier_set_timeout v))
  (P_unsafe : forall j v idx b, P j v -> own_done v -> P j (unsafe_set_response_dkg v idx b))
  (okev : devent G -> bool)
  (P_resp : forall r k, okev (DEvResponse G r k) -> forall j v, P j v -> P j (verifier_process_response S v (dr_resp r)).1) g evs :
  all okev evs -> all_P P g -> all_P P (run g evs) /\ frame g (run g evs).
Proof.
move=> oke al; apply: (@drun_inv_gen P (fun _ _ => True) _ P_just P_timeout P_unsafe okev) => //.
- by move=> j v e k v' o _; exact: P_deal.
- by right.
elim: evs oke => //= ev evs IH /andP[o1 o2] e [<-|/(IH o2)] //.
Qed.

(** ** What a handler starts from *)
Lemma init_verifiersP c : (seq.index (c_long c *: B) (c_new c) < size (c_new c))%N ->
  init_verifiers S c =
  if uniq (c_old c) then
    Ok [seq (j, ver_for c (seq.index (c_long c *: B) (c_new c)) (nth 0 (c_old c) j)) | j <- iota 0 (size (c_old c))]
  else Err DuplicatePublicKeyInNewList.
Proof.
move=> pr; rewrite init_verifiersE; case: ifP => u.
  by rewrite (init_loop pr u) //= cat0s.
by rewrite (@init_dup c (c_old c) 0 [::] [::]) // u.
Qed.

Lemma handlerP c secret picks g : new_dist_key_handler S c secret picks = Ok g ->
  let c' := g_c g in
  [/\ [/\ c_long c' = c_long c, c_new c' = c_new c, c_t c' = c_t c & c_old_t c' = c_old_t c],
      g_resharing g = isSome (c_share c) || isSome (c_coeffs c),
      c_old c' = (if g_resharing g then c_old c else if g_new_present g then c_new c else c_old c),
      g_new_present g = ((c_long c *: B) \in c_new c) &
      g_new_present g -> [/\ g_nidx g = seq.index (c_long c *: B) (c_new c), g_can_receive g &
        g_verifiers g = if uniq (c_old c') then [seq (j, ver_for c' (g_nidx g) (nth 0 (c_old c') j)) | j <- iota 0 (size (c_old c'))] else [::]]].
Proof.
rewrite /new_dist_key_handler; case: ifP => // _; case: ifP => // _; case: ifP => // _.
rewrite /pmul {1 2 3}/dfind_pub /=.
have mi (l : seq G) : (seq.index (c_long c *: B) l < size l)%N = (c_long c *: B \in l) by rewrite index_mem.
rewrite !mi.
set oo := (if _ then _ else _); case: oo => oidx op.
case np: (c_long c *: B \in c_new c); rewrite ?andbT ?andbF //=; last first.
  case: op => //=; case sh: (c_share c) => [h|] /=.
    by case D: new_dealer => [d|||] //= [<-].
  by case=> <- /=; case: ifP.
have pr : (seq.index (c_long c *: B) (c_new c) < size (c_new c))%N by rewrite mi.
case sh: (c_share c) => [h|] /=.
  case D: new_dealer => [d|||] //=; case co: (c_coeffs c) => [cs|] /=.
    by rewrite init_verifiersP //=; case u: (uniq (c_old c)) => [] [<-] /=; rewrite ?u; do !split.
  by rewrite sh /= init_verifiersP //=; case u: (uniq (c_old c)) => [] [<-] /=; rewrite ?u; do !split.
case co: (c_coeffs c) => [cs|] /=.
  by rewrite co /= init_verifiersP //=; case u: (uniq (c_old c)) => [] [<-] /=; rewrite ?u; do !split.
case D: new_dealer => [d|||] //=; rewrite init_verifiersP //=.
by case u: (uniq (c_new c)) => [] [<-] /=; rewrite ?u; do !split.
Qed.

(** ** Shares match commitments unless one's own answers are replayed *)
Definition deal_good i (d : deal G) : Prop :=
  [/\ d_commits d <> [::], ps_i (d_share d) = i & ps_v (d_share d) *: B = pub_share_value (d_commits d) i].
Definition own_ok i (ps : seq G) (v : verifier G) : Prop :=
  [/\ v_index v = i, a_verifiers (v_agg v) = ps,
      status_of (v_agg v) i = Some true -> exists2 d, a_deal (v_agg v) = Some d & deal_good i d &
      status_of (v_agg v) i = None -> forall d, a_deal (v_agg v) = Some d ->
        (exists2 k, (k < size ps)%N & status_of (v_agg v) k = Some false) \/ d_commits d = [::]].

Lemma process_fail (v : verifier G) e k v' o d : process_encrypted_deal S deal_dec v e k = (v', o) ->
  decrypt_deal S deal_dec v e = Ok d -> ps_i (d_share d) = v_index v -> a_deal (v_agg v) = None ->
  (v_index v < size (a_verifiers (v_agg v)))%N -> mget (v_index v) (a_responses (v_agg v)) = None -> ~~ is_ok o ->
  d_commits d = [::].
Proof.
rewrite /process_encrypted_deal => E D di nd lt nn no; move: E; rewrite D di eqxx /= /verify_deal nd /=.
have ad r : r_index r = v_index v -> add_response (a_set_deal (v_agg v) d) r = (a_set_responses (a_set_deal (v_agg v) d) (minsert (r_index r) r (a_responses (v_agg v))), Ok tt).
  by move=> e1; rewrite add_response_ok //= e1.
have na := @deal_checks_no_already F G S (a_set_deal (v_agg v) d) d.
case ck: deal_checks na => [u|er||] na; rewrite ?ad //=; first by case=> _ oE; rewrite -oE in no.
- by case: er ck na => [|||pe|||||||||||||||||||||] ck na; first [by case: na | case=> _ oE; rewrite -oE in no].
- move: ck; rewrite /deal_checks; do 4 case: ifP => // _.
  by rewrite /pub_eval /=; case: (d_commits d) => //= c cs; case: ifP.
- move: ck; rewrite /deal_checks; do 4 case: ifP => // _.
  by rewrite /pub_eval /=; case: (d_commits d) => //= c cs; case: ifP.
Qed.

Section Own.
Variables (i : nat) (ps : seq G).
Hypothesis lti : (i < size ps)%N.

Lemma own_deal (v : verifier G) e k v' o : own_ok i ps v ->
  process_encrypted_deal S deal_dec v e k = (v', o) -> own_ok i ps v'.
Proof.
move=> [h1 h2 h3 h4] E; case: (process_encrypted_dealP E) => [[-> _] //|[d D [di [[-> no]|[st [-> _ [lt nn] nd ck]]]]]].
  split=> //=; first by rewrite stored_verifiers.
    rewrite /status_of stored_responses stored_deal => /h3 [d0 e0 g0].
    by exists d0; rewrite ?e0.
  rewrite /status_of stored_responses stored_deal => sn d' [<-].
  case ad: (a_deal (v_agg v)) => [d0|] /=; first exact: h4 ad.
  right; apply: (process_fail E) => //; rewrite ?h1 ?h2 //.
  exact: status_none.
split=> //=; first by rewrite stored_verifiers.
  rewrite /status_of /= mget_minsert h1 eqxx /= => -[] /ck /deal_checksP [_ _ nc vv].
  exists d; first by rewrite stored_deal nd.
  by split=> //; rewrite -?h1 // vv di.
by rewrite /status_of /= mget_minsert h1 eqxx.
Qed.
Lemma own_resp (v : verifier G) r : r_index r <> i -> own_ok i ps v -> own_ok i ps (verifier_process_response S v r).1.
Proof.
move=> ne [h1 h2 h3 h4]; rewrite /verifier_process_response; case E: verify_response => [a' o] /=.
case: (verify_responseP E) => [[_ [_ _ _ nn ->]]|[_ ->]] //.
have ei : status_of (a_set_responses (v_agg v) (minsert (r_index r) r (a_responses (v_agg v)))) i = status_of (v_agg v) i.
  by rewrite /status_of /= mget_minsert; case: eqP => // e; rewrite e in ne.
split=> //=; rewrite ei // => sn d ad; case: (h4 sn d ad) => [[q lq sq]|]; [left|by right].
exists q => //; rewrite /status_of /= mget_minsert; case: eqP => // e.
by move: sq; rewrite /status_of e nn.
Qed.
Lemma own_just (v : verifier G) j : own_ok i ps v -> own_ok i ps (verifier_process_justification S v j).1.
Proof.
move=> [h1 h2 h3 h4]; rewrite /verifier_process_justification; case E: verify_justification => [a' o] /=.
case: (vjustP E) => [[-> _]|[r [lt mr rs _ a'E]]] //.
have se k : status_of a' k = status_of (v_agg v) k.
  by rewrite a'E; case: ifP => _; rewrite /status_of /= stored_responses.
have de : a_deal a' = a_deal (stored (v_agg v) (j_deal j)) by rewrite a'E; case: ifP.
have ve : a_verifiers a' = ps by rewrite a'E; case: ifP => _ /=; rewrite stored_verifiers.
split=> //=; rewrite se de stored_deal; first by move=> /h3 [d0 e0 g0]; exists d0; rewrite ?e0.
by move=> sn d [_]; left; exists (j_index j); rewrite -?h2 // se /status_of mr /= rs.
Qed.
Lemma own_unsafe (v : verifier G) idx b : own_ok i ps v -> own_done v -> own_ok i ps (unsafe_set_response_dkg v idx b).
Proof.
move=> [h1 h2 h3 h4] dn; have dn' := @unsafe_done v idx b dn; move: dn'.
rewrite /unsafe_set_response_dkg; case E: add_response => [a' o] /=; rewrite /own_done /= h1 => dn'.
case: (add_responseP E) => [[_ [_ [nn a'E]]]|[_ ->]] //; split=> //=; first by rewrite a'E.
rewrite a'E /status_of /= mget_minsert; case: (eqVneq i idx) => [ei|_] //.
by move: dn nn; rewrite /own_done /status_of h1 ei /= => h nn; rewrite nn in h.
Qed.

Lemma own_run g evs : all (foreign i) evs -> all_P (fun _ => own_ok i ps) g ->
  all_P (fun _ => own_ok i ps) (run g evs) /\ frame g (run g evs).
Proof.
apply: drun_inv => //.
- by move=> j v e k v' o; exact: own_deal.
- by move=> j v ju; exact: own_just.
- by move=> j v idx b; exact: own_unsafe.
- by move=> r k /= /eqP ne j v; exact: own_resp.
Qed.

Lemma own_certified v d : own_ok i ps v -> verifier_deal v = Some d -> deal_good i d \/ d_commits d = [::].
Proof.
move=> [h1 h2 h3 h4]; rewrite /verifier_deal; case C: deal_certified => //= ad.
case st: (status_of (v_agg v) i) => [[]|].
- by case: (h3 st) => d0; rewrite ad => -[<-]; left.
- by rewrite (@complaint_blocks _ _ _ i) // ?h2 in C.
- case: (h4 st d ad) => [[k lk sk]|]; last by right.
  by rewrite (@complaint_blocks _ _ _ k) // ?h2 in C.
Qed.
End Own.

Lemma pub_add_value (p q : seq G) i : size p = size q -> pub_share_value (vadd p q) i = pub_share_value p i + pub_share_value q i.
Proof. exact: gsum_vadd. Qed.

Lemma key_good i (l : seq (nat * verifier G)) acc sh pubb :
  (forall iv, List.In iv l -> forall d, verifier_deal iv.2 = Some d -> deal_good i d \/ d_commits d = [::]) ->
  (if acc.2 is Some p then pcommits p <> [::] -> acc.1 *: B = pub_share_value (pcommits p) i else acc.1 = 0) ->
  foldo key_step acc l = Ok (sh, pubb) ->
  if pubb is Some p then pcommits p <> [::] -> sh *: B = pub_share_value (pcommits p) i else sh = 0.
Proof.
elim: l acc => [|iv l IH] [s0 p0] hl /= ha; first by case=> <- <-.
case D: (verifier_deal iv.2) => [d|] //.
have gd : d_commits d <> [::] -> ps_v (d_share d) *: B = pub_share_value (d_commits d) i.
  by case: (hl iv (or_introl erefl) d D) => [[] //|-> //].
have hl' : forall iv0, List.In iv0 l -> forall d0, verifier_deal iv0.2 = Some d0 -> deal_good i d0 \/ d_commits d0 = [::] by move=> ??; apply: hl; right.
case: p0 ha => [p|] /= ha; last by apply: IH => //=; rewrite ha add0r.
rewrite /pub_add; case: eqP => //= sz; apply: IH => //= ne.
have np : pcommits p <> [::] by move=> e; apply: ne; rewrite e.
rewrite scalerDl ha // gd ?pub_add_value // => e; apply: np.
by move/eqP: sz; rewrite e size_eq0 => /eqP.
Qed.

Lemma qual_entries_in vord (g : dkg G) iv : List.In iv (qual_entries vord g) -> mget iv.1 (g_verifiers g) = Some iv.2 /\ deal_certified (v_agg iv.2).
Proof.
rewrite /qual_entries; elim: (vord _) => //= j l IH; case M: mget => [v|] //=; case C: deal_certified => //=.
by case=> [<-|].
Qed.

Lemma own_key i (ps : seq G) (g : dkg G) vord hord s : (i < size ps)%N -> all_P (fun _ => own_ok i ps) g -> g_resharing g = false -> g_nidx g = i ->
  dist_key_share S vord hord g = Ok s ->
  ps_i (dk_share s) = i /\ (dk_commits s <> [::] -> ps_v (dk_share s) *: B = pub_share_value (dk_commits s) i).
Proof.
move=> lti al nr ni; rewrite /dist_key_share; case: ifP => // _; case: ifP => // _; rewrite nr dkg_keyE ni.
case E: foldo => [[sh pubb]|||] //=; case: pubb E => [p|] //= E [<-] /=; split=> //.
apply: (key_good _ _ E) => //= iv /qual_entries_in [M C] d D.
exact: (own_certified lti (al _ _ M) D).
Qed.
End Dkg.
