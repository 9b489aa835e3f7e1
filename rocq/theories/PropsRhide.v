(** Property C108: until it publishes the commitments to its polynomial, a participant of the Rabin key generation shows
    fewer than t participants nothing about its secret.  src/share/dkg/rabin/dkg.rs, src/share/vss/rabin/vss.rs. *)
From mathcomp Require Import all_ssreflect all_algebra.
From mathcomp Require Import zify.
From Verif Require Import Base Lagrange PolyModel PolySpec PolyProofs PolyProps PropsPoly Suite SuiteProofs.
From Verif Require Import VssModel VssSpec VssProofs RvssModel RvssSpec RvssProofs PropsRvss Toy DkgModel DkgSpec DkgProofs RdkgModel RdkgSpec RdkgProofs PropsRdkg.

Set Implicit Arguments.
Unset Strict Implicit.
Unset Printing Implicit Defensive.

Import GRing.Theory.
Local Open Scope ring_scope.
Local Open Scope outcome_scope.

Section Views.
Variables (F : fieldType) (G : lmodType F) (S : suite G).
Variables (rdeal_enc : rdeal G -> bytestr) (rdeal_dec : bytestr -> option (rdeal G)).

(** What a call returns to the caller, to be sent to the others; of the deals, those for the members of A. *)
Inductive answer :=
| AnsDeals (o : outcome rdkg_error (seq (nat * rddeal G)))
| AnsResponse (o : outcome rdkg_error rdresponse)
| AnsJustification (o : outcome rdkg_error (option (rdjustification G)))
| AnsDone (o : outcome rdkg_error unit)
| AnsSecret (o : outcome rdkg_error (secret_commits G))
| AnsComplaint (o : outcome rdkg_error (option (complaint_commits G)))
| AnsReconstruct (o : outcome rdkg_error (reconstruct_commits F)).
Definition deals_for (A : seq nat) (o : outcome rdkg_error (seq (nat * rddeal G))) : outcome rdkg_error (seq (nat * rddeal G)) :=
  let! dd := o in Ok [seq kd <- dd | kd.1 \in A].
Definition reply (A : seq nat) (g : rdkg G) (ev : rgevent G) : answer :=
  match ev with
  | RGDeals rnd k => AnsDeals (deals_for A (rgdeals S rdeal_enc rdeal_dec g rnd k).2)
  | RGDeal dd k => AnsResponse (rgprocess_deal S rdeal_dec g dd k).2
  | RGResponse r k => AnsJustification (rgprocess_response S rdeal_enc g r k).2
  | RGJustification j => AnsDone (rgprocess_justification S g j).2
  | RGTimeout => AnsDone (Ok tt)
  | RGSecret k => AnsSecret (rsecret_commits S g k).2
  | RGSecretCommits sc k => AnsComplaint (rprocess_secret_commits S rdeal_enc g sc k).2
  | RGComplaint cc k => AnsReconstruct (rprocess_complaint_commits S rdeal_enc g cc k).2
  | RGReconstruct hord rc => AnsDone (rprocess_reconstruct_commits S hord g rc).2
  end.
Fixpoint replies (A : seq nat) (g : rdkg G) (evs : seq (rgevent G)) : seq answer :=
  if evs is ev :: evs' then reply A g ev :: replies A (rgstep S rdeal_enc rdeal_dec g ev) evs' else [::].

(** Before the publication of the own commitments; complaints about the own deals come from members of A only. *)
Definition before_reveal (i : nat) (A : seq nat) (ev : rgevent G) : Prop :=
  match ev with
  | RGDeals rnd k => su_good S (rnd i).2
  | RGDeal dd k => rdd_index dd != i
  | RGResponse r k => rdr_index r = i -> r_status (rdr_resp r) = false -> r_index (rdr_resp r) \in A
  | RGSecret _ => False
  | RGSecretCommits sc k => sc_index sc != i
  | RGComplaint cc k => cc_dealer cc != i
  | _ => True
  end.
End Views.

Section Hide.
Variables (F : fieldType) (G : lmodType F) (S : suite G).
Variables (rdeal_enc : rdeal G -> bytestr) (rdeal_dec : bytestr -> option (rdeal G)).
Notation B := (su_base S).
Implicit Types (a : raggregator G) (v : rverifier G) (g : rdkg G).

(** The state of the same participant with another dealer [d1], own deal [e1]. *)
Variables (i : nat) (d1 : rdealer G) (e1 : rdeal G).
Definition pa a : raggregator G :=
  RAggregator (ra_dealer a) (ra_verifiers a) (ra_commits a) (ra_responses a) (ra_sid a) (omap (fun _ => e1) (ra_deal a)) (ra_t a) (ra_bad a).
Definition pv v : rverifier G :=
  RVerifier (rv_long v) (rv_pub v) (rv_dealer v) (rv_index v) (rv_verifiers v) (rv_ctx v) (omap pa (rv_agg v)).
Definition pk (k : nat) v : rverifier G := if k == i then pv v else v.
Definition pm (m : seq (nat * rverifier G)) : seq (nat * rverifier G) := [seq (kv.1, pk kv.1 kv.2) | kv <- m].
Definition pg g : rdkg G :=
  rg_set_verifiers (rg_set_dealer g (rl_set_agg d1 (rl_agg (rg_dealer g)))) (pm (rg_verifiers g)).

Definition both (X Y Z : Type) (f : X -> Y) (xo : X * Z) : Y * Z := (f xo.1, xo.2).

Lemma mget_pm k m : mget k (pm m) = omap (pk k) (mget k m).
Proof. by elim: m => [|[k' v] m IH] //=; case: (eqVneq k k') => [->|]. Qed.
Lemma minsert_pm k v m : minsert k (pk k v) (pm m) = pm (minsert k v m).
Proof. by elim: m => [|[k' v'] m IH] //=; case: (eqVneq k k') => [->|] //= _; rewrite IH. Qed.
Lemma mkeys_pm m : mkeys (pm m) = mkeys m.
Proof. by rewrite /mkeys /pm -map_comp. Qed.

Lemma radd_pa a r : radd_response (pa a) r = both pa (radd_response a r).
Proof. by rewrite /radd_response /=; case: find_pub => // x; case: mget. Qed.
Lemma runsafe_pa a k b : runsafe_set_response_dkg (pa a) k b = pa (runsafe_set_response_dkg a k b).
Proof. by rewrite /runsafe_set_response_dkg radd_pa. Qed.
Lemma rverify_response_pa a r : rverify_response S (pa a) r = both pa (rverify_response S a r).
Proof. by rewrite /rverify_response /=; case: ifP => // _; case: find_pub => // x; case: ifP => // _; exact: radd_pa. Qed.
Lemma rverify_deal_pa a d b : isSome (ra_deal a) -> rverify_deal S (pa a) d b = both pa (rverify_deal S a d b).
Proof. by rewrite /rverify_deal /=; case E: (ra_deal a) => [e|] //= _; case: b => //=; rewrite /both /= E. Qed.
Lemma rverify_just_pa a j : isSome (ra_deal a) -> rverify_justification S (pa a) j = both pa (rverify_justification S a j).
Proof.
move=> sa; rewrite /rverify_justification /=; case: find_pub => // x; case: mget => // r; case: ifP => // _.
by rewrite (rverify_deal_pa _ _ sa); case: rverify_deal => a' [].
Qed.
Lemma pv_response v r : rverifier_process_response S (pv v) r = both pv (rverifier_process_response S v r).
Proof.
rewrite /rverifier_process_response /=; case: (rv_agg v) => [a|] //=.
by rewrite rverify_response_pa; case: rverify_response.
Qed.
Lemma pv_just v j d : held v = Some d -> rverifier_process_justification S (pv v) j = both pv (rverifier_process_justification S v j).
Proof.
rewrite /held /rverifier_process_justification /=; case: (rv_agg v) => [a|] //= h.
by rewrite rverify_just_pa ?h //; case: rverify_justification.
Qed.
Lemma pv_timeout v : rverifier_set_timeout (pv v) = pv (rverifier_set_timeout v).
Proof. by rewrite /rverifier_set_timeout /=; case: (rv_agg v). Qed.
Lemma pk_response k v r : rverifier_process_response S (pk k v) r = both (pk k) (rverifier_process_response S v r).
Proof. by rewrite /pk; case: eqP => _; [exact: pv_response|case: rverifier_process_response]. Qed.
Lemma pk_just k v j d : held v = Some d -> rverifier_process_justification S (pk k v) j = both (pk k) (rverifier_process_justification S v j).
Proof. by move=> h; rewrite /pk; case: eqP => _; [exact: pv_just h|case: rverifier_process_justification]. Qed.
Lemma pk_timeout k v : rverifier_set_timeout (pk k v) = pk k (rverifier_set_timeout v).
Proof. by rewrite /pk; case: eqP => // _; exact: pv_timeout. Qed.
Lemma pk_certified k v : rv_certified (pk k v) = rv_certified v.
Proof. by rewrite /pk; case: eqP => // _; rewrite /rv_certified /=; case: (rv_agg v). Qed.

Lemma set_ver_pg g k v : rg_set_ver (pg g) k (pk k v) = pg (rg_set_ver g k v).
Proof. by rewrite /rg_set_ver /= minsert_pm. Qed.
Lemma in_qual_pg g k : ris_in_qual (pg g) k = ris_in_qual g k.
Proof. by rewrite /ris_in_qual /= mget_pm; case: mget => //= v; rewrite pk_certified. Qed.
Lemma qual_pg vord g : rqual vord (pg g) = rqual vord g.
Proof.
rewrite /rqual /rqual_entries /= mkeys_pm; elim: (vord _) => //= k l IH.
by rewrite mget_pm; case: mget => //= v; rewrite pk_certified; case: ifP => //= _; rewrite IH.
Qed.

Lemma deal_pg g dd k : rdd_index dd != i -> rgprocess_deal S rdeal_dec (pg g) dd k = both pg (rgprocess_deal S rdeal_dec g dd k).
Proof.
move=> ni; rewrite /rgprocess_deal /rg_find_pub /=; case: find_pub => // x; rewrite mget_pm.
case: mget => //=; case: new_rverifier => // v; case: rprocess_encrypted_deal => v' [] //= r.
by rewrite /both /= -set_ver_pg /pk (negPf ni).
Qed.
Lemma just_pg g j : (forall k v, mget k (rg_verifiers g) = Some v -> exists d, held v = Some d) ->
  rgprocess_justification S (pg g) j = both pg (rgprocess_justification S g j).
Proof.
move=> hg; rewrite /rgprocess_justification /= mget_pm; case M: mget => [v|] //=.
have [d hd] := hg _ _ M; rewrite (pk_just _ _ hd); case: rverifier_process_justification => v' o /=.
by rewrite /both /= -set_ver_pg.
Qed.
Lemma timeout_pg g : rgset_timeout (pg g) = pg (rgset_timeout g).
Proof.
rewrite /rgset_timeout /pg /= /rg_set_verifiers /rg_set_dealer /=; congr Rdkg.
by rewrite /pm -!map_comp; apply: eq_map => kv /=; rewrite pk_timeout.
Qed.
Lemma secret_commits_pg g sc k : sc_index sc != i ->
  rprocess_secret_commits S rdeal_enc (pg g) sc k = both pg (rprocess_secret_commits S rdeal_enc g sc k).
Proof.
move=> ni; rewrite /rprocess_secret_commits /rg_find_pub /=; case: find_pub => // x; rewrite in_qual_pg; case: ifP => // _.
rewrite mget_pm; case: mget => //= v; rewrite /pk (negPf ni); case: rverifier_session_id => // sid.
by case: ifP => // _; case: ifP => // _; case: rverifier_deal => // d; case: pub_check => // -[].
Qed.
Lemma complaint_pg g cc k : cc_dealer cc != i ->
  rprocess_complaint_commits S rdeal_enc (pg g) cc k = both pg (rprocess_complaint_commits S rdeal_enc g cc k).
Proof.
move=> ni; rewrite /rprocess_complaint_commits /rg_find_pub /=; case: find_pub => // x; rewrite in_qual_pg; case: ifP => // _.
case: ifP => // _; rewrite mget_pm; case: mget => //= v; have -> : pk (cc_dealer cc) v = v by rewrite /pk (negPf ni).
case: rv_agg => // a; case: rverify_deal => a' o /=.
have E : rg_set_ver (pg g) (cc_dealer cc) (rv_set_agg v a') = pg (rg_set_ver g (cc_dealer cc) (rv_set_agg v a')).
  by rewrite -set_ver_pg /pk (negPf ni).
rewrite E; case: o => //= _; case: mget => //= poly; case: pub_check => //= -[] //.
by case: rverifier_deal.
Qed.
Lemma reconstruct_pg hord g rc :
  rprocess_reconstruct_commits S hord (pg g) rc = both pg (rprocess_reconstruct_commits S hord g rc).
Proof.
rewrite /rprocess_reconstruct_commits /rg_find_pub /=; case: ifP => // _; case: mget => //; case: find_pub => // x.
case: ifP => // _; case: rscan => //=; case: ifP => //= _.
by case: recover_pri_poly.
Qed.

(** The two dealers: that of the run, and the other one. *)
Variables (A : seq nat) (d0 : rdealer G).
Hypothesis same_pub : [/\ rl_long d1 = rl_long d0, rl_verifiers d1 = rl_verifiers d0, rl_ctx d1 = rl_ctx d0 & rl_sid d1 = rl_sid d0].
Hypothesis same_A : forall k, k \in A -> nth None (map Some (rl_deals d1)) k = nth None (map Some (rl_deals d0)) k.

Lemma dealer_response_pg a r k : (r_status r = false -> r_index r \in A) ->
  rdealer_process_response S rdeal_enc (rl_set_agg d1 a) r k =
  both (fun d => rl_set_agg d1 (rl_agg d)) (rdealer_process_response S rdeal_enc (rl_set_agg d0 a) r k).
Proof.
move=> hr; rewrite /rdealer_process_response /=; case: rverify_response => a' o /=; rewrite /both /=; congr (_, _).
case: o => //= _; case st: (r_status r) => //; rewrite (same_A (hr st)).
by case: same_pub => -> _ _ ->.
Qed.

Lemma response_pg g r k a : rg_index g = i -> rg_dealer g = rl_set_agg d0 a ->
  (forall k v, mget k (rg_verifiers g) = Some v -> exists d, held v = Some d) ->
  (rdr_index r = i -> r_status (rdr_resp r) = false -> r_index (rdr_resp r) \in A) ->
  rgprocess_response S rdeal_enc (pg g) r k = both pg (rgprocess_response S rdeal_enc g r k).
Proof.
move=> gi ga hg hr; rewrite /rgprocess_response /= mget_pm; case M: mget => [v|] //=.
rewrite pk_response; have hv := held_resp S v (rdr_resp r); case: rverifier_process_response hv => v1 o /= hv.
rewrite set_ver_pg; case: o => // _ /=; rewrite gi; case: (eqVneq (rdr_index r) i) => //= ri.
rewrite ga /= dealer_response_pg; last exact: hr.
case E: rdealer_process_response => [d [[j|]|e||]] //=.
have [d' hd'] := hg _ _ M; rewrite -hv in hd'.
rewrite (pk_just _ _ hd'); case: rverifier_process_justification => v2 o2 /=.
by rewrite /both /= -(set_ver_pg (rg_set_dealer (rg_set_ver g (rdr_index r) v1) d)).
Qed.
End Hide.

Section Dealing.
Variables (F : fieldType) (G : lmodType F) (S : suite G).
Variables (rdeal_enc : rdeal G -> bytestr) (rdeal_dec : bytestr -> option (rdeal G)).
Notation B := (su_base S).
Hypothesis okS : suite_ok S.
Hypothesis dec_enc : forall d, rdeal_dec (rdeal_enc d) = Some d.
Variables (long : F) (ps : seq G) (t : nat).
Notation pub := (long *: B).
Notation i := (seq.index pub ps).
Hypothesis ups : uniq ps.
Hypothesis li : (i < size ps)%N.
Hypothesis glong : su_good S long.

Definition enc1 (secret : F) (fp gp : nat -> F) (rnd : nat -> F * F) (m : nat) : enc_deal G :=
  EncDeal ((rnd m).1 *: B) (su_sign S long (su_enc S ((rnd m).1 *: B)) (rnd m).2) (nseq 12 0%N)
    (su_seal S ((rnd m).1 *: nth 0 ps m) (context S pub ps) (nseq 12 0%N) (rdeal_enc (the_rdeal S long secret ps t fp gp m))).

Lemma enc1E secret fp gp d a rnd m : new_rdealer S long secret ps t fp gp = Ok d -> (m < size ps)%N ->
  rencrypted_deal S rdeal_enc (rl_set_agg d a) m (rnd m).1 (rnd m).2 = Ok (enc1 secret fp gp rnd m).
Proof.
move=> /new_rdealerP [h1 h2 ->] lm; rewrite /rencrypted_deal find_pubE /= lm.
rewrite (nth_map (the_rdeal S long secret ps t fp gp 0)) ?size_map ?size_iota // (nth_map 0%N) ?size_iota // nth_iota //=.
by rewrite /enc1 /the_rdeal !share_value_eval.
Qed.

Lemma encsE secret fp gp d a rnd : new_rdealer S long secret ps t fp gp = Ok d ->
  rencrypted_deals S rdeal_enc (rl_set_agg d a) rnd = Ok (mkseq (enc1 secret fp gp rnd) (size ps)).
Proof.
move=> dE; have vs : rl_verifiers (rl_set_agg d a) = ps by have [_ _ ->] := new_rdealerP dE.
rewrite /rencrypted_deals vs /mkseq.
have H m : (m <= size ps)%N -> foldo (fun acc i0 => let! e := rencrypted_deal S rdeal_enc (rl_set_agg d a) i0 (rnd i0).1 (rnd i0).2 in
    Ok (rcons acc e)) [::] (iota 0 m) = Ok (map (enc1 secret fp gp rnd) (iota 0 m)).
  elim: m => // m IH lm; rewrite -addn1 iotaD add0n /= foldo_cat IH ?(ltnW lm) //= (enc1E a rnd dE) //=.
  by rewrite map_cat cats1.
exact: H.
Qed.

Lemma own_deal secret fp gp d rnd k (g : rdkg G) : new_rdealer S long secret ps t fp gp = Ok d -> su_good S (rnd i).2 ->
  rg_long g = long -> rg_parts g = ps -> mget i (rg_verifiers g) = None ->
  rgprocess_deal S rdeal_dec g (RDDeal i (enc1 secret fp gp rnd i)) k =
  (rg_set_ver g i (rv_unsafe_set (RVerifier long pub pub i ps (context S pub ps)
     (Some (RAggregator pub ps (ra_commits (rl_agg d)) [:: (i, honest_response S long (rl_sid d) i k)] (rl_sid d)
              (Some (the_rdeal S long secret ps t fp gp i)) t false))) i true), Ok (RDResponse i (honest_response S long (rl_sid d) i k))).
Proof.
move=> dE gk gl gps M; rewrite /rgprocess_deal /rg_find_pub find_pubE /= gps li M gl.
have np : nth 0 ps i = pub by rewrite nth_index // -index_mem.
have [_ _ dE'] := new_rdealerP dE.
have E : rencrypted_deal S rdeal_enc d i (rnd i).1 (rnd i).2 = Ok (enc1 secret fp gp rnd i).
  by have := enc1E (rl_agg d) rnd dE li; case: (d).
rewrite np /new_rverifier /pmul /= li.
rewrite (rhonest_process okS dec_enc k dE E (v := RVerifier long pub pub i ps (context S pub ps) None) _ ups np li glong gk) /=; last first.
  by rewrite /new_rverifier /pmul /= li.
have -> // : ra_commits (rl_agg d) = rd_commits (the_rdeal S long secret ps t fp gp i) by rewrite dE'.
Qed.

(** Two dealers that look the same to A. *)
Variables (A : seq nat) (s s' : F) (fp gp fp' gp' : nat -> F) (d0 d1 : rdealer G).
Hypothesis d0E : new_rdealer S long s ps t fp gp = Ok d0.
Hypothesis d1E : new_rdealer S long s' ps t fp' gp' = Ok d1.
Hypothesis sidE : rl_sid d1 = rl_sid d0.
Hypothesis aggE : rl_agg d1 = rl_agg d0.
Hypothesis dealE : forall m, m \in A -> rplaintext_deal d1 m = rplaintext_deal d0 m.
Notation e1 := (the_rdeal S long s' ps t fp' gp' i).
Notation pg := (pg i d1 e1).

Lemma plainE secret fp0 gp0 d m : new_rdealer S long secret ps t fp0 gp0 = Ok d -> (m < size ps)%N ->
  rplaintext_deal d m = Ok (the_rdeal S long secret ps t fp0 gp0 m).
Proof.
move=> /new_rdealerP [h1 h2 ->] lm; rewrite /rplaintext_deal /= size_map size_iota leqNgt lm /=.
rewrite (nth_map (the_rdeal S long secret ps t fp0 gp0 0)) ?size_map ?size_iota // (nth_map 0%N) ?size_iota // nth_iota //=.
by rewrite /the_rdeal !share_value_eval.
Qed.
Lemma ok_inj (E X : Type) (x y : X) : @Ok E X x = Ok y -> x = y.
Proof. by case. Qed.
Lemma the_rdealE m : m \in A -> (m < size ps)%N -> the_rdeal S long s' ps t fp' gp' m = the_rdeal S long s ps t fp gp m.
Proof. move=> mA lm; exact: (ok_inj (etrans (esym (plainE d1E lm)) (etrans (dealE mA) (plainE d0E lm)))). Qed.
Lemma encA rnd m : m \in A -> (m < size ps)%N -> enc1 s' fp' gp' rnd m = enc1 s fp gp rnd m.
Proof. by move=> mA lm; rewrite /enc1 the_rdealE. Qed.

Lemma filter_minsert m x (dd : seq (nat * rddeal G)) :
  [seq kd <- minsert m x dd | kd.1 \in A] = if m \in A then minsert m x [seq kd <- dd | kd.1 \in A] else [seq kd <- dd | kd.1 \in A].
Proof.
elim: dd => [|[k y] dd IH] /=; first by case: ifP.
case: (eqVneq m k) => [<-|ne] /=; first by case: ifP => mA //=; rewrite ?eqxx.
by rewrite IH; case: (k \in A); case: (m \in A) => //=; rewrite (negPf ne).
Qed.

Definition own_inv (g : rdkg G) : Prop := [/\ rg_index g = i, rg_long g = long, rg_parts g = ps & exists a, rg_dealer g = rl_set_agg d0 a].

Lemma deals_pg g rnd k : own_inv g -> su_good S (rnd i).2 ->
  (rgdeals S rdeal_enc rdeal_dec (pg g) rnd k).1 = pg (rgdeals S rdeal_enc rdeal_dec g rnd k).1 /\
  deals_for A (rgdeals S rdeal_enc rdeal_dec (pg g) rnd k).2 = deals_for A (rgdeals S rdeal_enc rdeal_dec g rnd k).2.
Proof.
move=> I gk; have [_ _ gps [a ga]] := I; rewrite !rgdealsE ga /= (encsE _ _ d0E) (encsE _ _ d1E) gps.
set f := rdeals_step S rdeal_dec (mkseq (enc1 s fp gp rnd) (size ps)) k.
set f' := rdeals_step S rdeal_dec (mkseq (enc1 s' fp' gp' rnd) (size ps)) k.
have step m g0 dd dd' : own_inv g0 -> (m < size ps)%N -> [seq kd <- dd' | kd.1 \in A] = [seq kd <- dd | kd.1 \in A] ->
    exists g1 dd1 dd1', [/\ f (g0, Ok dd) m = (g1, Ok dd1), f' (pg g0, Ok dd') m = (pg g1, Ok dd1'), own_inv g1 &
      [seq kd <- dd1' | kd.1 \in A] = [seq kd <- dd1 | kd.1 \in A]].
  move=> {I gps a ga} [gi gl gps [a ga]] lm fE; rewrite /f /f' /rdeals_step.
  rewrite (nth_map (enc1 s fp gp rnd 0)) ?size_mkseq // nth_mkseq // (nth_map (enc1 s' fp' gp' rnd 0)) ?size_mkseq // nth_mkseq //=.
  rewrite gi; case: (eqVneq m i) => [->|ne]; last first.
    do 3 eexists; split; [by []|by []|by split=> //; exists a|].
    by rewrite !filter_minsert fE; case: ifP => // mA; rewrite encA.
  rewrite mget_pm; case M: mget => [v|] /=.
    by exists g0, dd, dd'; split=> //; split=> //; exists a.
  have M' : mget i (rg_verifiers (pg g0)) = None by rewrite /= mget_pm M.
  rewrite (own_deal k d0E gk gl gps M) (own_deal k d1E gk (g := pg g0) gl gps M') /= sidE aggE.
  set v0 := rv_unsafe_set _ _ _; set v1 := rv_unsafe_set _ _ _.
  have vE : v1 = pk i e1 i v0.
    rewrite /pk eqxx /v1 /v0 /pv /rv_unsafe_set /= /rv_set_agg /=; congr RVerifier; congr Some.
    by rewrite -(runsafe_pa e1).
  do 3 eexists; split; [by []| |by split=> //=; eexists; rewrite ga|exact: fE].
  by rewrite vE set_ver_pg.
move: f f' step => f f' step.
have run l g0 dd dd' : own_inv g0 -> all (fun m => (m < size ps)%N) l -> [seq kd <- dd' | kd.1 \in A] = [seq kd <- dd | kd.1 \in A] ->
    (foldl f' (pg g0, Ok dd') l).1 = pg (foldl f (g0, Ok dd) l).1 /\
    deals_for A (foldl f' (pg g0, Ok dd') l).2 = deals_for A (foldl f (g0, Ok dd) l).2.
  elim: l g0 dd dd' => [|m l IH] g0 dd dd' I0 /=; first by move=> _ fE; rewrite /deals_for /= fE.
  move=> /andP[lm al] fE; have [g1 [dd1 [dd1' [-> -> I1 fE1]]]] := step m g0 dd dd' I0 lm fE; exact: IH.
by apply: run => //; apply/allP => m; rewrite mem_iota.
Qed.

Lemma pubE : [/\ rl_long d1 = rl_long d0, rl_verifiers d1 = rl_verifiers d0, rl_ctx d1 = rl_ctx d0 & rl_sid d1 = rl_sid d0].
Proof. by have [_ _ E0] := new_rdealerP d0E; have [_ _ E1] := new_rdealerP d1E; split=> //; rewrite E0 E1. Qed.
Lemma nthE k : k \in A -> nth None (map Some (rl_deals d1)) k = nth None (map Some (rl_deals d0)) k.
Proof.
have [_ _ E0] := new_rdealerP d0E; have [_ _ E1] := new_rdealerP d1E.
have sz d : size (rl_deals d) = size ps -> forall m, (size ps <= m)%N -> nth None (map Some (rl_deals d)) m = None.
  by move=> e m lm; rewrite nth_default // size_map e.
have z0 : size (rl_deals d0) = size ps by rewrite E0 /= size_map size_iota.
have z1 : size (rl_deals d1) = size ps by rewrite E1 /= size_map size_iota.
move=> kA; case: (leqP (size ps) k) => lk; first by rewrite !sz.
have := dealE kA; rewrite /rplaintext_deal z0 z1 leqNgt lk /=.
by rewrite !(nth_map e1) ?z0 ?z1 //= => h; rewrite (ok_inj h).
Qed.

Notation inv := (rginv S long ps t s fp false d0).
Lemma inv_own g : inv g -> own_inv g.
Proof. by case=> -[h1 h2 h3 _] h4 _ _; split. Qed.
Lemma inv_held g : inv g -> forall k v, mget k (rg_verifiers g) = Some v -> exists d, held v = Some d.
Proof. by case=> _ _ h _ k v /h [d hd _]; exists d. Qed.

Lemma step_pg g ev : inv g -> before_reveal S i A ev ->
  rgstep S rdeal_enc rdeal_dec (pg g) ev = pg (rgstep S rdeal_enc rdeal_dec g ev) /\
  reply S rdeal_enc rdeal_dec A (pg g) ev = reply S rdeal_enc rdeal_dec A g ev.
Proof.
move=> I; have O := inv_own I; have H := inv_held I.
case: ev => [rnd k|dd k|r k|j||k|sc k|cc k|hord rc] //= b.
- by have [-> ->] := deals_pg k O b.
- by rewrite deal_pg.
- have [gi _ _ [a ga]] := O.
  by rewrite (response_pg S rdeal_enc e1 pubE nthE k gi ga H b).
- by rewrite just_pg.
- by rewrite timeout_pg.
- by rewrite secret_commits_pg.
- by rewrite complaint_pg.
- by rewrite reconstruct_pg.
Qed.

Lemma run_pg g evs : inv g -> List.Forall (before_reveal S i A) evs ->
  rgrun S rdeal_enc rdeal_dec (pg g) evs = pg (rgrun S rdeal_enc rdeal_dec g evs) /\
  replies S rdeal_enc rdeal_dec A (pg g) evs = replies S rdeal_enc rdeal_dec A g evs.
Proof.
elim: evs g => [|ev evs IH] g I // h; inversion h as [|x l b bs]; subst.
have [e1' e2] := step_pg I b; rewrite /= e1' e2.
have I' : inv (rgstep S rdeal_enc rdeal_dec g ev) by apply: (rginv_step okS dec_enc li (strict := false) d0E) => //; case: (ev).
by have [-> ->] := IH _ I' bs.
Qed.
End Dealing.

(** With H = h G, h non-zero (nobody needs to know it), for every set A of fewer than t participants and every other
    secret s' there are coefficients with which a participant sharing s' gives, in every history in which it has not yet
    published its commitments, the same answers: the same deals for the members of A, responses, justifications,
    complaints and reconstruction messages, and the same set QUAL. *)
Theorem C108_hiding (F : fieldType) (G : lmodType F) (S : suite G) rdeal_enc rdeal_dec (p : nat) (h : F)
    (long s s' : F) (ps : seq G) (t : nat) (fp gp : nat -> F) g (A : seq nat) :
  suite_ok S -> (forall d, rdeal_dec (rdeal_enc d) = Some d) -> p \in [char F] -> derive_h S ps = h *: su_base S -> h != 0 ->
  uniq ps -> su_good S long -> new_rdkg S long ps t s fp gp = Ok g ->
  uniq A -> (size A < t)%N -> (forall i, i \in A -> (i.+1 < p)%N) ->
  exists fp' gp' g', new_rdkg S long ps t s' fp' gp' = Ok g' /\
    forall evs, List.Forall (before_reveal S (rg_index g) A) evs ->
      replies S rdeal_enc rdeal_dec A g' evs = replies S rdeal_enc rdeal_dec A g evs /\
      forall vord, rqual vord (rgrun S rdeal_enc rdeal_dec g' evs) = rqual vord (rgrun S rdeal_enc rdeal_dec g evs).
Proof.
move=> okS de cF hE nh ups gl ng uA sA bA.
move: (ng); rewrite /new_rdkg /pmul /=; case: ifP => // li.
case d0E: (new_rdealer S long s ps t fp gp) => [d0|e||] //= [gE].
have [fp' [gp' [d1 [d1E sidE aggE ctxE dE]]]] := C54_hiding s' cF hE nh d0E uA sA bA.
exists fp', gp'.
have I : rginv S long ps t s fp false d0 g by apply: rginv0 ng.
pose e1 := the_rdeal S long s' ps t fp' gp' (seq.index (long *: su_base S) ps).
exists (pg (seq.index (long *: su_base S) ps) d1 e1 g); split.
  rewrite d1E /= -gE /pg /rg_set_verifiers /rg_set_dealer /= -aggE; by case: (d1).
rewrite -gE /= gE => evs hev.
have [e2 e3] := run_pg okS de ups li gl d0E d1E sidE aggE dE I hev.
by split=> // vord; rewrite e2 qual_pg.
Qed.
Print Assumptions C108_hiding.

(** Participant 0 of three, threshold 2: it deals, gets the deal of 1 and its approval, then a complaint of participant 2,
    which it answers by publishing the deal of 2.  To participant 2 all this fits the secret 5 as well as its secret 2. *)
Definition khcomplaint : rgevent V :=
  let r0 := Response (rl_sid (rg_dealer (krgen 0))) 2 false [::] in
  RGResponse V (RDResponse 0 (Response (r_sid r0) 2 false (su_sign ktoy (krkey 2) (response_hash ktoy r0) (K1 : K)))) (K1 : K).
Definition khevs : seq (rgevent V) := [:: RGDeals V (fun _ => (K2 : K, K1 : K)) (K1 : K); kmsg_deal 1 0; kmsg_resp 0 1; khcomplaint].
Lemma khb0 : before_reveal ktoy 0 [:: 2]%N (RGDeals V (fun _ => (K2 : K, K1 : K)) (K1 : K)). Proof. by []. Qed.
Lemma khb1 : before_reveal ktoy 0 [:: 2]%N (kmsg_deal 1 0).
Proof.
have : (if kmsg_deal 1 0 is RGDeal dd _ then rdd_index dd != 0%N else false) by vm_cast_no_check (erefl true).
by rewrite /before_reveal; case: (kmsg_deal 1 0).
Qed.
Lemma khb2 : before_reveal ktoy 0 [:: 2]%N (kmsg_resp 0 1).
Proof.
have : (if kmsg_resp 0 1 is RGResponse r _ then r_status (rdr_resp r) else false) by vm_cast_no_check (erefl true).
by rewrite /before_reveal; case: (kmsg_resp 0 1) => // r k ->.
Qed.
Lemma khb3 : before_reveal ktoy 0 [:: 2]%N khcomplaint. Proof. by move=> _ _; rewrite inE. Qed.
Lemma khb : List.Forall (before_reveal ktoy 0 [:: 2]%N) khevs.
Proof. exact (List.Forall_cons _ khb0 (List.Forall_cons _ khb1 (List.Forall_cons _ khb2 (List.Forall_cons _ khb3 (List.Forall_nil _))))). Qed.
Definition kh_ans (g : rdkg V) := replies ktoy krdeal_enc krdeal_dec [:: 2]%N g khevs.
Lemma kh_shape : exists dd r j,
  [/\ kh_ans (krgen 0) = [:: AnsDeals (Ok [:: (2%N, dd)]); AnsResponse V (Ok r); AnsJustification (Ok None); AnsJustification (Ok (Some j))],
      r_status (rdr_resp r) & ps_i (rd_sec (rj_deal (rdj_just j))) = 2%N].
Proof.
have : (if kh_ans (krgen 0) is [:: AnsDeals (Ok [:: (2%N, _)]); AnsResponse (Ok r); AnsJustification (Ok None); AnsJustification (Ok (Some j))]
  then r_status (rdr_resp r) && (ps_i (rd_sec (rj_deal (rdj_just j))) == 2%N) else false) by vm_cast_no_check (erefl true).
case: (kh_ans (krgen 0)) => [|[[[|[[|[|[|n]]] dd] [|y l]]|e||]|o|o|o|o|o|o] [|a2 l2]] //; case: a2 => // -[r|e||] //.
case: l2 => [|[o|o|[[j|]|e||]|o|o|o|o] [|a4 [|a5 l5]]] //; case: a4 => // -[[j|]|e||] // /andP[h1 /eqP h2].
by exists dd, r, j.
Qed.
Lemma kh_new : new_rdkg ktoy (krkey 0) krkeys 2 (krsec 0) (krfp 0) (krgp 0) = Ok (krgen 0).
Proof. by have [_ _ H] := krfresh; exact: H. Qed.
Example C108_nonvacuous :
  [/\ new_rdkg ktoy (krkey 0) krkeys 2 (krsec 0) (krfp 0) (krgp 0) = Ok (krgen 0), krsec 0 = K2,
      List.Forall (before_reveal ktoy 0 [:: 2]%N) khevs,
      (exists dd r j, [/\ kh_ans (krgen 0) = [:: AnsDeals (Ok [:: (2%N, dd)]); AnsResponse V (Ok r); AnsJustification (Ok None); AnsJustification (Ok (Some j))],
         r_status (rdr_resp r) & ps_i (rd_sec (rj_deal (rdj_just j))) = 2%N]) &
      exists fp' gp' g', new_rdkg ktoy (krkey 0) krkeys 2 (K5 : K) fp' gp' = Ok g' /\ kh_ans g' = kh_ans (krgen 0)].
Proof.
split; [exact: kh_new|exact: erefl|exact: khb|exact: kh_shape|].
have H : derive_h ktoy krkeys = (derive_h ktoy krkeys : K) *: su_base ktoy by rewrite /GRing.scale /= mulr1.
have gl : su_good ktoy (krkey 0) by [].
have b : forall i, i \in [:: 2]%N -> (i.+1 < 7)%N by move=> i; rewrite inE => /eqP->.
have [fp' [gp' [g' [n' E]]]] := @C108_hiding K V ktoy krdeal_enc krdeal_dec 7 (derive_h ktoy krkeys : K) (krkey 0) (krsec 0) (K5 : K) krkeys 2 (krfp 0) (krgp 0)
  (krgen 0) [:: 2]%N ktoy_ok krdeal_dec_enc charK H isT isT gl kh_new isT isT b.
exists fp', gp', g'; split; [exact: n'|].
by have [e _] := E khevs khb; exact: e.
Qed.
