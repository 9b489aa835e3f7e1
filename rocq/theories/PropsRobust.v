(** Property C115: a corrupted minority against an honest dealer; Pedersen and Rabin key generation. *)
From mathcomp Require Import all_ssreflect all_algebra.
From mathcomp Require Import zify.
From Verif Require Import Base Lagrange PolyModel PolySpec PolyProofs PolyProps PropsPoly Suite SuiteProofs.
From Verif Require Import VssModel VssSpec VssProofs RvssModel RvssSpec RvssProofs Toy DkgModel DkgSpec DkgProofs RdkgModel RdkgSpec RdkgProofs.
From Verif Require Import PropsVss PropsDkg PropsRdkg PropsRsplit.

Set Implicit Arguments.
Unset Strict Implicit.
Unset Printing Implicit Defensive.

Import GRing.Theory.
Local Open Scope ring_scope.
Local Open Scope outcome_scope.

(** ** Rabin *)
Section Rabin.
Variables (F : fieldType) (G : lmodType F) (S : suite G).
Variable rdeal_enc : rdeal G -> bytestr.
Variable rdeal_dec : bytestr -> option (rdeal G).
Notation B := (su_base S).
Notation step := (rgstep S rdeal_enc rdeal_dec).
Notation run := (rgrun S rdeal_enc rdeal_dec).

(** *** What stays true of the verifier kept for another dealer *)
Section Keep.
Variables (m : nat) (P : rverifier G -> Prop).
Hypothesis P_vdeal : forall v a d, rv_agg v = Some a -> P v -> P (rv_set_agg v (rverify_deal S a d false).1).
Definition rkept (g : rdkg G) := (exists2 v, mget m (rg_verifiers g) = Some v & P v) /\ rg_index g <> m.
Definition rkeeps (ev : rgevent G) : Prop :=
  match ev with
  | RGResponse r _ => rdr_index r = m -> forall v, P v -> P (rverifier_process_response S v (rdr_resp r)).1
  | RGJustification jj => rdj_index jj = m -> forall v, P v -> P (rverifier_process_justification S v (rdj_just jj)).1
  | RGTimeout => forall v, P v -> P (rverifier_set_timeout v)
  | _ => True
  end.

Lemma rkept_ver g j w v : rkept g -> mget j (rg_verifiers g) = Some w -> (j = m -> P w -> P v) -> rkept (rg_set_ver g j v).
Proof.
move=> [[u mu pu] ni] mw H; split=> //=; case: (eqVneq m j) => [e|ne].
  by exists v; rewrite ?mget_minsert ?e ?eqxx //; apply: H => //; move: mu; rewrite e mw => -[->].
by exists u; rewrite ?mget_minsert ?(negPf ne).
Qed.
Lemma rkept_deal g dd k : rkept g -> rkept (rgprocess_deal S rdeal_dec g dd k).1.
Proof.
move=> h; rewrite /rgprocess_deal; case: rg_find_pub => // Q; case M: mget => //; case: new_rverifier => // v.
case: rprocess_encrypted_deal => v' [] //= r; case: h => -[u mu pu] ni; split=> //; exists u => //=; rewrite mget_minsert.
by case: eqP => // e; move: mu; rewrite e M.
Qed.
Lemma rkept_step g ev : rkeeps ev -> rkept g -> rkept (step g ev).
Proof.
move=> ke u; case: ev ke => [rnd k|dd k|r k|jj||k|sc k|cc k|hord rc] /= ke.
- rewrite /rgdeals; case: rencrypted_deals => // ds.
  have {u} : rkept (g, Ok [::] : outcome rdkg_error (seq (nat * rddeal G))).1 := u.
  elim: (iota _ _) (g, _) => //= a l IH [{}g [dd|e||]] //= u; apply: IH => //=.
  case: (nth None _ _) => [e|] //; case: ifP => // _; case: mget => //.
  have := rkept_deal (RDDeal (rg_index g) e) k u.
  by case: rgprocess_deal => g' [r|e'||] //= u'; case: ifP.
- exact: rkept_deal.
- rewrite /rgprocess_response; case M: mget => [v|] //; have pr := ke ^~ v.
  case: rverifier_process_response pr => v' o /= pr.
  have u1 : rkept (rg_set_ver g (rdr_index r) v') by exact: (rkept_ver u M).
  case: o => [x|e||] //; case: ifP => [_ //|/negbFE /eqP ei] /=; case: rdealer_process_response => dl [[jj|]|e||] //=.
  case: rverifier_process_justification => v2 o /=.
  apply: (@rkept_ver (rg_set_dealer (rg_set_ver g (rdr_index r) v') dl) _ v') => //=; first by rewrite mget_minsert eqxx.
  by move=> em; case: u => _ []; rewrite -em ei.
- rewrite /rgprocess_justification; case M: mget => [v|] //; have pj := ke ^~ v.
  by case: rverifier_process_justification pj => v' o /= pj; exact: (rkept_ver u M).
- case: u => -[v mv hv] ni; split=> //; exists (rverifier_set_timeout v); last exact: ke.
  by rewrite /=; elim: (rg_verifiers g) mv => //= [[q w] l] IH /=; case: eqP => // _ [->].
- by rewrite /rsecret_commits; case: ifP => // _; case: rdealer_commits.
- rewrite /rprocess_secret_commits; case: rg_find_pub => // Q; case: ifP => // _; case: mget => // v.
  case: rverifier_session_id => // sid; case: ifP => // _; case: ifP => // _; case: rverifier_deal => // dd.
  by case: pub_check => // -[].
- rewrite /rprocess_complaint_commits; case: rg_find_pub => // Q; case: ifP => // _; case: ifP => // _; case M: mget => [v|] //.
  case A: (rv_agg v) => [a|] //; have pv := @P_vdeal v a (cc_deal cc) A; case: rverify_deal pv => a1 o /= pv.
  have u1 : rkept (rg_set_ver g (cc_dealer cc) (rv_set_agg v a1)) by exact: (rkept_ver u M).
  by case: o => [x|e||] //; case: mget => [p|] //; case: pub_check => [[]|e||] //; case: rverifier_deal => [dd|].
rewrite /rprocess_reconstruct_commits; case: ifP => // _; case: mget => //; case: rg_find_pub => // Q; case: ifP => // _.
by case: rscan => // ; case: ifP => // _; case: recover_pri_poly.
Qed.
Lemma rkept_run g evs : (forall ev, List.In ev evs -> rkeeps ev) -> rkept g -> rkept (run g evs).
Proof.
elim: evs g => //= ev evs IH g ke /(rkept_step (ke _ (or_introl erefl))); apply: IH => e h; apply: ke; by right.
Qed.
End Keep.

(** *** Before the deal *)
(** No deal labelled with the dealer and signed with its key. *)
Definition no_signed_deal (ps : seq G) (j : nat) (ev : rgevent G) : Prop :=
  if ev is RGDeal dd _ then rdd_index dd = j -> su_verify S (nth 0 ps j) (su_enc S (e_dhkey (rdd_deal dd))) (e_sig (rdd_deal dd)) = false else True.

Definition rabsent (i0 : nat) (long : F) ps j (g : rdkg G) :=
  [/\ mget j (rg_verifiers g) = None, rg_index g = i0, rg_long g = long & rg_parts g = ps].

Lemma rabsent_ver i0 long ps j g i w v : rabsent i0 long ps j g -> mget i (rg_verifiers g) = Some w -> rabsent i0 long ps j (rg_set_ver g i v).
Proof.
by case=> h1 h2 h3 h4 mw; split=> //=; rewrite mget_minsert; case: eqP => // e; move: h1; rewrite e mw.
Qed.
Lemma rabsent_deal i0 long ps j g dd k : no_signed_deal ps j (RGDeal dd k) -> rabsent i0 long ps j g -> rabsent i0 long ps j (rgprocess_deal S rdeal_dec g dd k).1.
Proof.
move=> ns h; rewrite /rgprocess_deal; case f: rg_find_pub => [Q|] //; case M: mget => //.
rewrite /new_rverifier; case: ifP => // _; set v0 := RVerifier _ _ _ _ _ _ _.
case: (eqVneq (rdd_index dd) j) => [e|ne]; last first.
  case: rprocess_encrypted_deal => v' [] //= r; case: h => h1 h2 h3 h4; split=> //=.
  by rewrite mget_minsert eq_sym (negPf ne).
rewrite /rprocess_encrypted_deal /rdecrypt_deal /=.
have -> // : su_verify S Q (su_enc S (e_dhkey (rdd_deal dd))) (e_sig (rdd_deal dd)) = false.
have := ns e; case: h => _ _ _ h4; move: f; rewrite /rg_find_pub find_pubE h4 e; by case: ifP => // _ [->].
Qed.
Lemma rabsent_step i0 long ps j g ev : i0 <> j -> no_signed_deal ps j ev -> rabsent i0 long ps j g -> rabsent i0 long ps j (step g ev).
Proof.
move=> nij ke u; case: ev ke => [rnd k|dd k|r k|jj||k|sc k|cc k|hord rc] /= ke.
- rewrite /rgdeals; case: rencrypted_deals => // ds.
  have {u} : rabsent i0 long ps j (g, Ok [::] : outcome rdkg_error (seq (nat * rddeal G))).1 := u.
  elim: (iota _ _) (g, _) => //= a l IH [{}g [dd|e||]] //= u; apply: IH => //=.
  case: (nth None _ _) => [e|] //; case: ifP => // _; case: mget => //.
  have : rabsent i0 long ps j (rgprocess_deal S rdeal_dec g (RDDeal (rg_index g) e) k).1.
    by apply: rabsent_deal => //= ei; case: u => _ e0; case: nij; rewrite -e0 -ei.
  by case: rgprocess_deal => g' [r|e'||] //= u'; case: ifP.
- exact: rabsent_deal.
- rewrite /rgprocess_response; case M: mget => [v|] //; case: rverifier_process_response => v' o /=.
  have u1 : rabsent i0 long ps j (rg_set_ver g (rdr_index r) v') by exact: (rabsent_ver _ u M).
  case: o => [x|e||] //; case: ifP => [_ //|_] /=; case: rdealer_process_response => dl [[jj|]|e||] //=.
  case: rverifier_process_justification => v2 o /=.
  by apply: (@rabsent_ver _ _ _ _ (rg_set_dealer (rg_set_ver g (rdr_index r) v') dl) _ v') => //=; rewrite mget_minsert eqxx.
- rewrite /rgprocess_justification; case M: mget => [v|] //.
  by case: rverifier_process_justification => v' o /=; exact: (rabsent_ver _ u M).
- case: u => h1 h2 h3 h4; split=> //=; by elim: (rg_verifiers g) h1 => //= [[q w] l] IH /=; case: eqP.
- by rewrite /rsecret_commits; case: ifP => // _; case: rdealer_commits.
- rewrite /rprocess_secret_commits; case: rg_find_pub => // Q; case: ifP => // _; case: mget => // v.
  case: rverifier_session_id => // sid; case: ifP => // _; case: ifP => // _; case: rverifier_deal => // dd.
  by case: pub_check => // -[].
- rewrite /rprocess_complaint_commits; case: rg_find_pub => // Q; case: ifP => // _; case: ifP => // _; case M: mget => [v|] //.
  case A: (rv_agg v) => [a|] //; case: rverify_deal => a1 o /=.
  have u1 : rabsent i0 long ps j (rg_set_ver g (cc_dealer cc) (rv_set_agg v a1)) by exact: (rabsent_ver _ u M).
  by case: o => [x|e||] //; case: mget => [p|] //; case: pub_check => [[]|e||] //; case: rverifier_deal => [dd|].
rewrite /rprocess_reconstruct_commits; case: ifP => // _; case: mget => //; case: rg_find_pub => // Q; case: ifP => // _.
by case: rscan => // ; case: ifP => // _; case: recover_pri_poly.
Qed.
Lemma rabsent_run i0 long ps j g evs : i0 <> j -> (forall ev, List.In ev evs -> no_signed_deal ps j ev) -> rabsent i0 long ps j g -> rabsent i0 long ps j (run g evs).
Proof.
move=> nij; elim: evs g => //= ev evs IH g ke /(rabsent_step nij (ke _ (or_introl erefl))); apply: IH => e h; apply: ke; by right.
Qed.

(** *** The honest dealer [j] *)
(** Justifications labelled [j] carry deals of the dealer, and participants of [H] sign no complaint about its deal. *)
Definition fair (ps : seq G) (dl : rdealer G) (j : nat) (H : seq nat) (ev : rgevent G) : Prop :=
  match ev with
  | RGJustification jj => rdj_index jj = j -> exists m, rplaintext_deal dl m = Ok (rj_deal (rdj_just jj))
  | RGResponse r _ => rdr_index r = j -> r_sid (rdr_resp r) = rl_sid dl -> r_index (rdr_resp r) \in H ->
      su_verify S (nth 0 ps (r_index (rdr_resp r))) (response_hash S (rdr_resp r)) (r_sig (rdr_resp r)) -> r_status (rdr_resp r)
  | _ => True
  end.
(** The approval of [k] is among the messages. *)
Definition approved (ps : seq G) (dl : rdealer G) (j : nat) (evs : seq (rgevent G)) (k : nat) : Prop :=
  exists r c, [/\ List.In (RGResponse G r c) evs, rdr_index r = j, r_index (rdr_resp r) = k, r_sid (rdr_resp r) = rl_sid dl &
    su_verify S (nth 0 ps k) (response_hash S (rdr_resp r)) (r_sig (rdr_resp r))].

Section Inv.
Variables (okS : suite_ok S) (dec_enc : forall d, rdeal_dec (rdeal_enc d) = Some d).
Variables (ps : seq G) (t j i : nat) (long secret : F) (fp gp : nat -> F) (dl : rdealer G) (H : seq nat).
Hypothesis N : new_rdealer S long secret ps t fp gp = Ok dl.
Hypothesis HH : {in H, forall k, (k < size ps)%N}.

Definition rob (A : seq nat) (v : rverifier G) : Prop := exists a,
  [/\ rv_agg v = Some a, rwf a, [/\ ra_verifiers a = ps, ra_sid a = rl_sid dl & ra_t a = t],
      ra_bad a = false /\ (exists2 d, ra_deal a = Some d & rplaintext_deal dl i = Ok d) &
      (forall k r, k \in H -> mget k (ra_responses a) = Some r -> r_status r) /\
      (forall k, k \in A -> isSome (mget k (ra_responses a)))].

Lemma rob_vdeal A v a d : rv_agg v = Some a -> rob A v -> rob A (rv_set_agg v (rverify_deal S a d false).1).
Proof.
move=> E [a' [E' h1 h2 h3 h4]]; move: E'; rewrite E => -[ea]; subst a'.
by rewrite /rverify_deal andbF; case: h3 => b [d0 e0 ed]; rewrite e0 /=; exists a; split=> //; split=> //; exists d0.
Qed.

Lemma rob_resp A v r k : fair ps dl j H (RGResponse G r k) -> rdr_index r = j -> rob A v ->
  rob A (rverifier_process_response S v (rdr_resp r)).1.
Proof.
move=> /= fr ej [a [E h1 [h2 h2' h2''] h3 [h4 h5]]]; rewrite /rverifier_process_response E; case V: rverify_response => [a' o] /=.
case: (rverify_responseP V) => [[_ [lt ve si nn ->]]|[_ ->]] /=; last by exists a; split.
exists (ra_set_responses a (minsert (r_index (rdr_resp r)) (rdr_resp r) (ra_responses a))); split=> //=; first exact: rwf_insert.
split=> [q r' qH|q qA]; rewrite mget_minsert; last by case: eqP => // _; exact: h5.
case: eqP => [e [<-]|_]; last exact: h4.
by apply: fr => //; [rewrite -h2'|rewrite -e|rewrite -h2].
Qed.

Lemma rob_resp_add A v r c : fair ps dl j H (RGResponse G r c) -> rdr_index r = j -> rob A v ->
  r_index (rdr_resp r) \in H -> r_sid (rdr_resp r) = rl_sid dl ->
  su_verify S (nth 0 ps (r_index (rdr_resp r))) (response_hash S (rdr_resp r)) (r_sig (rdr_resp r)) ->
  rob (r_index (rdr_resp r) :: A) (rverifier_process_response S v (rdr_resp r)).1.
Proof.
move=> fr ej R kH es ve; have R' := rob_resp fr ej R; move: R'; case: R => a [E h1 [h2 h2' h2''] h3 [h4 h5]].
rewrite /rverifier_process_response E.
case M: (mget (r_index (rdr_resp r)) (ra_responses a)) => [r0|].
  case V: rverify_response => [a' o] /=.
  case: (rverify_responseP V) => [[_ [_ _ _]]|[_ ->]] /=; first by rewrite M.
  case=> a1 [[<-] ? ? ? [? ?]]; exists a; split=> //; split=> // k; rewrite inE => /orP[/eqP ->|]; [by rewrite M|exact: h5].
rewrite rverify_response_ok ?h2 ?h2' //=; last exact: HH.
case=> a1 [[<-] /= w ? ? [q1 q2]]; eexists; split=> //=; split=> // k; rewrite inE => /orP[/eqP ->|]; last exact: q2.
by rewrite mget_minsert eqxx.
Qed.

Lemma rob_just A v jj : fair ps dl j H (RGJustification jj) -> rdj_index jj = j -> rob A v ->
  rob A (rverifier_process_justification S v (rdj_just jj)).1.
Proof.
move=> /= fr ej [a [E h1 [h2 h2' h2''] [hb [d hd ed]] [h4 h5]]].
have [m pd] := fr ej; have [t2 tn edl] := new_rdealerP N.
have same : rob A (rv_set_agg v a) by exists a; split=> //; split=> //; exists d.
rewrite /rverifier_process_justification E /rverify_justification find_pubE h2.
case: ltnP => [lt|_] //; case M: mget => [r|] //; case: ifP => // st.
rewrite /rverify_deal andbF hd.
have -> : rdeal_checks S a (rj_deal (rdj_just jj)) = Ok tt.
  have lm : (m < size ps)%N.
    by move: pd; rewrite /rplaintext_deal edl /= size_map size_iota; case: leqP.
  have -> : rj_deal (rdj_just jj) = the_rdeal S long secret ps t fp gp m.
    move: pd; rewrite /rplaintext_deal edl /= size_map size_iota leqNgt lm /=.
    rewrite (nth_map (the_rdeal S long secret ps t fp gp 0)) ?size_map ?size_iota //.
    by rewrite (nth_map 0%N) ?size_iota // nth_iota // add0n !pri_eval_spec /= => -[<-].
  by apply: the_rdeal_checks => //; rewrite h2' edl.
exists (ra_set_responses a (minsert (rj_index (rdj_just jj)) (Response (r_sid r) (r_index r) true (r_sig r)) (ra_responses a))); split=> //=.
- by apply: rwf_insert; rewrite ?h2.
- by split=> //; exists d.
split=> [q r' qH|q qA]; rewrite mget_minsert; last by case: eqP => // _; exact: h5.
by case: eqP => [e [<-]|_] //; exact: h4.
Qed.

Lemma rob_timeout A v : {subset H <= A} -> rob A v -> rob (iota 0 (size ps)) (rverifier_set_timeout v).
Proof.
move=> sA [a [E h1 [h2 h2' h2''] h3 [h4 h5]]]; rewrite /rverifier_set_timeout E.
exists (clean_verifiers a); split=> //; first exact: rwf_clean.
split=> [k r kH|k]; rewrite clean_get; last by rewrite mem_iota add0n /= h2 => ->; case: mget.
by have := h5 _ (sA _ kH); case M: mget => [r'|] // _ [<-]; exact: h4 M.
Qed.

Lemma rob_certified v : uniq H -> (t <= size H)%N -> rob (iota 0 (size ps)) v -> rv_certified v /\
  exists2 d, rverifier_deal v = Some d & rplaintext_deal dl i = Ok d.
Proof.
move=> u tH [a [E h1 [h2 h2' h2''] [hb [d hd ed]] [h4 h5]]].
have C : rdeal_certified a.
  rewrite rcertified_count // hb andbT; apply/andP; split.
    rewrite h2''; apply: leq_trans tH _; rewrite /ranswers -size_filter; apply: uniq_leq_size => // k kH.
    rewrite mem_filter mem_iota add0n h2 /= HH // andbT /rstatus_of.
    have : isSome (mget k (ra_responses a)) by apply: h5; rewrite mem_iota HH.
    by case M: mget => [r|] // _; rewrite /= (h4 _ _ kH M).
  rewrite /ranswers h2 -leqn0 leqNgt -has_count; apply/hasPn => k kn; rewrite /rstatus_of.
  by have := h5 _ kn; case: mget.
split; first by rewrite /rv_certified E.
exists d => //; rewrite /rverifier_deal E C.
by have -> : enough_approvals a by case/andP: C.
Qed.

Lemma rob_merge A v : rob A v -> (forall k, k \in H -> rob [:: k] v) -> rob H v.
Proof.
move=> [a [E h1 h2 h3 [h4 h5]]] K; exists a; split=> //; split=> // k kH.
by have [a' [E' _ _ _ [_]]] := K _ kH; move: E'; rewrite E => -[<-]; apply; rewrite inE.
Qed.

Lemma rob_sub A A' v : {subset A' <= A} -> rob A v -> rob A' v.
Proof. by move=> sA [a [E h1 h2 h3 [h4 h5]]]; exists a; split=> //; split=> // k /sA; exact: h5. Qed.

Lemma fair_keeps A ev : (if ev is RGTimeout then False else True) -> fair ps dl j H ev -> rkeeps j (rob A) ev.
Proof. by case: ev => //= [r k|jj] _ fr ej v; [exact: (@rob_resp A v r k)|exact: (@rob_just A v jj)]. Qed.

(** The deal, and the messages up to the timeout. *)
Lemma rob_deal g dd c dh kk x : rabsent i x ps j g -> i <> j -> uniq ps -> (i < size ps)%N -> (j < size ps)%N ->
  nth 0 ps i = x *: B -> nth 0 ps j = long *: B -> su_good S long -> su_good S kk -> {in H, forall k, (k < size ps)%N} ->
  rdd_index dd = j -> rencrypted_deal S rdeal_enc dl i dh kk = Ok (rdd_deal dd) ->
  rkept j (rob [:: i; j]) (rgprocess_deal S rdeal_dec g dd c).1.
Proof.
move=> [h1 ei h3 h4] nij u li lj pi pj gl gk _ ej en.
have [v nv vi] := new_rverifier_def long u pi li.
have hp := rhonest_process okS dec_enc c N en nv u pi li gl gk.
have [t2 tn edl] := new_rdealerP N.
rewrite /rgprocess_deal /rg_find_pub h4 find_pubE ej lj pj h1 h3 nv hp /=; split; last by rewrite ei.
exists (rv_unsafe_set (rv_set_agg v (RAggregator (long *: B) ps (rd_commits (the_rdeal S long secret ps t fp gp i))
   [:: (i, honest_response S x (rl_sid dl) i c)] (rl_sid dl) (Some (the_rdeal S long secret ps t fp gp i)) t false)) j true).
  by rewrite mget_minsert eqxx.
have nji : (j == i) = false by apply/eqP => e; case: nij.
rewrite /rv_unsafe_set /= /runsafe_set_response_dkg radd_response_ok //=; last by rewrite nji.
rewrite nji; eexists; split=> //=.
- split=> /= [|k]; rewrite /= !inE; first by rewrite eq_sym nji.
  by case/orP => /eqP ->.
- split=> //; eexists => //; rewrite /rplaintext_deal edl /= size_map size_iota leqNgt li /=.
  rewrite (nth_map (the_rdeal S long secret ps t fp gp 0)) ?size_map ?size_iota //.
  by rewrite (nth_map 0%N) ?size_iota // nth_iota // add0n !pri_eval_spec.
split=> [k r _|k]; rewrite /= ?inE; case: eqP => //= _; first by case=> <-.
  by case: eqP => _ // [<-].
by move=> ->.
Qed.
End Inv.

(** Full statement: a participant [i] and a dealer [j] that follow the protocol, at least [t] participants [H] that sign no
    complaint about [j]'s deal, and everybody else corrupted.  [i] ends with [j] qualified and [j]'s own deal in hand,
    whatever the others send and in whatever order, provided the deal reaches [i] before any other deal signed with [j]'s
    key, the approvals of [H] reach [i] between the deal and the first timeout after it, and justifications labelled [j] are
    [j]'s (nothing in the code checks the last: [C115_rabin_refuted]). *)
Theorem C115_rabin_partial (ps : seq G) (t i j : nat) (xi si : F) (fi gi : nat -> F) (xj sj : F) (fj gj : nat -> F) g0 (dl : rdealer G)
    (H : seq nat) dd c dh kk evs1 evs2 evs3 vord :
  suite_ok S -> (forall d, rdeal_dec (rdeal_enc d) = Some d) -> uniq ps -> (j < size ps)%N -> nth 0 ps j = xj *: B -> su_good S xj ->
  new_rdkg S xi ps t si fi gi = Ok g0 -> rg_index g0 = i -> i <> j ->
  new_rdealer S xj sj ps t fj gj = Ok dl ->
  rdd_index dd = j -> rencrypted_deal S rdeal_enc dl i dh kk = Ok (rdd_deal dd) -> su_good S kk ->
  uniq H -> {in H, forall k, (k < size ps)%N} -> (t <= size H)%N ->
  (forall ev, List.In ev evs1 -> no_signed_deal ps j ev) ->
  (forall ev, List.In ev (evs2 ++ evs3) -> fair ps dl j H ev) ->
  ~ List.In (RGTimeout G) evs2 ->
  {in H, forall k, k <> i -> k <> j -> approved ps dl j evs2 k} ->
  (forall l, perm_eq (vord l) l) ->
  let g := run g0 (evs1 ++ RGDeal dd c :: evs2 ++ RGTimeout G :: evs3) in
  j \in rqual vord g /\ exists v d, [/\ mget j (rg_verifiers g) = Some v, rverifier_deal v = Some d & rplaintext_deal dl i = Ok d].
Proof.
move=> okS de u lj pj gj' ng ei nij N ej en gk uH HH tH ns fr nt ap pv g.
have [li pi ab0] : [/\ (i < size ps)%N, nth 0 ps i = xi *: B & rabsent i xi ps j g0].
  move: ng ei; rewrite /new_rdkg; case: ifP => // lt; case: (new_rdealer _ _ _ _ _ _ _) => //= d [<-] /= ei; rewrite -ei lt.
  by split=> //; rewrite nth_index // -index_mem.
have ab1 := rabsent_run nij ns ab0.
have k1 := rob_deal okS de N c ab1 nij u li lj pi pj gj' gk HH ej en.
set g1 := (rgprocess_deal S rdeal_dec (run g0 evs1) dd c).1 in k1.
have eg : g = run (rgset_timeout (run g1 evs2)) evs3 by rewrite /g /rgrun foldl_cat /= foldl_cat.
have fr2 ev : List.In ev evs2 -> fair ps dl j H ev by move=> h; apply: fr; apply/List.in_or_app; left.
have fr3 ev : List.In ev evs3 -> fair ps dl j H ev by move=> h; apply: fr; apply/List.in_or_app; right.
have nt2 (ev : rgevent G) : List.In ev evs2 -> if ev is RGTimeout then False else True by case: ev => // /nt.
have vd A := @rob_vdeal ps t i dl H A.
have K A l g' : (forall ev, List.In ev l -> List.In ev evs2) -> rkept j (rob ps t i dl H A) g' -> rkept j (rob ps t i dl H A) (run g' l).
  by move=> sl; apply: rkept_run => [v a d|ev /sl h]; [exact: vd|apply: fair_keeps; [exact: N|exact: nt2|exact: fr2]].
have [[v2 m2 r2] ni] := K _ _ _ (fun _ h => h) k1.
have R : rob ps t i dl H H v2.
  apply: rob_merge (r2) _ => k kH; case: (eqVneq k i) => [->|/eqP nki]; last case: (eqVneq k j) => [->|/eqP nkj].
  - by apply: rob_sub r2 => q; rewrite !inE => ->.
  - by apply: rob_sub r2 => q; rewrite !inE => ->; rewrite orbT.
  have [r [c' [hin er ek es ve]]] := ap k kH nki nkj.
  have [l1 [l2 el]] := List.in_split _ _ hin.
  have s1 ev : List.In ev l1 -> List.In ev evs2 by rewrite el => h; apply/List.in_or_app; left.
  have s2 ev : List.In ev l2 -> List.In ev evs2 by rewrite el => h; apply/List.in_or_app; right; right.
  have [[v3 m3 r3] ni3] := K _ _ _ s1 k1.
  have : rkept j (rob ps t i dl H [:: k]) (run g1 evs2).
    rewrite [in run g1 evs2]el /rgrun foldl_cat /= -/(rgrun _ _ _ _ l2); apply: K => //.
    set g3 := foldl _ _ _; have M3 : mget (rdr_index r) (rg_verifiers g3) = Some v3 by rewrite er.
    rewrite /rgprocess_response M3; have := rob_resp_add HH (fr2 _ hin) er r3; rewrite ek => /(_ kH es ve).
    case: rverifier_process_response => v4 o /= r4.
    have k4 : rkept j (rob ps t i dl H [:: k]) (rg_set_ver g3 (rdr_index r) v4).
      by split=> //=; exists v4; [rewrite mget_minsert er eqxx|apply: rob_sub r4 => q; rewrite !inE => ->].
    have -> : rdr_index r != rg_index g3 by rewrite er; apply/eqP => e; case: ni3.
    by case: o.
  by case=> -[v4]; rewrite m2 => -[<-] r4 _.
have kt : rkept j (rob ps t i dl H (iota 0 (size ps))) (rgset_timeout (run g1 evs2)).
  split=> //; exists (rverifier_set_timeout v2); last exact: rob_timeout R.
  by rewrite /=; elim: (rg_verifiers _) m2 => //= [[q w] l] IH /=; case: eqP => // _ [->].
have [[v m r3] _] : rkept j (rob ps t i dl H (iota 0 (size ps))) g.
  rewrite eg; apply: rkept_run kt => [v a d|ev /fr3 h]; first exact: vd.
  case: ev h => //= [r k|jj|] h; [by move=> e v; exact: (@rob_resp ps t j i dl H _ v r k h e)|by move=> e v; exact: (rob_just N h e)|].
  move=> v; apply: rob_timeout => k /HH; by rewrite mem_iota.
have [C [d vd' pd]] := rob_certified HH uH tH r3.
split; last by exists v, d.
by rewrite rqualE mem_filter (perm_mem (pv _)) mget_in /ris_in_qual m C.
Qed.

(** Without the last proviso: once one complaint is recorded, an unsigned message of anybody excludes the dealer for good. *)
Theorem C115_rabin_forged (g : rdkg G) (j k : nat) v a sid sig :
  mget j (rg_verifiers g) = Some v -> rv_agg v = Some a -> (k < size (ra_verifiers a))%N -> rstatus_of a k = Some false -> rg_index g <> j ->
  exists d, forall evs vord, let g' := run (rgprocess_justification S g (RDJustification j (RJustification sid k d sig))).1 evs in
    ~~ ris_in_qual g' j /\ j \notin rqual vord g'.
Proof.
move=> M A lt st ni; exists (RDeal [::] (PriShare 0 0) (PriShare 0 0) 0 [::]) => evs vord g'.
pose P (w : rverifier G) := exists2 b, rv_agg w = Some b & ra_bad b.
have vd w b d : rv_agg w = Some b -> P w -> P (rv_set_agg w (rverify_deal S b d false).1).
  move=> E [b']; rewrite E => -[<-] hb; eexists; first by [].
  by rewrite /rverify_deal andbF; case: (ra_deal b).
have K0 : rkept j P (rgprocess_justification S g (RDJustification j (RJustification sid k (RDeal [::] (PriShare 0 0) (PriShare 0 0) 0 [::]) sig))).1.
  rewrite /rgprocess_justification /= M /rverifier_process_justification A /rverify_justification /= find_pubE lt.
  move: st; rewrite /rstatus_of; case: mget => //= r [->]; rewrite /rverify_deal andbF.
  set a1 := (if ra_deal a is Some _ then a else _).
  by split=> //=; eexists; [rewrite mget_minsert eqxx|eexists].
have [[w m [b E hb]] _] : rkept j P g'.
  apply: rkept_run K0 => // ev _; case: ev => //= [r c|jj|] => [_ w [b E hb]|_ w [b E hb]|w [b E hb]].
  - rewrite /rverifier_process_response E; case V: rverify_response => [b' o] /=; eexists => //=.
    by case: (rverify_responseP V) => [[_ [_ _ _ _ ->]]|[_ ->]].
  - rewrite /rverifier_process_justification E /rverify_justification; case: find_pub => [Q|]; last by exists b.
    case: mget => [r|]; last by exists b.
    case: ifP => _; first by exists b.
    rewrite /rverify_deal andbF; set b1 := (if ra_deal b is Some _ then b else _).
    have hb1 : ra_bad b1 by rewrite /b1; case: (ra_deal b).
    by case: rdeal_checks => [x|e||] /=; eexists.
  by rewrite /rverifier_set_timeout E; exists (clean_verifiers b).
have nq : ~~ ris_in_qual g' j by rewrite /ris_in_qual m /rv_certified E rbad_blocks.
by split=> //; rewrite rqualE mem_filter (negPf nq).
Qed.
End Rabin.
Print Assumptions C115_rabin_partial.
Print Assumptions C115_rabin_forged.

(** ** Pedersen *)
Section Pedersen.
Variables (F : fieldType) (G : lmodType F) (S : suite G).
Variable deal_enc : deal G -> bytestr.
Variable deal_dec : bytestr -> option (deal G).
Variable ddeal_enc : nat -> enc_deal G -> bytestr.
Notation run := (drun S deal_enc deal_dec ddeal_enc).

(** A complaint is recorded against the dealer. *)
Definition complained (v : verifier G) : bool := has (fun k => status_of (v_agg v) k == Some false) (iota 0 (size (a_verifiers (v_agg v)))).

Lemma complained_keep (v v' : verifier G) : a_verifiers (v_agg v') = a_verifiers (v_agg v) ->
  (forall k r, mget k (a_responses (v_agg v)) = Some r -> mget k (a_responses (v_agg v')) = Some r) -> complained v -> complained v'.
Proof.
move=> ev H /hasP [k kn st]; apply/hasP; exists k; rewrite ?ev //.
by move: st; rewrite /status_of; case M: mget => [r|] //; rewrite (H _ _ M).
Qed.

Lemma complained_step (v : verifier G) ev : complained v -> complained (vstep S deal_dec v ev).
Proof.
apply: complained_keep; first exact: vstep_verifiers.
by move=> k r; exact: (@run_responses _ _ S deal_dec v [:: ev]).
Qed.

Lemma complained_run g evs (J : nat -> Prop) : (forall j v, mget j (g_verifiers g) = Some v -> J j -> complained v) ->
  (forall j v, mget j (g_verifiers (run g evs)) = Some v -> J j -> complained v) /\ frame g (run g evs).
Proof.
pose P i (v : verifier G) := J i -> complained v.
move=> H0; apply: (@drun_inv F G S deal_enc deal_dec ddeal_enc P _ _ _ _ xpredT _ g evs (all_predT _)) => //.
- by move=> j v e k v' o h E ej; have := complained_step (EvDeal e k) (h ej); rewrite /= E.
- by move=> j v ju h ej; exact: (complained_step (EvJustification ju) (h ej)).
- move=> j v idx b h _ ej; apply: complained_keep (h ej); rewrite /unsafe_set_response_dkg /= /add_response.
    by case: find_pub => // Q; case: mget.
  move=> k r; case: find_pub => // Q; case M: (mget idx (a_responses (v_agg v))) => [x|] //=.
  by rewrite mget_minsert; case: eqP => // -> ; rewrite M.
- by move=> r k _ j v h ej; exact: (complained_step (EvResponse G (dr_resp r)) (h ej)).
Qed.

Lemma complained_blocks v : complained v -> deal_certified (v_agg v) = false.
Proof. by case/hasP => k; rewrite mem_iota /= => lt /eqP; exact: complaint_blocks. Qed.

Lemma in_qualE vord (g : dkg G) : map fst (qual_entries vord g) =
  [seq j <- vord (mkeys (g_verifiers g)) | if mget j (g_verifiers g) is Some v then deal_certified (v_agg v) else false].
Proof. by rewrite /qual_entries; elim: (vord _) => //= j l <-; case: mget => //= v; case: deal_certified. Qed.

(** One recorded complaint excludes the dealer for good, whatever it answers and whoever the others are. *)
Theorem C115_pedersen_excluded (g : dkg G) (j k : nat) v evs vord :
  mget j (g_verifiers g) = Some v -> (k < size (a_verifiers (v_agg v)))%N -> status_of (v_agg v) k = Some false ->
  ~~ is_in_qual vord (run g evs) j.
Proof.
move=> M lt st; have [H _] := @complained_run g evs (eq j) (fun j' v' M' e => ltac:(by move: M'; rewrite -e M => -[<-]; apply/hasP; exists k; rewrite ?mem_iota ?st)).
rewrite /is_in_qual in_qualE mem_filter; case M': mget => [w|] //.
by rewrite complained_blocks //; exact: H M' erefl.
Qed.

(** Any participant can put one there that has not answered yet. *)
Theorem C115_pedersen_complaint (g : dkg G) (j : nat) v (r : response) c evs vord :
  ~~ [&& g_resharing g, g_can_issue g & ~~ g_new_present g] ->
  mget j (g_verifiers g) = Some v -> (r_index r < size (a_verifiers (v_agg v)))%N -> mget (r_index r) (a_responses (v_agg v)) = None ->
  r_status r = false -> (a_sid (v_agg v) = [::] \/ r_sid r = a_sid (v_agg v)) -> su_verify S (nth 0 (a_verifiers (v_agg v)) (r_index r)) (response_hash S r) (r_sig r) ->
  ~~ is_in_qual vord (run (dprocess_response S deal_enc g (DResponse j r) c).1 evs) j.
Proof.
move=> nl M lt nn st si ve.
have [w M1 [l1 s1]] : exists2 w, mget j (g_verifiers (dprocess_response S deal_enc g (DResponse j r) c).1) = Some w &
   (r_index r < size (a_verifiers (v_agg w)))%N /\ status_of (v_agg w) (r_index r) = Some false.
  rewrite /dprocess_response (negPf nl) /= M.
  have V : verifier_process_response S v r = (v_set_agg v (a_set_responses (v_agg v) (minsert (r_index r) r (a_responses (v_agg v)))), Ok tt).
    by rewrite /verifier_process_response /verify_response find_pubE lt ve /= /add_response find_pubE lt nn; case: si => ->; rewrite ?eqxx ?andbF.
  rewrite V; set v1 := v_set_agg v _.
  have h1 : (r_index r < size (a_verifiers (v_agg v1)))%N /\ status_of (v_agg v1) (r_index r) = Some false.
    by split=> //; rewrite /status_of /= mget_minsert eqxx /= st.
  case: ifP => _; first by exists v1 => //=; rewrite mget_minsert eqxx.
  case: dealer_process_response => d [[jj|]|e||] /=; try by exists v1 => //=; rewrite mget_minsert eqxx.
  case J: verifier_process_justification => [v2 o] /=; exists v2; first by rewrite mget_minsert eqxx.
  have -> : v2 = vstep S deal_dec v1 (EvJustification jj) by rewrite /= J.
  case: h1 => l1; rewrite vstep_verifiers; split=> //; rewrite /status_of.
  move: b; rewrite /status_of; case M1: mget => [r1|] // st1.
  by rewrite (@run_responses _ _ S deal_dec v1 [:: EvJustification jj] _ _ M1).
exact: C115_pedersen_excluded M1 l1 s1.
Qed.

(** With complaints against all but fewer than the threshold, nobody ever gets a share. *)
Theorem C115_pedersen_stopped (g : dkg G) evs vord hord :
  ~~ g_resharing g -> (forall l, perm_eq (vord l) l) ->
  (count (fun j => if mget j (g_verifiers g) is Some v then ~~ complained v else false) (mkeys (g_verifiers g)) < c_t (g_c g))%N ->
  dist_key_share S vord hord (run g evs) = Err DistributedKeyNotCertified.
Proof.
move=> nr pv lt.
pose J j : Prop := if mget j (g_verifiers g) is Some v then complained v else False.
have J0 j v : mget j (g_verifiers g) = Some v -> J j -> complained v by rewrite /J => ->.
have [H [[ec er _] _ _ _ ek]] := complained_run evs J0.
rewrite /dist_key_share /threshold_certified er (negPf nr) ec.
suff -> : (c_t (g_c g) <= size (qual vord (run g evs)))%N = false by [].
apply/negbTE; rewrite -ltnNge; apply: leq_ltn_trans lt.
rewrite /qual er (negPf nr) /= in_qualE size_filter (permP (pv _)) ek; apply: sub_count => j /=.
case M: mget => [v|] // C; case M0: (mget j (g_verifiers g)) => [v0|]; last by have := mget_keys M; rewrite ek mget_in M0.
by apply/negP => cc; move: C; rewrite complained_blocks //; apply: (H _ _ M); rewrite /J M0.
Qed.
End Pedersen.
Print Assumptions C115_pedersen_excluded.
Print Assumptions C115_pedersen_complaint.
Print Assumptions C115_pedersen_stopped.

(** ** Three participants, threshold 2, participant 2 corrupted *)
Definition wsigned (sid : bytestr) (x : K) (i : nat) (b : bool) : response :=
  Response sid i b (su_sign ktoy x (response_hash ktoy (Response sid i b [::])) (K1 : K)).

(** Pedersen: 2 complains about the deals of 0 and 1, both correct. *)
Definition wcomplaint (j : nat) : dresponse := DResponse j (wsigned (dl_sid (g_dealer (kgen j))) (K3 : K) 2 false).
Definition wevents : seq (devent V) :=
  [:: kev_deals; DEvDeal (kdeal_for 1 0) (K1 : K) (K1 : K); DEvResponse V (wcomplaint 0) (K1 : K); DEvResponse V (wcomplaint 1) (K1 : K)].

Theorem C115_pedersen_refuted :
  [/\ new_dist_key_generator ktoy (K1 : K) kkeys 2 (ksec 0) (kpicks 0) = Ok (kgen 0),
      new_dist_key_generator ktoy (K2 : K) kkeys 2 (ksec 1) (kpicks 1) = Ok (kgen 1),
      mget 0 (kdeals_of (kgen 1)) = Some (kdeal_for 1 0) &
      forall evs vord hord, (forall l, perm_eq (vord l) l) ->
        dist_key_share ktoy vord hord (krun (kgen 0) (wevents ++ evs)) = Err DistributedKeyNotCertified].
Proof.
split.
- by have [_ _ H] := kfresh (T := 2%N) isT; exact: (H 0%N isT).
- by have [_ _ H] := kfresh (T := 2%N) isT; exact: (H 1%N isT).
- rewrite /kdeal_for; have : isSome (mget 0 (kdeals_of (kgen 1))) by vm_cast_no_check (erefl true).
  by case: mget.
move=> evs vord hord pv; rewrite /drun foldl_cat; apply: C115_pedersen_stopped; [|exact: pv|].
  by vm_cast_no_check (erefl true).
by vm_cast_no_check (erefl true).
Qed.
Print Assumptions C115_pedersen_refuted.

(** Participant 0 keeps both verifiers and had recorded nothing from 2 before. *)
Example C115_pedersen_nonvacuous :
  let g := krun (kgen 0) (take 2 wevents) in
  [/\ g_resharing g = false,
      [seq (if mget j (g_verifiers g) is Some v then
              [&& (2 < size (a_verifiers (v_agg v)))%N, ~~ isSome (mget 2 (a_responses (v_agg v))), (r_sid (dr_resp (wcomplaint j)) == a_sid (v_agg v)) &
                  su_verify ktoy (nth 0 (a_verifiers (v_agg v)) 2) (response_hash ktoy (dr_resp (wcomplaint j))) (r_sig (dr_resp (wcomplaint j)))]
            else false) | j <- [:: 0; 1]%N] = [:: true; true],
      [seq (if mget j (g_verifiers (krun g (drop 2 wevents))) is Some v then status_of (v_agg v) 2 else None) | j <- [:: 0; 1]%N] =
        [:: Some false; Some false],
      c_t (g_c g) = 2%N & mkeys (g_verifiers g) = [:: 0; 1; 2]%N].
Proof.
split.
- by vm_cast_no_check (erefl false).
- by vm_cast_no_check (erefl [:: true; true]).
- by vm_cast_no_check (erefl [:: Some false; Some false]).
- by vm_cast_no_check (erefl 2%N).
- by vm_cast_no_check (erefl [:: 0; 1; 2]%N).
Qed.

(** Rabin: 2 complains about the deal of 1; 1 answers with the deal of 2, and 0 keeps 1 qualified. *)
Definition wdl : rdealer V := rg_dealer (krgen 1).
Definition wdd : rddeal V := if kmsg_deal 1 0 is RGDeal dd _ then dd else RDDeal 99 (EncDeal (K0 : V) [::] [::] [::]).
Definition wrcomplaint : rdresponse := RDResponse 1 (wsigned (rl_sid wdl) (krkey 2) 2 false).
Definition wplain : rdeal V := if rplaintext_deal wdl 2 is Ok d then d else RDeal [::] (@PriShare K 0 (K0 : K)) (@PriShare K 0 (K0 : K)) 0 [::].
Definition wrdeals : rgevent V := RGDeals V (fun _ => (K2 : K, K1 : K)) (K1 : K).
Definition wanswer (d : rdeal V) : rgevent V := RGJustification (RDJustification 1 (RJustification [::] 2 d [::])).
Notation wrun := (rgrun ktoy krdeal_enc krdeal_dec).
Definition wrevs (d : rdeal V) : seq (rgevent V) :=
  [:: wrdeals] ++ RGDeal wdd (K1 : K) :: [:: RGResponse V wrcomplaint (K1 : K)] ++ RGTimeout V :: [:: wanswer d].

Example C115_rabin_nonvacuous :
  [/\ 1%N \in rqual id (wrun (krgen 0) (wrevs wplain)), rcertified id (wrun (krgen 0) (wrevs wplain)) = false &
      (if mget 1 (rg_verifiers (wrun (krgen 0) (take 3 (wrevs wplain)))) is Some v then
         if rv_agg v is Some a then rstatus_of a 2 else None else None) = Some false].
Proof.
have [u h gen] := krfresh; have H0 := gen 0%N isT; have H1 := gen 1%N isT.
have N1 : new_rdealer ktoy (krkey 1) (krsec 1) krkeys 2 (krfp 1) (krgp 1) = Ok wdl.
  by move: H1; rewrite /new_rdkg /wdl; case: ltnP => // _; case E: new_rdealer => [d|||] //= [<-].
split.
- apply: (proj1 (@C115_rabin_partial K V ktoy krdeal_enc krdeal_dec krkeys 2 0 1 (krkey 0) (krsec 0) (krfp 0) (krgp 0) (krkey 1) (krsec 1)
    (krfp 1) (krgp 1) (krgen 0) wdl [:: 0; 1]%N wdd (K1 : K) (K2 : K) (K1 : K) [:: wrdeals] [:: RGResponse V wrcomplaint (K1 : K)]
    [:: wanswer wplain] id ktoy_ok krdeal_dec_enc u _ _ _ H0 _ _ N1 _ _ _ _ _ _ _ _ _ _ _)).
  + by [].
  + by apply/eqP; vm_cast_no_check (erefl true).
  + by vm_cast_no_check (erefl true).
  + by vm_cast_no_check (erefl 0%N).
  + by [].
  + by vm_cast_no_check (erefl 1%N).
  + by vm_cast_no_check (erefl (@Ok vss_error _ (rdd_deal wdd))).
  + by vm_cast_no_check (erefl true).
  + by [].
  + by move=> k; rewrite !inE => /orP[] /eqP ->.
  + by [].
  + by move=> ev [<-|[]].
  + move=> ev /= [<-|[<-|[]]] /=; first by [].
    by move=> _; exists 2%N; vm_cast_no_check (erefl (@Ok vss_error _ wplain)).
  + by case.
  + by move=> k; rewrite !inE => /orP[] /eqP ->.
  + by move=> l; exact: perm_refl.
- by vm_cast_no_check (erefl false).
- by vm_cast_no_check (erefl (Some false)).
Qed.

(** The same with the approval of 2 delivered and without the one of 0 itself counted on. *)
Definition wresp : rdresponse := if kmsg_resp 1 2 is RGResponse r _ then r else RDResponse 99 (wsigned [::] (K0 : K) 0 false).
Lemma wapproved : approved ktoy krkeys wdl 1 [:: RGResponse V wresp (K1 : K)] 2.
Proof.
exists wresp, (K1 : K); split.
- by left.
- by vm_cast_no_check (erefl 1%N).
- by vm_cast_no_check (erefl 2%N).
- by vm_cast_no_check (erefl (rl_sid wdl)).
- by vm_cast_no_check (erefl true).
Qed.
Example C115_rabin_nonvacuous2 :
  1%N \in rqual id (wrun (krgen 0) ([:: wrdeals] ++ RGDeal wdd (K1 : K) :: [:: RGResponse V wresp (K1 : K)] ++ RGTimeout V :: [::])).
Proof.
have [u h gen] := krfresh; have H0 := gen 0%N isT; have H1 := gen 1%N isT.
have N1 : new_rdealer ktoy (krkey 1) (krsec 1) krkeys 2 (krfp 1) (krgp 1) = Ok wdl.
  by move: H1; rewrite /new_rdkg /wdl; case: ltnP => // _; case E: new_rdealer => [d|||] //= [<-].
have st : r_status (rdr_resp wresp) by vm_cast_no_check (erefl true).
apply: (proj1 (@C115_rabin_partial K V ktoy krdeal_enc krdeal_dec krkeys 2 0 1 (krkey 0) (krsec 0) (krfp 0) (krgp 0) (krkey 1) (krsec 1)
    (krfp 1) (krgp 1) (krgen 0) wdl [:: 1; 2]%N wdd (K1 : K) (K2 : K) (K1 : K) [:: wrdeals] [:: RGResponse V wresp (K1 : K)]
    [::] id ktoy_ok krdeal_dec_enc u _ _ _ H0 _ _ N1 _ _ _ _ _ _ _ _ _ _ _)).
- by [].
- by apply/eqP; vm_cast_no_check (erefl true).
- by vm_cast_no_check (erefl true).
- by vm_cast_no_check (erefl 0%N).
- by [].
- by vm_cast_no_check (erefl 1%N).
- by vm_cast_no_check (erefl (@Ok vss_error _ (rdd_deal wdd))).
- by vm_cast_no_check (erefl true).
- by [].
- by move=> k; rewrite !inE => /orP[] /eqP ->.
- by [].
- by move=> ev [<-|[]].
- by move=> ev [<-|[]] _ _ _ _; exact: st.
- by case.
- by move=> k; rewrite !inE => /orP[] /eqP -> h1 h2; [case: h2|exact: wapproved].
- by move=> l; exact: perm_refl.
Qed.

(** The unsigned answer of somebody else instead: 0 never has 1 qualified. *)
Definition wready (g : rdkg V) : bool :=
  if mget 1 (rg_verifiers g) is Some v then if rv_agg v is Some a then
     [&& (2 < size (ra_verifiers a))%N, rstatus_of a 2 == Some false & rg_index g != 1%N] else false else false.
Definition wfirst : seq (rgevent V) := [:: wrdeals; RGDeal wdd (K1 : K); RGResponse V wrcomplaint (K1 : K); RGTimeout V].
Lemma wforged g : wready g -> exists d, forall evs vord, 1%N \notin rqual vord (wrun g (wanswer d :: evs)).
Proof.
rewrite /wready; case M: mget => [v|] //; case A: rv_agg => [a|] // /and3P[lt /eqP st /eqP ni].
have [d H] := C115_rabin_forged ktoy krdeal_enc krdeal_dec [::] [::] M A lt st ni.
by exists d => evs vord; have [_] := H evs vord.
Qed.
Theorem C115_rabin_refuted :
  new_rdkg ktoy (krkey 0) krkeys 2 (krsec 0) (krfp 0) (krgp 0) = Ok (krgen 0) /\
  exists d, forall evs vord, 1%N \notin rqual vord (wrun (krgen 0) (wrevs d ++ evs)).
Proof.
have [u h gen] := krfresh; split; first exact: (gen 0%N isT).
have R : wready (wrun (krgen 0) wfirst) by vm_cast_no_check (erefl true).
have [d H] := wforged R; exists d => evs vord; have := H evs vord.
have -> : wrevs d ++ evs = wfirst ++ (wanswer d :: evs) by [].
rewrite /rgrun foldl_cat; exact.
Qed.
Print Assumptions C115_rabin_refuted.
