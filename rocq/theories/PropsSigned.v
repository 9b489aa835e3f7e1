(** Property C114: the messages a participant returns carry its signature; Pedersen and Rabin key generation. *)
From mathcomp Require Import all_ssreflect all_algebra.
From mathcomp Require Import zify.
From Verif Require Import Base Lagrange PolyModel PolySpec PolyProofs PolyProps PropsPoly Suite SuiteProofs.
From Verif Require Import VssModel VssSpec VssProofs RvssModel RvssSpec RvssProofs Toy DkgModel DkgSpec DkgProofs RdkgModel RdkgSpec RdkgProofs.
From Verif Require Import PropsDkg PropsRdkg PropsReshare PropsReplay PropsJust.

Set Implicit Arguments.
Unset Strict Implicit.
Unset Printing Implicit Defensive.

Import GRing.Theory.
Local Open Scope ring_scope.
Local Open Scope outcome_scope.

(** The key at position [i] of the list verifies the signature [sig] of [m]. *)
Definition signed_by (F : fieldType) (G : lmodType F) (S : suite G) (keys : seq G) (i : nat) (m sig : bytestr) : Prop :=
  exists2 P, nth None (map Some keys) i = Some P & su_verify S P m sig.

Lemma nth_index_some (T : eqType) (x : T) l : (seq.index x l < size l)%N -> nth None (map Some l) (seq.index x l) = Some x.
Proof. by move=> li; rewrite (nth_map x) // nth_index // -index_mem. Qed.

Section Pedersen.
Variables (F : fieldType) (G : lmodType F) (S : suite G).
Variable deal_enc : deal G -> bytestr.
Variable deal_dec : bytestr -> option (deal G).
Variable ddeal_enc : nat -> enc_deal G -> bytestr.
Notation run := (drun S deal_enc deal_dec ddeal_enc).
Notation step := (dstep S deal_enc deal_dec ddeal_enc).
Notation B := (su_base S).

Section Own.
Variables (long : F) (keys : seq G).
Notation ni := (seq.index (long *: B) keys).
(** A verifier of the holder of [long], which is at its place in the list. *)
Definition vown (v : verifier G) : Prop := [/\ v_long v = long, v_index v = ni & (ni < size keys)%N].
Definition gown (g : dkg G) : Prop := forall i v, mget i (g_verifiers g) = Some v -> vown v.

Lemma vown_agg v a : vown v -> vown (v_set_agg v a). Proof. by []. Qed.
Lemma ped_agg v e k : exists a, (process_encrypted_deal S deal_dec v e k).1 = v_set_agg v a.
Proof.
have self : v = v_set_agg v (v_agg v) by case: v.
rewrite /process_encrypted_deal; case: decrypt_deal => [d|x||]; try by eexists; exact: self.
case: ifP => _; first by eexists; exact: self.
case: verify_deal => a1 o /=; case: o => [u|[]||] /=; try by eexists.
all: by case: add_response => a2 o2; eexists.
Qed.
Lemma gown_ver g i v : gown g -> vown v -> gown (g_set_ver g i v).
Proof. by move=> G0 V0 j w /=; rewrite mget_minsert; case: eqP => [_ [<-]|_ /G0]. Qed.

Lemma gown_deal g dd k k' : gown g -> gown (dprocess_deal S deal_dec ddeal_enc g dd k k').1.
Proof.
move=> I; rewrite /dprocess_deal; case: ifP => // _; case: get_pub => [P|] //; case: ifP => // _; case M: (mget _ _) => [v|] //.
have V := I _ _ M; have [a] := ped_agg v (dd_deal dd) k; case: process_encrypted_deal => v1 o /= v1E.
have V1 : vown v1 by rewrite v1E.
have W : gown (g_set_ver g (dd_index dd) v1) by exact: gown_ver.
case: o => [r|e||] //=; case: ifP => _ /=.
  case: pub_eval => [ex|e||] //=; case: verifier_commits => [[|c0 cs]|] //=.
  by case: ifP => _ /=; case: dfind_pub => i f /=; apply: gown_ver => //; repeat case: ifP => _.
by case: dfind_pub => i f /=; apply: gown_ver => //; case: ifP => _.
Qed.

Lemma gown_processed g : gown g -> gown (g_set_processed g). Proof. by []. Qed.

Lemma gown_deals g rnd ks k k' : gown g -> gown (ddeals S deal_enc deal_dec ddeal_enc g rnd ks k k').1.
Proof.
rewrite /ddeals; case: ifP => // _ I; case: encrypted_deals => [ds|e||] //.
have {I} : gown (g, Ok [::] : outcome dkg_error (seq (nat * ddeal G))).1 := I.
move: (iota 0 _) => l; move: (g, Ok [::]); elim: l => [//|m l IH] [{}g o] /= I; apply: IH; move: I => /= I.
case: o => //= dd; case: (nth None _ _) => [e|] //=; case: ifP => // _; case: ifP => // _.
set distd := DDeal _ _ _; have := @gown_deal _ distd k k' (gown_processed I).
by case: dprocess_deal => g' [r|e'||] //= I'; case: ifP.
Qed.

Lemma gown_step g ev : gown g -> gown (step g ev).
Proof.
move=> I; case: ev => [rnd ks k k'|dd k k'|r k|j|] /=.
- exact: gown_deals.
- exact: gown_deal.
- rewrite /dprocess_response; case: ifP => _.
    by rewrite /process_resharing_response; case: verify_response.
  case M: (mget _ _) => [v|] //; have V := I _ _ M; rewrite /verifier_process_response; case: verify_response => a o.
  have W : gown (g_set_ver g (dr_index r) (v_set_agg v a)) by exact: gown_ver.
  case: o => [u|e||] //=; case: ifP => // _; case: dealer_process_response => d [[jj|]|e||] //=.
  by rewrite /verifier_process_justification; case: verify_justification => a' o' /=; apply: (@gown_ver (g_set_dealer (g_set_ver g _ _) d)).
- rewrite /dprocess_justification; case M: (mget _ _) => [v|] //; have V := I _ _ M.
  by rewrite /verifier_process_justification; case: verify_justification => a o; exact: gown_ver.
- by move=> i v; rewrite mget_map; case M: (mget _ _) => [w|] //= [<-]; exact: (I _ _ M).
Qed.
Lemma gown_run g evs : gown g -> gown (run g evs).
Proof. by elim: evs g => //= ev evs IH g I; apply: IH; exact: gown_step. Qed.
End Own.

Lemma init_own c vs : init_verifiers S c = Ok vs -> forall i v, mget i vs = Some v ->
  vown (c_long c) (c_new c) v.
Proof.
rewrite /init_verifiers; set f := (X in foldo X _ _).
pose Q (vs : seq (nat * verifier G)) := forall i v, mget i vs = Some v ->
  vown (c_long c) (c_new c) v.
have H l acc r : Q acc.2 -> foldo f acc l = Ok r -> Q r.2.
  elim: l acc r => [|[i p] l IH] [tk us] r /= q; first by case=> <-.
  case: ifP => // _; rewrite /new_verifier; case: ifP => //= li; apply: IH => j v /=.
  by rewrite mget_minsert; case: eqP => [_ [<-]|_ /q].
by case E: foldo => [r|e||] //= [<-]; apply: (H _ _ _ _ E).
Qed.

(** What a new participant knows about itself. *)
Lemma handler_own c secret picks g0 : new_dist_key_handler S c secret picks = Ok g0 ->
  [/\ c_long (g_c g0) = c_long c, gown (c_long c) (c_new c) g0,
      g_can_issue g0 -> dl_long (g_dealer g0) = c_long c &
      g_can_issue g0 -> g_old_present g0 ->
        nth None (map Some (if g_resharing g0 then c_old c else c_new c)) (g_oidx g0) = Some (c_long c *: B)].
Proof.
rewrite /new_dist_key_handler; case: ifP => // _; case: ifP => // _; case: ifP => // _.
set rsh := isSome _ || _.
have fp l : (dfind_pub l (pmul B (c_long c) None)).2 -> nth None (map Some l) (dfind_pub l (pmul B (c_long c) None)).1 = Some (c_long c *: B).
  by rewrite /dfind_pub; case: ifP => //= li _; exact: nth_index_some.
have := fp (c_old c); case: dfind_pub => oi op fo; case: (dfind_pub (c_new c) _) (fp (c_new c)) => ni np fn; case: ifP => // _.
set st := (X in bindo X _).
have stP d ci c' oi' op' : st = Ok (d, ci, c', oi', op') -> [/\ ci -> dl_long d = c_long c, c_long c' = c_long c, c_new c' = c_new c &
    ci -> op' -> nth None (map Some (if rsh then c_old c else c_new c)) oi' = Some (c_long c *: B)].
  have nd s t p dd : new_dealer S (c_long c) s (c_new c) t p = Ok dd -> dl_long dd = c_long c.
    by rewrite /new_dealer; case: ifP => // _ [<-].
  rewrite /st; case cs: (c_share c) => [sh|] /=.
    by case N: new_dealer => [d'|e||] //= [<- _ <- <- <-]; split=> // _; [exact: nd N|rewrite /rsh cs; exact: fo].
  case: ifP => [/andP[nr _]|_]; last by case=> <- <- <- _ _.
  by case N: new_dealer => [d'|e||] //=; case=> <- _ <- <- <-; split=> // _; [exact: nd N|rewrite (negPf nr); exact: fn].
case: st stP => [[[[[d ci] c'] oi'] op']|e||] //= /(_ _ _ _ _ _ erefl) [dd cl cn ip].
set st2 := (X in bindo X _).
have st2P c2 dp ot cr : st2 = Ok (c2, dp, ot, cr) -> c_long c2 = c_long c /\ c_new c2 = c_new c.
  rewrite /st2; case: ifP => _; first by case=> <-.
  case: ifP => _; last by case=> <-.
  by case: (c_coeffs c') => [cs|]; [case=> <-|case: (c_share c') => [sh|] // [<-]].
case: st2 st2P => [[[[c2 dp] ot] cr]|e||] //= /(_ _ _ _ _ erefl) [cl2 cn2].
case: ifP => _; last by case=> <-; split.
case I: init_verifiers => [vs|e||] // [<-]; last by split.
by split=> // i v /(init_own I); rewrite cl2 cn2.
Qed.

Lemma good_verify long m k : suite_ok S -> su_good S long -> su_good S k -> su_verify S (long *: B) m (su_sign S long m k).
Proof. by move=> ok; exact: su_sign_ok. Qed.

Lemma enc_sig (d : dealer G) i s k e : suite_ok S -> su_good S (dl_long d) -> su_good S k -> encrypted_deal S deal_enc d i s k = Ok e ->
  su_verify S (dl_long d *: B) (su_enc S (e_dhkey e)) (e_sig e).
Proof.
move=> ok g1 g2; rewrite /encrypted_deal; case: VssModel.find_pub => // P; case: (nth None _ _) => //= di [<-] /=; exact: su_sign_ok.
Qed.

Lemma encs_sig (d : dealer G) rnd ds i e : suite_ok S -> su_good S (dl_long d) -> (forall j, su_good S (rnd j).2) ->
  encrypted_deals S deal_enc d rnd = Ok ds -> nth None (map Some ds) i = Some e ->
  su_verify S (dl_long d *: B) (su_enc S (e_dhkey e)) (e_sig e).
Proof.
move=> ok g1 g2; rewrite /encrypted_deals.
set f := (X in foldo X _ _); pose Q (ds : seq (enc_deal G)) := forall i e, nth None (map Some ds) i = Some e ->
  su_verify S (dl_long d *: B) (su_enc S (e_dhkey e)) (e_sig e).
suff H l acc r : Q acc -> foldo f acc l = Ok r -> Q r by move=> /(H _ _ _ _)-/(_ (fun i e => ltac:(by rewrite nth_default))); apply.
elim: l acc r => [|j l IH] acc r q /=; first by case=> <-.
rewrite /f; case E: encrypted_deal => [x|x||] //=; apply: IH => m y.
rewrite map_rcons nth_rcons size_map; case: ltnP => _; first exact: q.
by case: eqP => // _ [<-]; exact: enc_sig E.
Qed.

(** Full statement: every deal, response and justification a participant returns is signed with the key of the participant
    it names as its author, over its whole content: all its fields for deals, the session, index and status of responses,
    the session, index and deal of justifications.  Missing: the justifications of a holder that leaves (refuted below).
    [g_old_present]: a configured share holder that is not in the old list deals under index 0. *)
Theorem C114_pedersen_partial c secret picks g0 evs :
  suite_ok S -> su_good S (c_long c) -> new_dist_key_handler S c secret picks = Ok g0 ->
  let g := run g0 evs in
  let dealers := if g_resharing g0 then c_old c else c_new c in
  [/\ forall rnd ks k k' g' dd i d, (forall j, su_good S (rnd j).2) -> (forall j, su_good S (ks j)) -> g_old_present g0 ->
        ddeals S deal_enc deal_dec ddeal_enc g rnd ks k k' = (g', Ok dd) -> mget i dd = Some d ->
        signed_by S dealers (dd_index d) (ddeal_enc (dd_index d) (dd_deal d)) (dd_sig d) /\
        signed_by S dealers (dd_index d) (su_enc S (e_dhkey (dd_deal d))) (e_sig (dd_deal d)),
      forall dd k k' g' r, su_good S k -> su_good S k' -> dprocess_deal S deal_dec ddeal_enc g dd k k' = (g', Ok r) ->
        signed_by S (c_new c) (r_index (dr_resp r)) (response_hash S (dr_resp r)) (r_sig (dr_resp r)) &
      forall r k g' j, su_good S k -> g_old_present g0 -> g_new_present g0 || ~~ g_resharing g0 ->
        dprocess_response S deal_enc g r k = (g', Ok (Some j)) ->
        signed_by S dealers (dj_index j) (justification_hash S deal_enc (dj_just j)) (j_sig (dj_just j))].
Proof.
move=> ok gl h g dealers; have [cl own dl op] := handler_own h; have [_ oa _] := handler_dealer h.
have I : pkeep g0 g by apply: pkeep_run; exact: pkeep0.
have W : gown (c_long c) (c_new c) g by exact: gown_run.
move: g I W => g I W; split.
- move=> rnd ks k k' g' dd i d gr gk po; rewrite /ddeals; have [gc [e1 e2 e3 e4] [a ea _] _] := I.
  case ci: (g_can_issue g) => /=; last by case=> _ <-.
  case E: encrypted_deals => [ds|e||] //.
  have ci0 : g_can_issue g0 by rewrite -e2.
  have gdl : dl_long (g_dealer g) = c_long c by rewrite ea /= dl.
  have ds_ok j e : nth None (map Some ds) j = Some e -> su_verify S (c_long c *: B) (su_enc S (e_dhkey e)) (e_sig e).
    by rewrite -gdl; apply: encs_sig E => //; rewrite gdl.
  have dn := op ci0 po.
  pose Q (dd : seq (nat * ddeal G)) := forall i d, mget i dd = Some d ->
    signed_by S dealers (dd_index d) (ddeal_enc (dd_index d) (dd_deal d)) (dd_sig d) /\
    signed_by S dealers (dd_index d) (su_enc S (e_dhkey (dd_deal d))) (e_sig (dd_deal d)).
  pose QQ (acc : dkg G * outcome dkg_error (seq (nat * ddeal G))) := pkeep g0 acc.1 /\ if acc.2 is Ok dd then Q dd else True.
  have : QQ (g, Ok [::]) by [].
  set f := (X in foldl X _ _); suff H l acc : QQ acc -> QQ (foldl f acc l) by move=> /H - /(_ (iota 0 (size (c_new (g_c g))))) + fE; rewrite fE => -[_] /=; exact.
  elim: l acc => [//|m l IH] [g1 o] /= [/= I1 q]; apply: IH; rewrite /f.
  case: o q => [d1|e||] //= q; case N: (nth None _ _) => [e|] //=.
  have [gc1 [o1 _ _ _] _ _] := I1; case: ifP => _; last first.
    split=> //= j y; rewrite mget_minsert; case: eqP => [_ [<-]|_ /q //] /=.
    rewrite o1 gc1 cl; split; exists (c_long c *: B) => //; [exact: su_sign_ok|exact: ds_ok N].
  case: ifP => // _; set distd := DDeal _ _ _; have := pkeep_deal S deal_dec ddeal_enc distd k k' (pkeep_processed I1).
  by case: dprocess_deal => g2 [r|x||] /= I2 //; case: ifP.
- move=> dd k k' g' r gk gk'; rewrite /dprocess_deal; case: ifP => // _; case: get_pub => [P|] //; case: ifP => // _.
  case M: (mget _ _) => [v|] //; have [vl vi lt] := W _ _ M; have nE := nth_index_some lt; have [gc _ _ _] := I.
  case E: process_encrypted_deal => [v1 o]; have R resp : o = Ok resp -> r_index resp = v_index v /\
      su_verify S (v_long v *: B) (response_hash S resp) (r_sig resp).
    move: E; rewrite /process_encrypted_deal; case: decrypt_deal => [d|x||] //; try by case=> _ <-.
    case: ifP => _; first by case=> _ <-.
    case: verify_deal => a1 o1 /=; set r1 := Response _ _ true _; set r0 := Response _ _ false _.
    have fin st sid : let r := Response sid (v_index v) st (su_sign S (v_long v) (response_hash S (Response sid (v_index v) st [::])) k) in
        r_index r = v_index v /\ su_verify S (v_long v *: B) (response_hash S r) (r_sig r).
      by split=> //=; apply: su_sign_ok => //; rewrite vl.
    have fin2 st sid : (let '(a2, o2) := add_response a1 (Response sid (v_index v) st (su_sign S (v_long v) (response_hash S (Response sid (v_index v) st [::])) k)) in
        (v_set_agg v a2, let! _ := o2 in Ok (Response sid (v_index v) st (su_sign S (v_long v) (response_hash S (Response sid (v_index v) st [::])) k)))) = (v1, o) ->
        o = Ok resp -> r_index resp = v_index v /\ su_verify S (v_long v *: B) (response_hash S resp) (r_sig resp).
      by case: add_response => a2 o2 /= [_ <-]; case: o2 => //= _ [<-]; exact: fin.
    case: o1 => [u|[]||] /=; try (by case=> _ <-); by move=> *; apply: fin2; eassumption.
  case: o E R => [resp|e||] // E /(_ _ erefl) [ri rs]; rewrite vi vl in ri rs.
  have fin sg : sg = resp -> signed_by S (c_new c) (r_index sg) (response_hash S sg) (r_sig sg).
    by move=> ->; exists (c_long c *: B); rewrite ?ri.
  case: ifP => _ /=; last by case: dfind_pub => i f [_ <-] /=; exact: fin.
  case: pub_eval => [ex|e||] //; case: verifier_commits => [[|c0 cs]|] //; case: ifP => _ /=; case: dfind_pub => i f [_ <-] /=; last exact: fin.
  exists (c_long c *: B); first by rewrite ri.
  by rewrite gc cl; exact: su_sign_ok.
- move=> r k g' j gk po stay; rewrite /dprocess_response; have [gc [e1 e2 e3 e4] [a ea _] _] := I.
  rewrite e2 e3 e4; case: ifP => [/and3P[rs _ np]|_]; first by move: stay; rewrite rs (negPf np).
  case: mget => [v|] //; case: verifier_process_response => v1 [u|x||] //=.
  case: ifP => // /norP[ci _]; rewrite negbK e2 in ci.
  rewrite /dealer_process_response ea; case: verify_response => a1 [u1|x||] //=; case: ifP => //= _.
  case: (nth None _ _) => [di|] //=; case: verifier_process_justification => v2 [u2|x||] //= [_ <-] /=.
  rewrite e1; exists (c_long c *: B); first exact: op.
  by rewrite dl //; apply: su_sign_ok.
Qed.
End Pedersen.
Print Assumptions C114_pedersen_partial.

Section Rabin.
Variables (F : fieldType) (G : lmodType F) (S : suite G).
Variable rdeal_enc : RvssModel.rdeal G -> bytestr.
Variable rdeal_dec : bytestr -> option (RvssModel.rdeal G).
Notation run := (rgrun S rdeal_enc rdeal_dec).
Notation B := (su_base S).

Lemma rencs_sig (d : rdealer G) rnd ds i e : suite_ok S -> su_good S (rl_long d) -> (forall j, su_good S (rnd j).2) ->
  rencrypted_deals S rdeal_enc d rnd = Ok ds -> nth None (map Some ds) i = Some e ->
  su_verify S (rl_long d *: B) (su_enc S (e_dhkey e)) (e_sig e).
Proof.
move=> ok g1 g2; rewrite /rencrypted_deals.
set f := (X in foldo X _ _); pose Q (ds : seq (enc_deal G)) := forall i e, nth None (map Some ds) i = Some e ->
  su_verify S (rl_long d *: B) (su_enc S (e_dhkey e)) (e_sig e).
suff H l acc r : Q acc -> foldo f acc l = Ok r -> Q r by move=> /(H _ _ _ _)-/(_ (fun i e => ltac:(by rewrite nth_default))); apply.
elim: l acc r => [|j l IH] acc r q /=; first by case=> <-.
rewrite /f /rencrypted_deal; case: VssModel.find_pub => //= P; case: (nth None _ _) => //= di; apply: IH => m y.
rewrite map_rcons nth_rcons size_map; case: ltnP => _; first exact: q.
by case: eqP => // _ [<-] /=; exact: su_sign_ok.
Qed.

(** Every message is signed with the key of the participant it names as its author, over its whole content: the ephemeral key
    of a deal; session, index and status of a response; session, index and deal of a justification; index and commitments
    revealed; index, dealer and deal of a complaint; index, dealer and share of a reconstruction message. *)
Theorem C114_rabin long parts t secret fp gp g0 evs :
  suite_ok S -> su_good S long -> new_rdkg S long parts t secret fp gp = Ok g0 ->
  let g := run g0 evs in
  [/\ forall rnd k g' dd i d, (forall j, su_good S (rnd j).2) ->
        rgdeals S rdeal_enc rdeal_dec g rnd k = (g', Ok dd) -> mget i dd = Some d ->
        signed_by S parts (rdd_index d) (su_enc S (e_dhkey (rdd_deal d))) (e_sig (rdd_deal d)),
      forall dd k g' r, su_good S k -> rgprocess_deal S rdeal_dec g dd k = (g', Ok r) ->
        signed_by S parts (r_index (rdr_resp r)) (response_hash S (rdr_resp r)) (r_sig (rdr_resp r)),
      forall r k g' j, su_good S k -> rgprocess_response S rdeal_enc g r k = (g', Ok (Some j)) ->
        signed_by S parts (rdj_index j) (rjustification_hash S rdeal_enc (rdj_just j)) (rj_sig (rdj_just j)),
      forall k g' sc, su_good S k -> rsecret_commits S g k = (g', Ok sc) -> signed_by S parts (sc_index sc) (sc_hash S sc) (sc_sig sc) &
      (forall sc k g' cc, su_good S k -> rprocess_secret_commits S rdeal_enc g sc k = (g', Ok (Some cc)) ->
        signed_by S parts (cc_index cc) (cc_hash S rdeal_enc cc) (cc_sig cc)) /\
      (forall cc k g' rc, su_good S k -> rprocess_complaint_commits S rdeal_enc g cc k = (g', Ok rc) ->
        signed_by S parts (rc_index rc) (rc_hash S rc) (rc_sig rc))].
Proof.
move=> ok gl; rewrite /new_rdkg; case: ifP => // li; case N: new_rdealer => [d0|e||] //= [ge]; have [_ _ dE] := new_rdealerP N.
have own := nth_index_some li; rewrite /pmul in own.
have := rsame_run S rdeal_enc rdeal_dec g0 evs; have : rkeep g0 (run g0 evs).
  by apply: rkeep_run; split=> //; exists (rl_agg (rg_dealer g0)) => //; case: (rg_dealer g0).
move: (run g0 evs) => g I [gl' gp_]; have [gi _ [a ea _]] := I.
have own' : nth None (map Some parts) (rg_index g0) = Some (long *: B) by rewrite -ge.
have {}gl' : rg_long g = long by rewrite gl' -ge.
have {}gp_ : rg_parts g = parts by rewrite gp_ -ge.
have rl : rl_long (rg_dealer g) = long by rewrite ea -ge /= dE.
split.
- move=> rnd k g' dd i d gr; rewrite /rgdeals; case E: rencrypted_deals => [ds|e||] //.
  have ds_ok j e : nth None (map Some ds) j = Some e -> su_verify S (long *: B) (su_enc S (e_dhkey e)) (e_sig e).
    by rewrite -rl; apply: rencs_sig E => //; rewrite rl.
  pose Q (dd : seq (nat * rddeal G)) := forall i d, mget i dd = Some d ->
    signed_by S parts (rdd_index d) (su_enc S (e_dhkey (rdd_deal d))) (e_sig (rdd_deal d)).
  pose QQ (acc : rdkg G * outcome rdkg_error (seq (nat * rddeal G))) := rg_index acc.1 = rg_index g0 /\ if acc.2 is Ok dd then Q dd else True.
  have : QQ (g, Ok [::]) by [].
  set f := (X in foldl X _ _); suff H l acc : QQ acc -> QQ (foldl f acc l) by move=> /H - /(_ (iota 0 (size (rg_parts g)))) + fE; rewrite fE => -[_] /=; exact.
  elim: l acc => [//|m l IH] [g1 o] /= [/= I1 q]; apply: IH; rewrite /f.
  case: o q => [d1|e||] //= q; case M: (nth None _ _) => [e|] //=.
  case: ifP => _; last first.
    split=> //= j y; rewrite mget_minsert; case: eqP => [_ [<-]|_ /q //] /=.
    by rewrite I1; exists (long *: B) => //; exact: ds_ok M.
  case: mget => // ; set distd := RDDeal _ _.
  have : rg_index (rgprocess_deal S rdeal_dec g1 distd k).1 = rg_index g0.
    rewrite /rgprocess_deal; case: rg_find_pub => // P; case: mget => //; case: new_rverifier => // v.
    by case: rprocess_encrypted_deal => v' [].
  by case: rgprocess_deal => g2 [r|x||] /= I2 //; case: ifP.
- move=> dd k g' r gk; rewrite /rgprocess_deal; case: rg_find_pub => // P; case: mget => //.
  rewrite /new_rverifier gl' gp_ li; set v := RVerifier _ _ _ _ _ _ _.
  case E: rprocess_encrypted_deal => [v1 o]; have R resp : o = Ok resp -> r_index resp = seq.index (long *: B) parts /\
      su_verify S (long *: B) (response_hash S resp) (r_sig resp).
    move: E; rewrite /rprocess_encrypted_deal; case: rdecrypt_deal => [d|x||]; try by case=> _ <-.
    case: (ps_i _ != _); first by case=> _ <-.
    case: (rverify_deal S _ d true) => a1 o1.
    have fin2 st sid : (let '(a2, o2) := radd_response a1 (Response sid (rv_index v) st (su_sign S (rv_long v) (response_hash S (Response sid (rv_index v) st [::])) k)) in
        (rv_set_agg v a2, let! _ := o2 in Ok (Response sid (rv_index v) st (su_sign S (rv_long v) (response_hash S (Response sid (rv_index v) st [::])) k)))) = (v1, o) ->
        o = Ok resp -> r_index resp = seq.index (long *: B) parts /\ su_verify S (long *: B) (response_hash S resp) (r_sig resp).
      by case: radd_response => a2 o2 /= [_ <-]; case: o2 => //= _ [<-]; split=> //=; exact: su_sign_ok.
    case: o1 => [u|[]||] /=; try (by case=> _ <-); by move=> *; apply: fin2; eassumption.
  by case: o E R => [resp|e||] // E /(_ _ erefl) [ri rs] [_ <-] /=; exists (long *: B); rewrite ?ri.
- move=> r k g' j gk; rewrite /rgprocess_response; case: mget => [v|] //; case: rverifier_process_response => v1 [u|x||] //=.
  case: ifP => // _; rewrite /rdealer_process_response; case: rverify_response => a1 [u1|x||] //=; case: ifP => //= _.
  case: (nth None _ _) => [di|] //=; case: rverifier_process_justification => v2 [u2|x||] //= [_ <-] /=.
  by rewrite gi; exists (long *: B) => //; rewrite rl; exact: su_sign_ok.
- move=> k g' sc gk; rewrite /rsecret_commits; case: ifP => // _; case: rdealer_commits => // cs [_ <-] /=.
  by rewrite gi; exists (long *: B) => //; rewrite gl'; exact: su_sign_ok.
split.
- move=> sc k g' cc gk; rewrite /rprocess_secret_commits; case: rg_find_pub => // P; case: ifP => // _; case: mget => // v.
  case: rverifier_session_id => // sid; case: ifP => // _; case: ifP => // _; case: rverifier_deal => // dd.
  case: pub_check => // -[] // [_ <-] /=.
  by rewrite gi; exists (long *: B) => //; rewrite gl'; exact: su_sign_ok.
- move=> cc k g' rc gk; rewrite /rprocess_complaint_commits; case: rg_find_pub => // P; case: ifP => // _; case: ifP => // _; case: mget => // v.
  case: (rv_agg v) => // a'; case: rverify_deal => a1 [x|e||] //; case: mget => [p|] //; case: pub_check => [[]|e||] //.
  case: rverifier_deal => [dd|] // [_ <-] /=.
  by rewrite gi; exists (long *: B) => //; rewrite gl'; exact: su_sign_ok.
Qed.
End Rabin.
Print Assumptions C114_rabin.

(** ** A leaving holder does not sign its justifications. *)
Theorem C114_leaving (F : fieldType) (G : lmodType F) (S : suite G) deal_enc (g : dkg G) r k g' j :
  g_resharing g -> ~~ g_new_present g -> g_can_issue g -> dprocess_response S deal_enc g r k = (g', Ok (Some j)) -> j_sig (dj_just j) = [::].
Proof.
rewrite /dprocess_response => -> -> -> /=; rewrite /process_resharing_response; case: verify_response => a [u|e||] //=.
by case: ifP => // _; case: ifP => // _; case: plaintext_deal => //= d [_ <-].
Qed.
Print Assumptions C114_leaving.

(** The holder with key 2 answers the complaint of the new node with key 5; no key of the old list verifies its answer. *)
Definition sanswer : outcome dkg_error (option (djustification V)) := (dprocess_response ktoy kdeal_enc rbad (rr (K5 : K) rbad 1) (K1 : K)).2.
Definition sforged (P : V) : bool :=
  if sanswer is Ok (Some j) then ~~ su_verify ktoy P (justification_hash ktoy kdeal_enc (dj_just j)) (j_sig (dj_just j)) else false.
Lemma sforgedP : all sforged rold. Proof. by vm_cast_no_check (erefl true). Qed.
Theorem C114_leaving_refuted :
  exists (c : config V) g0 r k g' j, [/\ suite_ok ktoy, su_good ktoy (c_long c) /\ su_good ktoy k,
    new_dist_key_handler ktoy c (K0 : K) (fun _ => K3 : K) = Ok g0 /\ g_old_present g0,
    dprocess_response ktoy kdeal_enc g0 r k = (g', Ok (Some j)) &
    forall i, ~ signed_by ktoy (c_old c) i (justification_hash ktoy kdeal_enc (dj_just j)) (j_sig (dj_just j))].
Proof.
have := sforgedP; rewrite /sforged /sanswer.
case E: (dprocess_response ktoy kdeal_enc rbad (rr (K5 : K) rbad 1) (K1 : K)) => [g' [[j|]|e||]] //; try by move=> /= /andP[].
rewrite [_.2]/= => al; exists (rold_conf (K2 : K) 1 (K6 : K)), rbad, (rr (K5 : K) rbad 1), (K1 : K), g', j; split.
- exact: ktoy_ok.
- by split.
- split; [by vm_cast_no_check (erefl (@Ok dkg_error _ rbad))|by vm_cast_no_check (erefl true)].
- exact: E.
- move=> i [P nP vP].
  have : P \in rold by move: nP; case: i => [|[|[|i]]] //= ; [..|by rewrite nth_nil]; case=> <-.
  by move/(allP al); rewrite vP.
Qed.
Print Assumptions C114_leaving_refuted.

Example C114_nonvacuous :
  [/\ new_dist_key_handler ktoy (Config (K1 : K) [::] None kkeys None 2 0) (ksec 0) (kpicks 0) = Ok (kgen 0),
      g_old_present (kgen 0) /\ ~~ g_resharing (kgen 0),
      (if (dprocess_response ktoy kdeal_enc jdealt (DResponse 0 (jsigned (dl_sid (g_dealer jdealt)) (K2 : K) 1)) (K1 : K)).2 is Ok (Some _) then true else false),
      new_rdkg ktoy (krkey 0) krkeys 2 (krsec 0) (krfp 0) (krgp 0) = Ok (krgen 0) &
      (if (rgprocess_response ktoy krdeal_enc jrdealt (RDResponse 0 (jsigned (rl_sid (rg_dealer jrdealt)) (krkey 1) 1)) (K1 : K)).2 is Ok (Some _) then true else false)].
Proof.
split.
- by have [_ _ H] := kfresh (T := 2%N) isT; exact: (H 0%N isT).
- split; by vm_compute.
- by vm_cast_no_check (erefl true).
- by have [_ _ H] := krfresh; exact: (H 0%N isT).
- by vm_cast_no_check (erefl true).
Qed.
