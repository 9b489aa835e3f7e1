(** Property C112: a dealer publishes a share only in answer to a complaint of its owner; Pedersen and Rabin key generation. *)
From mathcomp Require Import all_ssreflect all_algebra.
From mathcomp Require Import zify.
From Verif Require Import Base Lagrange PolyModel PolySpec PolyProofs PolyProps PropsPoly Suite SuiteProofs.
From Verif Require Import VssModel VssSpec VssProofs RvssModel RvssSpec RvssProofs Toy DkgModel DkgSpec DkgProofs RdkgModel RdkgSpec RdkgProofs.
From Verif Require Import PropsDkg PropsRdkg PropsReshare.

Set Implicit Arguments.
Unset Strict Implicit.
Unset Printing Implicit Defensive.

Import GRing.Theory.
Local Open Scope ring_scope.
Local Open Scope outcome_scope.

Section Pedersen.
Variables (F : fieldType) (G : lmodType F) (S : suite G).
Variable deal_enc : deal G -> bytestr.
Variable deal_dec : bytestr -> option (deal G).
Variable ddeal_enc : nat -> enc_deal G -> bytestr.
Notation run := (drun S deal_enc deal_dec ddeal_enc).
Notation step := (dstep S deal_enc deal_dec ddeal_enc).
Notation B := (su_base S).

Lemma vresp_static (a : aggregator G) r : a_sid (verify_response S a r).1 = a_sid a /\ a_verifiers (verify_response S a r).1 = a_verifiers a.
Proof. by rewrite /verify_response /add_response; case: ifP => // _; case: find_pub => // P; case: ifP => // _; case: mget. Qed.

Lemma vresp_ok (a a' : aggregator G) r : verify_response S a r = (a', Ok tt) ->
  [/\ (a_sid a == [::]) || (r_sid r == a_sid a), mget (r_index r) (a_responses a) = None &
      exists2 P, find_pub (a_verifiers a) (r_index r) = Some P & su_verify S P (response_hash S r) (r_sig r)].
Proof.
rewrite /verify_response /add_response; case: ifPn => // s; case: find_pub => // P; case: ifPn => // v.
case: mget => // -[_]; split=> //; last by exists P => //; rewrite negbK in v.
by move: s; rewrite negb_and !negbK.
Qed.

(** The parts of a participant no event changes. *)
Definition pkeep (g0 g : dkg G) : Prop :=
  [/\ g_c g = g_c g0, [/\ g_oidx g = g_oidx g0, g_can_issue g = g_can_issue g0, g_resharing g = g_resharing g0 & g_new_present g = g_new_present g0],
      exists2 a, g_dealer g = dl_set_agg (g_dealer g0) a & a_sid a = a_sid (dl_agg (g_dealer g0)) /\ a_verifiers a = a_verifiers (dl_agg (g_dealer g0)) &
      forall i a, mget i (g_old_aggs g) = Some a -> a_sid a = [::] /\ a_verifiers a = c_new (g_c g0)].

Lemma pkeep_ver g0 g m : pkeep g0 g -> pkeep g0 (g_set_verifiers g m).
Proof. by case=> ? [? ? ? ?] ? ?. Qed.

Lemma pkeep_processed g0 g : pkeep g0 g -> pkeep g0 (g_set_processed g).
Proof. by case=> ? [? ? ? ?] ? ?. Qed.

Lemma deal_ver g dd k k' : exists m, (dprocess_deal S deal_dec ddeal_enc g dd k k').1 = g_set_verifiers g m.
Proof.
have self : g = g_set_verifiers g (g_verifiers g) by case: g.
rewrite /dprocess_deal; case: ifP => _; first by eexists; exact: self.
case: get_pub => [P|]; last by eexists; exact: self.
case: ifP => _; first by eexists; exact: self.
case: mget => [v|]; last by eexists; exact: self.
case: process_encrypted_deal => v1 [r|e||] /=; try by eexists.
case: ifP => _ /=; last by case: dfind_pub => i f; eexists.
case: pub_eval => [ex|e||] /=; try by eexists.
case: verifier_commits => [[|c0 cs]|] /=; try by eexists.
by case: ifP => _ /=; case: dfind_pub => i f /=; eexists.
Qed.

Lemma pkeep_deal g0 g dd k k' : pkeep g0 g -> pkeep g0 (dprocess_deal S deal_dec ddeal_enc g dd k k').1.
Proof. by move=> I; have [m ->] := deal_ver g dd k k'; exact: pkeep_ver. Qed.

Lemma pkeep_deals g0 g rnd ks k k' : pkeep g0 g -> pkeep g0 (ddeals S deal_enc deal_dec ddeal_enc g rnd ks k k').1.
Proof.
rewrite /ddeals; case: ifP => // _ I; case: encrypted_deals => [ds|e||] //.
have {I} : pkeep g0 (g, Ok [::] : outcome dkg_error (seq (nat * ddeal G))).1 := I.
move: (iota 0 _) => l; move: (g, Ok [::]); elim: l => [//|m l IH] [{}g o] /= I; apply: IH; move: I => /= I.
case: o => //= dd; case: (nth None _ _) => [e|] //=; case: ifP => // _; case: ifP => // _.
set distd := DDeal _ _ _; have := pkeep_deal distd k k' (pkeep_processed I).
by case: dprocess_deal => g' [r|e'||] //= I'; case: ifP.
Qed.

Lemma pkeep_response g0 g r k : pkeep g0 g -> pkeep g0 (dprocess_response S deal_enc g r k).1.
Proof.
move=> I; rewrite /dprocess_response; case: ifP => _.
  rewrite /process_resharing_response; set a := (if mget _ _ is Some a then a else _).
  have [] := vresp_static a (dr_resp r); case: verify_response => a1 o /= s1 v1.
  case: I => h1 h2 h3 h4; split=> //= i b; rewrite mget_minsert; case: eqP => _; last exact: h4.
  by case=> <-; rewrite s1 v1 /a; case M: (mget (dr_index r) (g_old_aggs g)) => [x|] /=; [exact: h4 M|rewrite h1].
case: mget => [v|] //; case: verifier_process_response => v1 o.
have I1 : pkeep g0 (g_set_ver g (dr_index r) v1) by exact: pkeep_ver.
case: o => [x|e||] //; case: ifP => //= _.
rewrite /dealer_process_response; have := vresp_static (dl_agg (g_dealer g)) (dr_resp r).
case: verify_response => a' o' /= [s1 w1].
have I2 : pkeep g0 (g_set_dealer (g_set_ver g (dr_index r) v1) (dl_set_agg (g_dealer g) a')).
  case: I1 => h1 h2 [b /= eb [e1 e2]] h4; split=> //=; exists a'; first by rewrite eb.
  by rewrite s1 w1 eb.
set oj := bindo _ _; case: oj => [[j|]|e||] //=.
by case: verifier_process_justification => v2 o2 /=; exact: pkeep_ver.
Qed.

Lemma pkeep_step g0 g ev : pkeep g0 g -> pkeep g0 (step g ev).
Proof.
move=> I; case: ev => [rnd ks k k'|dd k k'|r k|j|] /=.
- exact: pkeep_deals.
- exact: pkeep_deal.
- exact: pkeep_response.
- by rewrite /dprocess_justification; case: mget => // v; case: verifier_process_justification => v' o; exact: pkeep_ver.
- by case: I => ? [? ? ? ?] ? ?.
Qed.

Lemma pkeep_run g0 g evs : pkeep g0 g -> pkeep g0 (run g evs).
Proof. by elim: evs g => //= ev evs IH g I; apply: IH; exact: pkeep_step. Qed.

(** The dealer of a new participant: shares of one polynomial for the new nodes, or none. *)
Definition dealing (vs : seq G) (d : dealer G) (issue : bool) : Prop :=
  if issue then
    [/\ dl_deals d = [seq Deal (dl_sid d) (PriShare i (share_value (dl_poly d) i)) (dl_t d) (dl_commits d) | i <- iota 0 (size vs)],
        a_sid (dl_agg d) = dl_sid d & a_verifiers (dl_agg d) = vs]
  else dl_deals d = [::].

Lemma new_dealing l s vs t picks d : new_dealer S l s vs t picks = Ok d -> dealing vs d true.
Proof. by rewrite /new_dealer; case: ifP => // _ [<-] /=; split=> //; apply: eq_map => i; rewrite pri_eval_spec. Qed.

Lemma handler_dealer c secret picks g0 : new_dist_key_handler S c secret picks = Ok g0 ->
  [/\ c_new (g_c g0) = c_new c, g_old_aggs g0 = [::] & dealing (c_new c) (g_dealer g0) (g_can_issue g0)].
Proof.
rewrite /new_dist_key_handler; case: ifP => // _; case: ifP => // _; case: ifP => // _.
case: dfind_pub => oi op; case: dfind_pub => ni np; case: ifP => // _.
set st := (X in bindo X _).
have stP d ci c' oi' op' : st = Ok (d, ci, c', oi', op') -> dealing (c_new c) d ci /\ c_new c' = c_new c.
  rewrite /st; case: (c_share c) => [sh|] /=.
    by case N: new_dealer => [d'|e||] //= [<- <- <- _ _]; split=> //; exact: new_dealing N.
  case: ifP => _; last by case=> <- <- <- _ _.
  by case N: new_dealer => [d'|e||] //=; case=> <- <- <- _ _; split=> //; exact: new_dealing N.
case: st stP => [[[[[d ci] c'] oi'] op']|e||] //= /(_ _ _ _ _ _ erefl) [dd cn].
set st2 := (X in bindo X _).
have st2P c2 dp ot cr : st2 = Ok (c2, dp, ot, cr) -> c_new c2 = c_new c.
  rewrite /st2; case: ifP => _; first by case=> <-.
  case: ifP => _; last by case=> <-.
  by case: (c_coeffs c') => [cs|]; [case=> <-|case: (c_share c') => [sh|] // [<-]].
case: st2 st2P => [[[[c2 dp] ot] cr]|e||] //= /(_ _ _ _ _ erefl) cn2.
case: ifP => _; last by case=> <-.
by case: init_verifiers => [vs|e||] // [<-].
Qed.

Lemma pkeep0 g : g_old_aggs g = [::] -> pkeep g g.
Proof. by move=> e; split; [| |exists (dl_agg (g_dealer g)) => //; case: (g_dealer g)|rewrite e]. Qed.

(** What a participant answers to a response, after any history. *)
Theorem C112_pedersen_partial c secret picks g0 evs r k g' j :
  new_dist_key_handler S c secret picks = Ok g0 ->
  dprocess_response S deal_enc (run g0 evs) r k = (g', Ok (Some j)) ->
  let i := r_index (dr_resp r) in let d := g_dealer g0 in
  [/\ g_can_issue g0 /\ dr_index r = g_oidx g0, r_status (dr_resp r) = false,
      exists2 P, nth None (map Some (c_new c)) i = Some P & su_verify S P (response_hash S (dr_resp r)) (r_sig (dr_resp r)),
      [/\ dj_index j = g_oidx g0, j_sid (dj_just j) = dl_sid d, j_index (dj_just j) = i &
          j_deal (dj_just j) = Deal (dl_sid d) (PriShare i (share_value (dl_poly d) i)) (dl_t d) (dl_commits d)] &
      ~~ g_resharing g0 || g_new_present g0 -> dl_sid d <> [::] -> r_sid (dr_resp r) = dl_sid d].
Proof.
move=> h; have [cn oa dd] := handler_dealer h; have := pkeep_run evs (pkeep0 oa); move: (run g0 evs) => g [gc [e1 e2 e3 e4] [a ea [sa va]] old].
have deal i x : g_can_issue g0 -> nth None (map Some (dl_deals (g_dealer g0))) i = Some x ->
    x = Deal (dl_sid (g_dealer g0)) (PriShare i (share_value (dl_poly (g_dealer g0)) i)) (dl_t (g_dealer g0)) (dl_commits (g_dealer g0)).
  move: dd; rewrite /dealing => + ci; rewrite ci => -[-> _ _].
  case: (ltnP i (size (c_new c))) => li; last by rewrite nth_default // !size_map size_iota.
  rewrite (nth_map (Deal [::] (PriShare 0 0) 0 [::])) ?size_map ?size_iota // (nth_map 0%N) ?size_iota // nth_iota // add0n.
  by case.
rewrite /dprocess_response e3 e2 e4; case: ifP => [/and3P[rs ci np]|rs].
  rewrite /process_resharing_response; set ag := (if mget _ _ is Some a then a else _).
  have ha : a_sid ag = [::] /\ a_verifiers ag = c_new c.
    by rewrite /ag; case M: (mget (dr_index r) (g_old_aggs g)) => [x|] /=; [rewrite -cn; exact: old M|rewrite gc cn].
  case V: verify_response => [a1 o] [_]; case: o V => [[] V|e||] //=; case: eqVneq => // ri; case st: (r_status (dr_resp r)) => //=.
  rewrite /plaintext_deal ea /=; case: ifP => // _; case N: (nth None _ _) => [x|] //= [<-] /=.
  have [_ _ [P fP vP]] := vresp_ok V; rewrite (deal _ _ ci N) ?rs ?(negPf np) /=; split=> //.
    by rewrite ri e1.
  by exists P => //; rewrite -fP (proj2 ha).
case: mget => [v|] //; case: verifier_process_response => v1 [x|e||] //=.
rewrite e1 e2; case: ifPn => //; rewrite negb_or !negbK => /andP[ci /eqP ri].
rewrite /dealer_process_response ea /=; case V: verify_response => [a' o] /=; case: o V => [[] V|e||] //=.
case st: (r_status (dr_resp r)) => //=; case N: (nth None _ _) => [y|] //=.
case: verifier_process_justification => v2 [z|e||] //= [_ <-] /=.
have [sid _ [P fP vP]] := vresp_ok V.
move: dd; rewrite /dealing ci => -[_ ds dv].
rewrite (deal _ _ ci N); split=> //.
- by exists P => //; rewrite -fP va dv.
- by move=> _ ne; move: sid; rewrite sa ds; case/orP => /eqP.
Qed.
End Pedersen.
Print Assumptions C112_pedersen_partial.

(** A leaving holder always answers: the first complaint of a new node about its deal is answered. *)
Theorem C112_answered (F : fieldType) (G : lmodType F) (S : suite G) deal_enc deal_dec ddeal_enc c secret picks (g0 : dkg G) evs (r : dresponse) k P :
  new_dist_key_handler S c secret picks = Ok g0 ->
  let g := drun S deal_enc deal_dec ddeal_enc g0 evs in
  g_resharing g0 -> g_can_issue g0 -> ~~ g_new_present g0 -> dr_index r = g_oidx g0 -> r_status (dr_resp r) = false ->
  nth None (map Some (c_new c)) (r_index (dr_resp r)) = Some P -> su_verify S P (response_hash S (dr_resp r)) (r_sig (dr_resp r)) ->
  (forall a, mget (dr_index r) (g_old_aggs g) = Some a -> mget (r_index (dr_resp r)) (a_responses a) = None) ->
  exists g' j, dprocess_response S deal_enc g r k = (g', Ok (Some j)).
Proof.
move=> h g rs ci np ri st nP vP old; have [cn oa dd] := handler_dealer h.
have := pkeep_run S deal_enc deal_dec ddeal_enc evs (pkeep0 oa); rewrite -/g => -[gc [e1 e2 e3 e4] [a ea [sa va]] olds].
rewrite /dprocess_response e3 e2 e4 rs ci np /= /process_resharing_response; set ag := (if mget _ _ is Some a then a else _).
have [s1 v1 r1] : [/\ a_sid ag = [::], a_verifiers ag = c_new c & mget (r_index (dr_resp r)) (a_responses ag) = None].
  rewrite /ag; case M: (mget (dr_index r) (g_old_aggs g)) => [x|] /=; last by rewrite gc cn.
  by have [? ?] := olds _ _ M; rewrite (old _ M) -cn.
have V : verify_response S ag (dr_resp r) = (a_set_responses ag (minsert (r_index (dr_resp r)) (dr_resp r) (a_responses ag)), Ok tt).
  by rewrite /verify_response s1 /= v1 /find_pub nP vP /= /add_response v1 /find_pub nP r1.
rewrite V /= ri e1 eqxx /= st /plaintext_deal ea /=.
have li : (r_index (dr_resp r) < size (c_new c))%N.
  by case: ltnP nP => // li; rewrite nth_default // size_map.
move: dd; rewrite /dealing ci => -[-> _ _]; rewrite size_map size_iota leqNgt li /=.
rewrite (nth_map (Deal [::] (PriShare 0 0) 0 [::])) ?size_map ?size_iota //=.
by eexists; eexists.
Qed.
Print Assumptions C112_answered.

(** ** The session is not checked by a leaving holder, and the dealer a response is about is not signed.
    The new node with key 5 complains about the bad deal of the holder with key 2.  Relabelled as a complaint about the
    holder with key 1, whose deal is good, it makes that holder publish the share of the node; with its own share of that
    deal (one less than the threshold) the new node with key 4 then has the old share 3 of the honest holder. *)
Definition jcomplaint : dresponse := rr (K5 : K) rbad 1.
Definition jrelabelled : dresponse := DResponse 0 (dr_resp jcomplaint).
Definition janswer : outcome dkg_error (option (djustification V)) := (dprocess_response ktoy kdeal_enc (rhonest 0) jrelabelled (K1 : K)).2.
Definition jshare : option (pri_share K) := if janswer is Ok (Some j) then Some (d_share (j_deal (dj_just j))) else None.
Theorem C112_relabelled_refuted :
  [/\ new_dist_key_handler ktoy (rold_conf (K1 : K) 0 (K3 : K)) (K0 : K) (fun _ => K3 : K) = Ok (rhonest 0),
      dr_index jcomplaint = 1%N /\ r_status (dr_resp jcomplaint) = false,
      r_sid (dr_resp jcomplaint) = dl_sid (g_dealer rbad) /\ dl_sid (g_dealer rbad) <> dl_sid (g_dealer (rhonest 0)),
      jshare = Some (PriShare 1 (share_value (dl_poly (g_dealer (rhonest 0))) 1)) &
      recover_secret (fun _ l => l) [:: Some (pri_eval (dl_poly (g_dealer (rhonest 0))) 0); jshare] 2 = Ok (K3 : K)].
Proof.
split.
- by vm_cast_no_check (erefl (@Ok dkg_error _ (rhonest 0))).
- split; [by vm_cast_no_check (erefl 1%N)|by vm_cast_no_check (erefl false)].
- split; first by vm_cast_no_check (erefl (dl_sid (g_dealer rbad))).
  by apply/eqP; vm_cast_no_check (erefl true).
- by rewrite -pri_eval_spec; vm_cast_no_check (erefl (Some (pri_eval (dl_poly (g_dealer (rhonest 0))) 1))).
by vm_cast_no_check (erefl (@Ok poly_error K (K3 : K))).
Qed.
Print Assumptions C112_relabelled_refuted.

(** ** Rabin: the session is always checked. *)
Section Rabin.
Variables (F : fieldType) (G : lmodType F) (S : suite G).
Variables (rdeal_enc : RvssModel.rdeal G -> bytestr) (rdeal_dec : bytestr -> option (RvssModel.rdeal G)).
Notation run := (rgrun S rdeal_enc rdeal_dec).
Notation step := (rgstep S rdeal_enc rdeal_dec).

Lemma rvresp_static (a : raggregator G) r :
  ra_sid (rverify_response S a r).1 = ra_sid a /\ ra_verifiers (rverify_response S a r).1 = ra_verifiers a.
Proof. by rewrite /rverify_response /radd_response; case: ifP => // _; case: find_pub => // P; case: ifP => // _; case: mget. Qed.

Lemma rvresp_ok (a a' : raggregator G) r : rverify_response S a r = (a', Ok tt) ->
  r_sid r = ra_sid a /\ exists2 P, find_pub (ra_verifiers a) (r_index r) = Some P & su_verify S P (response_hash S r) (r_sig r).
Proof.
rewrite /rverify_response /radd_response; case: eqP => //= s; case: find_pub => // P; case: ifPn => // v _.
by split=> //; exists P => //; rewrite negbK in v.
Qed.

Definition rkeep (g0 g : rdkg G) : Prop :=
  [/\ rg_index g = rg_index g0, rg_parts g = rg_parts g0 &
      exists2 a, rg_dealer g = rl_set_agg (rg_dealer g0) a &
        ra_sid a = ra_sid (rl_agg (rg_dealer g0)) /\ ra_verifiers a = ra_verifiers (rl_agg (rg_dealer g0))].

Lemma rkeep_ver g0 g m : rkeep g0 g -> rkeep g0 (rg_set_verifiers g m).
Proof. by case. Qed.

Lemma rkeep_deal g0 g dd k : rkeep g0 g -> rkeep g0 (rgprocess_deal S rdeal_dec g dd k).1.
Proof.
move=> I; rewrite /rgprocess_deal; case: rg_find_pub => // P; case: mget => //; case: new_rverifier => // v.
by case: rprocess_encrypted_deal => v' [r|e||] //=; exact: rkeep_ver.
Qed.

Lemma rkeep_agg g0 g a : rkeep g0 g -> ra_sid a = ra_sid (rl_agg (rg_dealer g)) -> ra_verifiers a = ra_verifiers (rl_agg (rg_dealer g)) ->
  rkeep g0 (rg_set_dealer g (rl_set_agg (rg_dealer g) a)).
Proof. by case=> h1 h2 [b eb [e1 e2]] sa va; split=> //=; exists a; [rewrite eb|rewrite sa va eb]. Qed.

Lemma rkeep_deals g0 g rnd k : rkeep g0 g -> rkeep g0 (rgdeals S rdeal_enc rdeal_dec g rnd k).1.
Proof.
move=> I; rewrite rgdealsE; case: rencrypted_deals => [ds|e||] //.
have {I} : rkeep g0 (g, Ok [::] : outcome rdkg_error (seq (nat * rddeal G))).1 := I.
move: (iota 0 _) => l; move: (g, Ok [::]); elim: l => [//|m l IH] [{}g o] /= I; apply: IH; move: I => /= I.
rewrite /rdeals_step; case: o => //= dd; case: (nth None _ _) => [e|] //=; case: ifP => // _; case: mget => //.
set distd := RDDeal _ _; have := rkeep_deal distd k I; case: rgprocess_deal => g' [r|e'||] //= I'; case: ifP => //= _.
apply: rkeep_agg => //; rewrite /runsafe_set_response_dkg /radd_response; case: find_pub => //=; case: mget => //.
Qed.

Lemma rkeep_response g0 g r k : rkeep g0 g -> rkeep g0 (rgprocess_response S rdeal_enc g r k).1.
Proof.
move=> I; rewrite /rgprocess_response; case: mget => [v|] //; case: rverifier_process_response => v1 o.
have I1 : rkeep g0 (rg_set_ver g (rdr_index r) v1) by exact: rkeep_ver.
case: o => [x|e||] //; case: ifP => //= _.
rewrite /rdealer_process_response; have := rvresp_static (rl_agg (rg_dealer g)) (rdr_resp r).
case: rverify_response => a' o' /= [s1 w1].
have I2 := rkeep_agg I1 s1 w1.
set oj := bindo _ _; case: oj => [[j|]|e||] //=.
by case: rverifier_process_justification => v2 o2 /=; exact: rkeep_ver.
Qed.

Lemma rkeep_step g0 g ev : rkeep g0 g -> rkeep g0 (step g ev).
Proof.
move=> I; case: ev => [rnd k|dd k|r k|j||k|sc k|cc k|hord rc] /=.
- exact: rkeep_deals.
- exact: rkeep_deal.
- exact: rkeep_response.
- by rewrite /rgprocess_justification; case: mget => // v; case: rverifier_process_justification => v' o; exact: rkeep_ver.
- exact: rkeep_ver.
- by rewrite /rsecret_commits; case: ifP => // _; case: rdealer_commits => // cs; case: I.
- rewrite /rprocess_secret_commits; case: rg_find_pub => // P; case: ifP => // _; case: mget => // v.
  case: rverifier_session_id => // sid; case: ifP => // _; case: ifP => // _; case: rverifier_deal => // d.
  by case: pub_check => // -[] //; case: I.
- rewrite /rprocess_complaint_commits; case: rg_find_pub => // P; case: ifP => // _; case: ifP => // _; case: mget => // v.
  case: rv_agg => // a; case: rverify_deal => a' [x|e||] //=; try exact: rkeep_ver.
  case: mget => [poly|]; last exact: rkeep_ver.
  case: pub_check => [[]|e||] //=; try exact: rkeep_ver.
  by case: rverifier_deal => [d|]; case: I.
- rewrite /rprocess_reconstruct_commits; case: ifP => // _; case: mget => //; case: rg_find_pub => // P; case: ifP => // _.
  case: rscan => [o|] /=; first by case: I.
  by case: ifP => _ /=; [case: recover_pri_poly => [pri|e||] /=; case: I|case: I].
Qed.

Lemma rkeep_run g0 g evs : rkeep g0 g -> rkeep g0 (run g evs).
Proof. by elim: evs g => //= ev evs IH g I; apply: IH; exact: rkeep_step. Qed.

Theorem C112_rabin long parts t secret fp gp g0 evs r k g' j :
  new_rdkg S long parts t secret fp gp = Ok g0 ->
  rgprocess_response S rdeal_enc (run g0 evs) r k = (g', Ok (Some j)) ->
  let i := r_index (rdr_resp r) in let d := rg_dealer g0 in
  [/\ rdr_index r = rg_index g0 /\ r_status (rdr_resp r) = false, r_sid (rdr_resp r) = rl_sid d,
      exists2 P, nth None (map Some parts) i = Some P & su_verify S P (response_hash S (rdr_resp r)) (r_sig (rdr_resp r)),
      [/\ rdj_index j = rg_index g0, rj_sid (rdj_just j) = rl_sid d & rj_index (rdj_just j) = i] &
      rd_sid (rj_deal (rdj_just j)) = rl_sid d /\
      rd_sec (rj_deal (rdj_just j)) = PriShare i (share_value (secret :: mkseq fp (t - 1)) i)].
Proof.
rewrite /new_rdkg; case: ifP => // li; case N: new_rdealer => [d|e||] //= [ge]; have [_ _ dE] := new_rdealerP N.
have : rkeep g0 (run g0 evs).
  by apply: rkeep_run; split=> //; exists (rl_agg (rg_dealer g0)) => //; case: (rg_dealer g0).
move: (run g0 evs) => g [gi gp' [a ea [sa va]]]; rewrite -ge /= in gi gp' ea sa va *.
rewrite /rgprocess_response; case: mget => [v|] //; case: rverifier_process_response => v1 [x|e||] //=.
rewrite gi; case: eqVneq => //= ri; rewrite ea /rdealer_process_response /=.
case V: rverify_response => [a' o] /=; case: o V => [[] V|e||] //=; case st: (r_status (rdr_resp r)) => //=.
case D: (nth None _ _) => [y|] //=; case: rverifier_process_justification => v2 [z|e||] //= [_ <-] /=.
have [sid [P fP vP]] := rvresp_ok V; rewrite sid sa; split=> //; first by rewrite dE.
- by exists P => //; rewrite -fP va dE.
- move: D; rewrite dE /=; case: (ltnP (r_index (rdr_resp r)) (size parts)) => lr; last by rewrite nth_default // !size_map size_iota.
  rewrite (nth_map (RvssModel.RDeal [::] (PriShare 0 0) (PriShare 0 0) 0 [::])) ?size_map ?size_iota // (nth_map 0%N) ?size_iota // nth_iota // add0n.
  by case=> <- /=; rewrite pri_eval_spec.
Qed.
End Rabin.
Print Assumptions C112_rabin.

(** Participants that dealt answer a complaint of participant 1. *)
Definition jsigned (sid : bytestr) (x : K) (i : nat) : response :=
  Response sid i false (su_sign ktoy x (response_hash ktoy (Response sid i false [::])) (K1 : K)).
Definition jdealt : dkg V := kstep (kgen 0) kev_deals.
Definition jrdealt : rdkg V := rgrun ktoy krdeal_enc krdeal_dec (krgen 0) (take 1 kevents).
Example C112_nonvacuous :
  [/\ new_dist_key_handler ktoy (Config (K1 : K) [::] None kkeys None 2 0) (ksec 0) (kpicks 0) = Ok (kgen 0),
      (if (dprocess_response ktoy kdeal_enc jdealt (DResponse 0 (jsigned (dl_sid (g_dealer jdealt)) (K2 : K) 1)) (K1 : K)).2 is Ok (Some _) then true else false),
      new_rdkg ktoy (krkey 0) krkeys 2 (krsec 0) (krfp 0) (krgp 0) = Ok (krgen 0),
      (if (rgprocess_response ktoy krdeal_enc jrdealt (RDResponse 0 (jsigned (rl_sid (rg_dealer jrdealt)) (krkey 1) 1)) (K1 : K)).2 is Ok (Some _) then true else false) &
      [/\ g_resharing (rhonest 0), g_can_issue (rhonest 0), ~~ g_new_present (rhonest 0) & g_old_aggs (rhonest 0) = [::]]].
Proof.
split.
- by have [_ _ H] := kfresh (T := 2%N) isT; exact: (H 0%N isT).
- by vm_cast_no_check (erefl true).
- by have [_ _ H] := krfresh; exact: (H 0%N isT).
- by vm_cast_no_check (erefl true).
split; by vm_compute.
Qed.
