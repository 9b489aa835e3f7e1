(** Property C111: a message delivered twice has the effect of one delivery; Pedersen and Rabin key generation. *)
From mathcomp Require Import all_ssreflect all_algebra.
From mathcomp Require Import zify.
From Verif Require Import Base Lagrange PolyModel PolySpec PolyProofs PolyProps PropsPoly Suite SuiteProofs.
From Verif Require Import VssModel VssSpec VssProofs RvssModel RvssSpec RvssProofs Toy DkgModel DkgSpec DkgProofs RdkgModel RdkgSpec RdkgProofs PropsDkg PropsRdkg.

Set Implicit Arguments.
Unset Strict Implicit.
Unset Printing Implicit Defensive.

Import GRing.Theory.
Local Open Scope ring_scope.
Local Open Scope outcome_scope.

Lemma minsert_same (T : Type) k (v : T) m : mget k m = Some v -> minsert k v m = m.
Proof. by elim: m => //= [[k' v'] m] IH /=; case: eqP => [-> [->]|_ /IH ->]. Qed.

Lemma isSome_mget (T : Type) k (m : seq (nat * T)) : isSome (mget k m) = (k \in mkeys m).
Proof. by elim: m => //= [[k' v'] m] IH; rewrite inE /=; case: eqP. Qed.

Section Pedersen.
Variables (F : fieldType) (G : lmodType F) (S : suite G).
Variable deal_enc : deal G -> bytestr.
Variable deal_dec : bytestr -> option (deal G).
Variable ddeal_enc : nat -> enc_deal G -> bytestr.
Notation step := (dstep S deal_enc deal_dec ddeal_enc).

(** The same message; the randomness of the answers may differ. *)
Definition same_msg (e e' : devent G) : Prop :=
  match e, e' with
  | DEvDeal d _ _, DEvDeal d' _ _ => d = d'
  | DEvResponse r _, DEvResponse r' _ => r = r'
  | DEvJustification j, DEvJustification j' => j = j'
  | _, _ => False
  end.

(** ** Verifiers *)
Definition pdone (v : verifier G) (e : enc_deal G) : bool :=
  if decrypt_deal S deal_dec v e is Ok d then (ps_i (d_share d) != v_index v) || isSome (a_deal (v_agg v)) else true.
Arguments pdone : simpl never.

Lemma pdone_process v e k : pdone v e -> exists2 o, process_encrypted_deal S deal_dec v e k = (v, o) & ~~ is_ok o.
Proof.
rewrite /pdone /process_encrypted_deal; case: decrypt_deal => [d|x||] h; try by eexists.
case: ifP h => [_ _|/negbFE ni]; first by eexists.
by move=> /= sd; rewrite /verify_deal sd /=; eexists; [case: (v)|].
Qed.

Lemma pdecrypt_agg v a e : decrypt_deal S deal_dec (v_set_agg v a) e = decrypt_deal S deal_dec v e.
Proof. by []. Qed.

Lemma process_pdone v e k : pdone (process_encrypted_deal S deal_dec v e k).1 e.
Proof.
have K a : isSome (a_deal a) -> pdone (v_set_agg v a) e by rewrite /pdone pdecrypt_agg /= => ->; case: decrypt_deal => // d; rewrite orbT.
rewrite /process_encrypted_deal; case D: decrypt_deal => [d|x||] /=; try by rewrite /pdone D.
case: ifP => ni /=; first by rewrite /pdone D ni.
have sd : isSome (a_deal (verify_deal S (v_agg v) d true).1).
  by rewrite /verify_deal; case A: (a_deal (v_agg v)) => [d'|] //=; rewrite A.
have ad r : isSome (a_deal (add_response (verify_deal S (v_agg v) d true).1 r).1).
  by rewrite /add_response; case: find_pub => //= _; case: mget.
case: verify_deal sd ad => a1 o /= sd ad.
have ad' r a2 o2 : add_response a1 r = (a2, o2) -> isSome (a_deal a2) by have := ad r; case: add_response => ? ? /= h [<-].
by case: o => [x|[]||] /= *; first [exact: (K _ sd)|case E: add_response => [a2 o2] /=; exact: (K _ (ad' _ _ _ E))].
Qed.

Lemma pdone_unsafe v e idx b : pdone v e -> pdone (unsafe_set_response_dkg v idx b) e.
Proof.
rewrite /pdone /unsafe_set_response_dkg pdecrypt_agg /=; case: decrypt_deal => // d.
by rewrite /add_response; case: find_pub => // _; case: mget.
Qed.

Lemma resp_again (a : aggregator G) r : isSome (mget (r_index r) (a_responses a)) -> exists e, verify_response S a r = (a, Err e).
Proof.
rewrite /verify_response /add_response; case: ifP => _; first by eexists.
case: find_pub => [P|]; last by eexists.
by case: ifP => _; [eexists|case: mget => // x _; eexists].
Qed.

Lemma resp_once (a a' : aggregator G) r o : verify_response S a r = (a', o) ->
  (a' = a /\ exists e, o = Err e) \/ (o = Ok tt /\ isSome (mget (r_index r) (a_responses a'))).
Proof.
rewrite /verify_response /add_response; case: ifP => _; first by case=> <- <-; left; split=> //; eexists.
case: find_pub => [P|]; last by case=> <- <-; left; split=> //; eexists.
case: ifP => _; first by case=> <- <-; left; split=> //; eexists.
case: mget => [x|] [<- <-]; first by left; split=> //; eexists.
by right; split=> //=; rewrite mget_minsert eqxx.
Qed.

Lemma just_responses (a : aggregator G) j : a_responses (verify_justification S a j).1 = a_responses a.
Proof.
rewrite /verify_justification; case: find_pub => // P; case: mget => // r; case: ifP => // _.
by rewrite /verify_deal andbF; case: (a_deal a) => [d|] /=; case: deal_checks.
Qed.

Lemma just_again (a : aggregator G) j : (verify_justification S (verify_justification S a j).1 j).1 = (verify_justification S a j).1.
Proof.
rewrite {2 3}/verify_justification; case f: find_pub => [P|] /=; last by rewrite /verify_justification f.
case M: mget => [r|] /=; last by rewrite /verify_justification f M.
case st: (r_status r) => /=; first by rewrite /verify_justification f M st.
rewrite /verify_deal andbF.
set a1 := (if a_deal a is Some _ then a else a_set_deal a (j_deal j)).
have [av ar ad] : [/\ a_verifiers a1 = a_verifiers a, a_responses a1 = a_responses a & isSome (a_deal a1)].
  by rewrite /a1; case A: (a_deal a) => [d|]; rewrite ?A.
have V : verify_deal S a1 (j_deal j) false = (a1, deal_checks S a1 (j_deal j)).
  by rewrite /verify_deal andbF; case: (a_deal a1) ad.
case C: (deal_checks S a1 (j_deal j)) => [x|x||] /=; rewrite /verify_justification /= av f ar M st ?V ?C //=.
have -> : verify_deal S (a_set_bad a1) (j_deal j) false = (a_set_bad a1, deal_checks S a1 (j_deal j)).
  by rewrite /verify_deal andbF /=; case: (a_deal a1) ad.
by rewrite C.
Qed.

(** ** Participants *)
Lemma deal_shape g dd k1 k1' pubb ver : g_new_present g -> get_pub (if g_resharing g then c_old (g_c g) else c_new (g_c g)) (dd_index dd) = Some pubb ->
  su_verify S pubb (ddeal_enc (dd_index dd) (dd_deal dd)) (dd_sig dd) -> mget (dd_index dd) (g_verifiers g) = Some ver ->
  exists2 v2, pdone v2 (dd_deal dd) & (dprocess_deal S deal_dec ddeal_enc g dd k1 k1').1 = g_set_verifiers g (minsert (dd_index dd) v2 (g_verifiers g)).
Proof.
move=> np gp sg M; rewrite /dprocess_deal np gp sg M /=.
have dn := process_pdone ver (dd_deal dd) k1; case: process_encrypted_deal dn => v1 o /= dn.
have e2 v2 v3 : g_set_ver (g_set_ver g (dd_index dd) v2) (dd_index dd) v3 = g_set_verifiers g (minsert (dd_index dd) v3 (g_verifiers g)).
  by rewrite /g_set_ver /g_set_verifiers /mset /= minsert2.
have u b v3 : pdone v3 (dd_deal dd) -> forall (c : bool) i, pdone (if c then unsafe_set_response_dkg v3 i b else v3) (dd_deal dd).
  by move=> h [] i //; exact: pdone_unsafe.
case: o => [resp|e||] /=; try by exists v1.
case: ifP => _ /=; last by case: dfind_pub => i f /=; rewrite e2; eexists; last by []; exact: u.
case: pub_eval => [ex|e||] /=; try by exists v1.
case: (verifier_commits v1) => [[|c0 cs]|] /=; try by exists v1.
case: ifP => _ /=; last by case: dfind_pub => i f /=; rewrite e2; eexists; last by []; exact: u.
by case: dfind_pub => i f /=; rewrite e2; eexists; last by []; apply: pdone_unsafe; exact: u.
Qed.

Lemma resp_twice g r k1 k2 : let g1 := (dprocess_response S deal_enc g r k1).1 in (dprocess_response S deal_enc g1 r k2).1 = g1.
Proof.
move=> g1; rewrite {}/g1 {2 3}/dprocess_response; case: ifP => rs.
  rewrite /process_resharing_response; set a := (if mget _ _ is Some a then a else _).
  case V: verify_response => [a1 o] /=; rewrite /dprocess_response /= rs /process_resharing_response /= mget_minsert eqxx.
  have W : (verify_response S a1 (dr_resp r)).1 = a1.
    by case: (resp_once V) => [[e _]|[_ /resp_again [e ->]]] //; rewrite {1}e V.
  by case: verify_response W => a2 o2 /= ->; rewrite /g_set_aggs /mset /= minsert2.
case M: mget => [v|] /=; last by rewrite /dprocess_response rs M.
rewrite /verifier_process_response; case V: verify_response => [a1 o] /=.
have fin (d : dealer G) v2 : (exists e, verify_response S (v_agg v2) (dr_resp r) = (v_agg v2, Err e)) ->
   let g2 := g_set_dealer (g_set_verifiers g (minsert (dr_index r) v2 (g_verifiers g))) d in
   (dprocess_response S deal_enc g2 r k2).1 = g2.
  case=> e E /=; rewrite /dprocess_response /= rs mget_minsert eqxx /verifier_process_response E /=.
  by rewrite /g_set_ver /g_set_verifiers /g_set_dealer /mset /= minsert2; case: v2 {E}.
have fin0 v2 : (exists e, verify_response S (v_agg v2) (dr_resp r) = (v_agg v2, Err e)) ->
   (dprocess_response S deal_enc (g_set_ver g (dr_index r) v2) r k2).1 = g_set_ver g (dr_index r) v2.
  by move=> h; have := fin (g_dealer g) v2 h.
case: (resp_once V) => [[ea [e eo]]|[-> sm]].
  by rewrite eo /=; apply: fin0; exists e; rewrite /= ea V ea eo.
case: ifP => _ /=; first by apply: fin0; exact: resp_again.
case: dealer_process_response => d [[jj|]|e||] /=; try by apply: fin; exact: resp_again.
rewrite /verifier_process_justification /=; have jr := just_responses a1 jj; case: verify_justification jr => a2 o2 /= jr.
have -> : g_set_ver (g_set_dealer (g_set_ver g (dr_index r) (v_set_agg v a1)) d) (dr_index r) (v_set_agg (v_set_agg v a1) a2) =
   g_set_dealer (g_set_verifiers g (minsert (dr_index r) (v_set_agg v a2) (g_verifiers g))) d.
  by rewrite /g_set_ver /g_set_dealer /g_set_verifiers /mset /= minsert2.
by apply: fin; apply: resp_again; rewrite /= jr.
Qed.

Lemma just_twice g j : let g1 := (dprocess_justification S g j).1 in (dprocess_justification S g1 j).1 = g1.
Proof.
move=> g1; rewrite {}/g1 {2 3}/dprocess_justification; case M: mget => [v|] /=; last by rewrite /dprocess_justification M.
rewrite /verifier_process_justification; have ja := just_again (v_agg v) (dj_just j); case: (verify_justification S (v_agg v) (dj_just j)) ja => a1 o /= ja.
rewrite /dprocess_justification /= /g_set_ver /mset /= mget_minsert eqxx /verifier_process_justification /=; case: verify_justification ja => a2 o2 /= ->.
by rewrite /g_set_verifiers /= minsert2.
Qed.

(** ** Later deliveries *)
Lemma pdone_agg v a e : pdone v e -> (isSome (a_deal (v_agg v)) -> isSome (a_deal a)) -> pdone (v_set_agg v a) e.
Proof.
rewrite /pdone pdecrypt_agg; case: decrypt_deal => // d /orP[h|h] H; first by rewrite /= h.
by rewrite /= H // orbT.
Qed.

Lemma add_deal (a : aggregator G) r : a_deal (add_response a r).1 = a_deal a.
Proof. by rewrite /add_response; case: find_pub => // _; case: mget. Qed.
Lemma add_resps (a : aggregator G) r i : isSome (mget i (a_responses a)) -> isSome (mget i (a_responses (add_response a r).1)).
Proof. by move=> h; rewrite /add_response; case: find_pub => // _; case: (mget (r_index r) _) => //=; rewrite mget_minsert; case: eqP. Qed.
Lemma vresp_deal (a : aggregator G) r : a_deal (verify_response S a r).1 = a_deal a.
Proof. by rewrite /verify_response; case: ifP => // _; case: find_pub => // P; case: ifP => // _; rewrite add_deal. Qed.
Lemma vresp_resps (a : aggregator G) r i : isSome (mget i (a_responses a)) -> isSome (mget i (a_responses (verify_response S a r).1)).
Proof. by move=> h; rewrite /verify_response; case: ifP => // _; case: find_pub => // P; case: ifP => // _; exact: add_resps. Qed.
Lemma vdeal_deal (a : aggregator G) d b : isSome (a_deal a) -> isSome (a_deal (verify_deal S a d b).1).
Proof. by move=> h; rewrite /verify_deal; case: ifP => //= _; case A: (a_deal a) h => [d0|] // _; rewrite A. Qed.
Lemma vdeal_resps (a : aggregator G) d b : a_responses (verify_deal S a d b).1 = a_responses a.
Proof. by rewrite /verify_deal; case: ifP => //= _; case: (a_deal a). Qed.
Lemma vjust_deal (a : aggregator G) j : isSome (a_deal a) -> isSome (a_deal (verify_justification S a j).1).
Proof.
move=> h; rewrite /verify_justification; case: find_pub => // P; case: mget => // r; case: ifP => // _.
by have := vdeal_deal (j_deal j) false h; case: verify_deal => a1 [] //.
Qed.

Lemma process_agg v e k : exists a, [/\ (process_encrypted_deal S deal_dec v e k).1 = v_set_agg v a,
  isSome (a_deal (v_agg v)) -> isSome (a_deal a) & forall i, isSome (mget i (a_responses (v_agg v))) -> isSome (mget i (a_responses a))].
Proof.
have K : exists a, [/\ v = v_set_agg v a, isSome (a_deal (v_agg v)) -> isSome (a_deal a) &
   forall i, isSome (mget i (a_responses (v_agg v))) -> isSome (mget i (a_responses a))].
  by exists (v_agg v); split=> //; case: (v).
rewrite /process_encrypted_deal; case: decrypt_deal => [d|||] //; case: ifP => // _.
have := vdeal_deal d true; move/(_ (v_agg v)); have := vdeal_resps (v_agg v) d true.
case: verify_deal => a1 o /= er hd.
have K1 : exists a, [/\ v_set_agg v a1 = v_set_agg v a, isSome (a_deal (v_agg v)) -> isSome (a_deal a) &
   forall i, isSome (mget i (a_responses (v_agg v))) -> isSome (mget i (a_responses a))].
  by exists a1; split=> // i; rewrite er.
have K2 r a2 o2 : add_response a1 r = (a2, o2) -> exists a, [/\ v_set_agg v a2 = v_set_agg v a, isSome (a_deal (v_agg v)) -> isSome (a_deal a) &
   forall i, isSome (mget i (a_responses (v_agg v))) -> isSome (mget i (a_responses a))].
  move=> E; exists a2; split=> // [h|i h]; first by have := add_deal a1 r; rewrite E /= => ->; exact: hd.
  by have := @add_resps a1 r i; rewrite E /=; apply; rewrite er.
by case: o => [x|[]||] /= *; first [exact: K1|case E: add_response => [a2 o2] /=; exact: (K2 _ _ _ E)].
Qed.

Lemma deal_later g dd k1 k1' evs k2 k2' : let g1 := drun S deal_enc deal_dec ddeal_enc (dprocess_deal S deal_dec ddeal_enc g dd k1 k1').1 evs in
  (dprocess_deal S deal_dec ddeal_enc g1 dd k2 k2').1 = g1.
Proof.
have frame1 g0 : frame g0 (drun S deal_enc deal_dec ddeal_enc g0 evs).
  by have [] := @drun_inv F G S deal_enc deal_dec ddeal_enc (fun _ _ => True) _ _ _ _ xpredT _ g0 evs (all_predT _) => //.
move=> g1; rewrite {}/g1; case np: (g_new_present g); last first.
  have -> : (dprocess_deal S deal_dec ddeal_enc g dd k1 k1').1 = g by rewrite /dprocess_deal np.
  by have [_ [_ _ enp _] _ _ _] := frame1 g; rewrite /dprocess_deal enp np.
case gp: (get_pub (if g_resharing g then c_old (g_c g) else c_new (g_c g)) (dd_index dd)) => [pubb|]; last first.
  have -> : (dprocess_deal S deal_dec ddeal_enc g dd k1 k1').1 = g by rewrite /dprocess_deal np gp.
  by have [[ec er _] [_ _ enp _] _ _ _] := frame1 g; rewrite /dprocess_deal enp np ec er gp.
case sg: (su_verify S pubb (ddeal_enc (dd_index dd) (dd_deal dd)) (dd_sig dd)); last first.
  have -> : (dprocess_deal S deal_dec ddeal_enc g dd k1 k1').1 = g by rewrite /dprocess_deal np gp sg.
  by have [[ec er _] [_ _ enp _] _ _ _] := frame1 g; rewrite /dprocess_deal enp np ec er gp sg.
case M: (mget (dd_index dd) (g_verifiers g)) => [ver|]; last first.
  have -> : (dprocess_deal S deal_dec ddeal_enc g dd k1 k1').1 = g by rewrite /dprocess_deal np gp sg M.
  have [[ec er _] [_ _ enp _] _ _ ek] := frame1 g; rewrite /dprocess_deal enp np ec er gp sg /=.
  case M2: mget => [v|] //; have := mget_keys M2; rewrite ek => ik.
  by exfalso; move: ik; rewrite -isSome_mget M.
have [v2 d2 e2] := deal_shape k1 k1' np gp sg M; rewrite e2.
set g2 := g_set_verifiers _ _.
have [] : all_P (fun j v => j = dd_index dd -> pdone v (dd_deal dd)) (drun S deal_enc deal_dec ddeal_enc g2 evs) /\
  frame g2 (drun S deal_enc deal_dec ddeal_enc g2 evs).
apply: (@drun_inv F G S deal_enc deal_dec ddeal_enc (fun j v => j = dd_index dd -> pdone v (dd_deal dd)) _ _ _ _ xpredT _ g2 evs (all_predT _)).
- by move=> j v e k v' o h E ej; have := process_agg v e k; rewrite E => -[a [/= -> hd _]]; apply: pdone_agg => //; exact: h.
- move=> j v ju h ej; rewrite /verifier_process_justification; have := @vjust_deal (v_agg v) ju.
  by case: verify_justification => a o /= hd; apply: pdone_agg => //; exact: h.
- by move=> j v h ej; apply: pdone_agg => //; exact: h.
- by move=> j v idx b h _ ej; apply: pdone_unsafe; exact: h.
- move=> r k _ j v h ej; rewrite /verifier_process_response; have := vresp_deal (v_agg v) (dr_resp r).
  by case: verify_response => a o /= hd; apply: pdone_agg; rewrite ?hd //; exact: h.
- by move=> j v /=; rewrite mget_minsert; case: eqP => // ej [<-].
move=> al [[ec er _] [_ _ enp _] _ _ _]; rewrite /dprocess_deal enp ec er /= np gp sg /=.
case M2: mget => [v|] //; have dv := al _ _ M2 erefl.
have [o -> no] := pdone_process k2 dv; case: o no => // [x||] _ /=;
  by rewrite /g_set_ver /mset minsert_same // /g_set_verifiers; case: (drun _ _ _ _ _ _).
Qed.

Lemma aggs_deal g dd k k' : g_old_aggs (dprocess_deal S deal_dec ddeal_enc g dd k k').1 = g_old_aggs g.
Proof.
rewrite /dprocess_deal; case: ifP => // _; case: get_pub => // P; case: ifP => // _; case: mget => // v.
case: process_encrypted_deal => v1 [r|||] //; case: ifP => // _; last by case: dfind_pub.
case: pub_eval => // ex; case: (verifier_commits v1) => [[]|] // *; case: ifP => // _; by case: dfind_pub.
Qed.

Definition old_has (g : dkg G) i q := exists2 a, mget i (g_old_aggs g) = Some a & isSome (mget q (a_responses a)).

Lemma old_has_step g ev i q : old_has g i q -> old_has (step g ev) i q.
Proof.
move=> h; case: ev => [rnd ks k k'|dd k k'|r k|j|] /=.
- rewrite ddealsE; case: ifP => // _; case: encrypted_deals => // ds.
  have {h} : old_has (g, Ok [::] : outcome dkg_error (seq (nat * ddeal G))).1 i q := h.
  elim: (iota _ _) (g, _) => //= a l IH [{}g [dd|e||]] //= u; apply: IH => //=.
  case: nth => [e|] //; case: ifP => // _; case: ifP => // _.
  set dd' := DDeal _ _ _; have := aggs_deal (g_set_processed g) dd' k k'.
  by case: dprocess_deal => g' [r|e'||] /= E; rewrite ?if_same /old_has ?(fun_if fst) /= ?if_same ?E.
- by rewrite /old_has aggs_deal.
- rewrite /dprocess_response; case: ifP => _.
    rewrite /process_resharing_response; case: h => a M h; case: (eqVneq i (dr_index r)) => [e|ne].
      rewrite -e M; have := vresp_resps (dr_resp r) h; case: verify_response => a1 o /= h1.
      by exists a1 => //=; rewrite mget_minsert eqxx.
    by case: verify_response => a1 o /=; exists a => //=; rewrite mget_minsert (negPf ne).
  case: mget => // v; case: verifier_process_response => v1 [x|||] //; case: ifP => // _.
  by case: dealer_process_response => d [[jj|]|||] //; case: verifier_process_justification.
- by rewrite /dprocess_justification; case: mget => // v; case: verifier_process_justification.
- by [].
Qed.

Lemma resp_later g r k1 evs k2 : is_ok (dprocess_response S deal_enc g r k1).2 ->
  let g1 := drun S deal_enc deal_dec ddeal_enc (dprocess_response S deal_enc g r k1).1 evs in
  (dprocess_response S deal_enc g1 r k2).1 = g1.
Proof.
rewrite {1 2}/dprocess_response => ok.
have frame1 g0 : frame g0 (drun S deal_enc deal_dec ddeal_enc g0 evs).
  by have [] := @drun_inv F G S deal_enc deal_dec ddeal_enc (fun _ _ => True) _ _ _ _ xpredT _ g0 evs (all_predT _) => //.
case: ifP ok => rs.
  rewrite /process_resharing_response; set a := (if mget _ _ is Some a then a else _).
  case V: verify_response => [a1 o] /= ok; have sm : isSome (mget (r_index (dr_resp r)) (a_responses a1)).
    by case: (resp_once V) ok => [[_ [e ->]]|[]].
  set g2 := g_set_aggs _ _; have oh : old_has g2 (dr_index r) (r_index (dr_resp r)).
    by exists a1 => //=; rewrite mget_minsert eqxx.
  have {}oh : old_has (drun S deal_enc deal_dec ddeal_enc g2 evs) (dr_index r) (r_index (dr_resp r)).
    by move: oh; rewrite /drun; elim: evs (g2) {frame1} => //= ev evs IH g3 /(old_has_step ev); exact: IH.
  have [[ec er _] [_ _ enp eci] _ _ _] := frame1 g2; move: oh er enp eci; set g3 := drun _ _ _ _ _ _ => -[a3 M3 h3] er enp eci.
  rewrite /dprocess_response er enp eci /= rs /process_resharing_response M3.
  have [e ->] := resp_again h3; rewrite /= /g_set_aggs /mset minsert_same //; by case: (g3).
case M: mget => [v|] //; rewrite /verifier_process_response; case V: verify_response => [a1 o] ok.
have sm : isSome (mget (r_index (dr_resp r)) (a_responses a1)).
  by case: (resp_once V) ok => [[_ [e ->]]|[]].
have eo : o = Ok tt by case: (resp_once V) ok => [[_ [e ->]]|[]].
rewrite eo in ok *.
have fin g2 v2 : g_resharing g2 = g_resharing g -> g_can_issue g2 = g_can_issue g -> g_new_present g2 = g_new_present g ->
   mget (dr_index r) (g_verifiers g2) = Some v2 -> isSome (mget (r_index (dr_resp r)) (a_responses (v_agg v2))) ->
   (dprocess_response S deal_enc (drun S deal_enc deal_dec ddeal_enc g2 evs) r k2).1 = drun S deal_enc deal_dec ddeal_enc g2 evs.
  move=> e1 e2 e3 M2 h2.
  pose P j v := j = dr_index r -> isSome (mget (r_index (dr_resp r)) (a_responses (@v_agg F G v))).
  have [] : all_P P (drun S deal_enc deal_dec ddeal_enc g2 evs) /\ frame g2 (drun S deal_enc deal_dec ddeal_enc g2 evs).
  apply: (@drun_inv F G S deal_enc deal_dec ddeal_enc P _ _ _ _ xpredT _ g2 evs (all_predT _)).
  - by move=> j w e k v' o' h E ej; have := process_agg w e k; rewrite E => -[b [/= -> _ hr]]; apply: hr; exact: h.
  - move=> j w ju h ej; rewrite /verifier_process_justification; have := just_responses (v_agg w) ju.
    by case: verify_justification => b o' /= ->; exact: h.
  - by move=> j w h ej; exact: h.
  - move=> j w idx b h _ ej; rewrite /unsafe_set_response_dkg /=; exact: (add_resps _ (h ej)).
  - move=> r' k _ j w h ej; rewrite /verifier_process_response; have := vresp_resps (dr_resp r') (h ej).
    by case: verify_response.
  - by move=> j w Mw ej; move: Mw; rewrite ej M2 => -[<-].
  set g3 := drun _ _ _ _ _ _ => al [[_ er _] [_ _ enp eci] _ _ ek].
  rewrite /dprocess_response er enp eci e1 e2 e3 rs; case M3: mget => [w|] //.
  rewrite /verifier_process_response; have [e ->] := resp_again (al _ _ M3 erefl) => /=.
  by rewrite /g_set_ver /mset minsert_same; [case: (g3)|rewrite M3; case: (w)].
have fin1 v2 d : isSome (mget (r_index (dr_resp r)) (a_responses (v_agg v2))) ->
   let g2 := g_set_dealer (g_set_ver g (dr_index r) v2) d in
   (dprocess_response S deal_enc (drun S deal_enc deal_dec ddeal_enc g2 evs) r k2).1 = drun S deal_enc deal_dec ddeal_enc g2 evs.
  by move=> h2; apply: (fin _ v2) => //=; rewrite mget_minsert eqxx.
move: ok => /=; case: ifP => _ /=; first by move=> _; apply: (fin _ (v_set_agg v a1)) => //=; rewrite mget_minsert eqxx.
case: dealer_process_response => d [[jj|]|e||] //= ok; last exact: fin1.
rewrite /verifier_process_justification /=; have jr := just_responses a1 jj; case: verify_justification jr => a2 o2 /= jr.
by apply: (fin _ (v_set_agg v a2)) => //=; rewrite ?mget_minsert ?eqxx //= jr.
Qed.

Theorem C111_pedersen (g : dkg G) (ev ev' : devent G) : same_msg ev ev' -> step (step g ev) ev' = step g ev.
Proof.
case: ev => [rnd ks k k'|dd k k'|r k|j|]; case: ev' => [rnd2 ks2 l l'|dd2 l l'|r2 l|j2|] //= <-.
- exact: (@deal_later g dd k k' [::]).
- exact: resp_twice.
- exact: just_twice.
Qed.

(** However much happens in between: a deal, and a response that was accepted. *)
Theorem C111_pedersen_later (g : dkg G) (ev ev' : devent G) (evs : seq (devent G)) : same_msg ev ev' ->
  match ev with
  | DEvDeal _ _ _ => True
  | DEvResponse r k => is_ok (dprocess_response S deal_enc g r k).2
  | _ => False
  end ->
  step (drun S deal_enc deal_dec ddeal_enc (step g ev) evs) ev' = drun S deal_enc deal_dec ddeal_enc (step g ev) evs.
Proof.
case: ev => [rnd ks k k'|dd k k'|r k|j|]; case: ev' => [rnd2 ks2 l l'|dd2 l l'|r2 l|j2|] //= <- h.
- exact: deal_later.
- exact: resp_later.
Qed.
End Pedersen.
Print Assumptions C111_pedersen.
Print Assumptions C111_pedersen_later.

Section Rabin.
Variables (F : fieldType) (G : lmodType F) (S : suite G).
Variable rdeal_enc : rdeal G -> bytestr.
Variable rdeal_dec : bytestr -> option (rdeal G).
Notation step := (rgstep S rdeal_enc rdeal_dec).

(** The same message; the randomness of the answers and the order of the maps may differ. *)
Definition rsame_msg (e e' : rgevent G) : Prop :=
  match e, e' with
  | RGDeal d _, RGDeal d' _ => d = d'
  | RGResponse r _, RGResponse r' _ => r = r'
  | RGJustification j, RGJustification j' => j = j'
  | RGSecretCommits sc _, RGSecretCommits sc' _ => sc = sc'
  | RGComplaint cc _, RGComplaint cc' _ => cc = cc'
  | RGReconstruct _ rc, RGReconstruct _ rc' => rc = rc'
  | _, _ => False
  end.

(** ** Verifiers *)
Lemma rprocess_nonce v e k k' :
  is_ok (rprocess_encrypted_deal S rdeal_dec v e k).2 = is_ok (rprocess_encrypted_deal S rdeal_dec v e k').2.
Proof.
rewrite /rprocess_encrypted_deal; case: rdecrypt_deal => // d; case: ifP => // _; case: rverify_deal => a1 o.
have K r r' : r_index r = r_index r' -> is_ok (radd_response a1 r).2 = is_ok (radd_response a1 r').2.
  by rewrite /radd_response => ->; case: find_pub => // _; case: mget.
have K2 r r' : r_index r = r_index r' ->
   is_ok (let '(a2, o2) := radd_response a1 r in (rv_set_agg v a2, let! _ := o2 in Ok r : outcome vss_error response)).2 =
   is_ok (let '(a2, o2) := radd_response a1 r' in (rv_set_agg v a2, let! _ := o2 in Ok r' : outcome vss_error response)).2.
  by move=> /K; case: radd_response => ? o2; case: radd_response => ? o2' /=; case: o2; case: o2'.
by case: o => [x|[]||] // *; apply: K2.
Qed.

Lemma rresp_again (a : raggregator G) r : isSome (mget (r_index r) (ra_responses a)) -> exists e, rverify_response S a r = (a, Err e).
Proof.
rewrite /rverify_response /radd_response; case: ifP => _; first by eexists.
case: find_pub => [P|]; last by eexists.
by case: ifP => _; [eexists|case: mget => // x _; eexists].
Qed.

Lemma rresp_once (a a' : raggregator G) r o : rverify_response S a r = (a', o) ->
  (a' = a /\ exists e, o = Err e) \/ (o = Ok tt /\ isSome (mget (r_index r) (ra_responses a'))).
Proof.
rewrite /rverify_response /radd_response; case: ifP => _; first by case=> <- <-; left; split=> //; eexists.
case: find_pub => [P|]; last by case=> <- <-; left; split=> //; eexists.
case: ifP => _; first by case=> <- <-; left; split=> //; eexists.
case: mget => [x|] [<- <-]; first by left; split=> //; eexists.
by right; split=> //=; rewrite mget_minsert eqxx.
Qed.

Lemma rdeal_again (a : raggregator G) d : let a1 := (rverify_deal S a d false).1 in
  [/\ rverify_deal S a1 d false = rverify_deal S a d false, isSome (ra_deal a1), ra_responses a1 = ra_responses a &
      ra_verifiers a1 = ra_verifiers a].
Proof. by rewrite /rverify_deal !andbF /=; case A: (ra_deal a) => [d'|] /=; rewrite ?A. Qed.

Lemma rjust_responses (a : raggregator G) j i : isSome (mget i (ra_responses a)) -> isSome (mget i (ra_responses (rverify_justification S a j).1)).
Proof.
move=> h; rewrite /rverify_justification; case: find_pub => // P; case: (mget (rj_index j) (ra_responses a)) => // r; case: ifP => // _.
by have [_ _ e _] := rdeal_again a (rj_deal j); case: rverify_deal e => a1 [x|x||] /= e; rewrite ?mget_minsert e //; case: eqP.
Qed.

Lemma rjust_again (a : raggregator G) j : (rverify_justification S (rverify_justification S a j).1 j).1 = (rverify_justification S a j).1.
Proof.
rewrite {2 3}/rverify_justification; case f: find_pub => [P|] /=; last by rewrite /rverify_justification f.
case M: mget => [r|] /=; last by rewrite /rverify_justification f M.
case st: (r_status r) => /=; first by rewrite /rverify_justification f M st.
have [V sd er ev] := rdeal_again a (rj_deal j); move: V sd er ev.
case: (rverify_deal S a (rj_deal j) false) => a1 o /= V sd er ev.
case: o V => [x|x||] V /=.
- by rewrite /rverify_justification /= ev f mget_minsert eqxx.
- rewrite /rverify_justification /= ev f mget_minsert eqxx st.
  have -> : rverify_deal S (ra_set_responses (ra_set_bad a1) (minsert (rj_index j) r (ra_responses a1))) (rj_deal j) false =
     (ra_set_responses (ra_set_bad a1) (minsert (rj_index j) r (ra_responses a1)), (rverify_deal S a1 (rj_deal j) false).2).
    by rewrite /rverify_deal !andbF /=; case: (ra_deal a1) sd.
  by rewrite V /ra_set_responses /ra_set_bad /= minsert2.
- by rewrite /rverify_justification ev f er M st V.
- by rewrite /rverify_justification ev f er M st V.
Qed.

(** ** Participants *)
Lemma rdeal_twice g dd k1 k2 : let g1 := (rgprocess_deal S rdeal_dec g dd k1).1 in (rgprocess_deal S rdeal_dec g1 dd k2).1 = g1.
Proof.
move=> g1; rewrite {}/g1 {2 3}/rgprocess_deal; case f: rg_find_pub => [P|] /=; last by rewrite /rgprocess_deal f.
case M: mget => [v|] /=; first by rewrite /rgprocess_deal f M.
case N: new_rverifier => [v|e||] /=; try by rewrite /rgprocess_deal f M N.
have K := rprocess_nonce v (rdd_deal dd) k1 k2; case: (rprocess_encrypted_deal S rdeal_dec v (rdd_deal dd) k1) K => v1 o /= K.
have fin : ~~ is_ok o -> (rgprocess_deal S rdeal_dec g dd k2).1 = g.
  by move=> no; rewrite /rgprocess_deal f M N; case: rprocess_encrypted_deal K => v2 o2 /= K; rewrite K in no; case: o2 no K.
case: o K fin => [resp|e||] _ fin /=; try exact: fin.
by rewrite /rgprocess_deal /rg_find_pub /= -/(rg_find_pub g _) f mget_minsert eqxx.
Qed.

Lemma rresp_twice g r k1 k2 : let g1 := (rgprocess_response S rdeal_enc g r k1).1 in (rgprocess_response S rdeal_enc g1 r k2).1 = g1.
Proof.
move=> g1; rewrite {}/g1 {2 3}/rgprocess_response; case M: mget => [v|] /=; last by rewrite /rgprocess_response M.
rewrite /rverifier_process_response; case A: (rv_agg v) => [a|] /=; last first.
  by rewrite /rgprocess_response /rg_set_ver /= !minsert_same //= /rg_set_verifiers /=; rewrite M /rverifier_process_response A /rg_set_ver /= minsert_same.
case V: rverify_response => [a1 o] /=.
have fin (d : rdealer G) v2 a2 : rv_agg v2 = Some a2 -> (exists e, rverify_response S a2 (rdr_resp r) = (a2, Err e)) ->
   let g2 := rg_set_dealer (rg_set_verifiers g (minsert (rdr_index r) v2 (rg_verifiers g))) d in
   (rgprocess_response S rdeal_enc g2 r k2).1 = g2.
  move=> A2 [e E] /=; rewrite /rgprocess_response /= mget_minsert eqxx /rverifier_process_response A2 E /=.
  by rewrite /rg_set_ver /rg_set_verifiers /rg_set_dealer /= minsert2 /rv_set_agg -A2; case: (v2).
have fin0 v2 a2 : rv_agg v2 = Some a2 -> (exists e, rverify_response S a2 (rdr_resp r) = (a2, Err e)) ->
   (rgprocess_response S rdeal_enc (rg_set_ver g (rdr_index r) v2) r k2).1 = rg_set_ver g (rdr_index r) v2.
  by move=> h1 h2; have := fin (rg_dealer g) v2 a2 h1 h2.
case: (rresp_once V) => [[ea [e eo]]|[-> sm]].
  by rewrite eo /=; apply: (fin0 _ a1) => //; exists e; rewrite {1}ea V eo.
case: ifP => _ /=; first by apply: (fin0 _ a1) => //; exact: rresp_again.
case: rdealer_process_response => d [[jj|]|e||] /=; try by apply: (fin _ _ a1) => //; exact: rresp_again.
rewrite /rverifier_process_justification /=; have jr := rjust_responses jj sm; case: rverify_justification jr => a2 o2 /= jr.
have -> : rg_set_ver (rg_set_dealer (rg_set_ver g (rdr_index r) (rv_set_agg v a1)) d) (rdr_index r) (rv_set_agg (rv_set_agg v a1) a2) =
   rg_set_dealer (rg_set_verifiers g (minsert (rdr_index r) (rv_set_agg v a2) (rg_verifiers g))) d.
  by rewrite /rg_set_ver /rg_set_dealer /rg_set_verifiers /= minsert2.
by apply: (fin _ _ a2) => //; exact: rresp_again.
Qed.

Lemma rjust_twice g j : let g1 := (rgprocess_justification S g j).1 in (rgprocess_justification S g1 j).1 = g1.
Proof.
move=> g1; rewrite {}/g1 {2 3}/rgprocess_justification; case M: mget => [v|] /=; last by rewrite /rgprocess_justification M.
rewrite /rverifier_process_justification; case A: (rv_agg v) => [a|] /=; last first.
  by rewrite /rgprocess_justification /rg_set_ver /= mget_minsert eqxx /rverifier_process_justification A /= /rg_set_verifiers /= minsert2.
have ja := rjust_again a (rdj_just j); case: (rverify_justification S a (rdj_just j)) ja => a1 o /= ja.
rewrite /rgprocess_justification /= mget_minsert eqxx /rverifier_process_justification /=; case: rverify_justification ja => a2 o2 /= ->.
by rewrite /rg_set_ver /rg_set_verifiers /= minsert2.
Qed.

Lemma rsc_twice g sc k1 k2 : let g1 := (rprocess_secret_commits S rdeal_enc g sc k1).1 in
  (rprocess_secret_commits S rdeal_enc g1 sc k2).1 = g1.
Proof.
move=> g1; rewrite {}/g1 {2 3}/rprocess_secret_commits; case f: rg_find_pub => [P|] /=; last by rewrite /rprocess_secret_commits f.
case q: ris_in_qual => /=; last by rewrite /rprocess_secret_commits f q.
case M: mget => [v|] /=; last by rewrite /rprocess_secret_commits f q M.
case I: rverifier_session_id => [sid|e||] /=; try by rewrite /rprocess_secret_commits f q M I.
case i: (sid != _) => /=; first by rewrite /rprocess_secret_commits f q M I i.
case s: su_verify => /=; last by rewrite /rprocess_secret_commits f q M I i s.
case D: (rverifier_deal v) => [d|] /=; last by rewrite /rprocess_secret_commits f q M I i s D.
case C: pub_check => [[]|e||] /=; try by rewrite /rprocess_secret_commits f q M I i s D C.
have q1 : ris_in_qual (rg_set_commits g (minsert (sc_index sc) (PubPoly (Some (su_base S)) (sc_commits sc)) (rg_commits g))) (sc_index sc) by exact: q.
by rewrite /rprocess_secret_commits q1 /rg_find_pub /= -/(rg_find_pub g _) f M I i s D C /rg_set_commits /= minsert2.
Qed.

Lemma rcc_twice g cc k1 k2 : let g1 := (rprocess_complaint_commits S rdeal_enc g cc k1).1 in
  (rprocess_complaint_commits S rdeal_enc g1 cc k2).1 = g1.
Proof.
move=> g1; rewrite {}/g1 {2 3}/rprocess_complaint_commits; case f: rg_find_pub => [P|] /=; last by rewrite /rprocess_complaint_commits f.
case q: ris_in_qual => /=; last by rewrite /rprocess_complaint_commits f q.
case s: su_verify => /=; last by rewrite /rprocess_complaint_commits f q s.
case M: mget => [v|] /=; last by rewrite /rprocess_complaint_commits f q s M.
case A: (rv_agg v) => [a|] /=; last by rewrite /rprocess_complaint_commits f q s M A.
have [V _ _ _] := rdeal_again a (cc_deal cc); case E: (rverify_deal S a (cc_deal cc) false) V => [a1 o] /= V.
pose v1 := rv_set_agg v a1.
have K g3 : rg_parts g3 = rg_parts g -> mget (cc_dealer cc) (rg_verifiers g3) = Some v1 ->
    (is_ok o -> match mget (cc_dealer cc) (rg_commits g3) with
     | None => True
     | Some poly => if pub_check (su_base S) poly (rd_sec (cc_deal cc)) is Ok false then rverifier_deal v1 = None else True
     end) ->
    (rprocess_complaint_commits S rdeal_enc g3 cc k2).1 = g3.
  move=> ep ev ec; rewrite /rprocess_complaint_commits /rg_find_pub ep -/(rg_find_pub g _) f; case: ifP => //= _.
  rewrite s /= ev /= V; have e3 : rg_set_ver g3 (cc_dealer cc) (rv_set_agg v1 a1) = g3.
    by rewrite /rg_set_ver (_ : rv_set_agg v1 a1 = v1) // (minsert_same ev); case: (g3).
  rewrite e3; case: o {E V} ec => // x /(_ isT) /=; case: mget => // poly; case: pub_check => // [[]] //.
  by rewrite -/v1 => ->.
have K0 : (is_ok o -> match mget (cc_dealer cc) (rg_commits g) with
     | None => True
     | Some poly => if pub_check (su_base S) poly (rd_sec (cc_deal cc)) is Ok false then rverifier_deal v1 = None else True
     end) -> (rprocess_complaint_commits S rdeal_enc (rg_set_ver g (cc_dealer cc) v1) cc k2).1 = rg_set_ver g (cc_dealer cc) v1.
  by move=> h; apply: K => //=; rewrite mget_minsert eqxx.
case: o {E V} K K0 => [x|x||] K K0 /=; try exact: K0.
move: (K0); case C: mget => [poly|] /= K1; last exact: K1.
case P1: pub_check => [[]|e||] /=; try by apply: K1 => _; rewrite P1.
rewrite -/v1; case D: (rverifier_deal v1) => [d|] /=; last by apply: K1 => _; rewrite P1.
by apply: K => //=; rewrite ?mget_minsert ?eqxx // mget_mremove eqxx.
Qed.

Lemma rscan_rcons (rc : reconstruct_commits F) arr : isSome (rscan rc (rcons arr rc)).
Proof. by elim: arr => /= [|r arr IH]; [rewrite eqxx|case: ifP => // _; case: ifP]. Qed.

Lemma rrc_twice g h1 h2 rc : let g1 := (rprocess_reconstruct_commits S h1 g rc).1 in
  (rprocess_reconstruct_commits S h2 g1 rc).1 = g1.
Proof.
move=> g1; rewrite {}/g1 {2 3}/rprocess_reconstruct_commits; case i: (rc_dealer rc \in _) => /=; first by rewrite /rprocess_reconstruct_commits i.
case C: mget => [p|] /=; first by rewrite /rprocess_reconstruct_commits i C.
case f: rg_find_pub => [P|] /=; last by rewrite /rprocess_reconstruct_commits i C f.
case s: su_verify => /=; last by rewrite /rprocess_reconstruct_commits i C f s.
set arr := (if mget _ _ is Some l then l else _).
have K arr' : isSome (rscan rc arr') -> (rprocess_reconstruct_commits S h2 (rg_set_pending g (minsert (rc_dealer rc) arr' (rg_pending g))) rc).1 =
   rg_set_pending g (minsert (rc_dealer rc) arr' (rg_pending g)).
  move=> h; rewrite /rprocess_reconstruct_commits /= i C /rg_find_pub /= -/(rg_find_pub g _) f s /= mget_minsert eqxx; case: rscan h => // o _ /=.
  by rewrite /rg_set_pending /= minsert2.
case R: rscan => [o|] /=; first by apply: K; rewrite R.
have e2 : rg_set_pending (rg_set_pending g (minsert (rc_dealer rc) arr (rg_pending g)))
   (minsert (rc_dealer rc) (rcons arr rc) (minsert (rc_dealer rc) arr (rg_pending g))) =
   rg_set_pending g (minsert (rc_dealer rc) (rcons arr rc) (rg_pending g)) by rewrite /rg_set_pending /= minsert2.
have K2 := K _ (rscan_rcons rc arr).
case: ifP => _ /=; last by rewrite e2; exact: K2.
case: recover_pri_poly => [pri|e||] /=; try by rewrite e2; exact: K2.
by rewrite /rprocess_reconstruct_commits /= inE eqxx.
Qed.

(** ** Later deliveries *)
Definition rsame (g g' : rdkg G) := rg_long g' = rg_long g /\ rg_parts g' = rg_parts g.

Lemma rsame_deal g dd k : rsame g (rgprocess_deal S rdeal_dec g dd k).1.
Proof.
rewrite /rgprocess_deal; case: rg_find_pub => // P; case: mget => //; case: new_rverifier => // v.
by case: rprocess_encrypted_deal => v' [].
Qed.

Lemma rsame_step g ev : rsame g (step g ev).
Proof.
case: ev => [rnd k|dd k|r k|jj||k|sc k|cc k|hord rc] /=.
- rewrite /rgdeals; case: rencrypted_deals => // ds.
  have : rsame g (g, Ok [::] : outcome rdkg_error (seq (nat * rddeal G))).1 by [].
  elim: (iota _ _) (g, _) => //= a l IH [g1 [dd|e||]] //= u; apply: IH => //=.
  case: (nth None _ _) => [e|] //; case: ifP => // _; case: mget => //.
  have := rsame_deal g1 (RDDeal (rg_index g1) e) k.
  by case: rgprocess_deal => g' [r|e'||] //= [u1 u2]; case: u => u3 u4; try case: ifP => _; split=> /=; congruence.
- exact: rsame_deal.
- rewrite /rgprocess_response; case: mget => // v; case: rverifier_process_response => v' [x|||] //; case: ifP => // _.
  by case: rdealer_process_response => dl [[jj|]|e||] //=; case: rverifier_process_justification.
- by rewrite /rgprocess_justification; case: mget => // v; case: rverifier_process_justification.
- by [].
- by rewrite /rsecret_commits; case: ifP => // _; case: rdealer_commits.
- rewrite /rprocess_secret_commits; case: rg_find_pub => // P; case: ifP => // _; case: mget => // v.
  case: rverifier_session_id => // sid; case: ifP => // _; case: ifP => // _; case: rverifier_deal => // dd.
  by case: pub_check => // -[].
- rewrite /rprocess_complaint_commits; case: rg_find_pub => // P; case: ifP => // _; case: ifP => // _; case: mget => // v.
  case: (rv_agg v) => // a; case: rverify_deal => a1 [x|e||] //; case: mget => [p|] //; case: pub_check => [[]|e||] //.
  by case: rverifier_deal => [dd|].
rewrite /rprocess_reconstruct_commits; case: ifP => // _; case: mget => //; case: rg_find_pub => // P; case: ifP => // _.
by case: rscan => // ; case: ifP => // _; case: recover_pri_poly.
Qed.
Lemma rsame_run g evs : rsame g (rgrun S rdeal_enc rdeal_dec g evs).
Proof.
elim: evs g => //= ev evs IH g; have [h1 h2] := IH (step g ev); have [h3 h4] := rsame_step g ev; split.
  by rewrite -h3.
by rewrite -h4.
Qed.

Section Keep.
Variables (m : nat) (P : rverifier G -> Prop).
Hypothesis P_resp : forall v r, P v -> P (rverifier_process_response S v r).1.
Hypothesis P_just : forall v j, P v -> P (rverifier_process_justification S v j).1.
Hypothesis P_timeout : forall v, P v -> P (rverifier_set_timeout v).
Hypothesis P_vdeal : forall v a d, rv_agg v = Some a -> P v -> P (rv_set_agg v (rverify_deal S a d false).1).
Definition kept (g : rdkg G) := exists2 v, mget m (rg_verifiers g) = Some v & P v.

Lemma kept_ver g j w v : kept g -> mget j (rg_verifiers g) = Some w -> (P w -> P v) -> kept (rg_set_ver g j v).
Proof.
move=> [u mu pu] mw H; rewrite /kept /=; case: (eqVneq m j) => [e|ne].
  by exists v; rewrite ?mget_minsert ?e ?eqxx //; apply: H; move: mu; rewrite e mw => -[->].
by exists u; rewrite ?mget_minsert ?(negPf ne).
Qed.
Lemma kept_deal g dd k : kept g -> kept (rgprocess_deal S rdeal_dec g dd k).1.
Proof.
move=> h; rewrite /rgprocess_deal; case: rg_find_pub => // Q; case M: mget => //; case: new_rverifier => // v.
case: rprocess_encrypted_deal => v' [] //= r; case: h => u mu pu; exists u => //=; rewrite mget_minsert.
by case: eqP => // e; move: mu; rewrite e M.
Qed.
Lemma kept_step g ev : kept g -> kept (step g ev).
Proof.
move=> u; case: ev => [rnd k|dd k|r k|jj||k|sc k|cc k|hord rc] /=.
- rewrite /rgdeals; case: rencrypted_deals => // ds.
  have {u} : kept (g, Ok [::] : outcome rdkg_error (seq (nat * rddeal G))).1 := u.
  elim: (iota _ _) (g, _) => //= a l IH [{}g [dd|e||]] //= u; apply: IH => //=.
  case: (nth None _ _) => [e|] //; case: ifP => // _; case: mget => //.
  have := kept_deal (RDDeal (rg_index g) e) k u.
  by case: rgprocess_deal => g' [r|e'||] //= u'; case: ifP.
- exact: kept_deal.
- rewrite /rgprocess_response; case M: mget => [v|] //; have pr := @P_resp v (rdr_resp r).
  case: rverifier_process_response pr => v' o /= pr.
  have u1 : kept (rg_set_ver g (rdr_index r) v') by exact: (kept_ver u M).
  case: o => [x|e||] //; case: ifP => _ //=; case: rdealer_process_response => dl [[jj|]|e||] //=.
  have pj := @P_just v' jj; case: rverifier_process_justification pj => v2 o /= pj.
  by apply: (@kept_ver (rg_set_dealer (rg_set_ver g (rdr_index r) v') dl) _ v') => //=; rewrite mget_minsert eqxx.
- rewrite /rgprocess_justification; case M: mget => [v|] //; have pj := @P_just v (rdj_just jj).
  by case: rverifier_process_justification pj => v' o /= pj; exact: (kept_ver u M).
- case: u => v mv hv; exists (rverifier_set_timeout v); last exact: P_timeout.
  by rewrite /=; elim: (rg_verifiers g) mv => //= [[q w] l] IH /=; case: eqP => // _ [->].
- by rewrite /rsecret_commits; case: ifP => // _; case: rdealer_commits.
- rewrite /rprocess_secret_commits; case: rg_find_pub => // Q; case: ifP => // _; case: mget => // v.
  case: rverifier_session_id => // sid; case: ifP => // _; case: ifP => // _; case: rverifier_deal => // dd.
  by case: pub_check => // -[].
- rewrite /rprocess_complaint_commits; case: rg_find_pub => // Q; case: ifP => // _; case: ifP => // _; case M: mget => [v|] //.
  case A: (rv_agg v) => [a|] //; have pv := @P_vdeal v a (cc_deal cc) A; case: rverify_deal pv => a1 o /= pv.
  have u1 : kept (rg_set_ver g (cc_dealer cc) (rv_set_agg v a1)) by exact: (kept_ver u M).
  by case: o => [x|e||] //; case: mget => [p|] //; case: pub_check => [[]|e||] //; case: rverifier_deal => [dd|].
rewrite /rprocess_reconstruct_commits; case: ifP => // _; case: mget => //; case: rg_find_pub => // Q; case: ifP => // _.
by case: rscan => // ; case: ifP => // _; case: recover_pri_poly.
Qed.
Lemma kept_run g evs : kept g -> kept (rgrun S rdeal_enc rdeal_dec g evs).
Proof. by elim: evs g => //= ev evs IH g /(kept_step ev); exact: IH. Qed.
End Keep.

Lemma rdeal_later g dd k1 evs k2 : let g1 := rgrun S rdeal_enc rdeal_dec (rgprocess_deal S rdeal_dec g dd k1).1 evs in
  (rgprocess_deal S rdeal_dec g1 dd k2).1 = g1.
Proof.
set g0 := (rgprocess_deal S rdeal_dec g dd k1).1; move=> g1.
have [l0 p0] : rsame g g0 := rsame_deal g dd k1.
have [l1 p1] : rsame g0 g1 := rsame_run g0 evs.
rewrite /rgprocess_deal; case f: rg_find_pub => [P|] //; case M1: mget => [v|] //.
have M0 : mget (rdd_index dd) (rg_verifiers g0) = None.
  case M0: mget => [v|] //; have : kept (rdd_index dd) (fun _ => True) g1 by apply: kept_run => //; exists v.
  by case=> u mu _; move: M1; rewrite mu.
have f0 : rg_find_pub g (rdd_index dd) = Some P by move: f; rewrite /rg_find_pub p1 p0.
rewrite l1 p1 l0 p0; move: M0; rewrite /g0 /rgprocess_deal f0; case M: (mget (rdd_index dd) (rg_verifiers g)) => [v|] /=; first by rewrite M.
case: new_rverifier => [v|e||] //=.
have := rprocess_nonce v (rdd_deal dd) k1 k2.
case: rprocess_encrypted_deal => v1 o; case: rprocess_encrypted_deal => v2 o2 /=; case: o => [r1|e1||] /=; case: o2 => [r2|e2||] //=.
by rewrite mget_minsert eqxx.
Qed.

(** What stays in a verifier: an answer recorded for [q], and an approval. *)
Definition rhas (q : nat) (b : bool) (v : rverifier G) : Prop :=
  exists a r, [/\ rv_agg v = Some a, mget q (ra_responses a) = Some r & b -> r_status r].

Lemma radd_keeps (a : raggregator G) r q r0 : mget q (ra_responses a) = Some r0 -> mget q (ra_responses (radd_response a r).1) = Some r0.
Proof.
move=> h; rewrite /radd_response; case: find_pub => // _; case M: (mget (r_index r) _) => //=; rewrite mget_minsert.
by case: eqP => // e; move: h; rewrite e M.
Qed.
Lemma rhas_resp q b v r : rhas q b v -> rhas q b (rverifier_process_response S v r).1.
Proof.
move=> [a [r0 [A M h]]]; rewrite /rverifier_process_response A /rverify_response.
have K : rhas q b (rv_set_agg v a) by exists a, r0.
case: ifP => // _; case: find_pub => // P; case: ifP => // _; have := radd_keeps r M; case: radd_response => a1 o /= M1.
by exists a1, r0.
Qed.
Lemma rhas_vdeal q b v a d : rv_agg v = Some a -> rhas q b v -> rhas q b (rv_set_agg v (rverify_deal S a d false).1).
Proof.
move=> A [a' [r0 [A' M h]]]; move: A'; rewrite A => -[ea]; have [_ _ er _] := rdeal_again a d.
by exists (rverify_deal S a d false).1, r0; split=> //; rewrite er ea.
Qed.
Lemma rhas_just q b v j : rhas q b v -> rhas q b (rverifier_process_justification S v j).1.
Proof.
move=> [a [r0 [A M h]]]; rewrite /rverifier_process_justification A /rverify_justification.
have K : rhas q b (rv_set_agg v a) by exists a, r0.
case: find_pub => // P; case M1: (mget (rj_index j) _) => [r1|] //; case st: (r_status r1) => //.
have [_ _ er _] := rdeal_again a (rj_deal j); case: rverify_deal er => a1 o /= er.
have K1 : rhas q b (rv_set_agg v a1) by exists a1, r0; rewrite er.
case: o => [x|x||] //=.
- eexists; rewrite /rhas /=; case: (eqVneq q (rj_index j)) => [e|ne].
    by exists (Response (r_sid r1) (r_index r1) true (r_sig r1)); split=> //=; rewrite mget_minsert e eqxx.
  by exists r0; split=> //=; rewrite mget_minsert (negPf ne) er.
- eexists; rewrite /rhas /=; exists r0; split=> //=; rewrite mget_minsert er; case: eqP => // e.
  by move: M; rewrite e M1.
Qed.
Lemma rhas_timeout q b v : rhas q b v -> rhas q b (rverifier_set_timeout v).
Proof.
move=> [a [r0 [A M h]]]; rewrite /rverifier_set_timeout A; exists (clean_verifiers a), r0; split=> //.
by rewrite clean_get M.
Qed.
Lemma rhas_run g evs m q b : kept m (rhas q b) g -> kept m (rhas q b) (rgrun S rdeal_enc rdeal_dec g evs).
Proof.
apply: kept_run => [v r|v j|v|v a d]; [exact: rhas_resp|exact: rhas_just|exact: rhas_timeout|exact: rhas_vdeal].
Qed.

Lemma rresp_later g r k1 evs k2 : is_ok (rgprocess_response S rdeal_enc g r k1).2 ->
  let g1 := rgrun S rdeal_enc rdeal_dec (rgprocess_response S rdeal_enc g r k1).1 evs in
  (rgprocess_response S rdeal_enc g1 r k2).1 = g1.
Proof.
move=> ok g1; have : kept (rdr_index r) (rhas (r_index (rdr_resp r)) false) g1.
  apply: rhas_run; move: ok; rewrite /rgprocess_response; case M: mget => [v|] //.
  rewrite /rverifier_process_response; case A: (rv_agg v) => [a|] //.
  case V: rverify_response => [a1 o] /= ok; have [eo sm] : o = Ok tt /\ isSome (mget (r_index (rdr_resp r)) (ra_responses a1)).
    by case: (rresp_once V) ok => [[_ [e ->]]|].
  have K a2 d : isSome (mget (r_index (rdr_resp r)) (ra_responses a2)) ->
     kept (rdr_index r) (rhas (r_index (rdr_resp r)) false) (rg_set_dealer (rg_set_ver g (rdr_index r) (rv_set_agg v a2)) d).
    case M2: mget => [r2|] // _; exists (rv_set_agg v a2); first by rewrite /= mget_minsert eqxx.
    by exists a2, r2.
  rewrite eo /= in ok *; case: ifP ok => [_ _|_] /=; first by have := K a1 (rg_dealer g) sm.
  case: rdealer_process_response => d [[jj|]|e||] //= _; last exact: K.
  rewrite /rverifier_process_justification /=; have jr := rjust_responses jj sm; case: rverify_justification jr => a2 o2 /= jr.
  by have := K a2 d jr; rewrite /rg_set_ver /rg_set_dealer /rg_set_verifiers /= minsert2.
case=> v Mv [a [r0 [A M _]]]; rewrite /rgprocess_response Mv /rverifier_process_response A.
have [|e ->] := @rresp_again a (rdr_resp r); first by rewrite M.
by rewrite /= /rg_set_ver minsert_same; [case: (g1)|rewrite Mv /rv_set_agg -A; case: (v)].
Qed.

Lemma rjust_later g j evs : is_ok (rgprocess_justification S g j).2 ->
  let g1 := rgrun S rdeal_enc rdeal_dec (rgprocess_justification S g j).1 evs in (rgprocess_justification S g1 j).1 = g1.
Proof.
move=> ok g1; have : kept (rdj_index j) (rhas (rj_index (rdj_just j)) true) g1.
  apply: rhas_run; move: ok; rewrite /rgprocess_justification; case M: mget => [v|] //.
  rewrite /rverifier_process_justification; case A: (rv_agg v) => [a|] //.
  rewrite /rverify_justification; case: find_pub => // P; case: (mget (rj_index _) _) => [r|] //; case: ifP => // _.
  case: rverify_deal => a1 [x|x||] //= _; eexists; first by rewrite /= mget_minsert eqxx.
  by eexists; eexists; split; first [by []|by rewrite /= mget_minsert eqxx|by []].
case=> v Mv [a [r0 [A M st]]]; rewrite /rgprocess_justification Mv /rverifier_process_justification A /rverify_justification.
have e2 : rg_set_ver g1 (rdj_index j) (rv_set_agg v a) = g1.
  by rewrite /rg_set_ver minsert_same; [case: (g1)|rewrite Mv /rv_set_agg -A; case: (v)].
by case: find_pub => // P; rewrite M st.
Qed.

Theorem C111_rabin (g : rdkg G) (ev ev' : rgevent G) : rsame_msg ev ev' -> step (step g ev) ev' = step g ev.
Proof.
case: ev => [rnd k|dd k|r k|j||k|sc k|cc k|h rc]; case: ev' => [rnd' l|dd' l|r' l|j'||l|sc' l|cc' l|h' rc'] //= <-.
- exact: rdeal_twice.
- exact: rresp_twice.
- exact: rjust_twice.
- exact: rsc_twice.
- exact: rcc_twice.
- exact: rrc_twice.
Qed.

(** However much happens in between: a deal, and a response or justification that was accepted.  Secret commitments are not of
    this kind: C110_resend_refuted. *)
Theorem C111_rabin_later (g : rdkg G) (ev ev' : rgevent G) (evs : seq (rgevent G)) : rsame_msg ev ev' ->
  match ev with
  | RGDeal _ _ => True
  | RGResponse r k => is_ok (rgprocess_response S rdeal_enc g r k).2
  | RGJustification j => is_ok (rgprocess_justification S g j).2
  | _ => False
  end ->
  step (rgrun S rdeal_enc rdeal_dec (step g ev) evs) ev' = rgrun S rdeal_enc rdeal_dec (step g ev) evs.
Proof.
case: ev => [rnd k|dd k|r k|j||k|sc k|cc k|h rc]; case: ev' => [rnd' l|dd' l|r' l|j'||l|sc' l|cc' l|h' rc'] //= <- ok.
- exact: rdeal_later.
- exact: rresp_later.
- exact: rjust_later.
Qed.
End Rabin.
Print Assumptions C111_rabin.
Print Assumptions C111_rabin_later.

(** Participant 0 has dealt; the deal of participant 1 and the response of participant 1 to the own deal are accepted once and
    refused with different randomness. *)
Definition kg0 : dkg V := kstep (kgen 0) kev_deals.
Definition krg0 : rdkg V := rgrun ktoy krdeal_enc krdeal_dec (krgen 0) (take 1 kevents).
Example C111_nonvacuous :
  let ev := DEvDeal (kdeal_for 1 0) (K1 : K) (K1 : K) in let ev' := DEvDeal (kdeal_for 1 0) (K2 : K) (K3 : K) in
  [/\ same_msg ev ev' /\ same_msg (DEvResponse V kr_1_0 (K1 : K)) (DEvResponse V kr_1_0 (K2 : K)),
      is_ok (dprocess_deal ktoy kdeal_dec kddeal_enc kg0 (kdeal_for 1 0) (K1 : K) (K1 : K)).2,
      is_ok (dprocess_response ktoy kdeal_enc kg0 kr_1_0 (K1 : K)).2,
      (dprocess_response ktoy kdeal_enc (kstep kg0 (DEvResponse V kr_1_0 (K1 : K))) kr_1_0 (K2 : K)).2 = Err (DVss ResponseAlreadyExisting) &
      [/\ if kmsg_deal 1 0 is RGDeal dd _ then is_ok (rgprocess_deal ktoy krdeal_dec krg0 dd (K1 : K)).2 else false,
          if kmsg_resp 0 1 is RGResponse r _ then is_ok (rgprocess_response ktoy krdeal_enc krg0 r (K1 : K)).2 else false &
          if kmsg_resp 0 1 is RGResponse r _
          then (rgprocess_response ktoy krdeal_enc (rgprocess_response ktoy krdeal_enc krg0 r (K1 : K)).1 r (K2 : K)).2 = Err (RVss ResponseAlreadyExisting)
          else False]].
Proof.
move=> ev ev'; split.
- by split.
- by vm_cast_no_check (erefl true).
- by vm_cast_no_check (erefl true).
- by vm_cast_no_check (erefl (@Err dkg_error (option (djustification V)) (DVss ResponseAlreadyExisting))).
- split.
  + by vm_cast_no_check (erefl true).
  + by vm_cast_no_check (erefl true).
  + by vm_cast_no_check (erefl (@Err rdkg_error (option (rdjustification V)) (RVss ResponseAlreadyExisting))).
Qed.
