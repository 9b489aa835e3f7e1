(** Property C109: no bias in the Rabin key generation, src/share/dkg/rabin/dkg.rs.  Once the deals are out and QUAL is
    fixed, what the dealers do when the commitments are revealed no longer changes the key. *)
From mathcomp Require Import all_ssreflect all_algebra.
From mathcomp Require Import zify.
From Verif Require Import Base Lagrange PolyModel PolySpec PolyProofs PolyProps PropsPoly Suite SuiteProofs.
From Verif Require Import VssModel VssSpec VssProofs RvssModel RvssSpec RvssProofs Toy DkgModel DkgSpec DkgProofs RdkgModel RdkgSpec RdkgProofs PropsRdkg ReshareSpec ReshareProofs PropsRecover PropsRsplit.

Set Implicit Arguments.
Unset Strict Implicit.
Unset Printing Implicit Defensive.

Import GRing.Theory.
Local Open Scope ring_scope.
Local Open Scope outcome_scope.

Section Bias.
Variables (F : fieldType) (G : lmodType F) (S : suite G).
Variables (rdeal_enc : rdeal G -> bytestr) (rdeal_dec : bytestr -> option (rdeal G)).
Notation run := (rgrun S rdeal_enc rdeal_dec).
Notation B := (su_base S).
Notation held := RdkgProofs.held.

(** ** A deal once stored stays *)
Definition holds (g : rdkg G) (j : nat) (d : rdeal G) : Prop := exists2 v, mget j (rg_verifiers g) = Some v & held v = Some d.

Lemma holds_ver g m v j d : holds g j d -> (forall w, mget m (rg_verifiers g) = Some w -> held w = Some d -> held v = Some d) ->
  holds (rg_set_ver g m v) j d.
Proof.
move=> [w mw hw] H; rewrite /holds /= ; case: (eqVneq j m) => [e|ne].
  by exists v; rewrite ?mget_minsert ?e ?eqxx //; apply: (H w); rewrite -?e.
by exists w => //; rewrite mget_minsert (negPf ne).
Qed.

Lemma holds_deal g dd k j d : holds g j d -> holds (rgprocess_deal S rdeal_dec g dd k).1 j d.
Proof.
move=> h; rewrite /rgprocess_deal; case: rg_find_pub => // P; case M: mget => // ; case: new_rverifier => // v.
by case: rprocess_encrypted_deal => v' [] //= r; apply: holds_ver => // w; rewrite M.
Qed.
Lemma holds_deals g rnd k j d : holds g j d -> holds (rgdeals S rdeal_enc rdeal_dec g rnd k).1 j d.
Proof.
move=> u; rewrite /rgdeals; case: rencrypted_deals => // ds.
have {u} : holds (g, Ok [::] : outcome rdkg_error (seq (nat * rddeal G))).1 j d := u.
elim: (iota _ _) (g, _) => //= a l IH [{}g [dd|e||]] //= u; apply: IH => //=.
case: (nth None _ _) => [e|] //; case: ifP => // _; case: mget => //.
have := holds_deal (RDDeal (rg_index g) e) k u.
by case: rgprocess_deal => g' [r|e'||] //= u'; case: ifP.
Qed.
Lemma holds_step g ev j d : holds g j d -> holds (rgstep S rdeal_enc rdeal_dec g ev) j d.
Proof.
move=> u; case: ev => [rnd k|dd k|r k|jj||k|sc k|cc k|hord rc] /=.
- exact: holds_deals.
- exact: holds_deal.
- rewrite /rgprocess_response; case M: mget => [v|] //.
  have hv := held_resp S v (rdr_resp r); case: rverifier_process_response hv => v' o /= hv.
  have u1 : holds (rg_set_ver g (rdr_index r) v') j d by apply: holds_ver => // w; rewrite M hv => -[<-].
  case: o => [x|e||] //; case: ifP => _ //=.
  case: rdealer_process_response => dl [[jj|]|e||] //=.
  case E: (rverifier_process_justification S v' jj) => [v2 o] /=.
  apply: (@holds_ver (rg_set_dealer (rg_set_ver g (rdr_index r) v') dl)) => // w; rewrite /= mget_minsert eqxx => -[<-] hw.
  by have := held_just S jj hw; rewrite E.
- rewrite /rgprocess_justification; case M: mget => [v|] //; case E: rverifier_process_justification => [v' o] /=.
  by apply: holds_ver => // w; rewrite M => -[<-] hw; have := held_just S (rdj_just jj) hw; rewrite E.
- case: u => v mv hv; exists (rverifier_set_timeout v); last by rewrite held_timeout.
  by rewrite /=; elim: (rg_verifiers g) mv => //= [[q w] l] IH /=; case: eqP => // _ [->].
- by rewrite /rsecret_commits; case: ifP => // _; case: rdealer_commits.
- rewrite /rprocess_secret_commits; case: rg_find_pub => // P; case: ifP => // _; case: mget => // v.
  case: rverifier_session_id => // sid; case: ifP => // _; case: ifP => // _; case: rverifier_deal => // dd.
  by case: pub_check => // -[].
- rewrite /rprocess_complaint_commits; case: rg_find_pub => // P; case: ifP => // _; case: ifP => // _; case M: mget => [v|] //.
  case A: (rv_agg v) => [a|] //; have sa := rverify_deal_state S a (cc_deal cc) false.
  case V: rverify_deal => [a1 o] /=; rewrite V /= in sa.
  have u1 : holds (rg_set_ver g (cc_dealer cc) (rv_set_agg v a1)) j d.
    apply: holds_ver => // w; rewrite M => -[<-]; rewrite {1}/held A => hw.
    by rewrite /held /= sa; exact: held_stored.
  case: o {V} => [x|e||] //; case: mget => [p|] //; case: pub_check => [[]|e||] //.
  by case: rverifier_deal => [dd|].
rewrite /rprocess_reconstruct_commits; case: ifP => // _; case: mget => //; case: rg_find_pub => // P; case: ifP => // _.
by case: rscan => // ; case: ifP => // _; case: recover_pri_poly.
Qed.
Lemma holds_run g evs j d : holds g j d -> holds (run g evs) j d.
Proof. by elim: evs g => //= ev evs IH g /(holds_step ev); exact: IH. Qed.

(** ** The share is the sum of the deals *)
Definition hval (g : rdkg G) (j : nat) : F :=
  if mget j (rg_verifiers g) is Some v then if held v is Some d then ps_v (rd_sec d) else 0 else 0.

Lemma hvalE g j d : holds g j d -> hval g j = ps_v (rd_sec d).
Proof. by case=> v mv hv; rewrite /hval mv hv. Qed.

Lemma rkey_sum (g : rdkg G) l acc sh p : (forall iv, List.In iv l -> mget iv.1 (rg_verifiers g) = Some iv.2) ->
  foldo (rkey_step g) acc l = Ok (sh, p) -> sh = acc.1 + \sum_(iv <- l) hval g iv.1.
Proof.
elim: l acc => [|iv l IH] [s0 p0] hl /=; first by case=> -> _; rewrite big_nil addr0.
have hl' iv0 : List.In iv0 l -> mget iv0.1 (rg_verifiers g) = Some iv0.2 by move=> h; apply: hl; right.
case D: (rverifier_deal iv.2) => [d|] //; case C: (mget iv.1 _) => [q|] //.
have e : hval g iv.1 = ps_v (rd_sec d) by rewrite /hval hl ?(held_deal D) //; left.
rewrite big_cons e addrA; case: p0 => [p1|] /=; last by move/(IH _ hl').
by case: rpoly => //= p2 /(IH _ hl').
Qed.

Lemma rkey_share_sum vord (g : rdkg G) s : rdist_key_share vord g = Ok s ->
  ps_i (rk_share s) = rg_index g /\ ps_v (rk_share s) = \sum_(j <- rqual vord g) hval g j.
Proof.
rewrite rdist_key_shareE; case: ifP => // _; case E: foldo => [[sh [p|]]|||] //= -[<-] /=; split=> //.
have hl iv : List.In iv (rqual_entries vord g) -> mget iv.1 (rg_verifiers g) = Some iv.2 by move/rqual_in => [].
by rewrite (rkey_sum hl E) /= add0r /rqual big_map.
Qed.

(** ** Commitments are determined by as many values *)
Lemma gcoef (p : nat) (Q : seq nat) (cs : seq G) m : p \in [char F] -> uniq Q -> (forall i, i \in Q -> (i.+1 < p)%N) -> (size cs <= size Q)%N ->
  cs`_m = \sum_(j <- Q) (lagr [seq xcoord F i | i <- Q] (xcoord F j))`_m *: pub_share_value cs j.
Proof.
move=> ch uQ bQ sz; set xs := [seq _ | i <- Q].
have ux : uniq xs by apply: (uniq_xcoord ch) => //; apply/allP.
have e (k : 'I_(size cs)) : ('X^k : {poly F})`_m = \sum_(j <- Q) (lagr xs (xcoord F j))`_m * xcoord F j ^+ k.
  rewrite {1}(@lagrange_interp F 'X^k xs ux); last by rewrite size_polyXn /xs size_map; apply: leq_trans (ltn_ord k) sz.
  by rewrite coef_sum /xs big_map; apply: eq_bigr => j _; rewrite coefZ hornerXn mulrC.
transitivity (\sum_(k < size cs) ('X^k : {poly F})`_m *: cs`_k).
  case: (ltnP m (size cs)) => lm.
    rewrite (bigD1 (Ordinal lm)) //= coefXn eqxx scale1r big1 ?addr0 // => k; rewrite coefXn -val_eqE /= eq_sym => /negPf ->.
    by rewrite scale0r.
  by rewrite nth_default // big1 // => k _; rewrite coefXn gtn_eqF ?scale0r //; apply: leq_trans (ltn_ord k) lm.
transitivity (\sum_(k < size cs) \sum_(j <- Q) ((lagr xs (xcoord F j))`_m * xcoord F j ^+ k) *: cs`_k).
  by apply: eq_bigr => k _; rewrite -scaler_suml -e.
rewrite exchange_big /=; apply: eq_bigr => j _.
by rewrite /pub_share_value /geval scaler_sumr; apply: eq_bigr => k _; rewrite scalerA.
Qed.

(** Two continuations ([b] = true, false) of one first phase [pre] in which the participants of Q have received the deals
    of all members of their QUAL.  Whatever is sent to them afterwards - in particular whatever commitments the other
    dealers reveal, withhold or contest - if both continuations end with the same QUAL and, within each, with the same
    commitments at every participant of Q, then each participant gets the same share and the same public polynomial. *)
Theorem C109_no_bias (p : nat) (Q : seq nat) (x : nat -> F) ps t sec fp gp (g0 : nat -> rdkg G)
    (pre : nat -> seq (rgevent G)) (post : bool -> nat -> seq (rgevent G)) vord (s : bool -> nat -> rdkshare G) :
  let g b i := run (g0 i) (pre i ++ post b i) in
  suite_ok S -> (forall d, rdeal_dec (rdeal_enc d) = Some d) -> p \in [char F] -> (size ps < p)%N -> uniq Q ->
  (forall i, i \in Q -> new_rdkg S (x i) ps t (sec i) (fp i) (gp i) = Ok (g0 i) /\ rg_index (g0 i) = i) ->
  (forall b i dd k, i \in Q -> List.In (RGDeal dd k) (pre i ++ post b i) -> rdd_index dd <> i) ->
  (forall i l, perm_eq (vord i l) l) ->
  (forall b i j, i \in Q -> ris_in_qual (g b i) j -> j \in mkeys (rg_verifiers (run (g0 i) (pre i))) /\ j \notin rg_reconstructed (g b i)) ->
  (forall i j, i \in Q -> ris_in_qual (g true i) j = ris_in_qual (g false i) j) ->
  (forall b i i' j, i \in Q -> i' \in Q -> revealed_of (g b i) j = revealed_of (g b i') j) ->
  (forall b i, i \in Q -> rdist_key_share (vord i) (g b i) = Ok (s b i) /\ (size (rk_commits (s b i)) <= size Q)%N) ->
  forall i, i \in Q -> rk_share (s true i) = rk_share (s false i) /\ forall k, (rk_commits (s true i))`_k = (rk_commits (s false i))`_k.
Proof.
move=> g sok de ch np uQ hn fo pv hq same ac hs.
have bQ i : i \in Q -> (i.+1 < p)%N.
  move=> iQ; have [n1 ni] := hn i iQ; move: n1; rewrite /new_rdkg; case: ltnP => // li; case: new_rdealer => //= d [ge].
  by move: ni; rewrite -ge /= => <-; exact: leq_ltn_trans li np.
have u0 i b : i \in Q -> ukeys (g b i).
  move=> iQ; apply: ukeys_run; have [+ _] := hn i iQ.
  by rewrite /new_rdkg; case: ifP => // _; case: new_rdealer => //= d [<-].
have inq b i j : (j \in rqual (vord i) (g b i)) = ris_in_qual (g b i) j.
  by rewrite rqualE mem_filter (perm_mem (pv i _)) mget_in /ris_in_qual; case: mget => [v|] //=; exact: andbT.
have I b i : i \in Q -> ps_i (rk_share (s b i)) = i /\ ps_v (rk_share (s b i)) *: B = pub_share_value (rk_commits (s b i)) i.
  move=> iQ; have [n1 ni] := hn i iQ; have [d1 _] := hs b i iQ.
  have f1 dd k : List.In (RGDeal dd k) (pre i ++ post b i) -> rdd_index dd <> rg_index (g0 i) by rewrite ni; exact: fo.
  have nr j : j \in rqual (vord i) (g b i) -> j \notin rg_reconstructed (g b i) by rewrite inq => /hq; case.
  by have := C62_share_matches sok de n1 f1 nr d1; rewrite ni.
have pc i j : i \in Q -> j \in mkeys (rg_verifiers (run (g0 i) (pre i))) -> exists d, holds (run (g0 i) (pre i)) j d.
  move=> iQ kj; have [n1 _] := hn i iQ; have := n1; rewrite /new_rdkg /pmul /=; case: ltnP => // li.
  case E: new_rdealer => [d0|e||] //= _.
  have [_ _ h3 _] : rginv S (x i) ps t (sec i) (fp i) false d0 (run (g0 i) (pre i)).
    by apply: (rginv_run sok de li E) (rginv0 li _ E n1); elim: (pre i) => //= -[].
  move: kj; rewrite mget_in; case M: mget => [v|] // _; have [d hd _] := h3 j v M; by exists d, v.
have sh i : i \in Q -> rk_share (s true i) = rk_share (s false i).
  move=> iQ; have [i1 _] := I true i iQ; have [i2 _] := I false i iQ.
  have [_ v1] := rkey_share_sum (hs true i iQ).1; have [_ v2] := rkey_share_sum (hs false i iQ).1.
  suff : ps_v (rk_share (s true i)) = ps_v (rk_share (s false i)) by case: (rk_share _) i1 => a b /= ->; case: (rk_share _) i2 => a' b' /= -> ->.
  have pq : perm_eq (rqual (vord i) (g true i)) (rqual (vord i) (g false i)).
    apply: uniq_perm => [||j]; rewrite ?inq ?same // rqualE filter_uniq // (perm_uniq (pv _ _)); exact: u0.
  rewrite v1 v2 (perm_big _ pq) /=; apply: eq_big_seq => j; rewrite inq => qj; have [kj _] := hq false i j iQ qj.
  have [d hd] := pc i j iQ kj.
  by rewrite (@hvalE _ _ d) ?(@hvalE (g false i) _ d) // /g /rgrun foldl_cat; exact: holds_run.
move=> i iQ; split; first exact: sh.
have eqc b j : j \in Q -> rk_commits (s b j) = rk_commits (s b i).
  move=> jQ; apply: (C107_same_key_partial (hn j jQ).1 (hn i iQ).1 (pv j) (pv i) _ (hs b j jQ).1 (hs b i iQ).1) => m; exact: ac.
move=> k; rewrite (gcoef k ch uQ bQ (hs true i iQ).2) (gcoef k ch uQ bQ (hs false i iQ).2).
by apply: eq_big_seq => j jQ; rewrite -(eqc true j jQ) -(eqc false j jQ) -(I true j jQ).2 -(I false j jQ).2 sh.
Qed.
End Bias.
Print Assumptions C109_no_bias.

(** The bound on the number of commitments is needed: to participant 0 alone, participant 2 can reveal 4 + 3X or 3 + 4X
    after the first phase, both fit the one share it gave out, and the public key is 2 or 1 accordingly. *)
Definition rbpre (i : nat) : seq (rgevent V) := take 7 (rsev i [::]).
Definition rbpost (cs : seq V) (b : bool) (i : nat) : seq (rgevent V) :=
  if b then [:: RGSecret V (K1 : K); RGSecretCommits (ksc (1 - i)) (K1 : K); RGSecretCommits (kbad_sc cs) (K1 : K)]
  else [:: RGSecretCommits (kbad_sc cs) (K1 : K); RGTimeout V; RGSecretCommits (ksc (1 - i)) (K1 : K); RGSecret V (K3 : K)].
Definition rbrun (cs : seq V) (b : bool) (i : nat) : rdkg V := rgrun ktoy krdeal_enc krdeal_dec (krgen i) (rbpre i ++ rbpost cs b i).
Theorem C109_few_refuted :
  exists r1 r2, [/\ rdist_key_share id (rbrun [:: K4 : V; K3 : V] true 0) = Ok r1, rdist_key_share id (rbrun [:: K3 : V; K4 : V] true 0) = Ok r2,
    rk_share r1 = rk_share r2, ps_v (rk_share r1) *: su_base ktoy = pub_share_value (rk_commits r1) 0 /\
    ps_v (rk_share r2) *: su_base ktoy = pub_share_value (rk_commits r2) 0 & rk_public r1 <> rk_public r2].
Proof.
pose r1 := @RDKShare K V [:: K2 : V; K6 : V] (@PriShare K 0 (K1 : K)).
pose r2 := @RDKShare K V [:: K1 : V; K0 : V] (@PriShare K 0 (K1 : K)).
exists r1, r2; split.
- by vm_cast_no_check (erefl (@Ok rdkg_error _ r1)).
- by vm_cast_no_check (erefl (@Ok rdkg_error _ r2)).
- by [].
- by split; apply/eqP; rewrite /pub_share_value /geval /= !big_ord_recl big_ord0.
by [].
Qed.
Print Assumptions C109_few_refuted.

(** Participants 0 and 1 in two continuations, one of them with other nonces, another order and a timeout. *)
Example C109_nonvacuous :
  let cs := [:: K4 : V; K3 : V] in
  [/\ (forall i, i \in [:: 0; 1]%N -> new_rdkg ktoy (krkey i) krkeys 2 (krsec i) (krfp i) (krgp i) = Ok (krgen i) /\ rg_index (krgen i) = i),
      mkeys (rg_verifiers (rgrun ktoy krdeal_enc krdeal_dec (krgen 0) (rbpre 0))) = [:: 0; 1; 2]%N /\
      mkeys (rg_verifiers (rgrun ktoy krdeal_enc krdeal_dec (krgen 1) (rbpre 1))) = [:: 1; 0; 2]%N,
      all (fun i => all (fun b => (rg_reconstructed (rbrun cs b i) == [::]) && all (ris_in_qual (rbrun cs b i)) [:: 0; 1; 2]%N &&
        (mkeys (rg_verifiers (rbrun cs b i)) == mkeys (rg_verifiers (rgrun ktoy krdeal_enc krdeal_dec (krgen i) (rbpre i)))) &&
        all (fun j => revealed_of (rbrun cs b i) j == Some (nth [::] [:: [:: K2 : V; K1 : V]; [:: K3 : V; K2 : V]; cs] j)) [:: 0; 1; 2]%N)
        [:: true; false]) [:: 0; 1]%N,
      (forall b, rdist_key_share id (rbrun cs b 0) = Ok (@RDKShare K V [:: K2 : V; K6 : V] (@PriShare K 0 (K1 : K)))) &
      (forall b, rdist_key_share id (rbrun cs b 1) = Ok (@RDKShare K V [:: K2 : V; K6 : V] (@PriShare K 1 (K0 : K))))].
Proof.
move=> cs; split.
- have [_ _ H] := krfresh; by move=> i; rewrite !inE => /orP[] /eqP ->; (split; [exact: H|vm_compute]).
- split; [vm_cast_no_check (erefl [:: 0; 1; 2]%N)|vm_cast_no_check (erefl [:: 1; 0; 2]%N)].
- by vm_cast_no_check (erefl true).
- case; vm_cast_no_check (erefl (@Ok rdkg_error _ (@RDKShare K V [:: K2 : V; K6 : V] (@PriShare K 0 (K1 : K))))).
case; vm_cast_no_check (erefl (@Ok rdkg_error _ (@RDKShare K V [:: K2 : V; K6 : V] (@PriShare K 1 (K0 : K))))).
Qed.
