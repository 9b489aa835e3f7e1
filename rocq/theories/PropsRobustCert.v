(** C115, continued: with t honest dealers the Rabin key generation is certified. *)
From mathcomp Require Import all_ssreflect all_algebra.
From Verif Require Import Base Lagrange PolyModel PolySpec PolyProofs PolyProps PropsPoly Suite SuiteProofs.
From Verif Require Import VssModel VssSpec VssProofs RvssModel RvssSpec RvssProofs Toy DkgModel DkgSpec DkgProofs RdkgModel RdkgSpec RdkgProofs.
From Verif Require Import PropsVss PropsDkg PropsRdkg PropsRsplit PropsRobust.

Set Implicit Arguments.
Unset Strict Implicit.
Unset Printing Implicit Defensive.

Import GRing.Theory.
Local Open Scope ring_scope.

Section Rabin.
Variables (F : fieldType) (G : lmodType F) (S : suite G).
Variable rdeal_enc : rdeal G -> bytestr.
Variable rdeal_dec : bytestr -> option (rdeal G).
Notation B := (su_base S).
Notation run := (rgrun S rdeal_enc rdeal_dec).

(** The events [evs] of participant [i] as [j] sees to it: [j] follows the protocol as a dealer, its deal comes before any other
    signed with its key, and the approvals of at least t participants, none of whom signs a complaint, before a timeout.
    Justifications labelled [j] are [j]'s.  Everything else is arbitrary. *)
Definition dealing (ps : seq G) (t i : nat) (evs : seq (rgevent G)) (j : nat) : Prop :=
  exists (xj sj : F) (fj gj : nat -> F) (dl : rdealer G) (H : seq nat) (dd : rddeal G) (c dh kk : F) (evs1 evs2 evs3 : seq (rgevent G)),
    [/\ [/\ (j < size ps)%N, nth 0 ps j = xj *: B, su_good S xj & i <> j],
        [/\ new_rdealer S xj sj ps t fj gj = Ok dl, rdd_index dd = j, rencrypted_deal S rdeal_enc dl i dh kk = Ok (rdd_deal dd) & su_good S kk],
        [/\ uniq H, {in H, forall k, (k < size ps)%N} & (t <= size H)%N],
        [/\ (forall ev, List.In ev evs1 -> no_signed_deal S ps j ev), (forall ev, List.In ev (evs2 ++ evs3) -> fair S ps dl j H ev),
            ~ List.In (RGTimeout G) evs2 & {in H, forall k, k <> i -> k <> j -> approved S ps dl j evs2 k}] &
        evs = evs1 ++ RGDeal dd c :: evs2 ++ RGTimeout G :: evs3].

Theorem C115_rabin_certified_partial (ps : seq G) (t i : nat) (xi si : F) (fi gi : nat -> F) g0 (evs : seq (rgevent G)) (Q : seq nat) vord :
  suite_ok S -> (forall d, rdeal_dec (rdeal_enc d) = Some d) -> uniq ps ->
  new_rdkg S xi ps t si fi gi = Ok g0 -> rg_index g0 = i ->
  uniq Q -> (t <= size Q)%N -> {in Q, forall j, dealing ps t i evs j} -> (forall l, perm_eq (vord l) l) ->
  rcertified vord (run g0 evs).
Proof.
move=> okS de u ng ei uQ tQ hQ pv; rewrite /rcertified.
have -> : rg_t (run g0 evs) = t.
  have li : (seq.index (xi *: B) ps < size ps)%N by move: ng; rewrite /new_rdkg; case: ifP.
  have [dl E] : exists dl, new_rdealer S xi si ps t fi gi = Ok dl.
    by move: ng; rewrite /new_rdkg li; case E: new_rdealer => [d|||] //= _; exists d.
  have : rginv S xi ps t si fi false dl (run g0 evs).
    apply: (rginv_run okS de li E); first by elim: (evs) => //= -[].
    exact: (rginv0 li _ E ng).
  by case=> -[].
apply: leq_trans tQ _; apply: uniq_leq_size => // j jQ.
have [xj [sj [fj [gj [dl [H [dd [c [dh [kk [e1 [e2 [e3 [[lj pj gx nij] [N ej en gk] [uH HH tH] [ns fr nt ap] ->]]]]]]]]]]]]]] := hQ j jQ.
by have [] := @C115_rabin_partial F G S rdeal_enc rdeal_dec ps t i j xi si fi gi xj sj fj gj g0 dl H dd c dh kk e1 e2 e3 vord okS de u lj pj gx ng ei nij N ej en gk uH HH tH ns fr nt ap pv.
Qed.
End Rabin.
Print Assumptions C115_rabin_certified_partial.

(** *** Example: participant 0 of three, threshold 2; 1 and 2 deal and approve, 0 gets a complaint of its own making in between. *)
Definition cdl (j : nat) : rdealer V := rg_dealer (krgen j).
Definition cdd (j : nat) : rddeal V := if kmsg_deal j 0 is RGDeal dd _ then dd else RDDeal 99 (EncDeal (K0 : V) [::] [::] [::]).
Definition cresp (j k : nat) : rdresponse := if kmsg_resp j k is RGResponse r _ then r else RDResponse 99 (wsigned [::] (K0 : K) 0 false).
Definition cbad : rdresponse := RDResponse 2 (wsigned [::] (K1 : K) 1 false).
Definition cevs : seq (rgevent V) :=
  [:: wrdeals; RGDeal (cdd 1) (K1 : K); RGDeal (cdd 2) (K1 : K); RGResponse V (cresp 1 2) (K1 : K); RGResponse V cbad (K1 : K);
      RGResponse V (cresp 2 1) (K1 : K); RGTimeout V].
Lemma capproved j k evs : (j, k) \in [:: (1, 2); (2, 1)]%N -> List.In (RGResponse V (cresp j k) (K1 : K)) evs ->
  approved ktoy krkeys (cdl j) j evs k.
Proof.
rewrite !inE => /orP[] /eqP [-> ->] h; [exists (cresp 1 2), (K1 : K)|exists (cresp 2 1), (K1 : K)]; split.
- exact: h.
- by vm_cast_no_check (erefl 1%N).
- by vm_cast_no_check (erefl 2%N).
- by vm_cast_no_check (erefl (rl_sid (cdl 1))).
- by vm_cast_no_check (erefl true).
- exact: h.
- by vm_cast_no_check (erefl 2%N).
- by vm_cast_no_check (erefl 1%N).
- by vm_cast_no_check (erefl (rl_sid (cdl 2))).
- by vm_cast_no_check (erefl true).
Qed.
Definition cfairb (dl : rdealer V) (j : nat) (ev : rgevent V) : bool :=
  match ev with
  | RGJustification _ => false
  | RGResponse r _ => (rdr_index r != j) || (r_sid (rdr_resp r) != rl_sid dl) || r_status (rdr_resp r)
  | _ => true end.
Lemma cfair dl j H evs : all (cfairb dl j) evs -> forall ev, List.In ev evs -> fair ktoy krkeys dl j H ev.
Proof.
elim: evs => //= ev evs IH /andP[h hs] ev' [<-|]; last exact: IH.
case: ev h => //= r _ h e1 e2 _ _; move: h; rewrite e1 e2 !eqxx; exact.
Qed.
Definition cnodealb (j : nat) (ev : rgevent V) : bool := if ev is RGDeal dd _ then rdd_index dd != j else true.
Lemma cnodeal j evs : all (cnodealb j) evs -> forall ev, List.In ev evs -> no_signed_deal ktoy krkeys j ev.
Proof.
elim: evs => //= ev evs IH /andP[h hs] ev' [<-|]; last exact: IH.
by case: ev h => //= dd _ /eqP.
Qed.
Lemma cnotime evs : all (fun ev : rgevent V => if ev is RGTimeout then false else true) evs -> ~ List.In (RGTimeout V) evs.
Proof. by elim: evs => [|ev evs IH] /= => [_ []|/andP[h hs] [e|/(IH hs)]] //; rewrite e in h. Qed.

Lemma cdealing1 : dealing ktoy krdeal_enc krkeys 2 0 cevs 1.
Proof.
have [u h gen] := krfresh; have H1 := gen 1%N isT.
have N1 : new_rdealer ktoy (krkey 1) (krsec 1) krkeys 2 (krfp 1) (krgp 1) = Ok (cdl 1).
  by move: H1; rewrite /new_rdkg /cdl; case: ltnP => // _; case E: new_rdealer => [d|||] //= [<-].
exists (krkey 1), (krsec 1), (krfp 1), (krgp 1), (cdl 1), [:: 1; 2]%N, (cdd 1), (K1 : K), (K2 : K), (K1 : K), (take 1 cevs), (take 4 (drop 2 cevs)), [::].
split.
- by split; [|apply/eqP; vm_cast_no_check (erefl true)|vm_cast_no_check (erefl true)|].
- split; [exact: N1| | |].
  + by vm_cast_no_check (erefl 1%N).
  + by vm_cast_no_check (erefl (@Ok vss_error _ (rdd_deal (cdd 1)))).
  + by vm_cast_no_check (erefl true).
- by split=> // k; rewrite !inE => /orP[] /eqP ->.
- split.
  + by apply: cnodeal; vm_cast_no_check (erefl true).
  + by apply: cfair; vm_cast_no_check (erefl true).
  + by apply: cnotime; vm_cast_no_check (erefl true).
  + move=> k; rewrite !inE => /orP[] /eqP -> h1 h2; first by case: h2.
    by apply: capproved; [|right; left].
- by [].
Qed.
Lemma cdealing2 : dealing ktoy krdeal_enc krkeys 2 0 cevs 2.
Proof.
have [u h gen] := krfresh; have H1 := gen 2%N isT.
have N1 : new_rdealer ktoy (krkey 2) (krsec 2) krkeys 2 (krfp 2) (krgp 2) = Ok (cdl 2).
  by move: H1; rewrite /new_rdkg /cdl; case: ltnP => // _; case E: new_rdealer => [d|||] //= [<-].
exists (krkey 2), (krsec 2), (krfp 2), (krgp 2), (cdl 2), [:: 1; 2]%N, (cdd 2), (K1 : K), (K2 : K), (K1 : K), (take 2 cevs), (take 3 (drop 3 cevs)), [::].
split.
- by split; [|apply/eqP; vm_cast_no_check (erefl true)|vm_cast_no_check (erefl true)|].
- split; [exact: N1| | |].
  + by vm_cast_no_check (erefl 2%N).
  + by vm_cast_no_check (erefl (@Ok vss_error _ (rdd_deal (cdd 2)))).
  + by vm_cast_no_check (erefl true).
- by split=> // k; rewrite !inE => /orP[] /eqP ->.
- split.
  + by apply: cnodeal; vm_cast_no_check (erefl true).
  + by apply: cfair; vm_cast_no_check (erefl true).
  + by apply: cnotime; vm_cast_no_check (erefl true).
  + move=> k; rewrite !inE => /orP[] /eqP -> h1 h2; last by case: h2.
    by apply: capproved; [|right; right; left].
- by [].
Qed.
Example C115_rabin_certified_nonvacuous : rcertified id (wrun (krgen 0) cevs).
Proof.
have [u h gen] := krfresh; have H0 := gen 0%N isT.
apply: (@C115_rabin_certified_partial K V ktoy krdeal_enc krdeal_dec krkeys 2 0 (krkey 0) (krsec 0) (krfp 0) (krgp 0) (krgen 0) cevs [:: 1; 2]%N
  id ktoy_ok krdeal_dec_enc u H0).
- by vm_cast_no_check (erefl 0%N).
- by [].
- by [].
- by move=> j; rewrite !inE => /orP[] /eqP ->; [exact: cdealing1|exact: cdealing2].
- by move=> l; exact: perm_refl.
Qed.
