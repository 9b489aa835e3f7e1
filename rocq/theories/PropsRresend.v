(** Property C110: an upheld commitment complaint is final, src/share/dkg/rabin/dkg.rs.  It is not: the commitments a
    complaint removed come back when the same message is delivered once more. *)
From mathcomp Require Import all_ssreflect all_algebra.
From mathcomp Require Import zify.
From Verif Require Import Base Lagrange PolyModel PolySpec PolyProofs PolyProps PropsPoly Suite SuiteProofs.
From Verif Require Import VssModel VssSpec VssProofs RvssModel RvssSpec RvssProofs Toy DkgModel DkgSpec DkgProofs RdkgModel RdkgSpec RdkgProofs PropsRdkg.

Set Implicit Arguments.
Unset Strict Implicit.
Unset Printing Implicit Defensive.

Import GRing.Theory.
Local Open Scope ring_scope.
Local Open Scope outcome_scope.

Section Final.
Variables (F : fieldType) (G : lmodType F) (S : suite G).
Variables (rdeal_enc : rdeal G -> bytestr) (rdeal_dec : bytestr -> option (rdeal G)).
Notation run := (rgrun S rdeal_enc rdeal_dec).
Notation step := (rgstep S rdeal_enc rdeal_dec).
Notation B := (su_base S).
Variable j : nat.

(** No commitments of dealer j are revealed to participant i any more. *)
Definition quiet (i : nat) (ev : rgevent G) : bool :=
  match ev with RGSecretCommits sc _ => sc_index sc != j | RGSecret _ => i != j | _ => true end.

(** The fields this is about, after a step that touches neither of them. *)
Definition kept (g g' : rdkg G) : Prop :=
  [/\ rg_index g' = rg_index g, rg_commits g' = rg_commits g & rg_reconstructed g' = rg_reconstructed g].
Lemma kept_refl g : kept g g. Proof. by []. Qed.
Lemma kept_ver g m v : kept g (rg_set_ver g m v). Proof. by []. Qed.

Lemma kept_deal g dd k : kept g (rgprocess_deal S rdeal_dec g dd k).1.
Proof.
rewrite /rgprocess_deal; case: rg_find_pub => // P; case: mget => // ; case: new_rverifier => // v.
by case: rprocess_encrypted_deal => v' [] .
Qed.
Lemma kept_deals g rnd k : kept g (rgdeals S rdeal_enc rdeal_dec g rnd k).1.
Proof.
rewrite /rgdeals; case: rencrypted_deals => // ds.
have {2}-> : g = (g, Ok [::] : outcome rdkg_error (seq (nat * rddeal G))).1 by [].
have : kept g (g, Ok [::] : outcome rdkg_error (seq (nat * rddeal G))).1 by [].
elim: (iota _ _) (g, _) => //= a l IH [g1 [dd|e||]] //= u; apply: IH => //=.
case: (nth None _ _) => [e|] //; case: ifP => // _; case: mget => //.
have [h1 h2 h3] := kept_deal g1 (RDDeal (rg_index g1) e) k; case: u => u1 u2 u3.
have {}u : kept g (rgprocess_deal S rdeal_dec g1 (RDDeal (rg_index g1) e) k).1 by split; rewrite ?h1 ?h2 ?h3.
by case: rgprocess_deal u {h1 h2 h3} => g' [r|e'||] //= u'; case: ifP.
Qed.

Lemma quiet_step g ev : quiet (rg_index g) ev -> let g' := step g ev in
  [/\ rg_index g' = rg_index g,
      (j \in rg_reconstructed g -> j \in rg_reconstructed g' /\ (mget j (rg_commits g') = mget j (rg_commits g) \/ mget j (rg_commits g') = None)) &
      (mget j (rg_commits g) = None -> mget j (rg_commits g') = None \/ (j \in rg_reconstructed g' /\ j \notin rg_reconstructed g))].
Proof.
have K g' : kept g g' -> [/\ rg_index g' = rg_index g,
      (j \in rg_reconstructed g -> j \in rg_reconstructed g' /\ (mget j (rg_commits g') = mget j (rg_commits g) \/ mget j (rg_commits g') = None)) &
      (mget j (rg_commits g) = None -> mget j (rg_commits g') = None \/ (j \in rg_reconstructed g' /\ j \notin rg_reconstructed g))].
  by case=> -> -> ->; split=> //; [split=> //; left|left].
case: ev => [rnd k|dd k|r k|jj||k|sc k|cc k|hord rc] /= q.
- by apply: K; exact: kept_deals.
- by apply: K; exact: kept_deal.
- apply: K; rewrite /rgprocess_response; case: mget => // v; case: rverifier_process_response => v' [x|e||] //=.
  case: ifP => //= _; case: rdealer_process_response => d [[jj|]|e||] //=.
  by case: rverifier_process_justification.
- by apply: K; rewrite /rgprocess_justification; case: mget => // v; case: rverifier_process_justification.
- exact: K.
- rewrite /rsecret_commits; case: ifP => [_|_]; first exact: K.
  case: rdealer_commits => [cs|]; last exact: K.
  by split=> //= [h|h]; rewrite mget_minsert eq_sym (negPf q); [split=> //; left|left].
- rewrite /rprocess_secret_commits; case: rg_find_pub => [P|]; last exact: K.
  case: ifP => _; first exact: K.
  case: mget => [v|]; last exact: K.
  case: rverifier_session_id => [sid|e||]; try exact: K.
  case: ifP => _; first exact: K.
  case: ifP => _; first exact: K.
  case: rverifier_deal => [d|]; last exact: K.
  case: pub_check => [[]|e||]; try exact: K.
  by split=> //= [h|h]; rewrite mget_minsert eq_sym (negPf q); [split=> //; left|left].
- rewrite /rprocess_complaint_commits; case: rg_find_pub => [P|]; last exact: K.
  case: ifP => _; first exact: K.
  case: ifP => _; first exact: K.
  case: mget => [v|]; last exact: K.
  case: rv_agg => [a|]; last exact: K.
  case: rverify_deal => a' [x|e||] /=; try exact: K.
  case: mget => [p|] /=; last exact: K.
  case: pub_check => [[]|e||] /=; try exact: K.
  case: rverifier_deal => [d|] /=; last exact: K.
  split=> //= h; rewrite mget_mremove.
  + by split=> //; case: ifP => _; [right|left].
  + by case: ifP => _; left.
rewrite /rprocess_reconstruct_commits; case: ifP => nr; first exact: K.
case C: mget => [p|]; first exact: K.
case: rg_find_pub => [P|]; last exact: K.
case: ifP => _; first exact: K.
case: rscan => [o|]; first exact: K.
case: ifP => _; last exact: K.
case: recover_pri_poly => [pri|e||] /=; try exact: K.
split=> // h.
  rewrite inE h orbT mget_minsert; split=> //; left; case: eqP => // e; by rewrite -e h in nr.
rewrite mget_minsert inE; case: (eqVneq j (rc_dealer rc)) => [e|ne] /=; last by left.
by right; rewrite e nr.
Qed.

Lemma quiet_run g evs : all (quiet (rg_index g)) evs ->
  (j \in rg_reconstructed g -> j \in rg_reconstructed (run g evs) /\
     (mget j (rg_commits (run g evs)) = mget j (rg_commits g) \/ mget j (rg_commits (run g evs)) = None)) /\
  (mget j (rg_commits g) = None -> mget j (rg_commits (run g evs)) = None \/ (j \in rg_reconstructed (run g evs) /\ j \notin rg_reconstructed g)).
Proof.
elim: evs g => [|ev evs IH] g /=; first by move=> _; split=> [h|h]; [split=> //; left|left].
case/andP=> q qs; have [h1 h2 h3] := quiet_step q; rewrite -h1 in qs; have [i1 i2] := IH _ qs; split.
  move=> jr; have [a b] := h2 jr; have [a' b'] := i1 a; split=> //.
  by case: b' => [->|->]; [exact: b|right].
move=> c0; case: (boolP (j \in rg_reconstructed g)) => jr.
  left; have [a b] := h2 jr; have [_ [->|->]] := i1 a => //; by case: b => ->.
case: (h3 c0) => [c1|[r1 _]].
  by case: (i2 c1) => [->|[r _]]; [left|right].
by right; have [] := i1 r1.
Qed.

(** As long as the dealer's commitments are not revealed again, a complaint is final: from a state without commitments of
    j - such as the one a complaint leaves - commitments of j can only come from a reconstruction, and reconstructed
    commitments are not replaced. *)
Theorem C110_final_partial g evs : all (quiet (rg_index g)) evs ->
  (mget j (rg_commits g) = None -> forall p, mget j (rg_commits (run g evs)) = Some p ->
     j \in rg_reconstructed (run g evs) /\ j \notin rg_reconstructed g) /\
  (j \in rg_reconstructed g -> forall p, mget j (rg_commits (run g evs)) = Some p -> mget j (rg_commits g) = Some p).
Proof.
move=> q; have [h1 h2] := quiet_run q; split=> [c0|jr] p.
  by case: (h2 c0) => [-> //|[a b] _].
by have [_ [->|->]] := h1 jr.
Qed.

(** Commitments reconstructed once are not reconstructed again: if they get lost, the participant never gets a key. *)
Theorem C110_lost g evs vord : all (quiet (rg_index g)) evs -> (forall l, perm_eq (vord l) l) ->
  j \in rg_reconstructed g -> mget j (rg_commits g) = None -> ris_in_qual (run g evs) j ->
  mget j (rg_commits (run g evs)) = None /\ ~~ is_ok (rdist_key_share vord (run g evs)).
Proof.
move=> q pv jr c0 jq; have [h1 _] := quiet_run q.
have cn : mget j (rg_commits (run g evs)) = None by have [_ [->|->]] := h1 jr.
split=> //; rewrite rdist_key_shareE; case: ifP => // _; set g' := run g evs in cn jq *.
have : List.In j (map fst (rqual_entries vord g')).
  apply/In_mem; rewrite /rqual_entries; have : j \in vord (mkeys (rg_verifiers g')).
    by rewrite (perm_mem (pv _)) mget_in; move: jq; rewrite /ris_in_qual; case: mget.
  move: jq; rewrite /ris_in_qual; case M: mget => [v|] // cv; elim: (vord _) => //= m l IH.
  rewrite inE; case: (eqVneq j m) => [<- _|ne /= jl]; first by rewrite M cv /= mem_head.
  by case: mget => [w|] /=; [case: ifP => _ /=; rewrite ?inE IH ?orbT|exact: IH].
move: (rqual_entries vord g') (0, None) => l; elim: l => //= iv l IH [sh p] [e|h]; rewrite {1}/rkey_step.
  by case: (rverifier_deal iv.2) => // d; rewrite e cn.
case: (rverifier_deal iv.2) => // d; case: (mget iv.1 _) => // p'; case: p => [p|] /=; last exact: IH.
by case: (rpoly _) => //= p2; exact: IH.
Qed.
End Final.
Print Assumptions C110_final_partial.
Print Assumptions C110_lost.

(** The full statement is false.  Dealer 2 reveals 1 + X instead of 4 + 3X; participant 0 complains, participant 1 answers,
    the dealer publishes its own (correct) share, and both honest participants reconstruct 4 + 3X and would finish with the
    same key.  Then the dealer's first message is broadcast once more, by anybody.  Participant 0 complains again and keeps
    the reconstructed commitments; participant 1 puts the contested ones back, so that the two have different keys.  When
    the second complaint arrives, participant 1 drops them, and by [C110_lost] nothing gives it a key any more. *)
Definition krc2 : reconstruct_commits K :=
  let rc := @ReconstructCommits K (rc_sid krc1) 2 2 (@PriShare K 2 (K6 : K)) [::] in
  @ReconstructCommits K (rc_sid krc1) 2 2 (@PriShare K 2 (K6 : K)) (su_sign ktoy (K3 : K) (rc_hash ktoy rc) (K1 : K)).
Definition kf0 := (kprocess_rc (kprocess_rc (kprocess_sc (kr 0) kwrong).1 krc1).1 krc2).1.
Definition kf1 := (kprocess_rc (kprocess_cc kr1' kcc).1 krc2).1.
Definition kf0' := (kprocess_sc kf0 kwrong).1.
Definition kf1' := (kprocess_sc kf1 kwrong).1.
Definition kcc' := get_cc (kprocess_sc kf0 kwrong).2.
Definition kf1'' := (kprocess_cc kf1' kcc').1.
Theorem C110_resend_refuted :
  exists s0 s1 s1', [/\ [/\ (kprocess_sc (kr 0) kwrong).2 = Ok (Some kcc), (kprocess_cc kr1' kcc).2 = Ok krc1,
        (kprocess_rc (kprocess_rc (kprocess_sc (kr 0) kwrong).1 krc1).1 krc2).2 = Ok tt, (kprocess_rc (kprocess_cc kr1' kcc).1 krc2).2 = Ok tt &
        rc_share krc2 = @PriShare K 2 (share_value (rhpoly 2 krsec krfp 2) 2)],
      [/\ rdist_key_share id kf0 = Ok s0, rdist_key_share id kf1 = Ok s1 & rk_commits s0 = rk_commits s1],
      [/\ (kprocess_sc kf0 kwrong).2 = Ok (Some kcc'), (kprocess_sc kf1 kwrong).2 = Ok None,
          rdist_key_share id kf0' = Ok s0, rdist_key_share id kf1' = Ok s1' & rk_public s0 <> rk_public s1'] &
      [/\ is_ok (kprocess_cc kf1' kcc').2, 2%N \in rg_reconstructed kf1'', mget 2 (rg_commits kf1'') = None & ris_in_qual kf1'' 2]].
Proof.
pose s0 := @RDKShare K V [:: K2 : V; K6 : V] (@PriShare K 0 (K1 : K)).
pose s1 := @RDKShare K V [:: K2 : V; K6 : V] (@PriShare K 1 (K0 : K)).
pose s1' := @RDKShare K V [:: K6 : V; K4 : V] (@PriShare K 1 (K0 : K)).
exists s0, s1, s1'; split; split.
- by apply: get_ccE; vm_cast_no_check (erefl true).
- by apply: get_rcE; vm_cast_no_check (erefl true).
- by vm_cast_no_check (erefl (@Ok rdkg_error _ tt)).
- by vm_cast_no_check (erefl (@Ok rdkg_error _ tt)).
- by congr PriShare; apply/eqP; rewrite /share_value /peval /= !big_ord_recl big_ord0.
- by vm_cast_no_check (erefl (@Ok rdkg_error _ s0)).
- by vm_cast_no_check (erefl (@Ok rdkg_error _ s1)).
- by [].
- by apply: get_ccE; vm_cast_no_check (erefl true).
- by vm_cast_no_check (erefl (@Ok rdkg_error (option (complaint_commits V)) None)).
- by vm_cast_no_check (erefl (@Ok rdkg_error _ s0)).
- by vm_cast_no_check (erefl (@Ok rdkg_error _ s1')).
- by [].
- by vm_cast_no_check (erefl true).
- by vm_cast_no_check (erefl true).
- by vm_cast_no_check (erefl (@None (pub_poly V))).
- by vm_cast_no_check (erefl true).
Qed.
Print Assumptions C110_resend_refuted.

(** The state of participant 1 after the first complaint, in which the reconstruct messages arrive: no commitments of
    dealer 2 before, the reconstructed ones after; and the state in which it has lost them for good. *)
Example C110_nonvacuous :
  [/\ mget 2 (rg_commits (kprocess_cc kr1' kcc).1) = None, isSome (mget 2 (rg_commits kf1)), all (quiet 2 (rg_index kr1')) [:: RGReconstruct V (fun _ l => l) krc2],
      2%N \in rg_reconstructed kf1 & 2%N \notin rg_reconstructed (kprocess_cc kr1' kcc).1].
Proof.
split.
- by vm_cast_no_check (erefl (@None (pub_poly V))).
- by vm_cast_no_check (erefl true).
- by [].
- by vm_cast_no_check (erefl true).
- by vm_cast_no_check (erefl true).
Qed.
