(** Proofs about resharing. *)
From mathcomp Require Import all_ssreflect all_algebra zify.
From Verif Require Import Base Lagrange PolyModel PolySpec PolyProofs PolyProps Suite SuiteProofs VssModel VssSpec VssProofs
  DkgModel DkgSpec DkgProofs ReshareSpec.

Set Implicit Arguments.
Unset Strict Implicit.
Unset Printing Implicit Defensive.

Import GRing.Theory.
Local Open Scope ring_scope.
Local Open Scope outcome_scope.

Section Collect.
Variable F : fieldType.

(** Only the first t entries count. *)
Lemma xy_loop_take (T : Type) t (l : seq (nat * T)) (x : seq (nat * F)) y : uniq (pidx l) ->
  (forall i, i \in pidx l -> i \notin mkeys x) -> (size x < t)%N ->
  xy_loop t l x y = xy_loop t (take (t - size x) l) x y.
Proof.
elim: l x y => [|[i v] l IH] x y //= /andP[ni ul] dis lt.
have nix : i \notin mkeys x by apply: dis; rewrite mem_head.
have sz : size (minsert i (xcoord F i) x) = (size x).+1.
  by rewrite -!size_mkeys mkeys_minsert (negPf nix) size_rcons.
have -> : (t - size x = (t - (size x).+1).+1)%N by lia.
rewrite /= sz; case: eqP => // ne; rewrite IH ?sz //; last by lia.
move=> j jl; rewrite mkeys_minsert (negPf nix) mem_rcons in_cons negb_or; apply/andP; split.
  by apply/eqP => e; rewrite -e jl in ni.
by apply: dis; rewrite inE jl orbT.
Qed.

Variables (T : Type) (v : nat -> T) (cap t : nat).
Definition offered (c : pred nat) : seq (option (nat * T)) := [seq (if c j then Some (j, v j) else None) | j <- iota 0 cap].

Lemma present_offered c : pmap id (offered c) = [seq (j, v j) | j <- [seq j <- iota 0 cap | c j]].
Proof. by rewrite /offered; elim: (iota 0 cap) => //= j l IH; case: (c j) => /=; rewrite IH. Qed.

Lemma collect_offered c : (0 < t)%N ->
  let D := take t [seq j <- iota 0 cap | c j] in
  xy_collect F (offered c) t = xy_collect F (offered (mem D)) t.
Proof.
move=> t0 D; rewrite /xy_collect !present_offered.
have DE : [seq j <- iota 0 cap | mem D j] = D.
  by apply/esym/subseq_uniqP; [exact: iota_uniq|exact: subseq_trans (take_subseq _ _) (filter_subseq _ _)].
have so (L : seq nat) : subseq L (iota 0 cap) -> sort (fun a b : nat * T => a.1 <= b.1)%N [seq (j, v j) | j <- L] = [seq (j, v j) | j <- L].
  move=> sL; apply: sorted_sort; first by move=> a b d; exact: leq_trans.
  rewrite sorted_map /=; apply: (subseq_sorted _ sL); first by move=> a b d; exact: leq_trans.
  exact: iota_sorted.
rewrite DE !so ?filter_subseq //; last exact: subseq_trans (take_subseq _ _) (filter_subseq _ _).
have pE (L : seq nat) : pidx [seq (j, v j) | j <- L] = L by rewrite /pidx -map_comp map_id.
rewrite xy_loop_take ?pE //= ?filter_uniq ?iota_uniq // subn0 -map_take -/D.
by [].
Qed.
End Collect.

Section Interp.
Variables (F : fieldType) (p : nat).
Hypothesis charF : p \in [char F].
Variables (D : seq nat).
Hypothesis uD : uniq D.
Hypothesis bD : all (fun j => j.+1 < p)%N D.
Notation xs := [seq xcoord F j | j <- D].

Definition interp (y : nat -> F) : {poly F} := \sum_(j <- D) y j *: lagr xs (xcoord F j).

Let uxs : uniq xs. Proof. exact: (uniq_xcoord charF). Qed.

Lemma size_interp y : (size (interp y) <= size D)%N.
Proof.
rewrite /interp big_seq; apply: (big_ind (fun q : {poly F} => (size q <= size D)%N)).
- by rewrite size_poly0.
- by move=> a b ha hb; apply: leq_trans (size_add _ _) _; rewrite geq_max ha.
- move=> j jD; apply: leq_trans (size_scale_leq _ _) _.
  by rewrite -(size_map (xcoord F) D); apply: size_lagr => //; exact: map_f.
Qed.

Lemma interp_at y k : k \in D -> (interp y).[xcoord F k] = y k.
Proof.
move=> kD; rewrite /interp horner_sum (big_rem k) //= hornerZ lagr_self mulr1 big_seq big1 ?addr0 // => j.
rewrite rem_filter // mem_filter => /andP[/= njk jD]; rewrite hornerZ lagr_other ?mulr0 ?map_f //.
apply: contra njk => /eqP e; apply/eqP/esym; apply: (xcoord_inj charF) e; exact: (allP bD).
Qed.

Lemma interp_0 y : (interp y).[0] = \sum_(j <- D) weight F D j * y j.
Proof.
rewrite /interp horner_sum big_seq [RHS]big_seq; apply: eq_bigr => j jD.
by rewrite hornerZ lagr_at0 mulrC (lag0_keys charF).
Qed.

Lemma interp_unique (q : {poly F}) y : (size q <= size D)%N -> (forall j, j \in D -> q.[xcoord F j] = y j) -> interp y = q.
Proof.
move=> sq e; apply: (lagrange_unique uxs); rewrite ?size_map //; first exact: size_interp.
by move=> _ /mapP[j jD ->]; rewrite interp_at // e.
Qed.
End Interp.

Section Key.
Variables (F : fieldType) (G : lmodType F) (S : suite G).
Notation B := (su_base S).
Variables (p : nat) (g : dkg G) (f : nat -> seq F) (vord : seq nat -> seq nat) (hord : nat -> hash_order F).
Notation n := (size (g_verifiers g)).
Notation i := (g_nidx g).
Notation t := (g_old_t g).
Notation t' := (g_new_t g).
Hypothesis charF : p \in [char F].
Hypothesis np : (n < p)%N.
Hypothesis keysE : mkeys (g_verifiers g) = iota 0 n.
Hypothesis pv : forall l, perm_eq (vord l) l.
Hypothesis ph : forall q k l, perm_eq (hord q k l) l.
Definition cert j : bool := if mget j (g_verifiers g) is Some v then deal_certified (v_agg v) else false.
Hypothesis dealt : forall j v, mget j (g_verifiers g) = Some v -> deal_certified (v_agg v) ->
  exists2 d, a_deal (v_agg v) = Some d & d_commits d = [seq c *: B | c <- f j] /\ ps_v (d_share d) = share_value (f j) i.
Hypothesis sizef : forall j, cert j -> size (f j) = t'.
Hypothesis t0 : (0 < t)%N.
Hypothesis t'0 : (0 < t')%N.
Notation D := (take t [seq j <- iota 0 n | cert j]).
Hypothesis enough : (t <= size [seq j <- iota 0 n | cert j])%N.

Lemma sizeD : size D = t. Proof. by rewrite size_takel. Qed.
Lemma uniqD : uniq D. Proof. by rewrite take_uniq // filter_uniq // iota_uniq. Qed.
Lemma inD j : j \in D -> cert j /\ (j < n)%N.
Proof. by move/mem_take; rewrite mem_filter mem_iota add0n => /andP[-> /andP[_ ->]]. Qed.
Lemma boundD : all (fun j => j.+1 < p)%N D.
Proof. by apply/allP => j /inD [_ lt]; exact: leq_ltn_trans np. Qed.

Definition res_step (acc : seq (option (pri_share F)) * seq (option (seq G))) (iv : nat * verifier G)
  : outcome dkg_error (seq (option (pri_share F)) * seq (option (seq G))) :=
  let '(shares, coeffs) := acc in
  let! d := of_option (verifier_deal iv.2) in
  if (n <= iv.1)%N then Panic else
  Ok (set_nth None shares iv.1 (Some (PriShare iv.1 (ps_v (d_share d)))), set_nth None coeffs iv.1 (Some (d_commits d))).
Definition com_step (coeffs : seq (option (seq G))) (acc : seq G) (m : nat) : outcome dkg_error (seq G) :=
  let! tmp := foldo (fun tmp j =>
      match nth None coeffs j with
      | None => Ok (rcons tmp None)
      | Some cs => let! c := of_option (nth None (map Some cs) m) in Ok (rcons tmp (Some (PubShare j c)))
      end) [::] (iota 0 (size coeffs)) in
  let! c := dpoly (recover_commit (hord m.+1) tmp t) in
  Ok (rcons acc c).
Lemma resharing_keyE : resharing_key S vord hord g =
  let good := take_while (fun iv => isSome (verifier_deal iv.2)) (qual_entries vord g) in
  let! st := foldo res_step (nseq n None, nseq n None) good in
  let '(shares, coeffs) := st in
  let! pp := dpoly (recover_pri_poly (hord 0%N) shares t) in
  let! sec := dpoly (pri_secret pp) in
  let private_share := PriShare i sec in
  let! final := foldo (com_step coeffs) [::] (iota 0 t') in
  let! ok := dpoly (pub_check B (PubPoly None final) private_share) in
  if ~~ ok then Err ShareDoesNotMatchPublicPoly else Ok (DKShare final private_share pp).
Proof. by []. Qed.

Lemma good_all : take_while (fun iv => isSome (verifier_deal iv.2)) (qual_entries vord g) = qual_entries vord g.
Proof.
have : forall iv, List.In iv (qual_entries vord g) -> isSome (verifier_deal iv.2).
  move=> [j v] /qual_entries_in [/= M C]; rewrite /verifier_deal C /=.
  by have [d -> _] := dealt M C.
elim: (qual_entries vord g) => //= iv l IH H; rewrite (H iv (or_introl erefl)) IH // => iv' h'.
by apply: H; right.
Qed.

Definition sh_of (c : pred nat) : seq (option (pri_share F)) := [seq (if c j then Some (PriShare j (share_value (f j) i)) else None) | j <- iota 0 n].
Definition co_of (c : pred nat) : seq (option (seq G)) := [seq (if c j then Some [seq x *: B | x <- f j] else None) | j <- iota 0 n].

Lemma set_nth_map (A : Type) (h : nat -> A) (c : pred nat) j : (j < n)%N ->
  set_nth None [seq (if c q then Some (h q) else None) | q <- iota 0 n] j (Some (h j)) =
  [seq (if (q == j) || c q then Some (h q) else None) | q <- iota 0 n].
Proof.
move=> lj; apply: (@eq_from_nth _ None).
  by rewrite size_set_nth !size_map !size_iota; apply/maxn_idPr.
move=> q; rewrite size_set_nth !size_map !size_iota (maxn_idPr lj) => lq.
rewrite nth_set_nth /= !(nth_map 0%N) ?size_iota // nth_iota // add0n.
by case: (eqVneq q j) => [->|].
Qed.

Lemma walk : foldo res_step (nseq n None, nseq n None) (qual_entries vord g) = Ok (sh_of cert, co_of cert).
Proof.
have H l c : (forall j, j \in l -> (j < n)%N) ->
  foldo res_step (sh_of c, co_of c) (pmap (fun j => if mget j (g_verifiers g) is Some v then
                   if deal_certified (v_agg v) then Some (j, v) else None else None) l)
  = Ok (sh_of (fun q => c q || ((q \in l) && cert q)), co_of (fun q => c q || ((q \in l) && cert q))).
  elim: l c => [|j l IH] c bl /=.
    by congr (Ok (_, _)); apply: eq_map => q; rewrite orbF.
  have lj : (j < n)%N by apply: bl; rewrite mem_head.
  have bl' q : q \in l -> (q < n)%N by move=> ql; apply: bl; rewrite inE ql orbT.
  have skip : cert j = false -> forall q, c q || ((q \in l) && cert q) = c q || ((q \in j :: l) && cert q).
    by move=> nc q; rewrite inE; case: (eqVneq q j) => [->|] //; rewrite nc !andbF.
  case M: (mget j (g_verifiers g)) => [v|]; last first.
    rewrite IH //; congr (Ok (_, _)); apply: eq_map => q; rewrite skip // /cert M //.
  case C: (deal_certified (v_agg v)); last first.
    rewrite IH //; congr (Ok (_, _)); apply: eq_map => q; rewrite skip // /cert M //.
  have [d e1 [e2 e3]] := dealt M C; rewrite /= /verifier_deal C /= e1 /= leqNgt lj /= e2 e3.
  have cj : cert j by rewrite /cert M.
  rewrite [sh_of c]/(map _ _) (set_nth_map (fun q => PriShare q (share_value (f q) i)) c lj).
  rewrite [co_of c]/(map _ _) (set_nth_map (fun q => [seq x *: B | x <- f q]) c lj).
  rewrite (IH (fun q => (q == j) || c q)) //; congr (Ok (_, _)); apply: eq_map => q; rewrite inE.
    by case: (eqVneq q j) => [->|] //; rewrite cj /= !orbT.
  by case: (eqVneq q j) => [->|] //; rewrite cj /= !orbT.
have -> : (nseq n None, nseq n None) = (sh_of pred0, co_of pred0).
  by rewrite /sh_of /co_of; elim: (n) (0%N) => //= m IH k; case: (IH k.+1) => -> ->.
have pk := perm_mem (pv (mkeys (g_verifiers g))).
rewrite /qual_entries H => [|j]; last by rewrite pk keysE mem_iota.
congr (Ok (_, _)); apply/eq_in_map => q; rewrite mem_iota => /andP[_ lq] /=.
  by rewrite pk keysE mem_iota lq.
by rewrite pk keysE mem_iota lq.
Qed.

Lemma pmap_of (A C : Type) (h : nat -> A) (k : A -> C) (c : pred nat) :
  [seq k a | a <- pmap id [seq (if c j then Some (h j) else None) | j <- iota 0 n]] = [seq k (h j) | j <- [seq j <- iota 0 n | c j]].
Proof. by elim: (iota 0 n) => //= j l IH; case: (c j) => /=; rewrite IH. Qed.
Lemma filterD : [seq j <- iota 0 n | mem D j] = D.
Proof.
by apply/esym/subseq_uniqP; [exact: iota_uniq|exact: subseq_trans (take_subseq _ _) (filter_subseq _ _)].
Qed.
Lemma In_of (A : Type) (h : nat -> A) (c : pred nat) a :
  List.In (Some a) [seq (if c j then Some (h j) else None) | j <- iota 0 n] -> exists2 j, c j & a = h j.
Proof. by elim: (iota 0 n) => //= j l IH [|/IH //]; case cj: (c j) => // -[<-]; exists j. Qed.

Lemma horner0_head (q : {poly F}) : q.[0] = head 0 q.
Proof. by rewrite horner_coef0; case: (polyseq q). Qed.

(** The private part. *)
Lemma pri_part : exists2 pp, recover_pri_poly (hord 0%N) (sh_of cert) t = Ok pp &
  pri_secret pp = Ok (\sum_(j <- D) weight F D j * share_value (f j) i).
Proof.
pose y j := share_value (f j) i; pose q := interp D y.
have -> : recover_pri_poly (hord 0%N) (sh_of cert) t = recover_pri_poly (hord 0%N) (sh_of (mem D)) t.
  have E c : map (@ps_pair F) (sh_of c) = offered y n c.
    by rewrite /sh_of /offered -map_comp; apply: eq_map => j /=; case: (c j).
  by rewrite /recover_pri_poly /xy_scalar -!/(map (@ps_pair F) _) !E (collect_offered F y n cert t0).
have sq : (size q <= t)%N by have := size_interp charF uniqD boundD y; rewrite sizeD.
have gq : genuine p q (sh_of (mem D)).
  move=> s si; have [j jD ->] := In_of si; split; last exact: (allP boundD).
  have := pri_eval_v q j; rewrite polyseqK => /= e; rewrite /pri_eval; congr PriShare.
  by rewrite e (interp_at charF uniqD boundD).
have si : (t <= size (pri_indices (sh_of (mem D))))%N.
  by rewrite /pri_indices /sh_of pmap_of filterD /= map_id undup_id ?uniqD // sizeD.
rewrite (recover_pri_poly_correct charF (ph 0%N) gq t0 sq si); eexists; first reflexivity.
rewrite -(interp_0 charF boundD) -/q horner0_head.
case E: (polyseq q) => [|a l] //=; by case: (t) t0.
Qed.

(** The public part. *)
Lemma pub_tmp m : (m < t')%N ->
  foldo (fun tmp j =>
      match nth None (co_of cert) j with
      | None => Ok (rcons tmp None)
      | Some cs => let! c := of_option (nth None (map Some cs) m) in Ok (rcons tmp (Some (PubShare j c)))
      end) [::] (iota 0 (size (co_of cert))) =
  Ok [seq (if cert j then Some (PubShare j ((f j)`_m *: B)) else None) | j <- iota 0 n] :> outcome dkg_error _.
Proof.
move=> lm; rewrite size_map size_iota.
suff H k : (k <= n)%N -> foldo (fun tmp j =>
      match nth None (co_of cert) j with
      | None => Ok (rcons tmp None)
      | Some cs => let! c := of_option (nth None (map Some cs) m) in Ok (rcons tmp (Some (PubShare j c)))
      end) [::] (iota 0 k) =
  Ok [seq (if cert j then Some (PubShare j ((f j)`_m *: B)) else None) | j <- iota 0 k] :> outcome dkg_error _ by exact: H.
elim: k => // k IH lk; rewrite -addn1 iotaD add0n foldo_cat IH ?(ltnW lk) //= map_cat /= -cats1.
rewrite (nth_map 0%N) ?size_iota // nth_iota // add0n; case ck: (cert k) => /=; last by rewrite cats1.
rewrite (nth_map 0) ?size_map ?sizef //= (nth_map 0) ?sizef //.
by rewrite cats1.
Qed.

Lemma pub_part m : (m < t')%N -> forall acc, com_step (co_of cert) acc m = Ok (rcons acc ((\sum_(j <- D) weight F D j * (f j)`_m) *: B)).
Proof.
move=> lm acc; rewrite /com_step pub_tmp //=.
pose y j := (f j)`_m; pose q := interp D y; pose Y j := y j *: B.
pose tmp c := [seq (if c j then Some (PubShare j (Y j)) else None) | j <- iota 0 n].
rewrite -[map _ _]/(tmp cert).
have -> : recover_commit (hord m.+1) (tmp cert) t = recover_commit (hord m.+1) (tmp (mem D)) t.
  have E c : map (@us_pair F G) (tmp c) = offered Y n c.
    by rewrite /tmp /offered -map_comp; apply: eq_map => j /=; case: (c j).
  by rewrite /recover_commit /xy_commit -!/(map (@us_pair F G) _) !E (collect_offered F Y n cert t0).
have sq : (size q <= t)%N by have := size_interp charF uniqD boundD y; rewrite sizeD.
have gq : pub_genuine p [seq c *: B | c <- q] (tmp (mem D)).
  move=> s si; have [j jD ->] := In_of si; split; last exact: (allP boundD).
  have := gsum_commit B q None (xcoord F j); rewrite /pmul /= => ->.
  by rewrite polyseqK (interp_at charF uniqD boundD).
have si : (t <= size (pub_indices (tmp (mem D))))%N.
  by rewrite /pub_indices /tmp pmap_of filterD /= map_id undup_id ?uniqD // sizeD.
have sq' : (size [seq c *: B | c <- q] <= t)%N by rewrite size_map.
rewrite (recover_commit_correct charF (ph m.+1) gq sq' si) /=; congr (Ok (rcons _ _)).
rewrite -(interp_0 charF boundD) -/q horner0_head.
by case E: (polyseq q) => [|a l] //=; rewrite scale0r.
Qed.

Notation fn := (reshared f D t').
Lemma pub_final : foldo (com_step (co_of cert)) [::] (iota 0 t') = Ok [seq c *: B | c <- fn].
Proof.
suff H k : (k <= t')%N -> foldo (com_step (co_of cert)) [::] (iota 0 k) =
   Ok [seq (\sum_(j <- D) weight F D j * (f j)`_m) *: B | m <- iota 0 k] by rewrite H // /reshared /mkseq -map_comp.
elim: k => // k IH lk; rewrite -addn1 iotaD add0n foldo_cat IH ?(ltnW lk) //= pub_part //=.
by rewrite map_cat /= cats1.
Qed.

Lemma share_reshared k : share_value fn k = \sum_(j <- D) weight F D j * share_value (f j) k.
Proof.
rewrite /share_value /peval size_mkseq.
rewrite (eq_bigr (fun m : 'I_t' => \sum_(j <- D) weight F D j * (f j)`_m * (k.+1)%:R ^+ m)); last first.
  by move=> m _; rewrite nth_mkseq // mulr_suml.
rewrite exchange_big big_seq [RHS]big_seq; apply: eq_bigr => j /inD [cj _]; rewrite sizef // mulr_sumr.
by apply: eq_bigr => m _; rewrite mulrA.
Qed.

Lemma resharing_key_ok : exists pp,
  resharing_key S vord hord g = Ok (DKShare [seq c *: B | c <- fn] (PriShare i (share_value fn i)) pp).
Proof.
have [pp E1 E2] := pri_part; exists pp.
rewrite resharing_keyE; cbv zeta; rewrite good_all walk /= E1 /= E2 /= pub_final /= -share_reshared.
rewrite /pub_check pub_eval_ok /=; last by rewrite -size_eq0 /= !size_map size_iota -lt0n.
have := gsum_commit B fn None (xcoord F i); rewrite /pmul /= => ->.
have e : (Poly fn).[xcoord F i] = share_value fn i by rewrite share_value_eval pri_eval_v.
by rewrite e eqxx.
Qed.

(** With the dealers' constant terms on the old polynomial, the secret is the old one. *)
Lemma reshared_secret (fo : seq F) : (size fo <= t)%N -> (forall j, j \in D -> (f j)`_0 = share_value fo j) -> fn`_0 = fo`_0.
Proof.
move=> so H; rewrite nth_mkseq // -(interp_0 charF boundD (fun j => (f j)`_0)).
rewrite (interp_unique charF uniqD boundD (q := Poly fo)).
- by rewrite -[RHS](coef_Poly fo 0%N) horner_coef0.
- by rewrite sizeD; apply: leq_trans (size_Poly _) so.
- by move=> j jD; rewrite H // share_value_eval pri_eval_v.
Qed.
End Key.

Section History.
Variables (F : fieldType) (G : lmodType F) (S : suite G).
Notation B := (su_base S).
Variable deal_enc : deal G -> bytestr.
Variable deal_dec : bytestr -> option (deal G).
Variable ddeal_enc : nat -> enc_deal G -> bytestr.
Variables (i : nat) (ps : seq G) (f : nat -> seq F) (g0 : dkg G).
Hypothesis lti : (i < size ps)%N.

Definition complained (v : verifier G) : Prop := exists2 k, (k < size ps)%N & status_of (v_agg v) k = Some false.
Definition good_ver (j : nat) (v : verifier G) : Prop :=
  [/\ own_ok S i ps v, (exists2 v0, mget j (g_verifiers g0) = Some v0 & exists a, v = v_set_agg v0 a) &
      forall d, a_deal (v_agg v) = Some d -> d_commits d = [seq c *: B | c <- f j] \/ complained v].
Definition opens_to (j : nat) (e : enc_deal G) : Prop :=
  forall w d, mget j (g_verifiers g0) = Some w -> decrypt_deal S deal_dec w e = Ok d -> d_commits d = [seq c *: B | c <- f j].

Lemma complained_mono (v v' : verifier G) : complained v ->
  (forall k, status_of (v_agg v) k <> None -> status_of (v_agg v') k = status_of (v_agg v) k) -> complained v'.
Proof. by case=> k lk sk H; exists k => //; rewrite H ?sk. Qed.

Lemma gv_deal j v e k v' o : opens_to j e ->
  good_ver j v -> process_encrypted_deal S deal_dec v e k = (v', o) -> good_ver j v'.
Proof.
move=> co [ow [v0 M0 [a0 v0E]] gd] E.
have co' d : decrypt_deal S deal_dec v e = Ok d -> d_commits d = [seq c *: B | c <- f j].
  by move=> D; apply: (co v0 d M0); rewrite -D v0E.
split; first exact: own_deal ow E.
  exists v0 => //; case: (process_encrypted_dealP E) => [[-> _]|[d D [_ [[-> _]|[st [-> _ _ _ _]]]]]]; first by exists a0.
    by rewrite v0E; eexists.
  by rewrite v0E; eexists.
have mono : complained v -> complained v'.
  move=> c; apply: complained_mono c _ => q; case: (process_encrypted_dealP E) => [[-> _] //|[d D [_ [[-> _]|[st [-> _ [_ nn] _ _]]]]]].
    by rewrite /= /status_of stored_responses.
  by rewrite stored_responses in nn; rewrite /= /status_of /= mget_minsert stored_responses; case: eqP => // ->; rewrite nn.
case: (process_encrypted_dealP E) => [[e1 _]|[d D [_ H]]] d'; first by rewrite e1 => /gd.
have e1 : a_deal (v_agg v') = a_deal (stored (v_agg v) d) by case: H => [[-> _]|[st [-> _ _ _ _]]].
rewrite e1 stored_deal => -[<-]; case ad: (a_deal (v_agg v)) => [d0|] /=; last by left; exact: co' D.
by case: (gd _ ad); [left|right; exact: mono].
Qed.

Lemma gv_resp j v r : r_index r <> i -> good_ver j v -> good_ver j (verifier_process_response S v r).1.
Proof.
move=> ne [ow [v0 M0 [a0 v0E]] gd]; split; first exact: own_resp.
  by exists v0 => //; rewrite /verifier_process_response v0E; case: verify_response => a' o; exists a'.
rewrite /verifier_process_response; case E: verify_response => [a' o] /=.
case: (verify_responseP E) => [[_ [_ _ _ nn ->]]|[_ ->]] //= d /gd [|c]; [by left|right].
by apply: complained_mono c _ => q; rewrite /status_of /= mget_minsert; case: eqP => // ->; rewrite nn.
Qed.

Lemma gv_just j v ju : good_ver j v -> good_ver j (verifier_process_justification S v ju).1.
Proof.
move=> [ow [v0 M0 [a0 v0E]] gd]; split; first exact: own_just.
  by exists v0 => //; rewrite /verifier_process_justification v0E; case: verify_justification => a' o; exists a'.
have av : a_verifiers (v_agg v) = ps by case: ow.
rewrite /verifier_process_justification; case E: verify_justification => [a' o] /=.
case: (vjustP E) => [[-> _]|[r [lt mr rs _ a'E]]] // d _; right; exists (j_index ju); first by rewrite -av.
by rewrite a'E; case: ifP => _; rewrite /status_of /= stored_responses mr /= rs.
Qed.

Lemma gv_timeout j v : good_ver j v -> good_ver j (verifier_set_timeout v).
Proof.
move=> [ow [v0 M0 [a0 v0E]] gd]; split=> //.
by exists v0 => //; rewrite v0E; eexists.
Qed.

Lemma gv_unsafe j v idx b : good_ver j v -> own_done v -> good_ver j (unsafe_set_response_dkg v idx b).
Proof.
move=> [ow [v0 M0 [a0 v0E]] gd] dn; split; first exact: own_unsafe.
  by exists v0 => //; rewrite /unsafe_set_response_dkg v0E; eexists.
rewrite /unsafe_set_response_dkg; case E: add_response => [a' o] /=.
case: (add_responseP E) => [[_ [_ [nn ->]]]|[_ ->]] //= d /gd [|c]; [by left|right].
by apply: complained_mono c _ => q; rewrite /status_of /= mget_minsert; case: eqP => // ->; rewrite nn.
Qed.

Lemma gv_run g evs : g_resharing g -> all (foreign i) evs -> (forall ev, List.In ev evs -> consistent S deal_dec g0 f ev) ->
  all_P good_ver g -> all_P good_ver (drun S deal_enc deal_dec ddeal_enc g evs) /\ frame g (drun S deal_enc deal_dec ddeal_enc g evs).
Proof.
move=> rs fo co; apply: (@drun_inv_gen F G S deal_enc deal_dec ddeal_enc good_ver
  opens_to _ _ _ _
  (fun ev => foreign i ev /\ consistent S deal_dec g0 f ev)).
- by move=> j v e k v' o; exact: gv_deal.
- by move=> j v ju; exact: gv_just.
- by move=> j v; exact: gv_timeout.
- by move=> j v idx b; exact: gv_unsafe.
- by move=> dd k k' [_].
- by move=> r k [/= /eqP ne _] j v; exact: gv_resp.
- by left.
- move=> ev ie; split; last exact: co.
  by elim: evs fo ie {co} => //= e' evs IH /andP[f1 f2] [<- //|]; exact: IH.
Qed.

(** A certified deal that is there carries the right commitments and share. *)
Lemma gv_certified j v d : B != 0 -> f j != [::] -> good_ver j v -> deal_certified (v_agg v) -> a_deal (v_agg v) = Some d ->
  d_commits d = [seq c *: B | c <- f j] /\ ps_v (d_share d) = share_value (f j) i.
Proof.
move=> nb nf [ow _ gd] ce ad; have [ow1 ow2 _ _] := ow.
have nc : ~ complained v.
  by move=> [k lk sk]; rewrite (@complaint_blocks _ _ _ k) // ?ow2 in ce.
have cE : d_commits d = [seq c *: B | c <- f j] by case: (gd _ ad).
split=> //; have vd : verifier_deal v = Some d by rewrite /verifier_deal ce.
case: (own_certified lti ow vd) => [[_ _]|]; last by rewrite cE; case: (f j) nf.
rewrite cE /pub_share_value -[geval _ _]/(gsum _ (xcoord F i)).
have := gsum_commit B (f j) None (xcoord F i); rewrite /pmul /= => -> /eqP.
rewrite -subr_eq0 -scalerBl scaler_eq0 (negPf nb) orbF subr_eq0 => /eqP ->.
by rewrite share_value_eval pri_eval_v.
Qed.
End History.
