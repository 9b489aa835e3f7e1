(** Proofs about the Rabin VSS model (RvssModel.v). *)
From mathcomp Require Import all_ssreflect all_algebra.
From mathcomp Require Import zify.
From Coq Require Import String.
From Verif Require Import Base Lagrange PolyModel PolySpec PolyProofs PolyProps Suite VssModel VssProofs RvssModel RvssSpec.

Set Implicit Arguments.
Unset Strict Implicit.
Unset Printing Implicit Defensive.

Import GRing.Theory.
Local Open Scope ring_scope.
Local Open Scope outcome_scope.

(** ** Recovery weights depend on the indices only *)
Section Weights.
Variables (F : fieldType) (p : nat).
Hypothesis charF : p \in [char F].
Variable ord : hash_order F.
Hypothesis ord_perm : forall k s, perm_eq (ord k s) s.

Lemma minsert_map (T T' : Type) (h : T -> T') k (v : T) (m : seq (nat * T)) :
  minsert k (h v) [seq (iv.1, h iv.2) | iv <- m] = [seq (iv.1, h iv.2) | iv <- minsert k v m].
Proof. by elim: m => [|[k' v'] m IH] //=; case: ifP => //= _; rewrite IH. Qed.

Lemma mget_map (T T' : Type) (h : T -> T') k (m : seq (nat * T)) :
  mget k [seq (iv.1, h iv.2) | iv <- m] = omap h (mget k m).
Proof. by elim: m => [|[k' v'] m IH] //=; case: ifP. Qed.

Lemma xy_loop_map (T T' : Type) (h : T -> T') t (l : seq (nat * T)) (x : seq (nat * F)) y :
  xy_loop t [seq (iv.1, h iv.2) | iv <- l] x [seq (iv.1, h iv.2) | iv <- y] =
  ((xy_loop t l x y).1, [seq (iv.1, h iv.2) | iv <- (xy_loop t l x y).2]).
Proof.
elim: l x y => [|[i v] l IH] x y //=; rewrite minsert_map; case: ifP => // _; exact: IH.
Qed.

Lemma xy_collect_map (T T' : Type) (h : T -> T') (shares : seq (option (nat * T))) t :
  xy_collect F [seq omap (fun iv => (iv.1, h iv.2)) o | o <- shares] t =
  ((xy_collect F shares t).1, [seq (iv.1, h iv.2) | iv <- (xy_collect F shares t).2]).
Proof.
rewrite /xy_collect.
have -> : pmap id [seq omap (fun iv : nat * T => (iv.1, h iv.2)) o | o <- shares] = [seq (iv.1, h iv.2) | iv <- pmap id shares].
  by elim: shares => //= [[iv|]] l IH /=; rewrite ?IH.
rewrite sort_map -(xy_loop_map h t _ [::] [::]) /=.
by congr (xy_loop _ (map _ _) _ _); apply: eq_sort.
Qed.

(** Recovering both halves of a list of double shares that match commitments. *)
Lemma recover_pair (G : lmodType F) (b c : G) (cs : seq G) (shares : seq (option (nat * (F * F)))) t :
  (forall i u, List.In (Some (i, u)) shares -> u.1 *: b + u.2 *: c = gsum cs (xcoord F i) /\ (i.+1 < p)%N) ->
  (size cs <= t)%N -> (t <= size (undup (pidx (present shares))))%N ->
  exists s r,
  [/\ recover_secret ord [seq omap (fun iu => PriShare iu.1 iu.2.1) o | o <- shares] t = Ok s,
      recover_secret ord [seq omap (fun iu => PriShare iu.1 iu.2.2) o | o <- shares] t = Ok r &
      s *: b + r *: c = head 0 cs].
Proof.
move=> g sf le.
have [sx inv] : (t <= size (xy_collect F shares t).1)%N /\
      xy_inv (fun i u => u.1 *: b + u.2 *: c = gsum cs (xcoord F i) /\ (i.+1 < p)%N)
        (xy_collect F shares t).1 (xy_collect F shares t).2.
  split; first by case: t {sf} le => // t le; rewrite xy_collect_size // leq_min leqnn.
  exact: xy_collect_inv.
have xyE (h : F * F -> F) : xy_scalar [seq omap (fun iu => PriShare iu.1 (h iu.2)) o | o <- shares] t =
    ((xy_collect F shares t).1, [seq (iv.1, h iv.2) | iv <- (xy_collect F shares t).2]).
  by rewrite /xy_scalar -map_comp -xy_collect_map; congr (xy_collect _ _ _); apply: eq_map; case.
move: sx inv xyE; case: (xy_collect F shares t) => [x y] /= sx inv xyE.
have bK := xy_inv_bound inv; case: inv => [eK uK hx hx' hy].
pose w i := \prod_(j <- mkeys x | j != i) (xcoord F j / (xcoord F j - xcoord F i)).
pose val (h : F * F -> F) i := if mget i y is Some u then h u else 0.
have rec (h : F * F -> F) : recover_secret ord [seq omap (fun iu => PriShare iu.1 (h iu.2)) o | o <- shares] t =
    Ok (\sum_(ix <- x) val h ix.1 * w ix.1).
  rewrite /recover_secret xyE ltnNge sx /=.
  rewrite (@foldo_ok _ _ _ (fun a => a \in x) _ (fun acc ix => acc + val h ix.1 * w ix.1)); first last.
  - by move=> a /In_mem; rewrite (perm_mem (ord_perm _ _)).
  - move=> acc [i xi] /In_mem /= ix.
    have iK : i \in mkeys x by apply/mapP; exists (i, xi) => //; exact/In_mem.
    have: i \in mkeys y by rewrite -eK.
    rewrite mget_map mget_in /val; case E: (mget i y) => [v|] // _ /=.
    by rewrite (lag_loop_perm _ _ _ (ord_perm _ _) hx') /w (hx' _ _ ix).
  by rewrite foldl_sum add0r (perm_big _ (ord_perm _ _)).
exists (\sum_(ix <- x) val fst ix.1 * w ix.1), (\sum_(ix <- x) val snd ix.1 * w ix.1); split; try exact: rec.
rewrite !scaler_suml -big_split /=.
set xs := map (xcoord F) (mkeys x).
have -> : \sum_(ix <- x) ((val fst ix.1 * w ix.1) *: b + (val snd ix.1 * w ix.1) *: c) = \sum_(z <- xs) lag0 xs z *: gsum cs z.
  rewrite big_map /mkeys big_map big_seq [RHS]big_seq; apply: eq_bigr => [[i xi]] /= ix.
  have iK : i \in mkeys x by apply/mapP; exists (i, xi).
  rewrite ![_ * w i]mulrC -!scalerA -scalerDr /w (lag0_keys charF) //.
  have: i \in mkeys y by rewrite -eK.
  by rewrite mget_in /val; case E: (mget i y) => [u|] // _; have [-> _] := hy _ _ E.
rewrite (@lag_gsum _ _ _ _ _ (fun m => (m == 0%N)%:R)).
  case: (cs) => [|d cs'] /=; first by rewrite big_ord0.
  rewrite big_ord_recl /= scale1r big1 ?addr0 // => m _; by rewrite scale0r.
move=> m mcs; rewrite -(_ : ('X^m : {poly F}).[0] = (m == 0%N)%:R); last by rewrite hornerXn expr0n.
rewrite -(@lagrange_at0 _ _ xs) //.
- by apply: eq_bigr => z _; rewrite hornerXn.
- exact: (uniq_xcoord charF).
- by rewrite size_polyXn size_map size_mkeys; apply: leq_trans mcs (leq_trans sf sx).
Qed.
End Weights.

Section Rvss.
Variables (F : fieldType) (G : lmodType F) (S : suite G).
Notation B := (su_base S).
Implicit Types (a : raggregator G) (d : rdeal G) (r : response) (v : rverifier G).

(** ** Deal checks *)
Lemma rdeal_checksP a d : rdeal_checks S a d = Ok tt <->
  [/\ [/\ (2 <= rd_t d)%N, (rd_t d <= size (ra_verifiers a))%N & ra_sid a = rd_sid d],
      ps_i (rd_rnd d) = ps_i (rd_sec d), (ps_i (rd_sec d) < size (ra_verifiers a))%N, rd_commits d <> [::] &
      ps_v (rd_sec d) *: B + ps_v (rd_rnd d) *: derive_h S (ra_verifiers a) = pub_share_value (rd_commits d) (ps_i (rd_sec d))].
Proof.
rewrite /rdeal_checks /valid_t.
case: (leqP 2) => [h1|]; last by move=> h; split=> // [[[h1 _ _] _ _ _ _]]; lia.
case: (leqP (rd_t d)) => [h2|]; last by move=> h; split=> // [[[_ h2 _] _ _ _ _]]; lia.
case: (eqVneq (ra_sid a) (rd_sid d)) => [h3|h]; last by split=> // [[[_ _ e] _ _ _ _]]; rewrite e eqxx in h.
case: (eqVneq (ps_i (rd_sec d)) (ps_i (rd_rnd d))) => [h4|h] /=; last first.
  by split=> // [[_ e _ _ _]]; rewrite e eqxx in h.
case: leqP => [h|h5] /=; first by split=> // [[_ _ h5 _ _]]; lia.
case E: (rd_commits d) => [|c cs]; first by rewrite /pub_eval /=; split=> // [[]].
rewrite -E pub_eval_ok ?E //= -E /pmul /= -[gsum _ _]/(pub_share_value (rd_commits d) (ps_i (rd_sec d))).
by case: eqP => [h6|h]; split=> //; [move=> _; split=> //; rewrite E|case].
Qed.

Lemma rdeal_checks_no_already a d : rdeal_checks S a d <> Err DealAlreadyProcessed.
Proof.
rewrite /rdeal_checks; do 4 case: ifP => // _.
by rewrite /pub_eval; case: (rd_commits d) => //= c cs; case: ifP.
Qed.

(** [verify_deal] panics exactly on an empty commitment vector that passes the earlier checks. *)
Lemma rdeal_checks_panic a d : rd_commits d <> [::] -> is_ok (rdeal_checks S a d) || is_err (rdeal_checks S a d).
Proof.
move=> n; rewrite /rdeal_checks; do 4 case: ifP => // _.
by rewrite /pub_eval; case: (rd_commits d) n => //= c cs _; case: ifP.
Qed.

Definition rstored a d := if ra_deal a is Some _ then a else ra_set_deal a d.

Lemma rverify_deal_state a d inc : (rverify_deal S a d inc).1 = rstored a d.
Proof. by rewrite /rverify_deal /rstored; case: (ra_deal a) inc => [d0|] [] . Qed.

Lemma ra_set_responses_id a : ra_set_responses a (ra_responses a) = a. Proof. by case: a. Qed.

(** ** Responses *)
Lemma radd_response_ok a r : (r_index r < size (ra_verifiers a))%N -> mget (r_index r) (ra_responses a) = None ->
  radd_response a r = (ra_set_responses a (minsert (r_index r) r (ra_responses a)), Ok tt).
Proof. by move=> h e; rewrite /radd_response find_pubE h e. Qed.

Lemma radd_responseP a r a' o : radd_response a r = (a', o) ->
  (o = Ok tt /\ (r_index r < size (ra_verifiers a))%N /\ mget (r_index r) (ra_responses a) = None /\
   a' = ra_set_responses a (minsert (r_index r) r (ra_responses a))) \/
  (is_err o /\ a' = a).
Proof.
rewrite /radd_response find_pubE; case: ltnP => h; last by case=> <- <-; right.
by case E: mget => [r0|] [<- <-]; [right|left].
Qed.

Lemma rverify_responseP a r a' o : rverify_response S a r = (a', o) ->
  (o = Ok tt /\ [/\ (r_index r < size (ra_verifiers a))%N,
      su_verify S (nth 0 (ra_verifiers a) (r_index r)) (response_hash S r) (r_sig r),
      r_sid r = ra_sid a, mget (r_index r) (ra_responses a) = None &
      a' = ra_set_responses a (minsert (r_index r) r (ra_responses a))]) \/
  (is_err o /\ a' = a).
Proof.
rewrite /rverify_response find_pubE.
case: (eqVneq (r_sid r)) => [e|] /=; last by move=> _ [<- <-]; right.
case: ltnP => h; last by case=> <- <-; right.
case V: su_verify => /=; last by case=> <- <-; right.
by move/radd_responseP => [[-> [_ [n ->]]]|[]]; [left|right].
Qed.

Lemma rverify_response_ok a r : (r_index r < size (ra_verifiers a))%N ->
  su_verify S (nth 0 (ra_verifiers a) (r_index r)) (response_hash S r) (r_sig r) ->
  r_sid r = ra_sid a -> mget (r_index r) (ra_responses a) = None ->
  rverify_response S a r = (ra_set_responses a (minsert (r_index r) r (ra_responses a)), Ok tt).
Proof. by move=> h V s n; rewrite /rverify_response find_pubE h V /= radd_response_ok // s eqxx. Qed.

(** ** Certification *)
(** The response map of a reachable aggregator: no repeated key, every key a verifier. *)
Definition rwf a := uniq (mkeys (ra_responses a)) /\ (forall i, i \in mkeys (ra_responses a) -> (i < size (ra_verifiers a))%N).

Lemma approvals_count (n : nat) (m : seq (nat * response)) : uniq (mkeys m) -> (forall i, i \in mkeys m -> (i < n)%N) ->
  foldl (fun app ir => if r_status ir.2 then app.+1 else app) 0%N m =
  count (fun i => omap r_status (mget i m) == Some true) (iota 0 n).
Proof.
move=> u lt.
have -> : foldl (fun app ir => if r_status ir.2 then app.+1 else app) 0%N m = count (fun ir => r_status ir.2) m.
  rewrite -[RHS]add0n; elim: m 0%N {u lt} => [|ir m IH] k /=; first by rewrite addn0.
  by rewrite IH; case: r_status; lia.
have -> : count (fun ir => r_status ir.2) m = count (fun i => omap r_status (mget i m) == Some true) (mkeys m).
  elim: m u {lt} => //= [[k r] m] IH /= /andP[nk u]; rewrite eqxx IH //=; congr (_ + _)%N; first by case: (r_status r).
  apply: eq_in_count => i im /=; case: (eqVneq i k) => // e; by rewrite -e im in nk.
rewrite -!size_filter; apply: perm_size; apply: uniq_perm; rewrite ?filter_uniq ?iota_uniq //.
move=> i; rewrite !mem_filter mem_iota add0n leq0n /=; case E: (_ == _) => //=.
have ik : i \in mkeys m by rewrite mget_in; case: mget E.
by rewrite ik lt.
Qed.

Lemma enough_approvalsE a : rwf a -> enough_approvals a = (ra_t a <= ranswers a (Some true))%N.
Proof. by case=> u lt; rewrite /enough_approvals (approvals_count u lt). Qed.

Lemma rcertified_count a : rwf a ->
  rdeal_certified a = [&& (ra_t a <= ranswers a (Some true))%N, ranswers a None == 0%N & ~~ ra_bad a].
Proof.
move=> wf; rewrite /rdeal_certified enough_approvalsE //; set n := size _.
have -> : foldl (fun acc i => if mget i (ra_responses a) is None then acc.+1 else acc) 0%N (iota 0 n) = ranswers a None.
  have H : forall l k, foldl (fun acc i => if mget i (ra_responses a) is None then acc.+1 else acc) k l =
     (k + count (fun i => rstatus_of a i == None) l)%N.
    elim=> [|i l IH] k /=; first by rewrite addn0.
    by rewrite IH /rstatus_of; case: mget => [r|] /=; lia.
  by rewrite H.
by rewrite negb_or lt0n negbK.
Qed.

(** ** Timeout *)
Lemma clean_get a i : mget i (ra_responses (clean_verifiers a)) =
  if mget i (ra_responses a) is Some r then Some r
  else if (i < size (ra_verifiers a))%N then Some (Response (ra_sid a) i false [::]) else None.
Proof.
rewrite /clean_verifiers /=; set n := size _; set m0 := ra_responses a.
pose f m i := if mget i m is None then minsert i (Response (ra_sid a) i false [::]) m else m.
rewrite -[foldl _ _ _]/(foldl f m0 (iota 0 n)).
have H : forall l m, mget i (foldl f m l) = if mget i m is Some r then Some r
     else if i \in l then Some (Response (ra_sid a) i false [::]) else None.
  elim=> [|j l IH] m /=; first by case: mget.
  rewrite IH /f in_cons; case E: (mget j m) => [r|]; case: (eqVneq i j) => [->|ne] /=; rewrite ?E ?mget_minsert ?eqxx //.
  by rewrite (negPf ne).
by rewrite H mem_iota leq0n add0n.
Qed.

Lemma mkeys_minsert_uniq (T : Type) k (x : T) m : uniq (mkeys m) -> uniq (mkeys (minsert k x m)).
Proof.
elim: m => [|[k' x'] m IH] //= /andP[nk u]; case: ifP => [/eqP ->|ne] /=; first by rewrite nk.
rewrite IH // andbT; apply: contra nk; rewrite !mget_in mget_minsert eq_sym ne //.
Qed.

Lemma rwf_insert a i r : rwf a -> (i < size (ra_verifiers a))%N -> rwf (ra_set_responses a (minsert i r (ra_responses a))).
Proof.
case=> u lt h; split; first exact: mkeys_minsert_uniq.
move=> j /=; rewrite mget_in mget_minsert; case: eqP => [->|_] //; rewrite -mget_in; exact: lt.
Qed.

Lemma rwf_clean a : rwf a -> rwf (clean_verifiers a).
Proof.
case=> u lt; split.
  rewrite /clean_verifiers /=; elim: (iota 0 _) (ra_responses a) u => //= j l IH m u; apply: IH.
  by case: mget => // ; exact: mkeys_minsert_uniq.
move=> i; rewrite mget_in clean_get /=; case E: mget => [r|]; last by case: ltnP.
by move=> _; apply: lt; rewrite mget_in E.
Qed.

Lemma rwf_ext a a' : ra_responses a' = ra_responses a -> ra_verifiers a' = ra_verifiers a -> rwf a -> rwf a'.
Proof. by rewrite /rwf => -> ->. Qed.

(** ** Feeding responses *)
Lemma rfeed_ok (resp : nat -> response) a js : uniq js ->
  (forall j, j \in js -> [/\ (j < size (ra_verifiers a))%N, r_index (resp j) = j,
      su_verify S (nth 0 (ra_verifiers a) j) (response_hash S (resp j)) (r_sig (resp j)), r_sid (resp j) = ra_sid a &
      mget j (ra_responses a) = None]) -> rwf a ->
  exists2 m, rfeed S a (map resp js) = Some (ra_set_responses a m) &
    (forall i, mget i m = if i \in js then Some (resp i) else mget i (ra_responses a)) /\ rwf (ra_set_responses a m).
Proof.
elim: js a => [|j js IH] a /=; first by move=> _ _ w; exists (ra_responses a) => //; rewrite ra_set_responses_id.
case/andP=> nj u H w; have [lt ix ve si nn] := H j (mem_head _ _).
rewrite /rfeed /= rverify_response_ok ?ix //=.
rewrite -/(rfeed _ _ _); case: (IH (ra_set_responses a (minsert j (resp j) (ra_responses a))) u).
- move=> i ijs; case: (H i); first by rewrite in_cons ijs orbT.
  move=> l1 l2 l3 l4 l5; split=> //=; rewrite mget_minsert; case: eqP => // e.
  by rewrite -e ijs in nj.
- exact: rwf_insert.
move=> m e [em wm]; exists m => //; split=> // i; rewrite em /= mget_minsert in_cons.
by case: (eqVneq i j) => [->|] //=; rewrite (negPf nj).
Qed.

Lemma rall_approved_certified a : rwf a -> ~~ ra_bad a -> (ra_t a <= size (ra_verifiers a))%N ->
  (forall i, (i < size (ra_verifiers a))%N -> rstatus_of a i = Some true) -> rdeal_certified a.
Proof.
move=> w nb ht H; rewrite rcertified_count // nb andbT /ranswers.
have c b : count (fun i => rstatus_of a i == b) (iota 0 (size (ra_verifiers a))) =
           if b == Some true then size (ra_verifiers a) else 0%N.
  rewrite (@eq_in_count _ _ (fun=> b == Some true)); last first.
    by move=> i; rewrite mem_iota add0n => /andP[_ /H ->]; rewrite eq_sym.
  case: (b == Some true); first by rewrite count_predT size_iota.
  exact: count_pred0.
by rewrite !c /= ht.
Qed.

(** ** Honest runs *)
Section Honest.
Variable rdeal_enc : rdeal G -> bytestr.
Variable rdeal_dec : bytestr -> option (rdeal G).
Hypothesis okS : suite_ok S.
Hypothesis dec_enc : forall d, rdeal_dec (rdeal_enc d) = Some d.

Definition rcommits (H : G) (f g : seq F) : seq G := [seq fg.1 *: B + fg.2 *: H | fg <- zip f g].

Lemma rcommitsE (H : G) (f g : seq F) : vadd [seq pmul B c (Some B) | c <- f] [seq pmul B c (Some H) | c <- g] = rcommits H f g.
Proof. by elim: f g => [|x f IH] [|y g] //=; rewrite IH. Qed.

Lemma new_rdealerP long secret vs t fp gp dl : new_rdealer S long secret vs t fp gp = Ok dl ->
  let f := secret :: mkseq fp (t - 1) in
  let g := gp 0%N :: mkseq (fun k => gp k.+1) (t - 1) in
  let cs := rcommits (derive_h S vs) f g in
  let sid := session_id S (long *: B) vs cs t in
  [/\ (2 <= t)%N, (t <= size vs)%N &
      dl = RDealer long (long *: B) secret [seq c *: B | c <- f] vs (context S (long *: B) vs) t sid
             [seq RDeal sid (pri_eval f i) (pri_eval g i) t cs | i <- iota 0 (size vs)]
             (RAggregator (long *: B) vs cs [::] sid None t false)].
Proof.
rewrite /new_rdealer /valid_t; case: leqP => //= h1; case: leqP => //= h2.
rewrite /pub_add /= !size_map !size_iota eqxx /=.
by rewrite rcommitsE => -[<-]; split.
Qed.

Definition the_rdeal (long secret : F) (vs : seq G) t (fp gp : nat -> F) i : rdeal G :=
  let f := secret :: mkseq fp (t - 1) in
  let g := gp 0%N :: mkseq (fun k => gp k.+1) (t - 1) in
  let cs := rcommits (derive_h S vs) f g in
  RDeal (session_id S (long *: B) vs cs t) (PriShare i (share_value f i)) (PriShare i (share_value g i)) t cs.

Lemma rcommits_eval (H : G) (f g : seq F) i : size f = size g ->
  pub_share_value (rcommits H f g) i = share_value f i *: B + share_value g i *: H.
Proof.
move=> sz; rewrite /pub_share_value -[geval _ _]/(gsum _ (xcoord F i)) -rcommitsE gsum_vadd ?size_map //.
by rewrite !gsum_commit /= !share_value_eval !pri_eval_v.
Qed.

Lemma the_rdeal_checks long secret vs t fp gp i a : (2 <= t)%N -> (t <= size vs)%N -> (i < size vs)%N ->
  ra_verifiers a = vs -> ra_sid a = rd_sid (the_rdeal long secret vs t fp gp i) ->
  rdeal_checks S a (the_rdeal long secret vs t fp gp i) = Ok tt.
Proof.
move=> h1 h2 h3 ev es; apply/rdeal_checksP; rewrite ev; split=> //.
by rewrite rcommits_eval //= !size_map.
Qed.

Lemma rhonest_process long secret vs t fp gp dl i dh k e x v k' :
  new_rdealer S long secret vs t fp gp = Ok dl ->
  rencrypted_deal S rdeal_enc dl i dh k = Ok e ->
  new_rverifier S x (long *: B) vs = Ok v ->
  uniq vs -> nth 0 vs i = x *: B -> (i < size vs)%N -> su_good S long -> su_good S k ->
  let d := the_rdeal long secret vs t fp gp i in
  rprocess_encrypted_deal S rdeal_dec v e k' =
    (rv_set_agg v (RAggregator (long *: B) vs (rd_commits d) [:: (i, honest_response S x (rl_sid dl) i k')] (rl_sid dl)
                     (Some d) t false),
     Ok (honest_response S x (rl_sid dl) i k')).
Proof.
move=> /new_rdealerP [h1 h2 ->] /=.
rewrite /rencrypted_deal find_pubE /= => + + u nv lt nl nk; rewrite lt.
rewrite (nth_map (the_rdeal long secret vs t fp gp 0)) ?size_map ?size_iota //.
rewrite (nth_map 0%N) ?size_iota // nth_iota // add0n !pri_eval_spec -/(the_rdeal _ _ _ _ _ _ i) /= => -[<-].
rewrite /new_rverifier /pmul /= (index_key u lt nv) lt => -[<-].
rewrite /rprocess_encrypted_deal /rdecrypt_deal [su_verify _ _ _ _](su_sign_ok okS) //=.
rewrite nv !scalerA [x * dh]mulrC (su_open_seal okS) dec_enc /= eqxx /=.
by rewrite /rverify_deal /= the_rdeal_checks //= radd_response_ok.
Qed.

Lemma new_rverifier_def (long : F) vs i x : uniq vs -> nth 0 vs i = x *: B -> (i < size vs)%N ->
  exists2 v, new_rverifier S x (long *: B) vs = Ok v & rv_index v = i.
Proof. move=> u nv lt; rewrite /new_rverifier /pmul /= (index_key u lt nv) lt; by eexists. Qed.

Lemma rencrypted_deal_def long secret vs t fp gp dl i dh k :
  new_rdealer S long secret vs t fp gp = Ok dl -> (i < size vs)%N ->
  exists e, rencrypted_deal S rdeal_enc dl i dh k = Ok e.
Proof.
move=> /new_rdealerP [h1 h2 ->] lt; rewrite /rencrypted_deal find_pubE /= lt.
by rewrite (nth_map (the_rdeal long secret vs t fp gp 0)) ?size_map ?size_iota //; eexists.
Qed.
End Honest.

(** ** Histories *)
Section History.
Variable rdeal_dec : bytestr -> option (rdeal G).
Notation step := (rvstep S rdeal_dec).
Notation run := (rvrun S rdeal_dec).
Implicit Types (ev : revent G) (evs : seq (revent G)).

Lemma rstored_responses a d : ra_responses (rstored a d) = ra_responses a.
Proof. by rewrite /rstored; case: (ra_deal a). Qed.
Lemma rstored_verifiers a d : ra_verifiers (rstored a d) = ra_verifiers a.
Proof. by rewrite /rstored; case: (ra_deal a). Qed.
Lemma rstored_bad a d : ra_bad (rstored a d) = ra_bad a.
Proof. by rewrite /rstored; case: (ra_deal a). Qed.
Lemma rstored_t a d : ra_t (rstored a d) = ra_t a.
Proof. by rewrite /rstored; case: (ra_deal a). Qed.
Lemma rstored_id a d : ra_deal a <> None -> rstored a d = a.
Proof. by rewrite /rstored; case E: (ra_deal a). Qed.

Definition rown_response v (sid : bytestr) (st : bool) k : response :=
  Response sid (rv_index v) st (su_sign S (rv_long v) (response_hash S (Response sid (rv_index v) st [::])) k).

(** The aggregator a deal is checked against. *)
Definition ragg_for v d : raggregator G :=
  if rv_agg v is Some a then a
  else new_raggregator (rv_dealer v) (rv_verifiers v) (rd_commits d) (rd_t d) (rd_sid d).

Lemma rprocess_encrypted_dealP v e k v' o : rprocess_encrypted_deal S rdeal_dec v e k = (v', o) ->
  (v' = v /\ ~~ is_ok o) \/
  exists2 d, rdecrypt_deal S rdeal_dec v e = Ok d & ps_i (rd_sec d) = rv_index v /\
  let sid := session_id S (rv_dealer v) (rv_verifiers v) (rd_commits d) (rd_t d) in
  let a1 := rstored (ragg_for v d) d in
  (v' = rv_set_agg v a1 /\ ~~ is_ok o) \/
  exists st, let r := rown_response v sid st k in
  [/\ v' = rv_set_agg v (ra_set_responses a1 (minsert (rv_index v) r (ra_responses a1))),
      o = Ok r, (rv_index v < size (ra_verifiers a1))%N /\ mget (rv_index v) (ra_responses a1) = None,
      ra_deal (ragg_for v d) = None & st -> rdeal_checks S a1 d = Ok tt].
Proof.
rewrite /rprocess_encrypted_deal; case E: (rdecrypt_deal S rdeal_dec v e) => [d|e0||];
  try by case=> <- <-; left.
case: (eqVneq (ps_i _)) => [ei|_] /=; last by case=> <- <-; left.
rewrite -/(ragg_for v d).
case V: (rverify_deal S (ragg_for v d) d true) => [a1 o1].
have a1E : a1 = rstored (ragg_for v d) d by rewrite -(rverify_deal_state _ _ true) V.
have nd : o1 <> Err DealAlreadyProcessed -> ra_deal (ragg_for v d) = None /\ o1 = rdeal_checks S a1 d.
  move: V; rewrite /rverify_deal; case: (ra_deal (ragg_for v d)) => [d0|] /=; first by case=> _ <-.
  by case=> <- <-.
have fin (st : bool) : o1 <> Err DealAlreadyProcessed -> (st -> o1 = Ok tt) ->
  (let '(a2, o2) := radd_response a1 (rown_response v (session_id S (rv_dealer v) (rv_verifiers v) (rd_commits d) (rd_t d)) st k) in
   (rv_set_agg v a2, let! _ := o2 in Ok (rown_response v (session_id S (rv_dealer v) (rv_verifiers v) (rd_commits d) (rd_t d)) st k)))
   = (v', o) -> (v' = rv_set_agg v a1 /\ ~~ is_ok o) \/ exists st0 : bool,
    let r := rown_response v (session_id S (rv_dealer v) (rv_verifiers v) (rd_commits d) (rd_t d)) st0 k in
  [/\ v' = rv_set_agg v (ra_set_responses a1 (minsert (rv_index v) r (ra_responses a1))),
      o = Ok r, (rv_index v < size (ra_verifiers a1))%N /\ mget (rv_index v) (ra_responses a1) = None,
      ra_deal (ragg_for v d) = None & st0 -> rdeal_checks S a1 d = Ok tt].
  move=> /nd [n1 n2] st1; case A: radd_response => [a2 o2].
  case: (radd_responseP A) => [[-> [lt [nn ->]]]|[er ->]] /= [<- <-].
    by right; exists st; split=> // /st1 <-.
  by left; split=> //; case: o2 er {A}.
move=> H; right; exists d => //; split=> //; rewrite -a1E; move: H.
case: o1 V nd fin => [[]|er||] V nd fin; try by case=> <- <-; left.
  by apply: (fin true).
by case: er V nd fin => [|||pe|||||||||||||||||||||] V nd fin; first [by case=> <- <-; left | by move=> H; apply: (fin false _ _ H)].
Qed.

Lemma rvjustP a j a' o : rverify_justification S a j = (a', o) ->
  (a' = a /\ is_err o) \/
  exists r, [/\ (rj_index j < size (ra_verifiers a))%N, mget (rj_index j) (ra_responses a) = Some r, r_status r = false,
     o = rdeal_checks S (rstored a (rj_deal j)) (rj_deal j) &
     a' = match o with
          | Ok _ => ra_set_responses (rstored a (rj_deal j))
              (minsert (rj_index j) (Response (r_sid r) (r_index r) true (r_sig r)) (ra_responses a))
          | Err _ => ra_set_responses (ra_set_bad (rstored a (rj_deal j))) (minsert (rj_index j) r (ra_responses a))
          | _ => rstored a (rj_deal j)
          end].
Proof.
rewrite /rverify_justification find_pubE; case: ltnP => lt; last by case=> <- <-; left.
case E: mget => [r|]; last by case=> <- <-; left.
case st: (r_status r); first by case=> <- <-; left.
have V1 := rverify_deal_state a (rj_deal j) false.
have V2 : (rverify_deal S a (rj_deal j) false).2 = rdeal_checks S (rstored a (rj_deal j)) (rj_deal j).
  by rewrite /rverify_deal andbF.
case: rverify_deal V1 V2 => [a1 o1] /= -> ->.
by move=> H; right; exists r; case: rdeal_checks H => [[]|e||] [<- <-]; rewrite ?rstored_responses.
Qed.

(** *** Invariants of reachable verifiers *)
Definition rinv v := if rv_agg v is Some a then rwf a /\ ra_verifiers a = rv_verifiers v else True.

Lemma rstep_static v ev : [/\ rv_long (step v ev) = rv_long v, rv_index (step v ev) = rv_index v,
  rv_dealer (step v ev) = rv_dealer v, rv_verifiers (step v ev) = rv_verifiers v & rv_ctx (step v ev) = rv_ctx v].
Proof.
case: ev => [e k|r|j|] /=.
- case E: rprocess_encrypted_deal => [v' o].
  by case: (rprocess_encrypted_dealP E) => [[-> _]|[d _ [_ [[-> _]|[st [-> _ _ _ _]]]]]].
- by rewrite /rverifier_process_response; case: (rv_agg v) => // a; case: rverify_response => a' o.
- by rewrite /rverifier_process_justification; case: (rv_agg v) => // a; case: rverify_justification => a' o.
- by rewrite /rverifier_set_timeout; case: (rv_agg v).
Qed.

Lemma ragg_forP v d : rinv v -> rwf (ragg_for v d) /\ ra_verifiers (ragg_for v d) = rv_verifiers v.
Proof. by rewrite /rinv /ragg_for; case: (rv_agg v). Qed.

Lemma rstep_inv v ev : rinv v -> rinv (step v ev).
Proof.
move=> I; case: ev => [e k|r|j|] /=.
- case E: rprocess_encrypted_deal => [v' o].
  case: (rprocess_encrypted_dealP E) => [[-> _]|[d _ [_ H]]] //.
  have [w ev] := ragg_forP d I.
  have w1 : rwf (rstored (ragg_for v d) d) by apply: rwf_ext w; rewrite ?rstored_responses ?rstored_verifiers.
  case: H => [[-> _]|[st [-> _ [lt nn] _ _]]]; rewrite /rinv /=.
    by rewrite rstored_verifiers.
  split; last by rewrite rstored_verifiers.
  exact: rwf_insert.
- move: I; rewrite /rverifier_process_response /rinv; case E0: (rv_agg v) => [a|] /=; last by rewrite E0.
  case=> w ev; case E: rverify_response => [a' o] /=.
  case: (rverify_responseP E) => [[_ [lt ve si nn ->]]|[_ ->]] //=; split=> //; exact: rwf_insert.
- move: I; rewrite /rverifier_process_justification /rinv; case E0: (rv_agg v) => [a|] /=; last by rewrite E0.
  case=> w ev; case E: rverify_justification => [a' o] /=.
  have w1 : rwf (rstored a (rj_deal j)) by apply: rwf_ext w; rewrite ?rstored_responses ?rstored_verifiers.
  case: (rvjustP E) => [[-> _]|[r [lt m1 _ _ ->]]] //=.
  case: o {E} => [_|_||] /=; rewrite rstored_verifiers; split=> //.
    rewrite -(rstored_responses a (rj_deal j)); apply: rwf_insert => //; by rewrite rstored_verifiers.
  rewrite -(rstored_responses a (rj_deal j)).
  apply: (@rwf_ext (ra_set_responses (rstored a (rj_deal j)) (minsert (rj_index j) r (ra_responses (rstored a (rj_deal j)))))) => //.
  by apply: rwf_insert => //; rewrite rstored_verifiers.
- move: I; rewrite /rverifier_set_timeout /rinv; case E: (rv_agg v) => [a|] /=; last by rewrite E.
  by case=> w ev; split=> //; exact: rwf_clean.
Qed.

Lemma rrun_inv v evs : rinv v -> rinv (run v evs).
Proof. by elim: evs v => //= ev evs IH v /rstep_inv - /(_ ev) /IH. Qed.

Lemma new_rverifier_inv x D vs v : new_rverifier S x D vs = Ok v -> rinv v /\ rv_agg v = None.
Proof. by rewrite /new_rverifier; case: ifP => // _ [<-]. Qed.

(** Once there is an aggregator there is a deal. *)
Definition rhas_deal v := if rv_agg v is Some a then isSome (ra_deal a) else true.
Lemma rstored_deal a d : isSome (ra_deal (rstored a d)).
Proof. by rewrite /rstored; case E: (ra_deal a) => [d0|] //; rewrite E. Qed.
Lemma rstep_has_deal v ev : rhas_deal v -> rhas_deal (step v ev).
Proof.
rewrite /rhas_deal => I; case: ev => [e k|r|j|] /=.
- case E: rprocess_encrypted_deal => [v' o].
  case: (rprocess_encrypted_dealP E) => [[-> _]|[d _ [_ H]]] //.
  by case: H => [[-> _]|[st [-> _ _ _ _]]] /=; rewrite rstored_deal.
- move: I; rewrite /rverifier_process_response; case E0: (rv_agg v) => [a|] /=; last by rewrite E0.
  move=> I; case E: rverify_response => [a' o] /=.
  by case: (rverify_responseP E) => [[_ [lt ve si nn ->]]|[_ ->]].
- move: I; rewrite /rverifier_process_justification; case E0: (rv_agg v) => [a|] /=; last by rewrite E0.
  move=> I; case E: rverify_justification => [a' o] /=.
  case: (rvjustP E) => [[-> _]|[r [lt m1 _ _ ->]]] //=.
  by case: o {E} => [_|_||] /=; rewrite rstored_deal.
- by move: I; rewrite /rverifier_set_timeout; case E: (rv_agg v) => [a|] /=; last by rewrite E.
Qed.
Lemma rrun_has_deal v evs : rhas_deal v -> rhas_deal (run v evs).
Proof. by elim: evs v => //= ev evs IH v /rstep_has_deal - /(_ ev) /IH. Qed.

(** The bad-dealer mark stays. *)
Definition rv_bad v := if rv_agg v is Some a then ra_bad a else false.
Lemma rstep_bad v ev : rv_bad v -> rv_bad (step v ev).
Proof.
rewrite /rv_bad; case E0: (rv_agg v) => [a|] // b; case: ev => [e k|r|j|] /=.
- case E: rprocess_encrypted_deal => [v' o].
  case: (rprocess_encrypted_dealP E) => [[-> _]|[d _ [_ H]]]; first by rewrite E0.
  by case: H => [[-> _]|[st [-> _ _ _ _]]] /=; rewrite rstored_bad /ragg_for E0.
- rewrite /rverifier_process_response E0; case E: rverify_response => [a' o] /=.
  by case: (rverify_responseP E) => [[_ [lt ve si nn ->]]|[_ ->]].
- rewrite /rverifier_process_justification E0; case E: rverify_justification => [a' o] /=.
  case: (rvjustP E) => [[-> _]|[r [lt m1 _ _ ->]]] //=.
  by case: o {E} => [_|_||] /=; rewrite ?rstored_bad.
- by rewrite /rverifier_set_timeout E0.
Qed.

Lemma rrun_bad v evs : rv_bad v -> rv_bad (run v evs).
Proof. by elim: evs v => //= ev evs IH v /rstep_bad - /(_ ev) /IH. Qed.

(** A recorded answer only changes by a justification, from complaint to approval. *)
Lemma rstep_status v ev a i b : rv_agg v = Some a -> rstatus_of a i = Some b ->
  exists2 a', rv_agg (step v ev) = Some a' &
  rstatus_of a' i = Some b \/
  (b = false /\ rstatus_of a' i = Some true /\
   exists j, [/\ ev = REvJustification j, rj_index j = i & rdeal_checks S (rstored a (rj_deal j)) (rj_deal j) = Ok tt]).
Proof.
move=> ea st; case: ev => [e k|r|j|] /=.
- case E: rprocess_encrypted_deal => [v' o].
  case: (rprocess_encrypted_dealP E) => [[-> _]|[d _ [_ H]]]; first by exists a => //; left.
  case: H => [[-> _]|[st' [-> _ [lt nn] _ _]]] /=; rewrite /ragg_for ea; eexists; try reflexivity; left.
    by rewrite /rstatus_of rstored_responses.
  rewrite /rstatus_of /= mget_minsert rstored_responses; case: (eqVneq i (rv_index v)) => // e1.
  by move: nn st; rewrite /ragg_for ea rstored_responses /rstatus_of e1 => ->.
- rewrite /rverifier_process_response ea; case E: rverify_response => [a' o] /=; exists a' => //; left.
  case: (rverify_responseP E) => [[_ [lt ve si nn ->]]|[_ ->]] //=.
  rewrite /rstatus_of /= mget_minsert; case: (eqVneq i (r_index r)) => // e1.
  by move: st; rewrite /rstatus_of e1 nn.
- rewrite /rverifier_process_justification ea; case E: rverify_justification => [a' o] /=; exists a' => //.
  case: (rvjustP E) => [[-> _]|[r [lt m1 sr oE ->]]] //=; first by left.
  case: (eqVneq i (rj_index j)) => [e1|ne].
    move: st; rewrite /rstatus_of e1 m1 /= sr => -[<-].
    case: o oE {E} => [[]|e||] oE /=.
    + by right; split=> //; rewrite mget_minsert eqxx; split=> //; exists j.
    + by left; rewrite mget_minsert eqxx /= sr.
    + by left; rewrite rstored_responses m1 /= sr.
    + by left; rewrite rstored_responses m1 /= sr.
  left; case: o oE {E} => [[]|e||] oE; by rewrite /rstatus_of /= ?mget_minsert ?(negPf ne) ?rstored_responses.
- rewrite /rverifier_set_timeout ea /=; eexists; first reflexivity; left.
  by move: st; rewrite /rstatus_of clean_get; case: mget.
Qed.

Lemma rbad_blocks a : ra_bad a -> rdeal_certified a = false.
Proof. by rewrite /rdeal_certified => ->; rewrite orbT andbF. Qed.
End History.

(** ** Crafted deals *)
Section Crafted.
Variable rdeal_enc : rdeal G -> bytestr.
Variable rdeal_dec : bytestr -> option (rdeal G).
Hypothesis okS : suite_ok S.
Hypothesis dec_enc : forall d, rdeal_dec (rdeal_enc d) = Some d.

Definition rcraft (long dh k : F) (vs : seq G) (x : F) d : enc_deal G :=
  EncDeal (dh *: B) (su_sign S long (su_enc S (dh *: B)) k) (nseq 12 0%N)
    (su_seal S (x *: (dh *: B)) (context S (long *: B) vs) (nseq 12 0%N) (rdeal_enc d)).

Lemma rcraft_decrypts long dh k vs x v d : rv_long v = x -> rv_dealer v = long *: B -> rv_ctx v = context S (long *: B) vs ->
  su_good S long -> su_good S k -> rdecrypt_deal S rdeal_dec v (rcraft long dh k vs x d) = Ok d.
Proof.
move=> ex ed ec nl nk; rewrite /rdecrypt_deal ed [su_verify _ _ _ _](su_sign_ok okS) //= ex ec.
by rewrite (su_open_seal okS) dec_enc.
Qed.

Lemma rapprove_if v e k d : rdecrypt_deal S rdeal_dec v e = Ok d -> ps_i (rd_sec d) = rv_index v ->
  rv_agg v = None -> (rv_index v < size (rv_verifiers v))%N ->
  rdeal_checks S (rstored (ragg_for v d) d) d = Ok tt ->
  let r := rown_response v (session_id S (rv_dealer v) (rv_verifiers v) (rd_commits d) (rd_t d)) true k in
  rprocess_encrypted_deal S rdeal_dec v e k =
    (rv_set_agg v (RAggregator (rv_dealer v) (rv_verifiers v) (rd_commits d) [:: (rv_index v, r)] (rd_sid d) (Some d)
                     (rd_t d) false), Ok r).
Proof.
move=> D ei na lt; rewrite /ragg_for na /rstored /= => ck.
rewrite /rprocess_encrypted_deal D ei eqxx /= na /rverify_deal /= ck.
by rewrite radd_response_ok.
Qed.
End Crafted.
End Rvss.
