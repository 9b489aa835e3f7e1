(** Proofs about the Pedersen VSS model (VssModel.v). *)
From mathcomp Require Import all_ssreflect all_algebra.
From mathcomp Require Import zify.
From Coq Require Import String.
From Verif Require Import Base Lagrange PolyModel PolySpec PolyProofs PolyProps Suite VssModel VssSpec.

Set Implicit Arguments.
Unset Strict Implicit.
Unset Printing Implicit Defensive.

Import GRing.Theory.
Local Open Scope ring_scope.
Local Open Scope outcome_scope.

(** ** Generic facts *)

Lemma mget_nil (T : Type) i : @mget T i [::] = None. Proof. by []. Qed.

(** Secret recovery from shares that are only known to match commitments in the exponent. *)
Section Dlog.
Variables (F : fieldType) (G : lmodType F) (p : nat).
Hypothesis charF : p \in [char F].
Variable ord : hash_order F.
Hypothesis ord_perm : forall k s, perm_eq (ord k s) s.

Lemma recover_secret_dlog (b : G) (cs : seq G) (shares : seq (option (pri_share F))) t :
  (forall s, List.In (Some s) shares -> ps_v s *: b = gsum cs (xcoord F (ps_i s)) /\ ((ps_i s).+1 < p)%N) ->
  (size cs <= t)%N -> (t <= size (pri_indices shares))%N ->
  exists2 s, recover_secret ord shares t = Ok s & s *: b = head 0 cs.
Proof.
move=> g sf le.
have [sx inv] : (t <= size (xy_scalar shares t).1)%N /\
      xy_inv (fun i v => v *: b = gsum cs (xcoord F i) /\ (i.+1 < p)%N) (xy_scalar shares t).1 (xy_scalar shares t).2.
  rewrite pri_indices_E in le; split.
    by rewrite /xy_scalar; case: t {sf} le => // t le; rewrite xy_collect_size // leq_min leqnn.
  apply: xy_collect_inv => i v H; case: (In_map_Some H) => s sin [-> ->]; exact: g.
rewrite /recover_secret; case: (xy_scalar shares t) sx inv => [x y] /= sx inv.
rewrite ltnNge sx /=.
have bK := xy_inv_bound inv; case: inv => [eK uK hx hx' hy].
pose val i := if mget i y is Some v then v else 0.
pose h (ix : nat * F) := val ix.1 * \prod_(j <- mkeys x | j != ix.1) (xcoord F j / (xcoord F j - xcoord F ix.1)).
rewrite (@foldo_ok _ _ _ (fun a => a \in x) _ (fun acc ix => acc + h ix)); first last.
- by move=> a /In_mem; rewrite (perm_mem (ord_perm _ _)).
- move=> acc [i xi] /In_mem /= ix.
  have iK : i \in mkeys x by apply/mapP; exists (i, xi) => //; exact/In_mem.
  have: i \in mkeys y by rewrite -eK.
  rewrite mget_in; case E: (mget i y) => [v|] // _ /=.
  by rewrite (lag_loop_perm _ _ _ (ord_perm _ _) hx') /h /= /val E (hx' _ _ ix).
rewrite foldl_sum add0r (perm_big _ (ord_perm _ _)) /=.
eexists; first reflexivity.
rewrite scaler_suml.
set xs := map (xcoord F) (mkeys x).
have -> : \sum_(ix <- x) h ix *: b = \sum_(z <- xs) lag0 xs z *: gsum cs z.
  rewrite big_map /mkeys big_map big_seq [RHS]big_seq; apply: eq_bigr => [[i xi]] /= ix.
  have iK : i \in mkeys x by apply/mapP; exists (i, xi).
  rewrite /h /= mulrC -scalerA (lag0_keys charF) //.
  have: i \in mkeys y by rewrite -eK.
  by rewrite mget_in /val; case E: (mget i y) => [v|] // _; have [-> _] := hy _ _ E.
rewrite (@lag_gsum _ _ _ _ _ (fun m => (m == 0%N)%:R)).
  case: (cs) => [|c cs'] /=; first by rewrite big_ord0.
  rewrite big_ord_recl /= scale1r big1 ?addr0 // => m _; by rewrite scale0r.
move=> m mcs; rewrite -(_ : ('X^m : {poly F}).[0] = (m == 0%N)%:R); last by rewrite hornerXn expr0n.
rewrite -(@lagrange_at0 _ _ xs) //.
- by apply: eq_bigr => z _; rewrite hornerXn.
- exact: (uniq_xcoord charF).
- by rewrite size_polyXn size_map size_mkeys; apply: leq_trans mcs (leq_trans sf sx).
Qed.
End Dlog.

Section Vss.
Variables (F : fieldType) (G : lmodType F) (S : suite G).
Notation B := (su_base S).
Implicit Types (a : aggregator G) (d : deal G) (r : response) (v : verifier G).

Lemma find_pubE (vs : seq G) i : find_pub vs i = if (i < size vs)%N then Some (nth 0 vs i) else None.
Proof.
rewrite /find_pub; case: ltnP => h; first by rewrite (nth_map 0).
by rewrite nth_default // size_map.
Qed.

(** ** Deal checks *)
Lemma deal_checksP a d : deal_checks S a d = Ok tt <->
  [/\ [/\ (2 <= d_t d)%N, (d_t d <= size (a_verifiers a))%N, d_t d = a_t a & a_sid a = d_sid d],
      (ps_i (d_share d) < size (a_verifiers a))%N, d_commits d <> [::] &
      ps_v (d_share d) *: B = pub_share_value (d_commits d) (ps_i (d_share d))].
Proof.
rewrite /deal_checks /valid_t.
case: (leqP 2) => [h1|]; last by move=> h; split=> // [[[h1 _ _ _] _ _ _]]; lia.
case: (leqP (d_t d)) => [h2|]; last by move=> h; split=> // [[[_ h2 _ _] _ _ _]]; lia.
case: (eqVneq (d_t d) (a_t a)) => [h3|h]; last by split=> // [[[_ _ e _] _ _ _]]; rewrite e eqxx in h.
case: (eqVneq (a_sid a) (d_sid d)) => [h4|h]; last by split=> // [[[_ _ _ e] _ _ _]]; rewrite e eqxx in h.
case: leqP => [h|h5] /=; first by split=> // [[_ h5 _ _]]; lia.
case E: (d_commits d) => [|c cs]; first by rewrite /pub_eval /=; split=> // [[]].
rewrite -E pub_eval_ok ?E //= -E /pmul /= -[gsum _ _]/(pub_share_value (d_commits d) (ps_i (d_share d))).
by case: eqP => [h6|h]; split=> //; [move=> _; split=> //; rewrite E|case].
Qed.

Lemma deal_checks_no_already a d : deal_checks S a d <> Err DealAlreadyProcessed.
Proof.
rewrite /deal_checks; do 4 case: ifP => // _.
by rewrite /pub_eval; case: (d_commits d) => //= c cs; case: ifP.
Qed.

(** The state after [verify_deal], whatever the outcome. *)
Definition stored a d := if a_deal a is Some _ then a else a_set_deal a d.

Lemma verify_deal_state a d inc : (verify_deal S a d inc).1 = stored a d.
Proof. by rewrite /verify_deal /stored; case: (a_deal a) inc => [d0|] [] . Qed.

Lemma a_set_responses_id a : a_set_responses a (a_responses a) = a. Proof. by case: a. Qed.
Lemma v_set_agg_id v : v_set_agg v (v_agg v) = v. Proof. by case: v. Qed.

(** ** Responses *)
Lemma add_response_ok a r : (r_index r < size (a_verifiers a))%N -> mget (r_index r) (a_responses a) = None ->
  add_response a r = (a_set_responses a (minsert (r_index r) r (a_responses a)), Ok tt).
Proof. by move=> h e; rewrite /add_response find_pubE h e. Qed.

Lemma add_responseP a r a' o : add_response a r = (a', o) ->
  (o = Ok tt /\ (r_index r < size (a_verifiers a))%N /\ mget (r_index r) (a_responses a) = None /\
   a' = a_set_responses a (minsert (r_index r) r (a_responses a))) \/
  (is_err o /\ a' = a).
Proof.
rewrite /add_response find_pubE; case: ltnP => h; last by case=> <- <-; right.
by case E: mget => [r0|] [<- <-]; [right|left].
Qed.

Lemma verify_responseP a r a' o : verify_response S a r = (a', o) ->
  (o = Ok tt /\ [/\ (r_index r < size (a_verifiers a))%N,
      su_verify S (nth 0 (a_verifiers a) (r_index r)) (response_hash S r) (r_sig r),
      a_sid a = [::] \/ r_sid r = a_sid a, mget (r_index r) (a_responses a) = None &
      a' = a_set_responses a (minsert (r_index r) r (a_responses a))]) \/
  (is_err o /\ a' = a).
Proof.
rewrite /verify_response find_pubE.
case: (eqVneq (a_sid a) [::]) => [e|ne] /=; last (case: (eqVneq (r_sid r)) => [e|] /=; last by move=> _ [<- <-]; right).
all: case: ltnP => h; last by case=> <- <-; right.
all: case V: su_verify => /=; last by case=> <- <-; right.
all: by move/add_responseP => [[-> [_ [n ->]]]|[]]; [left; split=> //; split=> //; auto|right].
Qed.

Lemma verify_response_ok a r : (r_index r < size (a_verifiers a))%N ->
  su_verify S (nth 0 (a_verifiers a) (r_index r)) (response_hash S r) (r_sig r) ->
  (a_sid a = [::] \/ r_sid r = a_sid a) -> mget (r_index r) (a_responses a) = None ->
  verify_response S a r = (a_set_responses a (minsert (r_index r) r (a_responses a)), Ok tt).
Proof.
move=> h V s n; rewrite /verify_response find_pubE h V /= add_response_ok //.
by case: s => ->; rewrite eqxx // andbF.
Qed.

(** ** Certification *)
Lemma certified_count a :
  deal_certified a =
  let n := size (a_verifiers a) in
  let approvals := count (fun i => status_of a i == Some true) (iota 0 n) in
  let complaints := count (fun i => status_of a i == Some false) (iota 0 n) in
  let missing := count (fun i => status_of a i == None) (iota 0 n) in
  [&& ~~ a_bad a, (a_t a <= approvals)%N, complaints == 0%N &
      if a_timeout a then (missing + a_t a <= n)%N else missing == 0%N].
Proof.
rewrite /deal_certified; set n := size _; set f := fun acc i => _.
have fE : forall l x y z, foldl f (x, y, z) l =
   ((x + count (fun i => status_of a i == None) l)%N, (y + count (fun i => status_of a i == Some true) l)%N,
     z || (count (fun i => status_of a i == Some false) l != 0%N)).
  elim=> [|i l IH] x y z /=; first by rewrite !addn0 orbF.
  rewrite /f -/f /status_of; case: (mget i (a_responses a)) => [[s j [] g]|] /=; rewrite IH.
  - by rewrite !add0n addSnnS.
  - by rewrite !add0n orbT.
  - by rewrite !add0n addSnnS.
rewrite fE /= !add0n.
set ap := count _ _; set co := count _ _; set mi := count _ _.
have apn : (ap <= n)%N by rewrite -[X in (_ <= X)%N](size_iota 0 n) count_size.
rewrite negbK; case: (a_timeout a); case: (a_bad a) => //=; case: (leqP (a_t a) ap) => //= h.
by rewrite (leq_trans h apn) /= -leqNgt; congr (_ && _); lia.
Qed.


(** All approvals, none missing: certified. *)
Lemma all_approved_certified a :
  ~~ a_bad a -> (a_t a <= size (a_verifiers a))%N ->
  (forall i, (i < size (a_verifiers a))%N -> status_of a i = Some true) -> deal_certified a.
Proof.
move=> nb ht H; rewrite certified_count nb /=.
have c b : count (fun i => status_of a i == b) (iota 0 (size (a_verifiers a))) =
           if b == Some true then size (a_verifiers a) else 0%N.
  rewrite (@eq_in_count _ _ (fun=> b == Some true)); last first.
    by move=> i; rewrite mem_iota add0n => /andP[_ /H ->]; rewrite eq_sym.
  case: (b == Some true); first by rewrite count_predT size_iota.
  exact: count_pred0.
by rewrite !c /= ht; case: (a_timeout a).
Qed.

(** ** Feeding responses *)
Lemma feed_ok (resp : nat -> response) a js : uniq js ->
  (forall j, j \in js -> [/\ (j < size (a_verifiers a))%N, r_index (resp j) = j,
      su_verify S (nth 0 (a_verifiers a) j) (response_hash S (resp j)) (r_sig (resp j)), r_sid (resp j) = a_sid a &
      mget j (a_responses a) = None]) ->
  exists2 m, feed S a (map resp js) = Some (a_set_responses a m) &
    forall i, mget i m = if i \in js then Some (resp i) else mget i (a_responses a).
Proof.
elim: js a => [|j js IH] a /=; first by move=> _ _; exists (a_responses a) => //; rewrite a_set_responses_id.
case/andP=> nj u H; have [lt ix ve si nn] := H j (mem_head _ _).
rewrite /feed /= verify_response_ok ?ix //=; last by right.
rewrite -/(feed _ _ _); case: (IH (a_set_responses a (minsert j (resp j) (a_responses a))) u).
  move=> i ijs; case: (H i); first by rewrite in_cons ijs orbT.
  move=> l1 l2 l3 l4 l5; split=> //=; rewrite mget_minsert; case: eqP => // e.
  by rewrite -e ijs in nj.
move=> m e em; exists m => // i; rewrite em /= mget_minsert in_cons.
by case: (eqVneq i j) => [->|] //=; rewrite (negPf nj).
Qed.

(** ** Honest runs *)
Section Honest.
Variable deal_enc : deal G -> bytestr.
Variable deal_dec : bytestr -> option (deal G).
Hypothesis okS : suite_ok S.
Hypothesis dec_enc : forall d, deal_dec (deal_enc d) = Some d.

Lemma base_inj (x y : F) : x *: B = y *: B -> x = y.
Proof.
move=> e; apply/eqP; rewrite -subr_eq0; have: (x - y) *: B = 0 by rewrite scalerBl e subrr.
by move/eqP; rewrite scaler_eq0 (negPf (su_base_nz okS)) orbF.
Qed.

Lemma new_dealerP long secret vs t picks dl : new_dealer S long secret vs t picks = Ok dl ->
  let f := secret :: mkseq picks (t - 1) in
  let cs := [seq c *: B | c <- f] in
  let sid := session_id S (long *: B) vs cs t in
  [/\ (2 <= t)%N, (t <= size vs)%N &
      dl = Dealer long (long *: B) secret cs f vs (context S (long *: B) vs) t sid
             [seq Deal sid (pri_eval f i) t cs | i <- iota 0 (size vs)] (Aggregator (long *: B) vs cs [::] sid None t false false)].
Proof.
rewrite /new_dealer /valid_t; case: leqP => //= h1; case: leqP => //= h2 [<-]; by split.
Qed.

Definition the_deal (long secret : F) (vs : seq G) t picks i : deal G :=
  let f := secret :: mkseq picks (t - 1) in
  let cs := [seq c *: B | c <- f] in
  Deal (session_id S (long *: B) vs cs t) (PriShare i (share_value f i)) t cs.

Definition honest_response (x : F) (sid : bytestr) i k : response :=
  Response sid i true (su_sign S x (response_hash S (Response sid i true [::])) k).

Lemma honest_verifies x sid i k : su_good S x -> su_good S k ->
  su_verify S (x *: B) (response_hash S (honest_response x sid i k)) (r_sig (honest_response x sid i k)).
Proof. by move=> nx nk; apply: (su_sign_ok okS). Qed.

Lemma index_key vs i (x : F) : uniq vs -> (i < size vs)%N -> nth 0 vs i = x *: B -> seq.index (x *: B) vs = i.
Proof. by move=> u h <-; rewrite index_uniq. Qed.

Lemma the_deal_checks long secret vs t picks i : (2 <= t)%N -> (t <= size vs)%N -> (i < size vs)%N ->
  deal_checks S (a_set_deal (new_empty_aggregator vs) (the_deal long secret vs t picks i)) (the_deal long secret vs t picks i)
  = Ok tt.
Proof.
move=> h1 h2 h3; apply/deal_checksP; split=> //=.
rewrite share_value_eval pri_eval_v /pub_share_value -[geval _ _]/(gsum _ (xcoord F i)).
exact: esym (gsum_commit B (secret :: mkseq picks (t - 1)) None (xcoord F i)).
Qed.

Lemma honest_process long secret vs t picks dl i dh k e x v k' :
  new_dealer S long secret vs t picks = Ok dl ->
  encrypted_deal S deal_enc dl i dh k = Ok e ->
  new_verifier S x (long *: B) vs = Ok v ->
  uniq vs -> nth 0 vs i = x *: B -> (i < size vs)%N -> su_good S long -> su_good S k ->
  process_encrypted_deal S deal_dec v e k' =
    (v_set_agg v (a_set_responses (a_set_deal (new_empty_aggregator vs) (the_deal long secret vs t picks i))
                    [:: (i, honest_response x (dl_sid dl) i k')]),
     Ok (honest_response x (dl_sid dl) i k')).
Proof.
move=> /new_dealerP [h1 h2 ->] /=.
rewrite /encrypted_deal find_pubE /= => + + u nv lt nl nk; rewrite lt.
rewrite (nth_map (the_deal long secret vs t picks 0)) ?size_map ?size_iota //.
rewrite (nth_map 0%N) ?size_iota // nth_iota // add0n pri_eval_spec -/(the_deal _ _ _ _ _ i) /= => -[<-].
rewrite /new_verifier /pmul /= (index_key u lt nv) lt => -[<-].
rewrite /process_encrypted_deal /decrypt_deal [su_verify _ _ _ _](su_sign_ok okS) //=.
rewrite nv !scalerA [x * dh]mulrC (su_open_seal okS) dec_enc /= eqxx /=.
by rewrite /verify_deal /= the_deal_checks //= add_response_ok.
Qed.

Lemma new_verifier_def long secret vs t picks dl i x :
  new_dealer S long secret vs t picks = Ok dl -> uniq vs -> nth 0 vs i = x *: B -> (i < size vs)%N ->
  exists2 v, new_verifier S x (long *: B) vs = Ok v & v_index v = i.
Proof.
move=> _ u nv lt; rewrite /new_verifier /pmul /= (index_key u lt nv) lt; by eexists.
Qed.

Lemma encrypted_deal_def long secret vs t picks dl i dh k :
  new_dealer S long secret vs t picks = Ok dl -> (i < size vs)%N ->
  exists e, encrypted_deal S deal_enc dl i dh k = Ok e.
Proof.
move=> /new_dealerP [h1 h2 ->] lt; rewrite /encrypted_deal find_pubE /= lt.
by rewrite (nth_map (the_deal long secret vs t picks 0)) ?size_map ?size_iota //; eexists.
Qed.
End Honest.

(** ** Histories *)
Section History.
Variable deal_dec : bytestr -> option (deal G).
Notation step := (vstep S deal_dec).
Notation run := (vrun S deal_dec).
Implicit Types (ev : vevent G) (evs : seq (vevent G)).

Lemma stored_responses a d : a_responses (stored a d) = a_responses a.
Proof. by rewrite /stored; case: (a_deal a). Qed.
Lemma stored_verifiers a d : a_verifiers (stored a d) = a_verifiers a.
Proof. by rewrite /stored; case: (a_deal a). Qed.
Lemma stored_bad a d : a_bad (stored a d) = a_bad a.
Proof. by rewrite /stored; case: (a_deal a). Qed.
Lemma stored_deal a d : a_deal (stored a d) = Some (odflt d (a_deal a)).
Proof. by rewrite /stored; case E: (a_deal a). Qed.
Lemma stored_id a d : a_deal a <> None -> stored a d = a.
Proof. by rewrite /stored; case E: (a_deal a). Qed.

(** The own response of a verifier. *)
Definition own_response v (sid : bytestr) (st : bool) k : response :=
  Response sid (v_index v) st (su_sign S (v_long v) (response_hash S (Response sid (v_index v) st [::])) k).

Lemma process_encrypted_dealP v e k v' o : process_encrypted_deal S deal_dec v e k = (v', o) ->
  (v' = v /\ ~~ is_ok o) \/
  exists2 d, decrypt_deal S deal_dec v e = Ok d & ps_i (d_share d) = v_index v /\
  let sid := session_id S (v_dealer v) (v_verifiers v) (d_commits d) (d_t d) in
  let a1 := stored (v_agg v) d in
  (v' = v_set_agg v a1 /\ ~~ is_ok o) \/
  exists st, let r := own_response v sid st k in
  [/\ v' = v_set_agg v (a_set_responses a1 (minsert (v_index v) r (a_responses a1))),
      o = Ok r, (v_index v < size (a_verifiers a1))%N /\ mget (v_index v) (a_responses a1) = None,
      a_deal (v_agg v) = None & st -> deal_checks S a1 d = Ok tt].
Proof.
rewrite /process_encrypted_deal; case E: (decrypt_deal S deal_dec v e) => [d|e0||];
  try by case=> <- <-; left.
case: (eqVneq (ps_i _)) => [ei|_] /=; last by case=> <- <-; left.
case V: (verify_deal S (v_agg v) d true) => [a1 o1].
have a1E : a1 = stored (v_agg v) d by rewrite -(verify_deal_state _ _ true) V.
have nd : o1 <> Err DealAlreadyProcessed -> a_deal (v_agg v) = None /\ o1 = deal_checks S a1 d.
  move: V; rewrite /verify_deal; case: (a_deal (v_agg v)) => [d0|] /=; first by case=> _ <-.
  by case=> <- <-.
have fin (st : bool) : o1 <> Err DealAlreadyProcessed -> (st -> o1 = Ok tt) ->
  (let '(a2, o2) := add_response a1 (own_response v (session_id S (v_dealer v) (v_verifiers v) (d_commits d) (d_t d)) st k) in
   (v_set_agg v a2, let! _ := o2 in Ok (own_response v (session_id S (v_dealer v) (v_verifiers v) (d_commits d) (d_t d)) st k)))
   = (v', o) -> (v' = v_set_agg v a1 /\ ~~ is_ok o) \/ exists st0 : bool,
    let r := own_response v (session_id S (v_dealer v) (v_verifiers v) (d_commits d) (d_t d)) st0 k in
  [/\ v' = v_set_agg v (a_set_responses a1 (minsert (v_index v) r (a_responses a1))),
      o = Ok r, (v_index v < size (a_verifiers a1))%N /\ mget (v_index v) (a_responses a1) = None,
      a_deal (v_agg v) = None & st0 -> deal_checks S a1 d = Ok tt].
  move=> /nd [n1 n2] st1; case A: add_response => [a2 o2].
  case: (add_responseP A) => [[-> [lt [nn ->]]]|[er ->]] /= [<- <-].
    by right; exists st; split=> // /st1 <-.
  by left; split=> //; case: o2 er {A}.
move=> H; right; exists d => //; split=> //; rewrite -a1E; move: H.
case: o1 V nd fin => [[]|er||] V nd fin; try by case=> <- <-; left.
  by apply: (fin true).
by case: er V nd fin => [|||pe|||||||||||||||||||||] V nd fin; first [by case=> <- <-; left | by move=> H; apply: (fin false _ _ H)].
Qed.

Lemma vstep_static v ev : v_set_agg (step v ev) (v_agg v) = v.
Proof.
case: ev => [e k|r|j|] /=; try by case: v.
- case E: process_encrypted_deal => [v' o].
  case: (process_encrypted_dealP E) => [[-> _]|[d _ [_ [[-> _]|[st [-> _ _ _ _]]]]]]; by case: v {E}.
- by rewrite /verifier_process_response; case: verify_response => a o; case: v.
- by rewrite /verifier_process_justification; case: verify_justification => a o; case: v.
Qed.

Lemma vjustP a j a' o : verify_justification S a j = (a', o) ->
  (a' = a /\ is_err o) \/
  exists r, [/\ (j_index j < size (a_verifiers a))%N, mget (j_index j) (a_responses a) = Some r, r_status r = false,
     o = deal_checks S (stored a (j_deal j)) (j_deal j) &
     a' = if is_err o then a_set_bad (stored a (j_deal j)) else stored a (j_deal j)].
Proof.
rewrite /verify_justification find_pubE; case: ltnP => lt; last by case=> <- <-; left.
case E: mget => [r|]; last by case=> <- <-; left.
case st: (r_status r); first by case=> <- <-; left.
have V1 := verify_deal_state a (j_deal j) false.
have V2 : (verify_deal S a (j_deal j) false).2 = deal_checks S (stored a (j_deal j)) (j_deal j).
  by rewrite /verify_deal andbF.
case: verify_deal V1 V2 => [a1 o1] /= -> ->.
by move=> H; right; exists r; case: deal_checks H => [[]|e||] [<- <-].
Qed.

(** One step: recorded responses stay, and new ones have a provenance. *)
Definition provenance v ev i r :=
  (ev = EvResponse G r /\ [/\ r_index r = i, (i < size (a_verifiers (v_agg v)))%N,
     su_verify S (nth 0 (a_verifiers (v_agg v)) i) (response_hash S r) (r_sig r) &
     a_sid (v_agg v) = [::] \/ r_sid r = a_sid (v_agg v)]) \/
  (i = v_index v /\ exists e k sid st, ev = EvDeal e k /\ r = own_response v sid st k).

Lemma vstep_responses v ev i :
  mget i (a_responses (v_agg (step v ev))) = mget i (a_responses (v_agg v)) \/
  (mget i (a_responses (v_agg v)) = None /\
   exists2 r, mget i (a_responses (v_agg (step v ev))) = Some r & provenance v ev i r).
Proof.
case: ev => [e k|r|j|] /=; try by left.
- case E: process_encrypted_deal => [v' o].
  case: (process_encrypted_dealP E) => [[-> _]|[d _ [_ [[-> _]|[st [-> _ [lt nn] _ _]]]]]] /=; try by left.
    by left; rewrite stored_responses.
  rewrite mget_minsert; case: (eqVneq i (v_index v)) => [->|] /=; last by left; rewrite stored_responses.
  rewrite stored_responses in nn; right; split=> //; eexists; first reflexivity.
  by right; split=> //; do 4 eexists; split; reflexivity.
- rewrite /verifier_process_response; case E: verify_response => [a' o].
  case: (verify_responseP E) => [[_ [lt ve si nn ->]]|[_ ->]] /=; last by left.
  rewrite mget_minsert; case: (eqVneq i (r_index r)) => [->|] /=; last by left.
  by right; split=> //; exists r => //; left.
- rewrite /verifier_process_justification; case E: verify_justification => [a' o] /=; left.
  case: (vjustP E) => [[-> _]|[r [_ _ _ _ ->]]] //.
  by case: ifP; rewrite /= stored_responses.
Qed.

Lemma vstep_deal v ev : a_deal (v_agg v) <> None ->
  [/\ a_deal (v_agg (step v ev)) = a_deal (v_agg v), a_sid (v_agg (step v ev)) = a_sid (v_agg v),
      a_t (v_agg (step v ev)) = a_t (v_agg v) & a_commits (v_agg (step v ev)) = a_commits (v_agg v)].
Proof.
move=> nd; case: ev => [e k|r|j|] //=.
- case E: process_encrypted_deal => [v' o].
  case: (process_encrypted_dealP E) => [[-> _]|[d _ [_ [[-> _]|[st [-> _ _ _ _]]]]]] //=; by rewrite stored_id.
- rewrite /verifier_process_response; case E: verify_response => [a' o].
  by case: (verify_responseP E) => [[_ [_ _ _ _ ->]]|[_ ->]].
- rewrite /verifier_process_justification; case E: verify_justification => [a' o] /=.
  case: (vjustP E) => [[-> _]|[r [_ _ _ _ ->]]] //.
  by case: ifP; rewrite /= stored_id.
Qed.

Lemma vstep_bad v ev : a_bad (v_agg v) -> a_bad (v_agg (step v ev)).
Proof.
move=> nd; case: ev => [e k|r|j|] //=.
- case E: process_encrypted_deal => [v' o].
  case: (process_encrypted_dealP E) => [[-> _]|[d _ [_ [[-> _]|[st [-> _ _ _ _]]]]]] //=; by rewrite stored_bad.
- rewrite /verifier_process_response; case E: verify_response => [a' o].
  by case: (verify_responseP E) => [[_ [_ _ _ _ ->]]|[_ ->]].
- rewrite /verifier_process_justification; case E: verify_justification => [a' o] /=.
  case: (vjustP E) => [[-> _]|[r [_ _ _ _ ->]]] //.
  by case: ifP => _ /=; rewrite ?stored_bad.
Qed.

Lemma vstep_verifiers v ev : a_verifiers (v_agg (step v ev)) = a_verifiers (v_agg v).
Proof.
case: ev => [e k|r|j|] //=.
- case E: process_encrypted_deal => [v' o].
  case: (process_encrypted_dealP E) => [[-> _]|[d _ [_ [[-> _]|[st [-> _ _ _ _]]]]]] //=; by rewrite stored_verifiers.
- rewrite /verifier_process_response; case E: verify_response => [a' o].
  by case: (verify_responseP E) => [[_ [_ _ _ _ ->]]|[_ ->]].
- rewrite /verifier_process_justification; case E: verify_justification => [a' o] /=.
  case: (vjustP E) => [[-> _]|[r [_ _ _ _ ->]]] //.
  by case: ifP; rewrite /= stored_verifiers.
Qed.

Lemma run_responses v evs i r : mget i (a_responses (v_agg v)) = Some r ->
  mget i (a_responses (v_agg (run v evs))) = Some r.
Proof.
elim: evs v => //= ev evs IH v H; apply: IH.
by case: (vstep_responses v ev i) => [->|[]] //; rewrite H.
Qed.

Lemma run_deal v evs : a_deal (v_agg v) <> None ->
  [/\ a_deal (v_agg (run v evs)) = a_deal (v_agg v), a_sid (v_agg (run v evs)) = a_sid (v_agg v),
      a_t (v_agg (run v evs)) = a_t (v_agg v) & a_commits (v_agg (run v evs)) = a_commits (v_agg v)].
Proof.
elim: evs v => //= ev evs IH v nd; have [e1 e2 e3 e4] := vstep_deal ev nd.
by have [|-> -> -> ->] := IH (step v ev); first by rewrite e1.
Qed.

Lemma run_bad v evs : a_bad (v_agg v) -> a_bad (v_agg (run v evs)).
Proof. by elim: evs v => //= ev evs IH v /vstep_bad - /(_ ev) /IH. Qed.

Lemma run_verifiers v evs : a_verifiers (v_agg (run v evs)) = a_verifiers (v_agg v).
Proof. by elim: evs v => //= ev evs IH v; rewrite IH vstep_verifiers. Qed.

Lemma step_fields v ev : [/\ v_long (step v ev) = v_long v, v_index (step v ev) = v_index v,
  v_dealer (step v ev) = v_dealer v & v_verifiers (step v ev) = v_verifiers v].
Proof. by have := vstep_static v ev; case: (step v ev) => ??????? <-. Qed.

Lemma run_fields v evs : [/\ v_long (run v evs) = v_long v, v_index (run v evs) = v_index v,
  v_dealer (run v evs) = v_dealer v & v_verifiers (run v evs) = v_verifiers v].
Proof.
elim: evs v => //= ev evs IH v; have [-> -> -> ->] := IH (step v ev); exact: step_fields.
Qed.

(** A complaint, once recorded, blocks certification forever. *)
Lemma complaint_blocks a i : (i < size (a_verifiers a))%N -> status_of a i = Some false -> deal_certified a = false.
Proof.
move=> lt st; rewrite certified_count /=.
have -> : (count (fun i0 : nat => status_of a i0 == Some false) (iota 0 (size (a_verifiers a))) == 0%N) = false.
  apply/negbTE; rewrite -lt0n -has_count; apply/hasP; exists i; last by rewrite st.
  by rewrite mem_iota.
by rewrite !andbF.
Qed.

Lemma bad_blocks a : a_bad a -> deal_certified a = false.
Proof. by move=> b; rewrite certified_count b. Qed.

End History.

(** ** Crafted deals: what a dealer (honest or not) can make a verifier decrypt *)
Section Crafted.
Variable deal_enc : deal G -> bytestr.
Variable deal_dec : bytestr -> option (deal G).
Hypothesis okS : suite_ok S.
Hypothesis dec_enc : forall d, deal_dec (deal_enc d) = Some d.

Definition craft (long dh k : F) (vs : seq G) (x : F) d : enc_deal G :=
  EncDeal (dh *: B) (su_sign S long (su_enc S (dh *: B)) k) (nseq 12 0%N)
    (su_seal S (x *: (dh *: B)) (context S (long *: B) vs) (nseq 12 0%N) (deal_enc d)).

Lemma craft_decrypts long dh k vs x v d : v_long v = x -> v_dealer v = long *: B -> v_ctx v = context S (long *: B) vs ->
  su_good S long -> su_good S k -> decrypt_deal S deal_dec v (craft long dh k vs x d) = Ok d.
Proof.
move=> ex ed ec nl nk; rewrite /decrypt_deal ed [su_verify _ _ _ _](su_sign_ok okS) //= ex ec.
by rewrite (su_open_seal okS) dec_enc.
Qed.

Lemma approve_if v e k d : decrypt_deal S deal_dec v e = Ok d -> ps_i (d_share d) = v_index v ->
  a_deal (v_agg v) = None -> (v_index v < size (a_verifiers (v_agg v)))%N ->
  mget (v_index v) (a_responses (v_agg v)) = None -> deal_checks S (a_set_deal (v_agg v) d) d = Ok tt ->
  let r := own_response v (session_id S (v_dealer v) (v_verifiers v) (d_commits d) (d_t d)) true k in
  process_encrypted_deal S deal_dec v e k =
    (v_set_agg v (a_set_responses (a_set_deal (v_agg v) d) (minsert (v_index v) r (a_responses (v_agg v)))), Ok r).
Proof.
move=> D ei nd lt nn ck; rewrite /process_encrypted_deal D ei eqxx /= /verify_deal nd /= ck.
by rewrite add_response_ok.
Qed.
End Crafted.
End Vss.
