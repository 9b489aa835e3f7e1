(** Proofs about the model of src/sign/dss/dss_sig.rs. *)
From mathcomp Require Import all_ssreflect all_algebra.
From Verif Require Import Base Lagrange PolyModel PolySpec PolyProofs PolyProps Suite SuiteProofs VssModel VssProofs.
From Verif Require Import DssModel DssSpec.

Set Implicit Arguments.
Unset Strict Implicit.
Unset Printing Implicit Defensive.

Import GRing.Theory.
Local Open Scope ring_scope.

Section Dss.
Variables (F : fieldType) (G : lmodType F) (S : suite G) (chal : bytestr -> F).
Notation B := (su_base S).
Notation hash := (challenge S chal).

(** The fields that never change. *)
Definition same_setup (d e : dss G) : Prop :=
  [/\ ds_secret d = ds_secret e, ds_index d = ds_index e, ds_parts d = ds_parts e & ds_t d = ds_t e] /\
  [/\ ds_long d = ds_long e, ds_random d = ds_random e, ds_msg d = ds_msg e & ds_sid d = ds_sid e].

Lemma same_refl d : same_setup d d. Proof. by []. Qed.
Lemma same_trans d e f : same_setup d e -> same_setup e f -> same_setup d f.
Proof. by rewrite /same_setup => -[[-> -> -> ->] [-> -> -> ->]]. Qed.
Lemma same_push d s b : same_setup d (ds_push d s b). Proof. by []. Qed.

Lemma hash_sigE (d : dss G) : dks_commits (ds_random d) != [::] -> dks_commits (ds_long d) != [::] ->
  hash_sig S chal d = Ok (hash (dks_commits (ds_random d))`_0 (dks_commits (ds_long d))`_0 (ds_msg d)).
Proof. by rewrite /hash_sig; case: (dks_commits (ds_random d)) => // a l; case: (dks_commits (ds_long d)). Qed.

(** What a received partial has to satisfy. *)
Definition acceptable (d : dss G) (ps : partial_sig F) : Prop :=
  let i := ps_i (pt_partial ps) in
  let h := hash (dks_commits (ds_random d))`_0 (dks_commits (ds_long d))`_0 (ds_msg d) in
  [/\ (i < size (ds_parts d))%N, su_verify S (nth 0 (ds_parts d) i) (partial_hash S ps) (pt_sig ps),
      pt_sid ps = ds_sid d, i \notin ds_idx d &
      ps_v (pt_partial ps) *: B =
        pub_share_value (dks_commits (ds_random d)) i + h *: pub_share_value (dks_commits (ds_long d)) i].

Lemma processP (d : dss G) (ps : partial_sig F) :
  dks_commits (ds_random d) != [::] -> dks_commits (ds_long d) != [::] ->
  (acceptable d ps /\ process_partial_sig S chal d ps = (ds_push d (pt_partial ps) (ds_signed d), Ok tt)) \/
  (~ acceptable d ps /\ exists e, process_partial_sig S chal d ps = (d, Err e)).
Proof.
move=> nr nl; rewrite /process_partial_sig find_pubE hash_sigE // !pub_eval_ok //= /acceptable.
case: (ltnP (ps_i (pt_partial ps)) (size (ds_parts d))) => [lt|ge]; last first.
  by right; split; [case|exists InvalidIndex].
case: (boolP (su_verify _ _ _ _)) => v /=; last by right; split; [case|exists DssSignature].
case: eqP => e /=; last by right; split; [case|exists InvalidSessionId].
case: (boolP (_ \in _)) => m /=; first by right; split; [case|exists PartialAlreadyReceived].
rewrite /pmul /= -![gsum _ _]/(pub_share_value _ _).
by case: eqP => q /=; [left|right; split; [case|exists InvalidPartialSignature]].
Qed.

(** Errors and panics leave the state alone. *)
Lemma process_fail (d : dss G) ps o : (process_partial_sig S chal d ps).2 = o -> o <> Ok tt ->
  (process_partial_sig S chal d ps).1 = d.
Proof.
move=> <-; rewrite /process_partial_sig.
case: find_pub => [P|] //=; case: ifP => // _; case: ifP => // _; case: ifP => // _.
by case: hash_sig => //= h; do 2 case: pub_eval => //= ?; case: ifP.
Qed.

Lemma step_setup (d : dss G) e : same_setup d (dss_step S chal d e).
Proof.
case: e => [k|ps] /=.
  rewrite /dss_partial_sig; case: hash_sig => //= h; by case: ifP.
rewrite /process_partial_sig.
case: find_pub => [P|] //=; case: ifP => // _; case: ifP => // _; case: ifP => // _.
by case: hash_sig => //= h; do 2 case: pub_eval => //= ?; case: ifP.
Qed.

Lemma run_setup (d : dss G) es : same_setup d (dss_run S chal d es).
Proof.
elim: es d => [//|e es IH] d /=; exact: same_trans (step_setup d e) (IH _).
Qed.

Lemma step_cat d es es' : dss_run S chal d (es ++ es') = dss_run S chal (dss_run S chal d es) es'.
Proof. exact: foldl_cat. Qed.

(** *** The invariant *)
Section Inv.
Variables (f r : seq F).
Hypotheses (nf : f != [::]) (nr : r != [::]).

Definition secret_share (msg : bytestr) i : F := hash (r`_0 *: B) (f`_0 *: B) msg * share_value f i + share_value r i.

Record dinv (d : dss G) : Prop := Dinv {
  di_long : dealt S f (ds_index d) (ds_long d);
  di_random : dealt S r (ds_index d) (ds_random d);
  di_index : (ds_index d < size (ds_parts d))%N;
  di_idx : dss_contributors d = rev (ds_idx d);
  di_gen : forall s, List.In (Some s) (ds_partials d) ->
    ps_v s = secret_share (ds_msg d) (ps_i s) /\ (ps_i s < size (ds_parts d))%N }.

Hypothesis nB : B != 0.

Lemma head_commit (c : seq F) : c != [::] -> ([seq x *: B | x <- c])`_0 = c`_0 *: B.
Proof. by case: c. Qed.
Lemma commit_nil (c : seq F) : c != [::] -> [seq x *: B | x <- c] != [::].
Proof. by case: c. Qed.

Lemma pub_commit c i : pub_share_value [seq x *: B | x <- c] i = share_value c i *: B.
Proof.
rewrite share_value_eval pri_eval_v /pub_share_value -[geval _ _]/(gsum _ (xcoord F i)).
exact: (gsum_commit B c None).
Qed.

Lemma scale_inj (a b : F) : a *: B = b *: B -> a = b.
Proof. by move/eqP; rewrite -subr_eq0 -scalerBl scaler_eq0 (negbTE nB) orbF subr_eq0 => /eqP. Qed.

Lemma acceptable_value d ps : dks_commits (ds_long d) = [seq c *: B | c <- f] ->
  dks_commits (ds_random d) = [seq c *: B | c <- r] ->
  (ps_v (pt_partial ps) *: B = pub_share_value (dks_commits (ds_random d)) (ps_i (pt_partial ps)) +
     hash (dks_commits (ds_random d))`_0 (dks_commits (ds_long d))`_0 (ds_msg d)
       *: pub_share_value (dks_commits (ds_long d)) (ps_i (pt_partial ps))) <->
  ps_v (pt_partial ps) = secret_share (ds_msg d) (ps_i (pt_partial ps)).
Proof.
move=> el er; rewrite el er !head_commit // !pub_commit scalerA -scalerDl /secret_share addrC.
by split=> [/scale_inj|->].
Qed.

Lemma partial_value d k : dealt S f (ds_index d) (ds_long d) -> dealt S r (ds_index d) (ds_random d) ->
  let s := PriShare (ds_index d) (secret_share (ds_msg d) (ds_index d)) in
  dss_partial_sig S chal d k =
    (if ds_signed d then d else ds_push d s true,
     Ok (PartialSig s (ds_sid d) (su_sign S (ds_secret d) (partial_hash S (PartialSig s (ds_sid d) [::])) k))).
Proof.
move=> [el vl] [er vr]; rewrite /dss_partial_sig hash_sigE ?el ?er ?commit_nil // vl vr !head_commit //.
Qed.

Lemma push_inv d s b : dinv d -> ps_v s = secret_share (ds_msg d) (ps_i s) -> (ps_i s < size (ds_parts d))%N ->
  dinv (ds_push d s b).
Proof.
case=> il ir ii ix ig ev lt; split=> //=.
- by rewrite /dss_contributors /= -cats1 pmap_cat map_cat /= rev_cons -cats1 -ix.
- move=> s'; rewrite -cats1 => hin; case: (List.in_app_or _ _ _ hin) => [/ig|] //= [|] //.
  by case=> <-.
Qed.

Lemma step_inv d e : dinv d -> dinv (dss_step S chal d e).
Proof.
move=> I; have [[el vl] [er vr]] := (di_long I, di_random I); case: e => [k|ps] /=.
  by rewrite partial_value //=; case: ifP => // _; apply: push_inv => //; exact: (di_index I).
have nr' : dks_commits (ds_random d) != [::] by rewrite er commit_nil.
have nl' : dks_commits (ds_long d) != [::] by rewrite el commit_nil.
case: (processP ps nr' nl') => [[[lt _ _ _ v] ->]|[_ [e ->]]] //=.
by apply: push_inv => //; apply/(acceptable_value ps el er).
Qed.

Lemma run_inv d es : dinv d -> dinv (dss_run S chal d es).
Proof. by elim: es d => [//|e es IH] d I /=; apply: IH; exact: step_inv. Qed.

Lemma secret_share_poly msg i : size f = size r ->
  secret_share msg i =
  share_value [seq hash (r`_0 *: B) (f`_0 *: B) msg * x.1 + x.2 | x <- zip f r] i.
Proof.
rewrite /secret_share; set h := challenge _ _ _ _ _; move=> e.
rewrite /share_value /peval size_map size_zip -e minnn mulr_sumr -big_split /=.
apply: eq_bigr => j _; rewrite (nth_map (0, 0)) ?size_zip -?e ?minnn // nth_zip //=.
by rewrite mulrDl mulrA.
Qed.

Lemma signature_ok d p ord : dinv d -> size f = ds_t d -> size r = ds_t d -> p \in [char F] ->
  (forall k s, perm_eq (ord k s) s) -> (size (ds_parts d) < p)%N ->
  distinct_at_least (dss_contributors d) (ds_t d) ->
  dss_signature S ord d =
    Ok (su_enc S (r`_0 *: B) ++ su_senc S (hash (r`_0 *: B) (f`_0 *: B) (ds_msg d) * f`_0 + r`_0)).
Proof.
move=> I sf sr ch po lp dist; have [er vr] := di_random I; rewrite /dss_signature.
have -> : enough_partial_sig d.
  case/distinctP: (dist) => //; rewrite /enough_partial_sig => /leq_trans; apply.
  apply: leq_trans (size_undup _) _; rewrite /dss_contributors size_map size_pmap; exact: count_size.
set fr := [seq hash (r`_0 *: B) (f`_0 *: B) (ds_msg d) * x.1 + x.2 | x <- zip f r].
have sfr : size fr = ds_t d by rewrite size_map size_zip sf sr minnn.
have gen s : List.In (Some s) (ds_partials d) -> ps_v s = share_value fr (ps_i s) /\ ((ps_i s).+1 < p)%N.
  move=> /(di_gen I)[-> lt]; rewrite secret_share_poly ?sf ?sr //; split=> //; exact: leq_ltn_trans lt lp.
rewrite /= (C01_lemma ch po sfr gen dist) er -map_comp.
rewrite /fr; clear -nf nr; by case: f nf => // a f' _; case: r nr.
Qed.

End Inv.

(** *** Each participant at most once *)
Definition foreign_uniq (d : dss G) : Prop := uniq [seq i <- ds_idx d | i != ds_index d].

Lemma step_foreign d e : foreign_uniq d -> foreign_uniq (dss_step S chal d e).
Proof.
rewrite /foreign_uniq; case: e => [k|ps] u /=.
  by rewrite /dss_partial_sig; case: hash_sig => //= h; case: ifP => //= _; rewrite eqxx.
rewrite /process_partial_sig; case: find_pub => [P|] //=; case: ifP => // _; case: ifP => // _; case: ifP => // m.
case: hash_sig => //= h; do 2 case: pub_eval => //= ?; case: ifP => //= _.
by case: ifP => //= _; rewrite mem_filter m andbF.
Qed.

(** Nothing from the own index before the own signature. *)
Definition own_once (d : dss G) : Prop := uniq (ds_idx d) /\ (ds_index d \in ds_idx d = ds_signed d).

Lemma step_own_once d e : own_once d -> ds_signed d || ~~ from_index (ds_index d) e -> own_once (dss_step S chal d e).
Proof.
case: e => [k|ps] [u m] /=.
  rewrite /dss_partial_sig; case: hash_sig => //= h _; case: ifP => //= sg; rewrite /own_once /=.
  by rewrite inE eqxx m sg u.
rewrite /process_partial_sig; case: find_pub => [P|] //=; case: ifP => // _; case: ifP => // _; case: ifP => // ni.
case: hash_sig => //= h; do 2 case: pub_eval => //= ?; case: ifP => //= _ H; rewrite /own_once /=.
split; first by rewrite ni u.
rewrite inE m; case: (ds_signed d) H => /=; first by rewrite orbT.
by rewrite orbF eq_sym => /negbTE.
Qed.

Lemma run_own_once d es : own_once d -> ~~ has (from_index (ds_index d)) es -> own_once (dss_run S chal d es).
Proof.
elim: es d => [//|e es IH] d I /= /norP[n1 n2].
have [[_ ei _ _] _] := step_setup d e.
by apply: IH; rewrite -?ei //; apply: step_own_once; rewrite ?n1 ?orbT.
Qed.

Lemma step_signed d e : ds_signed d -> ds_signed (dss_step S chal d e).
Proof.
case: e => [k|ps] sg /=; first by rewrite /dss_partial_sig sg; case: hash_sig.
rewrite /process_partial_sig; case: find_pub => [P|] //=; case: ifP => // _; case: ifP => // _; case: ifP => // ni.
by case: hash_sig => //= h; do 2 case: pub_eval => //= ?; case: ifP.
Qed.

Lemma run_signed d es : own_once d -> ds_signed d -> own_once (dss_run S chal d es).
Proof.
elim: es d => [//|e es IH] d I sg /=; apply: IH; last exact: step_signed.
by apply: step_own_once; rewrite ?sg.
Qed.

Lemma new_dssP x parts long random msg t d : new_dss S x parts long random msg t = Ok d ->
  [/\ x *: B \in parts, nth 0 parts (ds_index d) = x *: B, (ds_index d < size parts)%N,
   forall j, (j < ds_index d)%N -> nth 0 parts j != x *: B &
   d = Dss x (x *: B) (ds_index d) parts t long random msg [::] [::] false (dss_session_id S long random)].
Proof.
rewrite /new_dss /pmul /=; case: ltnP => //= lt [<-] /=; split=> //.
- by rewrite -index_mem.
- by rewrite nth_index // -index_mem.
- by move=> j /(before_find 0) /negbT.
Qed.

Lemma new_dss_err x parts long random msg t : x *: B \notin parts ->
  new_dss S x parts long random msg t = Err PublicKeyNotInParticipants.
Proof. by rewrite -index_mem /new_dss /pmul /= => ->. Qed.

(** The stored shares and the recorded indices go together in every history from a fresh state. *)
Lemma step_idx d e : dss_contributors d = rev (ds_idx d) -> dss_contributors (dss_step S chal d e) = rev (ds_idx (dss_step S chal d e)).
Proof.
have push s b : dss_contributors d = rev (ds_idx d) -> dss_contributors (ds_push d s b) = rev (ds_idx (ds_push d s b)).
  by rewrite /dss_contributors /= -cats1 pmap_cat map_cat /= rev_cons -cats1 => ->.
case: e => [k|ps] c /=.
  by rewrite /dss_partial_sig; case: hash_sig => //= h; case: ifP => // _; exact: push.
rewrite /process_partial_sig; case: find_pub => [P|] //=; case: ifP => // _; case: ifP => // _; case: ifP => // ni.
by case: hash_sig => //= h; do 2 case: pub_eval => //= ?; case: ifP => // _; exact: push.
Qed.
Lemma run_idx d es : dss_contributors d = rev (ds_idx d) -> dss_contributors (dss_run S chal d es) = rev (ds_idx (dss_run S chal d es)).
Proof. by elim: es d => [//|e es IH] d c /=; apply: IH; exact: step_idx. Qed.
Lemma run_foreign d es : foreign_uniq d -> foreign_uniq (dss_run S chal d es).
Proof. by elim: es d => [//|e es IH] d c /=; apply: IH; exact: step_foreign. Qed.

(** [ds_partials] never holds [None], so its length counts the contributors. *)
Lemma step_size d e : size (ds_partials d) = size (dss_contributors d) ->
  size (ds_partials (dss_step S chal d e)) = size (dss_contributors (dss_step S chal d e)).
Proof.
have push s b : size (ds_partials d) = size (dss_contributors d) ->
    size (ds_partials (ds_push d s b)) = size (dss_contributors (ds_push d s b)).
  by rewrite /dss_contributors /= -cats1 pmap_cat map_cat !size_cat /= => ->.
case: e => [k|ps] c /=.
  by rewrite /dss_partial_sig; case: hash_sig => //= h; case: ifP => // _; exact: push.
rewrite /process_partial_sig; case: find_pub => [P|] //=; case: ifP => // _; case: ifP => // _; case: ifP => // ni.
by case: hash_sig => //= h; do 2 case: pub_eval => //= ?; case: ifP => // _; exact: push.
Qed.
Lemma run_size d es : size (ds_partials d) = size (dss_contributors d) ->
  size (ds_partials (dss_run S chal d es)) = size (dss_contributors (dss_run S chal d es)).
Proof. by elim: es d => [//|e es IH] d c /=; apply: IH; exact: step_size. Qed.
End Dss.
