(** C42, C43, C75: distributed Schnorr signatures (src/sign/dss/dss_sig.rs). *)
From mathcomp Require Import all_ssreflect all_algebra.
From Verif Require Import Base PolyModel PolySpec PolyProofs PolyProps Suite SuiteProofs VssModel VssProofs.
From Verif Require Import DssModel DssSpec DssProofs Toy.

Set Implicit Arguments.
Unset Strict Implicit.
Unset Printing Implicit Defensive.

Import GRing.Theory.
Local Open Scope ring_scope.

(** Joint hypotheses: the long-term polynomial f and the random polynomial r are shared with threshold t, and [d0] is a fresh
    signer of participant number [ds_index d0]. *)
Section Hyps.
Variables (F : fieldType) (G : lmodType F) (S : suite G).
Definition fresh_signer (f r : seq F) (x : F) (parts : seq G) (long random : dks G) (msg : bytestr) (t : nat) (d0 : dss G) : Prop :=
  [/\ new_dss S x parts long random msg t = Ok d0, (0 < t)%N, size f = t, size r = t &
      dealt S f (ds_index d0) long /\ dealt S r (ds_index d0) random].
End Hyps.

Section C42.
Variables (F : fieldType) (G : lmodType F) (S : suite G) (chal : bytestr -> F).
Notation B := (su_base S).

Lemma fresh_inv f r x parts long random msg t d0 : fresh_signer S f r x parts long random msg t d0 ->
  [/\ f != [::], r != [::], dinv S chal f r d0 & d0 = Dss x (x *: B) (ds_index d0) parts t long random msg [::] [::] false (dss_session_id S long random)].
Proof.
case=> /new_dssP[_ _ lt _ ed] t0 sf sr [dl dr].
have nn (c : seq F) : size c = t -> c != [::] by move=> e; move: t0; rewrite -e; case: c {e}.
split; [exact: nn|exact: nn| |exact: ed]; move: dl dr lt; rewrite ed /= => dl dr lt.
by split.
Qed.

(** Whatever was received and signed before, in whatever order: as soon as the stored partial signatures come from t
    different participants, [signature] returns one and the same valid signature. *)
Theorem C42_any_history (f r : seq F) (x : F) (parts : seq G) (long random : dks G) (msg : bytestr) (t : nat) (d0 : dss G)
    (es : seq (dss_event F)) (p : nat) (ord : hash_order F) :
  suite_ok S -> p \in [char F] -> (forall k s, perm_eq (ord k s) s) -> (size parts < p)%N ->
  fresh_signer S f r x parts long random msg t d0 ->
  distinct_at_least (dss_contributors (dss_run S chal d0 es)) t ->
  let R := r`_0 *: B in let A := f`_0 *: B in
  dss_signature S ord (dss_run S chal d0 es) = Ok (su_enc S R ++ su_senc S (challenge S chal R A msg * f`_0 + r`_0)) /\
  ed_valid S chal A msg (su_enc S R ++ su_senc S (challenge S chal R A msg * f`_0 + r`_0)).
Proof.
move=> sok ch po lp fs dist R A; have [nf nr I ed] := fresh_inv fs; case: fs => _ _ sf sr _.
have [[_ _ ep et] [_ _ em _]] := run_setup S chal d0 es.
have J := run_inv nf nr (su_base_nz sok) es I.
have et' : ds_t (dss_run S chal d0 es) = t by rewrite -et ed.
have em' : ds_msg (dss_run S chal d0 es) = msg by rewrite -em ed.
split.
  rewrite (signature_ok nf nr J (p := p)) ?et' ?em' //; by rewrite -ep ed.
exists R, (challenge S chal R A msg * f`_0 + r`_0); split=> //.
by rewrite scalerDl addrC /A scalerA.
Qed.

(** With partial signatures of fewer than t participants there is no signature. *)
Theorem C42_too_few (d : dss G) (ord : hash_order F) :
  ~ distinct_at_least (dss_contributors d) (ds_t d) -> is_err (dss_signature S ord d).
Proof.
move=> nd; rewrite /dss_signature; case: (boolP (enough_partial_sig d)) => //= _.
have [e1 _] := (C02_lemma (B : G) ord (ds_partials d) [::] (ds_t d)).1 nd.
by case: recover_secret e1.
Qed.

(** An honest participant's partial signature, computed in any state of its signer, is accepted by every other signer of
    the session that does not have it yet. *)
Theorem C42_honest_accepted (f r : seq F) (x y : F) (parts : seq G) (longi longj randomi randomj : dks G) (msg : bytestr)
    (t : nat) (di dj : dss G) (esi esj : seq (dss_event F)) (k : F) :
  suite_ok S -> su_good S x -> su_good S k ->
  fresh_signer S f r x parts longi randomi msg t di -> fresh_signer S f r y parts longj randomj msg t dj ->
  ds_index di \notin ds_idx (dss_run S chal dj esj) ->
  exists ps, (dss_partial_sig S chal (dss_run S chal di esi) k).2 = Ok ps /\
    ps_i (pt_partial ps) = ds_index di /\
    (process_partial_sig S chal (dss_run S chal dj esj) ps).2 = Ok tt /\
    dss_contributors (process_partial_sig S chal (dss_run S chal dj esj) ps).1 =
      rcons (dss_contributors (dss_run S chal dj esj)) (ds_index di).
Proof.
move=> sok x0 k0 fi fj ni; have [nf nr Ii ei] := fresh_inv fi; have [_ _ Ij ej] := fresh_inv fj.
case: fi => /new_dssP[_ nthi lti _ _] t0 sf sr [[cl _] [cr _]]; case: fj => _ _ _ _ [[cl' _] [cr' _]].
have Ji := run_inv nf nr (su_base_nz sok) esi Ii; have Jj := run_inv nf nr (su_base_nz sok) esj Ij.
have [[esec eix ep et] [el er em es]] := run_setup S chal di esi.
have [[_ _ ep' _] [el' er' em' es']] := run_setup S chal dj esj.
rewrite (partial_value chal nf nr k (di_long Ji) (di_random Ji)) /=.
eexists; split; first by reflexivity.
split; first by rewrite /= -eix.
move: ni; set dj' := dss_run S chal dj esj; set ps := PartialSig _ _ _ => ni.
have nr' : dks_commits (ds_random dj') != [::] by rewrite -er' ej /= cr'; exact: commit_nil.
have nl' : dks_commits (ds_long dj') != [::] by rewrite -el' ej /= cl'; exact: commit_nil.
have acc : acceptable S chal dj' ps.
  rewrite /acceptable; split=> /=; rewrite -?eix.
  - by rewrite -ep' ej.
  - rewrite -ep' ej /= nthi -esec; have -> : ds_secret di = x by rewrite ei.
    by rewrite /ps /partial_hash /share_hash /= -?eix; apply: (su_sign_ok sok).
  - by rewrite -es -es' ei ej /= /dss_session_id cl cl' cr cr'.
  - exact: ni.
  - have ell : dks_commits (ds_long dj') = [seq c *: B | c <- f] by rewrite -el' ej.
    have err : dks_commits (ds_random dj') = [seq c *: B | c <- r] by rewrite -er' ej.
    have := (acceptable_value chal nf nr (su_base_nz sok) ps ell err).2; rewrite /= -eix; apply.
    by rewrite -em -em' ei ej.
case: (processP S chal ps nr' nl') => [[_ ->]|[] //] /=.
by rewrite /dss_contributors /= -cats1 pmap_cat map_cat /= cats1 -eix.
Qed.

(** A session without faults: a signer signs, then receives the partial signatures of t - 1 or more other participants, in
    any order; each is accepted, and the signature is complete. *)
Theorem C42_honest_session (f r : seq F) (x : nat -> F) (parts : seq G) (long random : nat -> dks G) (msg : bytestr) (t : nat)
    (d : nat -> dss G) (k : nat -> F) (ps : nat -> partial_sig F) (i : nat) (K : seq nat) (p : nat) (ord : hash_order F) :
  suite_ok S -> p \in [char F] -> (forall k s, perm_eq (ord k s) s) -> (size parts < p)%N ->
  uniq (i :: K) -> (t <= size (i :: K))%N ->
  (forall j, j \in i :: K -> [/\ su_good S (x j), su_good S (k j),
     fresh_signer S f r (x j) parts (long j) (random j) msg t (d j), ds_index (d j) = j &
     (dss_partial_sig S chal (d j) (k j)).2 = Ok (ps j)]) ->
  let D := dss_run S chal (d i) (DSign (k i) :: [seq DReceive (ps j) | j <- K]) in
  let R := r`_0 *: B in let A := f`_0 *: B in
  [/\ dss_contributors D = i :: K, enough_partial_sig D &
      dss_signature S ord D = Ok (su_enc S R ++ su_senc S (challenge S chal R A msg * f`_0 + r`_0))].
Proof.
move=> sok ch po lp uK tK hon D R A.
have [xi ki fi ixi psi] := hon i (mem_head _ _).
have [nf nr Ii ei] := fresh_inv fi.
have CD : dss_contributors D = i :: K.
  rewrite /D; have : {subset K <= i :: K} by move=> j jK; rewrite inE jK orbT.
  move: uK; elim/last_ind: {-3}K => [|K' j IH] uK sub.
    rewrite /=; move: psi; rewrite /dss_partial_sig; case: hash_sig => //= h _.
    by rewrite ei /= /dss_contributors /= ixi.
  have uK' : uniq (i :: K') by move: uK; rewrite /= mem_rcons inE negb_or rcons_uniq => /andP[/andP[_ ->] /andP[_ ->]].
  have njK : j \notin i :: K'.
    by move: uK; rewrite /= mem_rcons !inE !negb_or rcons_uniq eq_sym => /andP[/andP[-> _] /andP[-> _]].
  have {}IH : dss_contributors (dss_run S chal (d i) (DSign (k i) :: [seq DReceive (ps q) | q <- K'])) = i :: K'.
    by apply: IH => // q qK; apply: sub; rewrite mem_rcons inE qK orbT.
  have jK : j \in i :: K by apply: sub; rewrite mem_rcons mem_head.
  have [xj kj fj ixj psj] := hon j jK.
  rewrite map_rcons -rcons_cons -cats1 step_cat; set D' := dss_run _ _ _ _ in IH *.
  have ni : ds_index (d j) \notin ds_idx D'.
    have [_ _ _ ix _] := run_inv nf nr (su_base_nz sok) (DSign (k i) :: [seq DReceive (ps j0) | j0 <- K']) Ii.
    by rewrite ixj; move: ix; rewrite -/D' IH => e; rewrite -mem_rev -e.
  have [ps' [e1 [_ [_ e2]]]] := C42_honest_accepted [::] sok xj kj fj fi ni.
  move: e1; rewrite /= psj => -[ee]; rewrite /= ee e2 ixj IH.
  by rewrite -rcons_cons.
have J := run_inv nf nr (su_base_nz sok) (DSign (k i) :: [seq DReceive (ps j) | j <- K]) Ii.
have dist : distinct_at_least (dss_contributors D) t.
  by exists (take t (i :: K)) => [|q]; [rewrite take_uniq // size_takel|rewrite CD; exact: mem_take].
have [sg _] := C42_any_history sok ch po lp fi dist.
split=> //.
by move: sg; rewrite /dss_signature -/D; case: enough_partial_sig.
Qed.
End C42.
Print Assumptions C42_any_history.
Print Assumptions C42_honest_session.
Print Assumptions C42_too_few.
Print Assumptions C42_honest_accepted.

(** ** C43 *)
Section C43.
Variables (F : fieldType) (G : lmodType F) (S : suite G) (chal : bytestr -> F).
Notation B := (su_base S).

(** In every state of a signer whose keys hold commitments to f and r, a partial signature is stored exactly when it comes
    from a participant, is signed by it for this session, was not stored before and has the participant's value; anything
    else is an error that changes nothing. *)
Theorem C43_process (f r : seq F) (d : dss G) (ps : partial_sig F) :
  suite_ok S -> f != [::] -> r != [::] ->
  dks_commits (ds_long d) = [seq c *: B | c <- f] -> dks_commits (ds_random d) = [seq c *: B | c <- r] ->
  let i := ps_i (pt_partial ps) in
  (* what is signed: H(H(value || index) || session id) *)
  let signed := su_hash S (su_hash S (su_senc S (ps_v (pt_partial ps)) ++ u32le i) ++ pt_sid ps) in
  let good := [/\ (i < size (ds_parts d))%N, su_verify S (nth 0 (ds_parts d) i) signed (pt_sig ps),
      pt_sid ps = ds_sid d, i \notin ds_idx d &
      ps_v (pt_partial ps) = challenge S chal (r`_0 *: B) (f`_0 *: B) (ds_msg d) * share_value f i + share_value r i] in
  ((process_partial_sig S chal d ps).2 = Ok tt <-> good) /\
  (good -> ds_partials (process_partial_sig S chal d ps).1 = rcons (ds_partials d) (Some (pt_partial ps)) /\
           ds_idx (process_partial_sig S chal d ps).1 = i :: ds_idx d) /\
  (~ good -> exists e, process_partial_sig S chal d ps = (d, Err e)).
Proof.
move=> sok nf nr el er i signed good.
have nl' : dks_commits (ds_long d) != [::] by rewrite el; exact: commit_nil.
have nr' : dks_commits (ds_random d) != [::] by rewrite er; exact: commit_nil.
have gP : acceptable S chal d ps <-> good.
  by split; case=> h1 h2 h3 h4 h5; split=> //; apply/(acceptable_value chal nf nr (su_base_nz sok) ps el er).
case: (processP S chal ps nr' nl') => [[/gP g ->]|[ng [e ->]]] /=; first by split.
split; first by split=> // /gP /ng.
by split=> [/gP /ng|_] //; exists e.
Qed.

(** Even for lists of commitments that belong to no shared key: an error or a panic never changes the state. *)
Theorem C43_failure_no_effect (d : dss G) (ps : partial_sig F) :
  (process_partial_sig S chal d ps).2 <> Ok tt -> (process_partial_sig S chal d ps).1 = d.
Proof. by move=> h; exact: process_fail (erefl _) h. Qed.

(** A partial signature the participant made for another message is refused, unless the two challenges agree or the
    participant's share of the long-term key is zero: the session identifier does not mention the message. *)
Theorem C43_other_message (f r : seq F) (d : dss G) (ps : partial_sig F) (msg' : bytestr) :
  suite_ok S -> f != [::] -> r != [::] ->
  dks_commits (ds_long d) = [seq c *: B | c <- f] -> dks_commits (ds_random d) = [seq c *: B | c <- r] ->
  let i := ps_i (pt_partial ps) in
  let h m := challenge S chal (r`_0 *: B) (f`_0 *: B) m in
  ps_v (pt_partial ps) = h msg' * share_value f i + share_value r i -> h msg' != h (ds_msg d) -> share_value f i != 0 ->
  exists e, process_partial_sig S chal d ps = (d, Err e).
Proof.
move=> sok nf nr el er i h ev nh ns; have [_ [_]] := C43_process ps sok nf nr el er; apply.
case=> _ _ _ _; rewrite ev -/i => /addIr /(mulIf ns) /eqP; exact/negP.
Qed.

(** Counting.  In every history of a fresh signer, every other participant is stored at most once; the signer itself is
    stored at most once unless a partial signature from its own index arrives before it signs. *)
Theorem C43_once_partial (x : F) (parts : seq G) (long random : dks G) (msg : bytestr) (t : nat) (d0 : dss G)
    (es : seq (dss_event F)) :
  new_dss S x parts long random msg t = Ok d0 ->
  let d := dss_run S chal d0 es in
  (forall i, i != ds_index d0 -> (count_mem i (dss_contributors d) <= 1)%N) /\
  (forall es1 es2, es = es1 ++ es2 -> ~~ has (from_index (ds_index d0)) es1 ->
     (es2 = [::] \/ ds_signed (dss_run S chal d0 es1)) ->
     uniq (dss_contributors d) /\
     (enough_partial_sig d <-> distinct_at_least (dss_contributors d) t)).
Proof.
move=> /new_dssP[_ _ _ _ ed]; set d := dss_run _ _ _ _ => /=.
have ec : dss_contributors d = rev (ds_idx d) by apply: run_idx; rewrite ed.
have [[_ ei _ et] _] := run_setup S chal d0 es.
split=> [i ni|es1 es2 ees n1 sg].
  have u : foreign_uniq d by apply: run_foreign; rewrite ed.
  rewrite ec count_rev; move: u; rewrite /foreign_uniq -ei => u.
  have -> : count_mem i (ds_idx d) = count_mem i [seq j <- ds_idx d | j != ds_index d0].
    by rewrite count_filter; apply: eq_count => j /=; case: eqP => // ->; rewrite ni.
  by rewrite count_uniq_mem //; case: (_ \in _).
have o1 : own_once (dss_run S chal d0 es1) by apply: run_own_once => //; rewrite ed.
have [u _] : own_once d.
  rewrite /d ees step_cat; case: sg => [->|sg]; [exact: o1|exact: run_signed].
have uc : uniq (dss_contributors d) by rewrite ec rev_uniq.
split=> //; rewrite distinctP undup_id // /enough_partial_sig -et ed /=.
by rewrite /d run_size // ed.
Qed.
End C43.
Print Assumptions C43_process.
Print Assumptions C43_failure_no_effect.
Print Assumptions C43_other_message.
Print Assumptions C43_once_partial.

(** ** C75: reuse of the random key *)
Section C75.
Variables (F : fieldType) (G : lmodType F) (S : suite G) (chal : bytestr -> F).
Notation B := (su_base S).

(** Signers for two messages made from the same two keys both sign: nothing in the state remembers that the random key was
    used.  From the two partial signatures anybody computes the participant's long-term share, and from the two final
    signatures the long-term secret. *)
Theorem C75_reuse (f r : seq F) (x : F) (parts : seq G) (long random : dks G) (m1 m2 : bytestr) (t : nat) (d1 d2 : dss G)
    (es1 es2 : seq (dss_event F)) (k1 k2 : F) :
  suite_ok S ->
  fresh_signer S f r x parts long random m1 t d1 -> fresh_signer S f r x parts long random m2 t d2 ->
  let h m := challenge S chal (r`_0 *: B) (f`_0 *: B) m in
  h m1 != h m2 ->
  exists p1 p2,
    [/\ (dss_partial_sig S chal (dss_run S chal d1 es1) k1).2 = Ok p1,
        (dss_partial_sig S chal (dss_run S chal d2 es2) k2).2 = Ok p2 &
        (ps_v (pt_partial p1) - ps_v (pt_partial p2)) / (h m1 - h m2) = share_value f (ds_index d1)] /\
    ((h m1 * f`_0 + r`_0) - (h m2 * f`_0 + r`_0)) / (h m1 - h m2) = f`_0.
Proof.
move=> sok f1 f2 h nh; have [nf nr I1 e1] := fresh_inv chal f1; have [_ _ I2 e2] := fresh_inv chal f2.
have J1 := run_inv nf nr (su_base_nz sok) es1 I1; have J2 := run_inv nf nr (su_base_nz sok) es2 I2.
have [[_ i1 _ _] [_ _ em1 _]] := run_setup S chal d1 es1.
have [[_ i2 _ _] [_ _ em2 _]] := run_setup S chal d2 es2.
have ei : ds_index d2 = ds_index d1.
  have ix m d : new_dss S x parts long random m t = Ok d -> ds_index d = seq.index (x *: B) parts.
    by rewrite /new_dss /pmul /=; case: ifP => // _ [<-].
  by case: f1 => /ix-> _ _ _ _; case: f2 => /ix-> _ _ _ _.
have nz : h m1 - h m2 != 0 by rewrite subr_eq0.
have cancel_r (a b c : F) : (a * c + b) - (h m2 * c + b) = (a - h m2) * c.
  by rewrite opprD addrACA subrr addr0 mulrBl.
rewrite (partial_value chal nf nr k1 (di_long J1) (di_random J1)).
rewrite (partial_value chal nf nr k2 (di_long J2) (di_random J2)) /=.
do 2 eexists; split; last by rewrite cancel_r mulrC mulKf.
split; [by reflexivity|by reflexivity|rewrite /= -i1 -i2 ei -em1 -em2 e1 e2 /=].
by rewrite /secret_share -/(h _) -/(h _) cancel_r mulrC mulKf.
Qed.
End C75.
Print Assumptions C75_reuse.

(** ** Concrete cases, over the seven-element field: three participants with keys 1, 2, 3, threshold 2. *)
Definition kchal (m : bytestr) : K := k7_of (sumn m %% 7).
Definition kdf : seq K := [:: K3; K1].
Definition kdr : seq K := [:: K2; K5].
Definition kdparts : seq V := [:: K1; K2; K3].
Definition kdks (f : seq K) (i : nat) : dks V := Dks [seq c *: (K1 : V) | c <- f] (pri_eval f i).
Definition kdnew (t i : nat) (msg : bytestr) : dss V :=
  match new_dss ktoy (k7_of i.+1 : K) kdparts (kdks kdf i) (kdks kdr i) msg t with
  | Ok d => d
  | _ => @Dss K V K0 K0 0 [::] 0 (kdks kdf 0) (kdks kdr 0) [::] [::] [::] false [::]
  end.
Definition kdpart (t i : nat) (msg : bytestr) : partial_sig K :=
  match (dss_partial_sig ktoy kchal (kdnew t i msg) (K1 : K)).2 with Ok p => p | _ => PartialSig (PriShare 0 (K0 : K)) [::] [::] end.
Definition kid_ord : hash_order K := fun _ s => s.
Definition kmsg : bytestr := [:: 4%N].
Definition kmsg' : bytestr := [:: 6%N].

Lemma kdealt f i : dealt ktoy f i (kdks f i).
Proof. by split=> //; rewrite share_value_eval. Qed.

Lemma kdfresh i m : (i < 3)%N ->
  fresh_signer ktoy kdf kdr (k7_of i.+1 : K) kdparts (kdks kdf i) (kdks kdr i) m 2 (kdnew 2 i m).
Proof.
move=> lt; split; [|by []|by []|by []|].
- by case: i lt => [|[|[|]]] // _; vm_cast_no_check (erefl (Ok (E:=dss_error) (kdnew 2 _ m))).
- have -> : ds_index (kdnew 2 i m) = i by case: i lt => [|[|[|]]] // _.
  by split; exact: kdealt.
Qed.

Definition kd_es : seq (dss_event K) := [:: DReceive (kdpart 2 2 kmsg); DSign (K1 : K); DSign (K2 : K); DReceive (kdpart 2 2 kmsg)].

Example C42_nonvacuous :
  [/\ suite_ok ktoy, 7%N \in [char K], (size kdparts < 7)%N,
      fresh_signer ktoy kdf kdr (K1 : K) kdparts (kdks kdf 0) (kdks kdr 0) kmsg 2 (kdnew 2 0 kmsg) &
      distinct_at_least (dss_contributors (dss_run ktoy kchal (kdnew 2 0 kmsg) kd_es)) 2 /\
      dss_signature ktoy kid_ord (dss_run ktoy kchal (kdnew 2 0 kmsg) kd_es) = Ok [:: 2; 1]%N].
Proof.
split; [exact: ktoy_ok|exact: charK|by []|exact: (kdfresh (i := 0))|split].
- apply/distinctP; have -> : dss_contributors (dss_run ktoy kchal (kdnew 2 0 kmsg) kd_es) = [:: 2; 0]%N.
    by vm_cast_no_check (erefl [:: 2; 0]%N).
  by [].
- by vm_cast_no_check (erefl (Ok (E:=dss_error) [:: 2; 1]%N)).
Qed.

Example C42_too_few_nonvacuous :
  let d := dss_run ktoy kchal (kdnew 2 0 kmsg) [:: DSign (K1 : K)] in
  ~ distinct_at_least (dss_contributors d) (ds_t d) /\ dss_signature ktoy kid_ord d = Err NotEnoughPartials.
Proof.
split; last by vm_cast_no_check (erefl (Err (A:=bytestr) NotEnoughPartials)).
move=> /distinctP.
have -> : dss_contributors (dss_run ktoy kchal (kdnew 2 0 kmsg) [:: DSign (K1 : K)]) = [:: 0]%N by vm_cast_no_check (erefl [:: 0]%N).
by have -> : ds_t (dss_run ktoy kchal (kdnew 2 0 kmsg) [:: DSign (K1 : K)]) = 2%N by vm_cast_no_check (erefl 2%N).
Qed.

Example C42_honest_accepted_nonvacuous :
  [/\ fresh_signer ktoy kdf kdr (K3 : K) kdparts (kdks kdf 2) (kdks kdr 2) kmsg 2 (kdnew 2 2 kmsg),
      fresh_signer ktoy kdf kdr (K1 : K) kdparts (kdks kdf 0) (kdks kdr 0) kmsg 2 (kdnew 2 0 kmsg),
      (K3 : K) != 0, (K1 : K) != 0 &
      ds_index (kdnew 2 2 kmsg) \notin ds_idx (dss_run ktoy kchal (kdnew 2 0 kmsg) [:: DSign (K1 : K)])].
Proof.
split; [exact: (kdfresh (i := 2))|exact: (kdfresh (i := 0))|by []|by []|].
by vm_cast_no_check (erefl true).
Qed.

Example C42_honest_session_nonvacuous :
  uniq [:: 0; 2; 1]%N /\
  (forall j, j \in [:: 0; 2; 1]%N -> [/\ su_good ktoy (k7_of j.+1 : K), su_good ktoy (K1 : K),
     fresh_signer ktoy kdf kdr (k7_of j.+1 : K) kdparts (kdks kdf j) (kdks kdr j) kmsg 2 (kdnew 2 j kmsg), ds_index (kdnew 2 j kmsg) = j &
     (dss_partial_sig ktoy kchal (kdnew 2 j kmsg) (K1 : K)).2 = Ok (kdpart 2 j kmsg)]).
Proof.
split=> // j; rewrite !inE => /or3P[]/eqP->; split=> //; try exact: kdfresh.
Qed.

Example C43_nonvacuous :
  [/\ dks_commits (ds_long (kdnew 2 0 kmsg)) = [seq c *: (su_base ktoy) | c <- kdf],
      dks_commits (ds_random (kdnew 2 0 kmsg)) = [seq c *: (su_base ktoy) | c <- kdr],
      (process_partial_sig ktoy kchal (kdnew 2 0 kmsg) (kdpart 2 1 kmsg)).2 = Ok tt,
      (process_partial_sig ktoy kchal (kdnew 2 0 kmsg) (kdpart 2 1 kmsg')).2 = Err InvalidPartialSignature &
      (process_partial_sig ktoy kchal (dss_run ktoy kchal (kdnew 2 0 kmsg) kd_es) (kdpart 2 2 kmsg)).2 = Err PartialAlreadyReceived].
Proof.
split; [by []|by []| | |].
- by vm_cast_no_check (erefl (Ok (E:=dss_error) tt)).
- by vm_cast_no_check (erefl (Err (A:=unit) InvalidPartialSignature)).
- by vm_cast_no_check (erefl (Err (A:=unit) PartialAlreadyReceived)).
Qed.

Example C43_other_message_nonvacuous :
  let i := 1%N in let h m := challenge ktoy kchal (kdr`_0 *: su_base ktoy) (kdf`_0 *: su_base ktoy) m in
  [/\ ps_i (pt_partial (kdpart 2 1 kmsg')) = i, h kmsg' != h kmsg, ps_v (pri_eval kdf i) != 0 &
      ps_v (pt_partial (kdpart 2 1 kmsg')) = h kmsg' * ps_v (pri_eval kdf i) + ps_v (pri_eval kdr i)].
Proof.
split.
- by vm_cast_no_check (erefl 1%N).
- by vm_cast_no_check (erefl true).
- by vm_cast_no_check (erefl true).
- by vm_cast_no_check (erefl (ps_v (pt_partial (kdpart 2 1 kmsg')))).
Qed.

(** The own partial signature is pushed without looking whether one from the own index is already there: a signer that
    receives its own message back (from before a restart, or from another instance holding the same key) and then signs
    counts itself twice.  It reports that there are enough partial signatures, and [signature] fails. *)
Theorem C43_once_refuted :
  exists (d0 : dss V) (es : seq (dss_event K)),
    [/\ fresh_signer ktoy kdf kdr (K1 : K) kdparts (kdks kdf 0) (kdks kdr 0) kmsg 2 d0,
        dss_contributors (dss_run ktoy kchal d0 es) = [:: 0; 0]%N,
        enough_partial_sig (dss_run ktoy kchal d0 es) &
        is_err (dss_signature ktoy kid_ord (dss_run ktoy kchal d0 es))].
Proof.
exists (kdnew 2 0 kmsg), [:: DReceive (kdpart 2 0 kmsg); DSign (K1 : K)]; split.
- exact: (kdfresh (i := 0)).
- by vm_cast_no_check (erefl [:: 0; 0]%N).
- by vm_cast_no_check (erefl true).
- by vm_cast_no_check (erefl true).
Qed.
Print Assumptions C43_once_refuted.

Example C43_once_nonvacuous :
  new_dss ktoy (K1 : K) kdparts (kdks kdf 0) (kdks kdr 0) kmsg 2 = Ok (kdnew 2 0 kmsg) /\
  (exists es1 es2, [/\ kd_es = es1 ++ es2, ~~ has (from_index (ds_index (kdnew 2 0 kmsg))) es1 &
     ds_signed (dss_run ktoy kchal (kdnew 2 0 kmsg) es1)]).
Proof.
split; first by case: (kdfresh kmsg (i := 0) isT).
exists (take 2 kd_es), (drop 2 kd_es); split; [by []|by vm_cast_no_check (erefl true)|by vm_cast_no_check (erefl true)].
Qed.

(** The threshold given to [new_dss] is not compared with the keys: with a smaller one, honest participants obtain an
    "Ok" that is not a signature. *)
Theorem C42_threshold_refuted :
  exists (d0 : dss V) (es : seq (dss_event K)) (sig : bytestr),
    [/\ new_dss ktoy (K1 : K) kdparts (kdks kdf 0) (kdks kdr 0) kmsg' 1 = Ok d0,
        dealt ktoy kdf 0 (kdks kdf 0) /\ dealt ktoy kdr 0 (kdks kdr 0),
        distinct_at_least (dss_contributors (dss_run ktoy kchal d0 es)) 1,
        dss_signature ktoy kid_ord (dss_run ktoy kchal d0 es) = Ok sig &
        ~ ed_valid ktoy kchal (kdf`_0 *: su_base ktoy) kmsg' sig].
Proof.
exists (kdnew 1 0 kmsg'), [:: DSign (K1 : K)], [:: 2; 2]%N; split.
- by vm_cast_no_check (erefl (Ok (E:=dss_error) (kdnew 1 0 kmsg'))).
- by split; exact: kdealt.
- apply/distinctP; have -> : dss_contributors (dss_run ktoy kchal (kdnew 1 0 kmsg') [:: DSign (K1 : K)]) = [:: 0]%N.
    by vm_cast_no_check (erefl [:: 0]%N).
  by [].
- by vm_cast_no_check (erefl (Ok (E:=dss_error) [:: 2; 2]%N)).
- by case=> R [s [[e1 e2]]]; move: e1 e2; case: R => //; case: s.
Qed.
Print Assumptions C42_threshold_refuted.

Example C75_nonvacuous :
  [/\ fresh_signer ktoy kdf kdr (K1 : K) kdparts (kdks kdf 0) (kdks kdr 0) kmsg 2 (kdnew 2 0 kmsg),
      fresh_signer ktoy kdf kdr (K1 : K) kdparts (kdks kdf 0) (kdks kdr 0) kmsg' 2 (kdnew 2 0 kmsg') &
      challenge ktoy kchal (kdr`_0 *: su_base ktoy) (kdf`_0 *: su_base ktoy) kmsg !=
      challenge ktoy kchal (kdr`_0 *: su_base ktoy) (kdf`_0 *: su_base ktoy) kmsg'].
Proof.
split; [exact: (kdfresh (i := 0))|exact: (kdfresh (i := 0))|by vm_cast_no_check (erefl true)].
Qed.
