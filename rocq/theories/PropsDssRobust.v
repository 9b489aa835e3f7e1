(** C117: distributed signing goes through whatever else is sent. *)
From mathcomp Require Import all_ssreflect all_algebra.
From Verif Require Import Base PolyModel PolySpec PolyProofs PolyProps Suite SuiteProofs VssModel VssProofs.
From Verif Require Import DssModel DssSpec DssProofs PropsDss Toy.

Set Implicit Arguments.
Unset Strict Implicit.
Unset Printing Implicit Defensive.

Import GRing.Theory.
Local Open Scope ring_scope.

Section Robust.
Variables (F : fieldType) (G : lmodType F) (S : suite G) (chal : bytestr -> F).
Notation B := (su_base S).

(** The event [e] is among [es]. *)
Definition among (e : dss_event F) (es : seq (dss_event F)) : Prop := exists es1 es2, es = es1 ++ e :: es2.
(** [e] delivers a partial signature that participant j computes, in any state its signer can be in. *)
Definition honest_partial (f r : seq F) (parts : seq G) (msg : bytestr) (t j : nat) (e : dss_event F) : Prop :=
  exists (x k : F) (long random : dks G) (d : dss G) (es : seq (dss_event F)) (ps : partial_sig F),
    [/\ su_good S x, su_good S k, fresh_signer S f r x parts long random msg t d, ds_index d = j &
        (dss_partial_sig S chal (dss_run S chal d es) k).2 = Ok ps /\ e = DReceive ps].

Lemma step_keeps (d : dss G) e j : j \in dss_contributors d -> j \in dss_contributors (dss_step S chal d e).
Proof.
have push s b : j \in dss_contributors d -> j \in dss_contributors (ds_push d s b).
  by rewrite /dss_contributors /= -cats1 pmap_cat map_cat mem_cat => ->.
case: e => [k|ps] c /=.
  by rewrite /dss_partial_sig; case: hash_sig => //= h; case: ifP => // _; exact: push.
rewrite /process_partial_sig; case: find_pub => [P|] //=; case: ifP => // _; case: ifP => // _; case: ifP => // ni.
by case: hash_sig => //= h; do 2 case: pub_eval => //= ?; case: ifP => // _; exact: push.
Qed.
Lemma run_keeps (d : dss G) es j : j \in dss_contributors d -> j \in dss_contributors (dss_run S chal d es).
Proof. by elim: es d => [//|e es IH] d c /=; apply: IH; exact: step_keeps. Qed.

Definition signed_in (d : dss G) : Prop := ds_signed d -> ds_index d \in dss_contributors d.
Lemma step_signed_in d e : signed_in d -> signed_in (dss_step S chal d e).
Proof.
move=> I; case: e => [k|ps] /=.
  rewrite /dss_partial_sig; case: hash_sig => //= h; case: ifP => // _ _.
  by rewrite /dss_contributors /= -cats1 pmap_cat map_cat mem_cat /= inE eqxx orbT.
rewrite /process_partial_sig; case: find_pub => [P|] //=; case: ifP => // _; case: ifP => // _; case: ifP => // ni.
case: hash_sig => //= h; do 2 case: pub_eval => //= ?; case: ifP => // _ sg.
by rewrite /dss_contributors /= -cats1 pmap_cat map_cat mem_cat [X in X || _](I sg).
Qed.
Lemma run_signed_in d es : signed_in d -> signed_in (dss_run S chal d es).
Proof. by elim: es d => [//|e es IH] d I /=; apply: IH; exact: step_signed_in. Qed.

(** A signer receives any messages in any order: wrong, repeated, replayed, under any index, before and after the right ones.  If
    among them are the partial signatures of t different participants - or fewer, and the signer's own - then [signature] returns
    the signature, the same one in every such history, and it is valid. *)
Theorem C117_signature (f r : seq F) (x : F) (parts : seq G) (long random : dks G) (msg : bytestr) (t : nat) (d0 : dss G)
    (es : seq (dss_event F)) (H : seq nat) (p : nat) (ord : hash_order F) :
  suite_ok S -> p \in [char F] -> (forall k s, perm_eq (ord k s) s) -> (size parts < p)%N ->
  fresh_signer S f r x parts long random msg t d0 ->
  uniq H -> (t <= size H)%N ->
  (forall j, j \in H -> exists e, among e es /\ (honest_partial f r parts msg t j e \/ j = ds_index d0 /\ exists k, e = DSign k)) ->
  let R := r`_0 *: B in let A := f`_0 *: B in
  dss_signature S ord (dss_run S chal d0 es) = Ok (su_enc S R ++ su_senc S (challenge S chal R A msg * f`_0 + r`_0)) /\
  ed_valid S chal A msg (su_enc S R ++ su_senc S (challenge S chal R A msg * f`_0 + r`_0)).
Proof.
move=> sok ch po lp fs uH tH hon; apply: (C42_any_history sok ch po lp fs).
have [nf nr I ed] := fresh_inv chal fs.
exists (take t H) => [|j jH]; first by rewrite take_uniq // size_takel.
have {jH}jH : j \in H := mem_take jH.
have [e [[es1 [es2 ->]] he]] := hon j jH.
rewrite step_cat -[dss_run _ _ _ (e :: es2)]/(dss_run S chal (dss_step S chal (dss_run S chal d0 es1) e) es2); apply: run_keeps.
have J := run_inv nf nr (su_base_nz sok) es1 I.
case: he => [[y [k [lj [rj [dj [esj [ps [gy gk fj ixj [eps ->]]]]]]]]]|[-> [k ->]]].
- case: (boolP (j \in ds_idx (dss_run S chal d0 es1))) => jin.
    by apply: step_keeps; rewrite (di_idx J) mem_rev.
  rewrite -ixj in jin.
  have [ps' [e1 [_ [_ e2]]]] := C42_honest_accepted esj sok gy gk fj fs jin.
  by move: e1; rewrite eps => -[->]; rewrite /= e2 mem_rcons ixj mem_head.
- have si : signed_in (dss_run S chal d0 es1) by apply: run_signed_in; rewrite ed.
  have [[_ eix _ _] _] := run_setup S chal d0 es1.
  have nr' : dks_commits (ds_random (dss_run S chal d0 es1)) != [::] by case: (di_random J) => -> _; exact: commit_nil.
  have nl' : dks_commits (ds_long (dss_run S chal d0 es1)) != [::] by case: (di_long J) => -> _; exact: commit_nil.
  rewrite /= /dss_partial_sig hash_sigE //=; case: ifP => [sg|_]; first by rewrite eix; exact: si.
  by rewrite /dss_contributors /= -cats1 pmap_cat map_cat mem_cat /= inE eix eqxx orbT.
Qed.

(** Whatever is sent, [signature] returns that signature or an error: no history yields another signature, and two signers of one
    session cannot return different ones. *)
Theorem C117_only (f r : seq F) (x : F) (parts : seq G) (long random : dks G) (msg : bytestr) (t : nat) (d0 : dss G)
    (es : seq (dss_event F)) (p : nat) (ord : hash_order F) :
  suite_ok S -> p \in [char F] -> (forall k s, perm_eq (ord k s) s) -> (size parts < p)%N ->
  fresh_signer S f r x parts long random msg t d0 ->
  is_err (dss_signature S ord (dss_run S chal d0 es)) \/
  let R := r`_0 *: B in let A := f`_0 *: B in
  dss_signature S ord (dss_run S chal d0 es) = Ok (su_enc S R ++ su_senc S (challenge S chal R A msg * f`_0 + r`_0)) /\
  ed_valid S chal A msg (su_enc S R ++ su_senc S (challenge S chal R A msg * f`_0 + r`_0)).
Proof.
move=> sok ch po lp fs; have [_ _ _ ed] := fresh_inv chal fs; have [[_ _ _ et] _] := run_setup S chal d0 es.
have et' : ds_t (dss_run S chal d0 es) = t by rewrite -et ed.
case: (leqP t (size (undup (dss_contributors (dss_run S chal d0 es))))) => le.
  by right; apply: (C42_any_history sok ch po lp fs); apply/distinctP.
by left; apply: C42_too_few; rewrite et'; move/distinctP; rewrite leqNgt le.
Qed.
End Robust.
Print Assumptions C117_signature.
Print Assumptions C117_only.

(** *** Example for the second theorem: with the wrong messages only there is no signature. *)
Example C117_only_nonvacuous :
  dss_signature ktoy kid_ord (dss_run ktoy kchal (kdnew 2 0 kmsg) [:: DReceive (kdpart 2 1 kmsg'); DSign (K1 : K)])
  = Err NotEnoughPartials.
Proof. by vm_cast_no_check (erefl (Err (A:=bytestr) NotEnoughPartials)). Qed.

(** *** Example for the first: a wrong message, a partial signature for another message, and a repetition around the two good ones. *)
Definition kr_es : seq (dss_event K) :=
  [:: DReceive (PartialSig (PriShare 1 (K5 : K)) [:: 9%N] [:: 1%N]); DReceive (kdpart 2 1 kmsg'); DReceive (kdpart 2 2 kmsg);
      DReceive (kdpart 2 2 kmsg); DSign (K1 : K); DReceive (kdpart 2 1 kmsg')].
Lemma kr_honest : honest_partial ktoy kchal kdf kdr kdparts kmsg 2 2 (DReceive (kdpart 2 2 kmsg)).
Proof.
exists (K3 : K), (K1 : K), (kdks kdf 2), (kdks kdr 2), (kdnew 2 2 kmsg), [::], (kdpart 2 2 kmsg); split.
- by [].
- by [].
- exact: (kdfresh (i := 2)).
- by vm_cast_no_check (erefl 2%N).
- by split; [vm_cast_no_check (erefl (Ok (E:=dss_error) (kdpart 2 2 kmsg)))|].
Qed.
Example C117_nonvacuous :
  [/\ fresh_signer ktoy kdf kdr (K1 : K) kdparts (kdks kdf 0) (kdks kdr 0) kmsg 2 (kdnew 2 0 kmsg), uniq [:: 0; 2]%N,
      (forall j, j \in [:: 0; 2]%N -> exists e, among e kr_es /\
         (honest_partial ktoy kchal kdf kdr kdparts kmsg 2 j e \/ j = ds_index (kdnew 2 0 kmsg) /\ exists k, e = DSign k)) &
      dss_signature ktoy kid_ord (dss_run ktoy kchal (kdnew 2 0 kmsg) kr_es) = Ok [:: 2; 1]%N].
Proof.
split; [exact: (kdfresh (i := 0))|by []| |by vm_cast_no_check (erefl (Ok (E:=dss_error) [:: 2; 1]%N))].
move=> j; rewrite !inE => /orP[]/eqP->.
- exists (DSign (K1 : K)); split; first by exists (take 4 kr_es), (drop 5 kr_es).
  by right; split; [vm_cast_no_check (erefl 0%N)|exists (K1 : K)].
- exists (DReceive (kdpart 2 2 kmsg)); split; first by exists (take 2 kr_es), (drop 3 kr_es).
  by left; exact: kr_honest.
Qed.
