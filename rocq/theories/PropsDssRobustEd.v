(** C117 with the modelled ed25519 code: the signature is one that the EdDSA verifier accepts. *)
From Coq Require Import ZArith.
From mathcomp Require Import all_ssreflect all_algebra.
From Verif Require Import Base Bytes RandModel ScModel Primes Group EdCurve EdModel PropsSc EdSpec PointModel PointCurve EciesModel PropsEcies EdScalars EdSuite.
From Verif Require Import PolyModel PolySpec PolyProofs PolyProps Suite SuiteProofs SuiteEd VssModel VssProofs DkgModel DkgSpec DkgProofs PropsDkg
  RvssModel RvssProofs RdkgModel RdkgSpec RdkgProofs PropsRdkg DssModel DssSpec DssProofs PropsDss PropsDssRobust PropsSuiteEd.

Set Implicit Arguments.
Unset Strict Implicit.
Unset Printing Implicit Defensive.

Import GRing.Theory.
Local Open Scope ring_scope.

Opaque ladd lopp lmul linv l0 l1 gadd gopp gnull gbase gscale of_l sub_code sub_decode enc_l senc_l sign_l verify_l seal_l open_l derive_l good_l chal_l.

(** ** Over any suite, for key shares that lie on two polynomials *)
Section Gen.
Variables (F : fieldType) (G : lmodType F) (S : suite G) (chal : bytestr -> F).

(** [e] delivers what participant j returns from [partial_sig] for this message, in any state of its signer. *)
Definition sent_by (ps : seq G) (t : nat) (x : nat -> F) (long random : nat -> dks G) (msg : bytestr) (j : nat) (e : dss_event F) : Prop :=
  exists (d : dss G) (hist : seq (dss_event F)) (k : F) (q : partial_sig F),
    [/\ (j < size ps)%N, new_dss S (x j) ps (long j) (random j) msg t = Ok d, su_good S k,
        (dss_partial_sig S chal (dss_run S chal d hist) k).2 = Ok q & e = DReceive q].

Lemma keyed_fresh ps t x a r long random msg : keyed S ps t x a long -> keyed S ps t x r random ->
  exists f g, [/\ f`_0 = a, g`_0 = r &
    forall j d, (j < size ps)%N -> new_dss S (x j) ps (long j) (random j) msg t = Ok d ->
      [/\ fresh_signer S f g (x j) ps (long j) (random j) msg t d, ds_index d = j & su_good S (x j)]].
Proof.
move=> [f [sf t0 f0 hf]] [g [sg _ g0 hg]]; exists f, g; split=> // j d lj nd.
have [dl ix gx] := hf j lj; have [dr _ _] := hg j lj.
have ed : ds_index d = j.
  by move: nd; rewrite /new_dss /= -[pmul _ _ _]/(x j *: su_base S) ix; case: ifP => // _ [<-].
by split=> //; split; rewrite ?sf ?sg ?ed.
Qed.

Lemma keyed_robust ps t x a r long random msg i d es H p ord :
  suite_ok S -> p \in [char F] -> keyed S ps t x a long -> keyed S ps t x r random ->
  (size ps < p)%N -> (forall k s, perm_eq (ord k s) s) -> (i < size ps)%N ->
  new_dss S (x i) ps (long i) (random i) msg t = Ok d ->
  let sig := su_enc S (r *: su_base S) ++ su_senc S (challenge S chal (r *: su_base S) (a *: su_base S) msg * a + r) in
  (is_err (dss_signature S ord (dss_run S chal d es)) \/ dss_signature S ord (dss_run S chal d es) = Ok sig) /\
  (uniq H -> (t <= size H)%N ->
   (forall j, j \in H -> exists e, among e es /\ (sent_by ps t x long random msg j e \/ j = i /\ exists k, e = DSign k)) ->
   dss_signature S ord (dss_run S chal d es) = Ok sig).
Proof.
move=> sok ch kl kr np po li nd sig; have [f [g [f0 g0 K]]] := keyed_fresh msg kl kr; have [fs ixi _] := K i d li nd.
rewrite /sig -f0 -g0; split.
  by case: (C117_only chal es sok ch po np fs) => [er|[ok _]]; [left|right].
move=> uH tH hon; apply: (C117_signature sok ch po np fs uH tH _).1 => j jH.
have [e [am he]] := hon j jH; exists e; split=> //; case: he => [[dj [hist [k [q [lj ndj gk eq ee]]]]]|[-> [k ->]]].
- have [fsj ixj gj] := K j dj lj ndj; left.
  by exists (x j), k, (long j), (random j), dj, hist, q; split.
- by right; split; [rewrite ixi|exists k].
Qed.
End Gen.

Section Ed.
Variables (sha : list Z -> list Z) (X : aead_prims) (hash : bytestr -> bytestr).
Variables (St : Type) (Rs : stream St) (fuel : nat) (xof : list Z -> St).
Notation S := (ed_suite sha X hash Rs fuel xof).
Hypothesis crates : crates_ok sha X.
Variable deal_enc : deal Gl -> bytestr.
Variable deal_dec : bytestr -> option (deal Gl).
Variable ddeal_enc : nat -> enc_deal Gl -> bytestr.
Hypothesis serial : forall d, deal_dec (deal_enc d) = Some d.
Variable rdeal_enc : rdeal Gl -> bytestr.
Variable rdeal_dec : bytestr -> option (rdeal Gl).
Hypothesis rserial : forall d, rdeal_dec (rdeal_enc d) = Some d.

(** The participants generated the long-term key and the nonce with the Pedersen key generation.  A signer gets any messages.
    What [signature] returns, if anything, is accepted by [eddsa::verify] under the generated key, and it does return something
    once the partial signatures of t participants are among the messages. *)
Theorem C117_ed25519 (ps : seq Gl) (T : nat) (x secl secr : nat -> Fl) (long random : nat -> dks Gl) (msg : bytestr)
    (i : nat) (d : dss Gl) (es : seq (dss_event Fl)) (H : seq nat) (ord : hash_order Fl) :
  dkg_result S deal_enc deal_dec ddeal_enc ps T x secl long -> dkg_result S deal_enc deal_dec ddeal_enc ps T x secr random ->
  let t := eff_threshold T (size ps) in
  let a := \sum_(j <- iota 0 (size ps)) secl j in let r := \sum_(j <- iota 0 (size ps)) secr j in
  su_good S a -> su_good S r -> (size ps < Z.to_nat PropsSc.order)%N -> (forall k s, perm_eq (ord k s) s) ->
  (i < size ps)%N -> new_dss S (x i) ps (long i) (random i) msg t = Ok d ->
  let out := dss_signature S ord (dss_run S (chal_l sha) d es) in
  (is_err out \/ exists sig, out = Ok sig /\ eddsa_verify ed25519 sha (sp (a *: (gbase : Gl))) (toZ msg) (toZ sig) = Ok tt) /\
  (uniq H -> (t <= size H)%N ->
   (forall j, j \in H -> exists e, among e es /\ (sent_by S (chal_l sha) ps t x long random msg j e \/ j = i /\ exists k, e = DSign k)) ->
   exists sig, out = Ok sig /\ eddsa_verify ed25519 sha (sp (a *: (gbase : Gl))) (toZ msg) (toZ sig) = Ok tt).
Proof.
move=> rl rr t a r ga gr np po li nd out.
have n0 : (0 < size ps)%N by apply: leq_ltn_trans li.
have sok := ed_ok hash Rs fuel xof crates.
have V : eddsa_verify ed25519 sha (sp (a *: (gbase : Gl))) (toZ msg)
    (toZ (su_enc S (r *: su_base S) ++ su_senc S (challenge S (chal_l sha) (r *: su_base S) (a *: su_base S) msg * a + r))) = Ok tt.
  case: crates => shok _ _; exact (@dss_valid_l sha shok a r msg ga gr).
have [h1 h2] := keyed_robust (chal_l sha) es H sok char_l (dkg_keyed sok serial n0 rl) (dkg_keyed sok serial n0 rr) np po li nd.
split.
- case: h1 => h1; [left; exact h1|right; eexists; split; [exact h1|exact V]].
- move=> uH tH hon; eexists; split; [exact (h2 uH tH hon)|exact V].
Qed.

(** The same after the Rabin key generation. *)
Theorem C117_rabin_ed25519 (ps : seq Gl) (t : nat) (x secl secr : nat -> Fl) (long random : nat -> dks Gl) (msg : bytestr)
    (i : nat) (d : dss Gl) (es : seq (dss_event Fl)) (H : seq nat) (ord : hash_order Fl) :
  rdkg_result S rdeal_enc rdeal_dec ps t x secl long -> rdkg_result S rdeal_enc rdeal_dec ps t x secr random ->
  let a := \sum_(j <- iota 0 (size ps)) secl j in let r := \sum_(j <- iota 0 (size ps)) secr j in
  su_good S a -> su_good S r -> (size ps < Z.to_nat PropsSc.order)%N -> (forall k s, perm_eq (ord k s) s) ->
  (i < size ps)%N -> new_dss S (x i) ps (long i) (random i) msg t = Ok d ->
  let out := dss_signature S ord (dss_run S (chal_l sha) d es) in
  (is_err out \/ exists sig, out = Ok sig /\ eddsa_verify ed25519 sha (sp (a *: (gbase : Gl))) (toZ msg) (toZ sig) = Ok tt) /\
  (uniq H -> (t <= size H)%N ->
   (forall j, j \in H -> exists e, among e es /\ (sent_by S (chal_l sha) ps t x long random msg j e \/ j = i /\ exists k, e = DSign k)) ->
   exists sig, out = Ok sig /\ eddsa_verify ed25519 sha (sp (a *: (gbase : Gl))) (toZ msg) (toZ sig) = Ok tt).
Proof.
move=> rl rr a r ga gr np po li nd out.
have n0 : (0 < size ps)%N by apply: leq_ltn_trans li.
have sok := ed_ok hash Rs fuel xof crates.
have V : eddsa_verify ed25519 sha (sp (a *: (gbase : Gl))) (toZ msg)
    (toZ (su_enc S (r *: su_base S) ++ su_senc S (challenge S (chal_l sha) (r *: su_base S) (a *: su_base S) msg * a + r))) = Ok tt.
  case: crates => shok _ _; exact (@dss_valid_l sha shok a r msg ga gr).
have [h1 h2] := keyed_robust (chal_l sha) es H sok char_l (rdkg_keyed sok rserial n0 rl) (rdkg_keyed sok rserial n0 rr) np po li nd.
split.
- case: h1 => h1; [left; exact h1|right; eexists; split; [exact h1|exact V]].
- move=> uH tH hon; eexists; split; [exact (h2 uH tH hon)|exact V].
Qed.
End Ed.
Print Assumptions C117_ed25519.
Print Assumptions C117_rabin_ed25519.

(** *** Example: two participants; the signer gets a made-up message, its own index included, before the partial signature of the
    other one and its repetition. *)
Notation xS := (ed_suite toysha toyaead (fun b => b) estream 1 (fun b => size b)).
Definition xdd_enc : nat -> enc_deal Gl -> bytestr := fun _ _ => [::].
Example C117_ed25519_nonvacuous :
  exists (got : nat -> dks Gl) (d : dss Gl) (q : partial_sig Fl),
    let es := [:: DReceive (PartialSig (PriShare 0 (1 : Fl)) [::] [::]); DReceive q; DReceive q; DSign (1 : Fl)] in
    [/\ dkg_result xS xdeal_enc xdeal_dec xdd_enc xkeys 2 xkey xsec got, eff_threshold 2 (size xkeys) = 2%N,
        new_dss xS (xkey 0) xkeys (got 0%N) (got 0%N) [:: 5%N] 2 = Ok d, uniq [:: 0; 1]%N &
        forall j, j \in [:: 0; 1]%N -> exists e, among e es /\
          (sent_by xS (chal_l toysha) xkeys 2 xkey got got [:: 5%N] j e \/ j = 0%N /\ exists k, e = DSign k)].
Proof.
case: C86_nonvacuous => [[cr ser] [u h] [th co] [sch comp] [gd u01 lt]].
have [got [res _]] := @dkg_runs _ _ xS xdeal_enc xdeal_dec xdd_enc xkeys 2 xkey xsec (fun _ _ => 1) xcoins xacts
  (ed_ok (fun b => b) estream 1 (fun b => size b) cr) ser u h th co sch comp.
have lK j : j \in [:: 0; 1]%N -> (j < size xkeys)%N by case: j => [|[|j]].
have [d [part [sig [E _ _]]]] := @C86_dkg_then_sign toysha toyaead (fun b => b) _ estream 1 (fun b => size b) cr xdeal_enc xdeal_dec
  xdd_enc ser xkeys 2 xkey xsec xsec got got [:: 5%N] (fun _ => 1) 0%N [:: 1%N] (fun _ s => s) res res gd gd lt
  (fun _ => good_1) (fun _ s => perm_refl s) u01 isT lK.
have [n0 _] := E 0%N isT; have [n1 q1] := E 1%N isT.
exists got, (d 0%N), (part 1%N); split; [exact res|exact (erefl _)|exact n0|exact isT|].
move=> [|[|j]] jH; [| |by []].
- exists (DSign (1 : Fl)); split; first by exists [:: DReceive (PartialSig (PriShare 0 (1 : Fl)) [::] [::]); DReceive (part 1%N); DReceive (part 1%N)], [::].
  right; split; [exact (erefl _)|exists 1; exact (erefl _)].
- exists (DReceive (part 1%N)); split.
    by exists [:: DReceive (PartialSig (PriShare 0 (1 : Fl)) [::] [::])], [:: DReceive (part 1%N); DSign (1 : Fl)].
  left; exists (d 1%N), [::], 1, (part 1%N); split; [exact isT|exact n1|exact good_1|exact q1|exact (erefl _)].
Qed.
