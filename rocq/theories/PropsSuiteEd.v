(** C85, C86 and the protocol properties with the modelled code for scalars, points, signatures and encryption (SuiteEd.v). *)
From Coq Require Import ZArith.
From mathcomp Require Import all_ssreflect all_algebra.
From Verif Require Import Base Bytes RandModel ScModel Primes Group EdCurve EdModel PropsSc EdSpec PointModel PointCurve EciesModel PropsEcies EdScalars EdSuite.
From Verif Require Import PolyModel PolySpec PolyProofs PolyProps Suite SuiteProofs SuiteEd VssModel VssProofs DkgModel DkgSpec DkgProofs PropsDkg
  RvssModel RvssProofs RdkgModel RdkgSpec RdkgProofs PropsRdkg DssModel DssSpec DssProofs PropsDss.

Set Implicit Arguments.
Unset Strict Implicit.
Unset Printing Implicit Defensive.

Import GRing.Theory.
Local Open Scope ring_scope.

Opaque ladd lopp lmul linv l0 l1 gadd gopp gnull gbase gscale of_l sub_code sub_decode enc_l senc_l sign_l verify_l seal_l open_l derive_l good_l chal_l.

(** ** Key generation, then threshold signatures, over any suite *)
Section Gen.
Variables (F : fieldType) (G : lmodType F) (S : suite G) (chal : bytestr -> F).
Variable deal_enc : deal G -> bytestr.
Variable deal_dec : bytestr -> option (deal G).
Variable ddeal_enc : nat -> enc_deal G -> bytestr.
Variable rdeal_enc : rdeal G -> bytestr.
Variable rdeal_dec : bytestr -> option (rdeal G).

(** A finished run of the Pedersen DKG without faults, and the key share participant i got. *)
Definition dkg_result (ps : seq G) (T : nat) (x sec : nat -> F) (got : nat -> dks G) : Prop :=
  exists (picks : nat -> nat -> F) (node : nat -> dkg G) (co : coins F) (acts : seq act) (N : net G) (vord : seq nat -> seq nat)
    (hord : nat -> hash_order F),
    [/\ fresh_group S ps T x sec picks node /\ coins_ok S co, schedule (size ps) [::] acts /\ complete (size ps) acts,
        net_run S deal_enc deal_dec ddeal_enc co (net0 node) acts = Some N, (forall l, perm_eq (vord l) l) &
        forall i, (i < size ps)%N -> exists s, dist_key_share S vord hord (n_node N i) = Ok s /\ got i = Dks (dk_commits s) (dk_share s)].

(** The same for the Rabin DKG. *)
Definition rdkg_result (ps : seq G) (t : nat) (x sec : nat -> F) (got : nat -> dks G) : Prop :=
  exists (fp gp : nat -> nat -> F) (node : nat -> rdkg G) (co : coins F) (acts : seq ract) (N : rnet G) (vord : seq nat -> seq nat),
    [/\ rfresh_group S ps t x sec fp gp node /\ coins_ok S co, rschedule (size ps) [::] acts /\ rcomplete (size ps) acts,
        rnet_run S rdeal_enc rdeal_dec co (rnet0 node) acts = Some N, (forall l, perm_eq (vord l) l) &
        forall i, (i < size ps)%N -> exists s, rdist_key_share vord (rn_node N i) = Ok s /\ got i = Dks (rk_commits s) (rk_share s)].

(** Both are reached by every group with distinct good keys and a valid threshold, for every order of delivery. *)
Lemma dkg_runs ps T x sec picks co acts : suite_ok S -> (forall d, deal_dec (deal_enc d) = Some d) ->
  uniq ps -> (forall i, (i < size ps)%N -> nth 0 ps i = x i *: su_base S /\ su_good S (x i)) ->
  (2 <= eff_threshold T (size ps) <= size ps)%N -> coins_ok S co -> schedule (size ps) [::] acts -> complete (size ps) acts ->
  exists got, dkg_result ps T x sec got /\ forall i, (i < size ps)%N ->
    got i = let f := joint_poly (eff_threshold T (size ps)) sec picks (iota 0 (size ps)) in
            Dks [seq c *: su_base S | c <- f] (PriShare i (share_value f i)).
Proof.
move=> sok ser u h t2 cok sch comp; have [node fg] := C57_handlers sec picks u h t2.
have [N E H] := C57_honest_run ddeal_enc sok ser fg cok sch comp.
eexists (fun i => let f := joint_poly _ sec picks (iota 0 (size ps)) in Dks [seq c *: su_base S | c <- f] (PriShare i (share_value f i))).
split=> //; exists picks, node, co, acts, N, id, (fun _ _ s => s); split=> //.
by move=> i li; have [_ _ ->] := H i id (fun _ _ s => s) li (fun s => perm_refl s); eexists; split; reflexivity.
Qed.
Lemma rdkg_runs ps t x sec fp (gp : nat -> nat -> F) co acts : suite_ok S -> (forall d, rdeal_dec (rdeal_enc d) = Some d) ->
  uniq ps -> (forall i, (i < size ps)%N -> nth 0 ps i = x i *: su_base S /\ su_good S (x i)) ->
  (0 < size ps)%N -> (2 <= t <= size ps)%N -> coins_ok S co -> rschedule (size ps) [::] acts -> rcomplete (size ps) acts ->
  exists got, rdkg_result ps t x sec got /\ forall i, (i < size ps)%N ->
    got i = let f := joint_poly t sec fp (iota 0 (size ps)) in Dks [seq c *: su_base S | c <- f] (PriShare i (share_value f i)).
Proof.
move=> sok ser u h n0 t2 cok sch comp; have [node fg] := (C62_generators t sec fp gp u h n0).2 t2.
have [N E H] := C62_honest_run sok ser fg cok sch comp.
eexists (fun i => let f := joint_poly _ sec fp (iota 0 (size ps)) in Dks [seq c *: su_base S | c <- f] (PriShare i (share_value f i))).
split=> //; exists fp, gp, node, co, acts, N, id; split=> //.
by move=> i li; have [_ _ _ ->] := H i id li (fun s => perm_refl s); eexists; split; reflexivity.
Qed.

(** The shares of a polynomial with constant term a. *)
Definition keyed (ps : seq G) (t : nat) (x : nat -> F) (a : F) (got : nat -> dks G) : Prop :=
  exists f, [/\ size f = t, (0 < t)%N, f`_0 = a &
    forall i, (i < size ps)%N -> [/\ dealt S f i (got i), seq.index (x i *: su_base S) ps = i & su_good S (x i)]].

Lemma rdkg_keyed ps t x sec got : suite_ok S -> (forall d, rdeal_dec (rdeal_enc d) = Some d) -> (0 < size ps)%N -> rdkg_result ps t x sec got ->
  keyed ps t x (\sum_(j <- iota 0 (size ps)) sec j) got.
Proof.
move=> sok ser n0 [fp [gp [node [co [acts [N [vord [[fg cok] [sch comp] E pv res]]]]]]]].
have [N' E' H] := C62_honest_run sok ser fg cok sch comp.
have [e0] : Some N = Some N' by rewrite -E -E'.
subst N'; have [t2 tn] := rfresh_threshold fg n0.
exists (joint_poly t sec fp (iota 0 (size ps))); split.
- by rewrite size_mkseq.
- exact: leq_trans t2.
- by rewrite nth_mkseq ?(leq_trans _ t2) //; apply: eq_bigr.
- move=> i li; have [s [e1 e2]] := res i li; have [_ _ _] := H i vord li pv; rewrite e1 => -[es].
  case: fg => u h _; have [nx gx] := h i li; split=> //; first by rewrite e2 es.
  by rewrite -nx index_uniq.
Qed.
Lemma dkg_keyed ps T x sec got : suite_ok S -> (forall d, deal_dec (deal_enc d) = Some d) -> (0 < size ps)%N -> dkg_result ps T x sec got ->
  keyed ps (eff_threshold T (size ps)) x (\sum_(j <- iota 0 (size ps)) sec j) got.
Proof.
move=> sok ser n0 [picks [node [co [acts [N [vord [hord [[fg cok] [sch comp] E pv res]]]]]]]].
have [N' E' H] := C57_honest_run ddeal_enc sok ser fg cok sch comp.
have [e0] : Some N = Some N' by rewrite -E -E'.
subst N'; have [t2 tn] := fresh_threshold fg n0.
exists (joint_poly (eff_threshold T (size ps)) sec picks (iota 0 (size ps))); split.
- by rewrite size_mkseq.
- exact: leq_trans t2.
- by rewrite nth_mkseq ?(leq_trans _ t2) //; apply: eq_bigr.
- move=> i li; have [s [e1 e2]] := res i li; have [_ _] := H i vord hord li pv; rewrite e1 => -[es].
  case: fg => u h _; have [nx gx] := h i li; split=> //; first by rewrite e2 es.
  by rewrite -nx index_uniq.
Qed.

Lemma keyed_sign ps t x a r long random msg k i K p ord :
  suite_ok S -> p \in [char F] -> keyed ps t x a long -> keyed ps t x r random ->
  let n := size ps in
  (n < p)%N -> (forall j, su_good S (k j)) -> (forall k s, perm_eq (ord k s) s) ->
  uniq (i :: K) -> (t <= size (i :: K))%N -> (forall j, j \in i :: K -> (j < n)%N) ->
  exists (d : nat -> dss G) (part : nat -> partial_sig F),
    (forall j, j \in i :: K -> new_dss S (x j) ps (long j) (random j) msg t = Ok (d j) /\ (dss_partial_sig S chal (d j) (k j)).2 = Ok (part j)) /\
    dss_signature S ord (dss_run S chal (d i) (DSign (k i) :: [seq DReceive (part j) | j <- K])) =
      Ok (su_enc S (r *: su_base S) ++ su_senc S (challenge S chal (r *: su_base S) (a *: su_base S) msg * a + r)).
Proof.
move=> sok ch [f [sf t0 f0 hf]] [g [sg _ g0 hg]] n np gk po uK tK lK.
pose d j := Dss (x j) (x j *: su_base S) j ps t (long j) (random j) msg [::] [::] false (dss_session_id S (long j) (random j)).
have nd j : (j < n)%N -> new_dss S (x j) ps (long j) (random j) msg t = Ok (d j).
  move=> lj; have [_ ix _] := hf j lj; rewrite /new_dss /= -[pmul _ _ _]/(x j *: su_base S) ix.
  by have -> : ~~ (j < size ps)%N = false by rewrite lj.
have fs j : (j < n)%N -> fresh_signer S f g (x j) ps (long j) (random j) msg t (d j).
  by move=> lj; have [dl _ _] := hf j lj; have [dr _ _] := hg j lj; split=> //; exact: nd.
have hp j : (j < n)%N -> exists q, (dss_partial_sig S chal (d j) (k j)).2 = Ok q.
  move=> lj; have [[cl _] _ _] := hf j lj; have [[cr _] _ _] := hg j lj.
  rewrite /dss_partial_sig /hash_sig /= cl cr.
  have [nf ng] : (0 < size f)%N /\ (0 < size g)%N by rewrite sf sg.
  by case: (f) nf => // ? ? _; case: (g) ng => // ? ? _ /=; eexists.
pose part j := match (dss_partial_sig S chal (d j) (k j)).2 with Ok q => q | _ => PartialSig (PriShare 0 0) [::] [::] end.
have pE j : (j < n)%N -> (dss_partial_sig S chal (d j) (k j)).2 = Ok (part j) by move=> lj; rewrite /part; have [q ->] := hp j lj.
exists d, part; split; first by move=> j jK; split; [apply: nd|apply: pE]; exact: lK.
have hon j : j \in i :: K -> [/\ su_good S (x j), su_good S (k j), fresh_signer S f g (x j) ps (long j) (random j) msg t (d j), ds_index (d j) = j &
     (dss_partial_sig S chal (d j) (k j)).2 = Ok (part j)].
  by move=> jK; have lj := lK j jK; have [_ _ gx] := hf j lj; split=> //; [exact: fs|exact: pE].
have [_ _ ->] := C42_honest_session sok ch po np uK tK hon.
by rewrite f0 g0.
Qed.
End Gen.

Section Ed.
Variables (sha : list Z -> list Z) (X : aead_prims) (hash : bytestr -> bytestr).
Variables (St : Type) (Rs : stream St) (fuel : nat) (xof : list Z -> St).
Notation S := (ed_suite sha X hash Rs fuel xof).

(** SHA-512 gives 64 bytes, HKDF as many as asked for, and AES-GCM opens what it sealed. *)
Definition crates_ok : Prop := [/\ sha_ok sha, prims_ok X &
  forall k n a m, bytes m -> exists c, aes_enc X k n a m = Some c /\ bytes c].
Hypothesis crates : crates_ok.

Lemma ed_ok : suite_ok S. Proof. case: crates => h1 h2 h3; exact (ed_suite_ok hash Rs fuel xof h1 h2 h3). Qed.

(** ** C85: the code is a suite *)
Theorem C85_suite_laws : suite_ok S /\ Z.to_nat PropsSc.order \in [char Fl] /\ injective (su_senc S).
Proof. split; [exact ed_ok|split; [exact char_l|exact senc_l_inj]]. Qed.

(** ** C86: key generation, then threshold signatures *)
Variable deal_enc : deal Gl -> bytestr.
Variable deal_dec : bytestr -> option (deal Gl).
Variable ddeal_enc : nat -> enc_deal Gl -> bytestr.
Variable rdeal_enc : rdeal Gl -> bytestr.
Variable rdeal_dec : bytestr -> option (rdeal Gl).
Hypothesis serial : forall d, deal_dec (deal_enc d) = Some d.
Hypothesis rserial : forall d, rdeal_dec (rdeal_enc d) = Some d.

Lemma keyed_verifies ps t x a r long random msg k i K ord :
  keyed S ps t x a long -> keyed S ps t x r random -> su_good S a -> su_good S r ->
  let n := size ps in
  (n < Z.to_nat PropsSc.order)%N -> (forall j, su_good S (k j)) -> (forall k s, perm_eq (ord k s) s) ->
  uniq (i :: K) -> (t <= size (i :: K))%N -> (forall j, j \in i :: K -> (j < n)%N) ->
  exists (d : nat -> dss Gl) (part : nat -> partial_sig Fl) (sig : bytestr),
    [/\ (forall j, j \in i :: K -> new_dss S (x j) ps (long j) (random j) msg t = Ok (d j) /\ (dss_partial_sig S (chal_l sha) (d j) (k j)).2 = Ok (part j)),
        dss_signature S ord (dss_run S (chal_l sha) (d i) (DSign (k i) :: [seq DReceive (part j) | j <- K])) = Ok sig &
        eddsa_verify ed25519 sha (sp (a *: (gbase : Gl))) (toZ msg) (toZ sig) = Ok tt].
Proof.
move=> rl rr ga gr n np gk po uK tK lK.
have [d [part [H E]]] := keyed_sign (chal_l sha) msg ed_ok char_l rl rr np gk po uK tK lK.
exists d, part; eexists; split; [exact H|exact E|].
case: crates => shok _ _; exact (@dss_valid_l sha shok a r msg ga gr).
Qed.

(** Any t or more participants who run the key generation twice, for the long-term key and for the nonce, and exchange partial
    signatures obtain a signature that the EdDSA verifier accepts under the generated public key. *)
Theorem C86_dkg_then_sign (ps : seq Gl) (T : nat) (x secl secr : nat -> Fl) (long random : nat -> dks Gl) (msg : bytestr)
    (k : nat -> Fl) (i : nat) (K : seq nat) (ord : hash_order Fl) :
  dkg_result S deal_enc deal_dec ddeal_enc ps T x secl long -> dkg_result S deal_enc deal_dec ddeal_enc ps T x secr random ->
  let n := size ps in let t := eff_threshold T n in
  let a := \sum_(j <- iota 0 n) secl j in let r := \sum_(j <- iota 0 n) secr j in
  su_good S a -> su_good S r -> (n < Z.to_nat PropsSc.order)%N -> (forall j, su_good S (k j)) -> (forall k s, perm_eq (ord k s) s) ->
  uniq (i :: K) -> (t <= size (i :: K))%N -> (forall j, j \in i :: K -> (j < n)%N) ->
  exists (d : nat -> dss Gl) (part : nat -> partial_sig Fl) (sig : bytestr),
    [/\ (forall j, j \in i :: K -> new_dss S (x j) ps (long j) (random j) msg t = Ok (d j) /\ (dss_partial_sig S (chal_l sha) (d j) (k j)).2 = Ok (part j)),
        dss_signature S ord (dss_run S (chal_l sha) (d i) (DSign (k i) :: [seq DReceive (part j) | j <- K])) = Ok sig &
        eddsa_verify ed25519 sha (sp (a *: (gbase : Gl))) (toZ msg) (toZ sig) = Ok tt].
Proof.
move=> rl rr n t a r ga gr np gk po uK tK lK.
have n0 : (0 < size ps)%N by apply: leq_ltn_trans (lK i (mem_head _ _)).
exact (keyed_verifies msg (dkg_keyed ed_ok serial n0 rl) (dkg_keyed ed_ok serial n0 rr) ga gr np gk po uK tK lK).
Qed.

(** The same after two runs of the Rabin DKG. *)
Theorem C86_rabin_then_sign (ps : seq Gl) (t : nat) (x secl secr : nat -> Fl) (long random : nat -> dks Gl) (msg : bytestr)
    (k : nat -> Fl) (i : nat) (K : seq nat) (ord : hash_order Fl) :
  rdkg_result S rdeal_enc rdeal_dec ps t x secl long -> rdkg_result S rdeal_enc rdeal_dec ps t x secr random ->
  let n := size ps in
  let a := \sum_(j <- iota 0 n) secl j in let r := \sum_(j <- iota 0 n) secr j in
  su_good S a -> su_good S r -> (n < Z.to_nat PropsSc.order)%N -> (forall j, su_good S (k j)) -> (forall k s, perm_eq (ord k s) s) ->
  uniq (i :: K) -> (t <= size (i :: K))%N -> (forall j, j \in i :: K -> (j < n)%N) ->
  exists (d : nat -> dss Gl) (part : nat -> partial_sig Fl) (sig : bytestr),
    [/\ (forall j, j \in i :: K -> new_dss S (x j) ps (long j) (random j) msg t = Ok (d j) /\ (dss_partial_sig S (chal_l sha) (d j) (k j)).2 = Ok (part j)),
        dss_signature S ord (dss_run S (chal_l sha) (d i) (DSign (k i) :: [seq DReceive (part j) | j <- K])) = Ok sig &
        eddsa_verify ed25519 sha (sp (a *: (gbase : Gl))) (toZ msg) (toZ sig) = Ok tt].
Proof.
move=> rl rr n a r ga gr np gk po uK tK lK.
have n0 : (0 < size ps)%N by apply: leq_ltn_trans (lK i (mem_head _ _)).
exact (keyed_verifies msg (rdkg_keyed ed_ok rserial n0 rl) (rdkg_keyed ed_ok rserial n0 rr) ga gr np gk po uK tK lK).
Qed.

(** Such runs exist for every group with distinct good keys, every valid threshold, every order of delivery. *)
Theorem C86_runs (ps : seq Gl) (T : nat) (x sec : nat -> Fl) (picks : nat -> nat -> Fl) (co : coins Fl) (acts : seq act) :
  uniq ps -> (forall i, (i < size ps)%N -> nth 0 ps i = x i *: su_base S /\ su_good S (x i)) ->
  (2 <= eff_threshold T (size ps) <= size ps)%N -> coins_ok S co -> schedule (size ps) [::] acts -> complete (size ps) acts ->
  exists got, dkg_result S deal_enc deal_dec ddeal_enc ps T x sec got /\ forall i, (i < size ps)%N ->
    got i = let f := joint_poly (eff_threshold T (size ps)) sec picks (iota 0 (size ps)) in
            Dks [seq c *: su_base S | c <- f] (PriShare i (share_value f i)).
Proof. exact (@dkg_runs Fl Gl S deal_enc deal_dec ddeal_enc ps T x sec picks co acts ed_ok serial). Qed.
Theorem C86_rabin_runs (ps : seq Gl) (t : nat) (x sec : nat -> Fl) (fp gp : nat -> nat -> Fl) (co : coins Fl) (acts : seq ract) :
  uniq ps -> (forall i, (i < size ps)%N -> nth 0 ps i = x i *: su_base S /\ su_good S (x i)) ->
  (0 < size ps)%N -> (2 <= t <= size ps)%N -> coins_ok S co -> rschedule (size ps) [::] acts -> rcomplete (size ps) acts ->
  exists got, rdkg_result S rdeal_enc rdeal_dec ps t x sec got /\ forall i, (i < size ps)%N ->
    got i = let f := joint_poly t sec fp (iota 0 (size ps)) in Dks [seq c *: su_base S | c <- f] (PriShare i (share_value f i)).
Proof. exact (@rdkg_runs Fl Gl S rdeal_enc rdeal_dec ps t x sec fp gp co acts ed_ok rserial). Qed.
End Ed.
Print Assumptions C85_suite_laws.
Print Assumptions C86_dkg_then_sign.
Print Assumptions C86_rabin_then_sign.
Print Assumptions C86_runs.
Print Assumptions C86_rabin_runs.

(** *** Examples: two participants with the keys 1 and -1, toy crates *)
Definition sub_countMixin := PcanCountMixin sub_codeP.
Canonical sub_countType := Eval hnf in CountType sub sub_countMixin.
Definition fl_countMixin := CanCountMixin fl_toK.
Canonical fl_countType := Eval hnf in CountType fl fl_countMixin.
Definition xdeal_enc (d : deal Gl) : bytestr :=
  [:: pickle (d_sid d, (ps_i (d_share d), (ps_v (d_share d) : fl)), d_t d, (d_commits d : seq sub))].
Definition xdeal_dec (b : bytestr) : option (deal Gl) :=
  if b is [:: n] then
    if unpickle n is Some (sid, (i, v), t, cs) then Some (@Deal Fl Gl sid (PriShare i (v : Fl)) t cs) else None
  else None.
Lemma xserial d : xdeal_dec (xdeal_enc d) = Some d.
Proof. by case: d => sid [i v] t cs; rewrite /xdeal_dec /xdeal_enc pickleK. Qed.

Definition xrdeal_enc (d : rdeal Gl) : bytestr :=
  [:: pickle (rd_sid d, (ps_i (rd_sec d), (ps_v (rd_sec d) : fl)), (ps_i (rd_rnd d), (ps_v (rd_rnd d) : fl)), rd_t d, (rd_commits d : seq sub))].
Definition xrdeal_dec (b : bytestr) : option (rdeal Gl) :=
  if b is [:: n] then
    if unpickle n is Some (sid, (i, v), (j, w), t, cs) then Some (@RDeal Fl Gl sid (PriShare i (v : Fl)) (PriShare j (w : Fl)) t cs) else None
  else None.
Lemma xrserial d : xrdeal_dec (xrdeal_enc d) = Some d.
Proof. by case: d => sid [i v] [j w] t cs; rewrite /xrdeal_dec /xrdeal_enc pickleK. Qed.

Lemma two_nz : (2%:R : Fl) != 0.
Proof.
refine (introN (@eqP Fl 2%:R 0) _) => E.
exact (of_l_2 (etrans (esym (natr_l 2)) E)).
Qed.
Definition xkey (i : nat) : Fl := if i == 0%N then 1 else -1.
Definition xkeys : seq Gl := [:: xkey 0 *: (gbase : Gl); xkey 1 *: (gbase : Gl)].
Lemma xuniq : uniq xkeys.
Proof.
rewrite /xkeys /= inE andbT; refine (introN (@eqP Gl _ _) _) => E.
have : (xkey 0 - xkey 1) *: (gbase : Gl) = 0 by rewrite scalerBl E subrr.
move=> /(introT (@eqP Gl _ _)); rewrite scaler_eq0 (negbTE gl_base_nz) orbF /xkey /= opprK -(natrD _ 1 1).
by rewrite (negbTE two_nz).
Qed.
Definition xsec (i : nat) : Fl := if i == 0%N then 1 else 0.
Lemma xsum : \sum_(j <- iota 0 2) xsec j = 1.
Proof. by rewrite !big_cons big_nil /xsec /= !addr0. Qed.
Definition xcoins : coins Fl := Coins (fun _ _ => (1, 1)) (fun _ _ => 1) (fun _ _ => 1) (fun _ => 1).
Definition xacts : seq act := [:: ADeals 0; ADeal 0 1; AResp 0 1 0; ADeals 1; ADeal 1 0; AResp 1 0 1].
Notation xS := (ed_suite toysha toyaead (fun b => b) estream 1 (fun b => size b)).

Lemma xcrates : crates_ok toysha toyaead.
Proof. split; [exact toysha_ok|exact toyaead_ok|exact toyaead_bytes]. Qed.
Lemma xgood i : su_good xS (xkey i).
Proof. by case: i => [|i]; [exact good_1|exact good_m1]. Qed.
Lemma xcomplete : complete 2 xacts.
Proof. by split; [case=> [|[|]]|case=> [|[|]] // [|[|]]|case=> [|[|]] // [|[|]] // [|[|]]]. Qed.

(** The hypotheses of [C86_runs] and [C86_dkg_then_sign]; the long-term secret is 1 and so is the nonce. *)
Example C86_nonvacuous :
  [/\ crates_ok toysha toyaead /\ (forall d, xdeal_dec (xdeal_enc d) = Some d),
      uniq xkeys /\ (forall i, (i < size xkeys)%N -> nth 0 xkeys i = xkey i *: su_base xS /\ su_good xS (xkey i)),
      (2 <= eff_threshold 2 (size xkeys) <= size xkeys)%N /\ coins_ok xS xcoins,
      schedule (size xkeys) [::] xacts /\ complete (size xkeys) xacts &
      [/\ su_good xS (\sum_(j <- iota 0 2) xsec j), uniq [:: 0; 1]%N & (size xkeys < Z.to_nat PropsSc.order)%N]].
Proof.
split.
- split; [exact xcrates|exact xserial].
- split; [exact xuniq|move=> [|[|i]] li; [split; [exact (erefl _)|exact (xgood 0)]|split; [exact (erefl _)|exact (xgood 1)]|by []]].
- split; [exact isT|move=> i j; split; exact good_1].
- split; [exact isT|exact xcomplete].
- split; [rewrite xsum; exact good_1|exact isT|exact ell_gt2].
Qed.

Definition xracts : seq ract := map RAct xacts ++ [:: RSec 0; RCom 0 1; RSec 1; RCom 1 0].
Lemma xrcomplete : rcomplete 2 xracts.
Proof.
split; first exact xcomplete.
by case=> [|[|i]] // [|[|j]].
Qed.
(** Those of [C86_rabin_runs] that differ. *)
Example C86_rabin_nonvacuous :
  [/\ (forall d, xrdeal_dec (xrdeal_enc d) = Some d), (0 < size xkeys)%N, (2 <= 2 <= size xkeys)%N,
      rschedule (size xkeys) [::] xracts & rcomplete (size xkeys) xracts].
Proof. split; [exact xrserial|exact isT|exact isT|exact isT|exact xrcomplete]. Qed.
