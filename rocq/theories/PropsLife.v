(** Property C102: a key lives on: threshold signatures after the key was handed to other holders or its shares refreshed. *)
From Coq Require Import ZArith.
From mathcomp Require Import all_ssreflect all_algebra.
From mathcomp Require Import zify.
From Verif Require Import Base Bytes RandModel ScModel Primes Group EdCurve EdModel PropsSc EdSpec PointModel PointCurve EciesModel PropsEcies EdScalars EdSuite.
From Verif Require Import Lagrange PolyModel PolySpec PolyProofs PolyProps PropsPoly Suite SuiteProofs SuiteEd VssModel VssProofs Toy DkgModel DkgSpec DkgProofs PropsDkg
  RvssModel RdkgModel PropsRdkg DssModel DssSpec DssProofs PropsDss PropsSuiteEd ReshareSpec ReshareProofs PropsReshare.

Set Implicit Arguments.
Unset Strict Implicit.
Unset Printing Implicit Defensive.

Import GRing.Theory.
Local Open Scope ring_scope.

Opaque ladd lopp lmul linv l0 l1 gadd gopp gnull gbase gscale of_l sub_code sub_decode enc_l senc_l sign_l verify_l seal_l open_l derive_l good_l chal_l.

Section Gen.
Variables (F : fieldType) (G : lmodType F) (S : suite G) (chal : bytestr -> F).
Variable deal_enc : deal G -> bytestr.
Variable deal_dec : bytestr -> option (deal G).
Variable ddeal_enc : nat -> enc_deal G -> bytestr.
Variable rdeal_enc : RvssModel.rdeal G -> bytestr.
Variable rdeal_dec : bytestr -> option (RvssModel.rdeal G).
Notation run := (drun S deal_enc deal_dec ddeal_enc).
Notation B := (su_base S).

(** The holders in Q have the shares of one polynomial of t coefficients with constant term a. *)
Definition keyed_on (Q : seq nat) (ps : seq G) (t : nat) (x : nat -> F) (a : F) (got : nat -> dks G) : Prop :=
  exists f, [/\ size f = t, (0 < t)%N, f`_0 = a &
    forall i, i \in Q -> [/\ (i < size ps)%N, dealt S f i (got i), seq.index (x i *: B) ps = i & su_good S (x i)]].

Lemma keyed_on_sign ps t x a r long random msg k i K p ord :
  suite_ok S -> p \in [char F] -> keyed_on (i :: K) ps t x a long -> keyed_on (i :: K) ps t x r random ->
  (size ps < p)%N -> (forall j, su_good S (k j)) -> (forall k s, perm_eq (ord k s) s) ->
  uniq (i :: K) -> (t <= size (i :: K))%N ->
  exists (d : nat -> dss G) (part : nat -> partial_sig F),
    (forall j, j \in i :: K -> new_dss S (x j) ps (long j) (random j) msg t = Ok (d j) /\ (dss_partial_sig S chal (d j) (k j)).2 = Ok (part j)) /\
    dss_signature S ord (dss_run S chal (d i) (DSign (k i) :: [seq DReceive (part j) | j <- K])) =
      Ok (su_enc S (r *: B) ++ su_senc S (challenge S chal (r *: B) (a *: B) msg * a + r)).
Proof.
move=> sok ch [f [sf t0 f0 hf]] [g [sg _ g0 hg]] np gk po uK tK.
pose d j := Dss (x j) (x j *: B) j ps t (long j) (random j) msg [::] [::] false (dss_session_id S (long j) (random j)).
have nd j : j \in i :: K -> new_dss S (x j) ps (long j) (random j) msg t = Ok (d j).
  move=> lj; have [l1 _ ix _] := hf j lj; rewrite /new_dss /= -[pmul _ _ _]/(x j *: su_base S) ix.
  by have -> : ~~ (j < size ps)%N = false by rewrite l1.
have fs j : j \in i :: K -> fresh_signer S f g (x j) ps (long j) (random j) msg t (d j).
  by move=> lj; have [_ dl _ _] := hf j lj; have [_ dr _ _] := hg j lj; split=> //; exact: nd.
have hp j : j \in i :: K -> exists q, (dss_partial_sig S chal (d j) (k j)).2 = Ok q.
  move=> lj; have [_ [cl _] _ _] := hf j lj; have [_ [cr _] _ _] := hg j lj.
  rewrite /dss_partial_sig /hash_sig /= cl cr.
  have [nf ng] : (0 < size f)%N /\ (0 < size g)%N by rewrite sf sg.
  by case: (f) nf => // ? ? _; case: (g) ng => // ? ? _ /=; eexists.
pose part j := match (dss_partial_sig S chal (d j) (k j)).2 with Ok q => q | _ => PartialSig (PriShare 0 0) [::] [::] end.
have pE j : j \in i :: K -> (dss_partial_sig S chal (d j) (k j)).2 = Ok (part j) by move=> lj; rewrite /part; have [q ->] := hp j lj.
exists d, part; split; first by move=> j jK; split; [apply: nd|apply: pE].
have hon j : j \in i :: K -> [/\ su_good S (x j), su_good S (k j), fresh_signer S f g (x j) ps (long j) (random j) msg t (d j), ds_index (d j) = j &
     (dss_partial_sig S chal (d j) (k j)).2 = Ok (part j)].
  by move=> lj; have [_ _ _ gx] := hf j lj; split=> //; [exact: fs|exact: pE].
have [_ _ ->] := C42_honest_session sok ch po np uK tK hon.
by rewrite f0 g0.
Qed.

Lemma keyed_keyed_on Q ps t x a got : keyed S ps t x a got -> (forall i, i \in Q -> (i < size ps)%N) -> keyed_on Q ps t x a got.
Proof. by case=> f [sf t0 f0 h] lQ; exists f; split=> // i /lQ li; have [h1 h2 h3] := h i li; split. Qed.

(** The new holders Q of a resharing that ended as in C59, each with the share its node computes. *)
Definition handed_over (p : nat) (fo : seq F) (old new : seq G) (t : nat) (x : nat -> F) (Q : seq nat) (got : nat -> dks G) : Prop :=
  exists (f : nat -> seq F) (ot : nat) (D : seq nat) (c : nat -> config G) (g0 : nat -> dkg G) (evs : nat -> seq (devent G))
    (vord : nat -> seq nat -> seq nat) (hord : nat -> nat -> hash_order F),
  [/\ [/\ p \in [char F], (size old < p)%N & (size new < p)%N], (forall i l, perm_eq (vord i l) l) /\ (forall i q k l, perm_eq (hord i q k l) l),
      uniq new /\ (0 < t)%N,
      (forall i, i \in Q -> [/\ (i < size new)%N, nth 0 new i = x i *: B, c_long (c i) = x i /\ su_good S (x i),
         [/\ c_old (c i) = old, c_new (c i) = new, threshold_of (c i) = t & c_old_t (c i) = ot] &
         [/\ reshare_history S deal_enc deal_dec ddeal_enc fo f (c i) (g0 i) (evs i), (ot <= ncertified (run (g0 i) (evs i)))%N &
             take (size fo) (certified_dealers (run (g0 i) (evs i))) = D]]) &
      forall i, i \in Q -> exists s, dist_key_share S (vord i) (hord i) (run (g0 i) (evs i)) = Ok s /\ got i = Dks (dk_commits s) (dk_share s)].

Lemma handed_keyed p fo old new t x Q got : B != 0 -> handed_over p fo old new t x Q got -> Q != [::] -> keyed_on Q new t x fo`_0 got.
Proof.
move=> nb [f [ot [D [c [g0 [evs [vord [hord [[ch po pn] [pv ph] [un t0] hQ hg]]]]]]]]] Q0.
set fn := reshared f D t.
have H i : i \in Q -> fn`_0 = fo`_0 /\ dealt S fn i (got i).
  move=> iQ; have [li ni [cE gx] [oE nE tE otE] [rh en dE]] := hQ i iQ.
  have po' : (size (c_old (c i)) < p)%N by rewrite oE.
  have [_ h _] := C59_any_history ch po' nb (pv i) (ph i) rh.
  have ii : seq.index (c_long (c i) *: B) (c_new (c i)) = i by rewrite cE -ni nE index_uniq.
  rewrite ii dE tE otE in h; have [e0 [pp e1]] := h en; split=> //.
  by have [s [e2 ->]] := hg i iQ; move: e2; rewrite e1 => -[<-].
exists fn; split.
- by rewrite size_mkseq.
- by [].
- by case: (Q) Q0 H => // i Q' _ /(_ i (mem_head _ _))[].
move=> i iQ; have [_ d] := H i iQ; have [li ni [_ gx] _ _] := hQ i iQ; split=> //.
by rewrite -ni index_uniq.
Qed.

(** Holders who refresh their shares with [renew] and shares of a polynomial with constant term 0. *)
Definition refreshed (t : nat) (Q : seq nat) (old zero got : nat -> dks G) : Prop :=
  exists z, [/\ size z = t, z`_0 = 0 & forall i, i \in Q -> dealt S z i (zero i) /\
      exists po pz r, renew S (DKShare (dks_commits (old i)) (dks_share (old i)) po) (DKShare (dks_commits (zero i)) (dks_share (zero i)) pz) = Ok r /\
                      got i = Dks (dk_commits r) (dk_share r)].
Lemma refreshed_keyed Q ps t x a zero old got : keyed_on Q ps t x a old -> refreshed t Q old zero got -> keyed_on Q ps t x a got.
Proof.
move=> [f [sf t0 f0 hf]] [z [sz z0 hz]].
exists (vadd f z); split=> //.
- by rewrite size_vadd sf sz minnn.
- by rewrite nth_vadd ?sf ?sz // z0 addr0.
move=> i iQ; have [li [cf vf] ix gx] := hf i iQ; have [[cz vz] [po [pz [r [e ->]]]]] := hz i iQ; split=> //.
have pz0 : dk_public (DKShare (dks_commits (zero i)) (dks_share (zero i)) pz) = Ok 0.
  by rewrite /dk_public /= cz; case: (z) sz z0 t0 => [<- //|c cs _ /= -> _]; rewrite scale0r.
have ie : ps_i (dks_share (old i)) = ps_i (dks_share (zero i)).
  by move: e; rewrite /renew pz0 /= scale0r eqxx /=; case: eqP.
have [||r' e' [_ _ h3 h4 h5]] := @C61_renew F G S (DKShare (dks_commits (old i)) (dks_share (old i)) po) (DKShare (dks_commits (zero i)) (dks_share (zero i)) pz) pz0.
- exact: ie.
- by rewrite /= cf cz !size_map sf sz.
move: e; rewrite e' => -[<-]; split=> /=.
  rewrite vadd_map_scale ?sf ?sz //; apply: (@eq_from_nth _ 0); first by rewrite h4 /= cf size_vadd !size_map sf sz minnn.
  by move=> m _; rewrite h5 /= cf cz nth_vadd // !size_map sf sz.
by rewrite h3 /= vf vz !share_value_eval !pri_eval_v Poly_vadd ?sf ?sz // hornerD.
Qed.

(** The life of a key with the secret a: the participants generate it with either protocol, some of them refresh their shares, and
    they hand the key over to other holders, with another threshold; any number of times, in any order. *)
Inductive life (p : nat) (a : F) : seq nat -> seq G -> nat -> (nat -> F) -> (nat -> dks G) -> Prop :=
| Born ps T x sec got : (0 < size ps)%N -> dkg_result S deal_enc deal_dec ddeal_enc ps T x sec got -> a = \sum_(j <- iota 0 (size ps)) sec j ->
    life p a (iota 0 (size ps)) ps (eff_threshold T (size ps)) x got
| BornRabin ps t x sec got : (0 < size ps)%N -> rdkg_result S rdeal_enc rdeal_dec ps t x sec got -> a = \sum_(j <- iota 0 (size ps)) sec j ->
    life p a (iota 0 (size ps)) ps t x got
| Refreshed Q Q' ps t x old zero got : life p a Q ps t x old -> {subset Q' <= Q} -> refreshed t Q' old zero got -> life p a Q' ps t x got
| HandedOver Q ps t x old j fo Q' new t' x' got : life p a Q ps t x old -> j \in Q -> dks_commits (old j) = [seq c *: B | c <- fo] ->
    handed_over p fo ps new t' x' Q' got -> Q' != [::] -> life p a Q' new t' x' got.

Lemma commit_inj (f g : seq F) : B != 0 -> [seq c *: B | c <- f] = [seq c *: B | c <- g] -> f = g.
Proof.
move=> nb; apply: inj_map => c d /eqP; rewrite -subr_eq0 -scalerBl scaler_eq0 (negbTE nb) orbF subr_eq0.
by move/eqP.
Qed.
Lemma sub_keyed_on Q Q' ps t x a got : {subset Q' <= Q} -> keyed_on Q ps t x a got -> keyed_on Q' ps t x a got.
Proof. by move=> h [f [h1 h2 h3 h4]]; exists f; split=> // i /h/h4. Qed.

Lemma life_keyed p a Q ps t x got : suite_ok S -> (forall d, deal_dec (deal_enc d) = Some d) -> (forall d, rdeal_dec (rdeal_enc d) = Some d) ->
  life p a Q ps t x got -> keyed_on Q ps t x a got.
Proof.
move=> sok ser rser; elim=> {Q ps t x got} [ps T x sec got n0 h ->|ps t x sec got n0 h ->|Q Q' ps t x old zero got _ IH sub h|Q ps t x old j fo Q' new t' x' got _ IH jQ cE h Q0].
- by apply: (keyed_keyed_on (dkg_keyed sok ser n0 h)) => i; rewrite mem_iota.
- by apply: (keyed_keyed_on (rdkg_keyed sok rser n0 h)) => i; rewrite mem_iota.
- exact: refreshed_keyed (sub_keyed_on sub IH) h.
case: IH => f [sf t0 f0 hf]; have [_ [cf _] _ _] := hf j jQ.
have -> : a = fo`_0 by rewrite -f0 (@commit_inj f fo) ?(su_base_nz sok) // -cf -cE.
exact: handed_keyed (su_base_nz sok) h Q0.
Qed.

(** Whatever happened to the key, t of its present holders sign under it, with a nonce shared among them in any of these ways. *)
Theorem C102_signs (p : nat) (a r : F) (Q Q' : seq nat) (ps : seq G) (t : nat) (x : nat -> F) (long random : nat -> dks G)
    (i : nat) (K : seq nat) (msg : bytestr) (k : nat -> F) (ord : hash_order F) :
  suite_ok S -> (forall d, deal_dec (deal_enc d) = Some d) -> (forall d, rdeal_dec (rdeal_enc d) = Some d) ->
  p \in [char F] -> (size ps < p)%N ->
  life p a Q ps t x long -> life p r Q' ps t x random -> {subset i :: K <= Q} -> {subset i :: K <= Q'} ->
  (forall j, su_good S (k j)) -> (forall k s, perm_eq (ord k s) s) -> uniq (i :: K) -> (t <= size (i :: K))%N ->
  exists (d : nat -> dss G) (part : nat -> partial_sig F) (sig : bytestr),
    [/\ (forall j, j \in i :: K -> new_dss S (x j) ps (long j) (random j) msg t = Ok (d j) /\ (dss_partial_sig S chal (d j) (k j)).2 = Ok (part j)),
        dss_signature S ord (dss_run S chal (d i) (DSign (k i) :: [seq DReceive (part j) | j <- K])) = Ok sig,
        sig = su_enc S (r *: B) ++ su_senc S (challenge S chal (r *: B) (a *: B) msg * a + r) &
        ed_valid S chal (a *: B) msg sig].
Proof.
move=> sok ser rser ch pn hl hr sl sr gk po uK tK.
have kl := sub_keyed_on sl (life_keyed sok ser rser hl); have kr := sub_keyed_on sr (life_keyed sok ser rser hr).
have [d [part [H E]]] := keyed_on_sign msg sok ch kl kr pn gk po uK tK.
exists d, part; eexists; split; [exact: H|exact: E|by []|].
exists (r *: B), (challenge S chal (r *: B) (a *: B) msg * a + r); split=> //.
by rewrite scalerDl addrC scalerA.
Qed.

(** Every holder keeps reporting the same public key, and t of the holders recover the same secret. *)
Theorem C102_same_key (p : nat) (a : F) (Q : seq nat) (ps : seq G) (t : nat) (x : nat -> F) (got : nat -> dks G) (K : seq nat) (ord : hash_order F) :
  suite_ok S -> (forall d, deal_dec (deal_enc d) = Some d) -> (forall d, rdeal_dec (rdeal_enc d) = Some d) ->
  p \in [char F] -> (size ps < p)%N -> life p a Q ps t x got -> (forall k s, perm_eq (ord k s) s) -> {subset K <= Q} -> uniq K -> (t <= size K)%N ->
  (forall i, i \in Q -> ohead (dks_commits (got i)) = Some (a *: B)) /\
  recover_secret ord [seq Some (PriShare i (ps_v (dks_share (got i)))) | i <- K] t = Ok a.
Proof.
move=> sok ser rser ch pn h po sub uK tK; have [f [sf t0 f0 hf]] := life_keyed sok ser rser h; split.
  by move=> i iQ; have [_ [-> _] _ _] := hf i iQ; rewrite -f0; case: (f) sf t0 => // <-.
rewrite -f0; apply: (C01_recover_secret ch po); first by rewrite sf.
  move=> sh /List.in_map_iff [i [[<-] /In_mem iK]]; have [li [_ v] _ _] := hf i (sub _ iK); split=> //=.
  exact: leq_ltn_trans pn.
rewrite -[X in [seq _ | _ <- pmap id X]]/[seq Some (PriShare i (ps_v (dks_share (got i)))) | i <- K].
have -> : [seq ps_i s0 | s0 <- pmap id [seq Some (PriShare i (ps_v (dks_share (got i)))) | i <- K]] = K by elim: (K) => //= ? ? ->.
by exists (take t K) => [|q /mem_take //]; rewrite take_uniq // size_takel.
Qed.
End Gen.
Print Assumptions C102_signs.
Print Assumptions C102_same_key.

Section Ed.
Variables (sha : list Z -> list Z) (X : aead_prims) (hash : bytestr -> bytestr).
Variables (St : Type) (Rs : stream St) (fuel : nat) (xof : list Z -> St).
Notation S := (ed_suite sha X hash Rs fuel xof).
Variable deal_enc : deal Gl -> bytestr.
Variable deal_dec : bytestr -> option (deal Gl).
Variable ddeal_enc : nat -> enc_deal Gl -> bytestr.
Variable rdeal_enc : RvssModel.rdeal Gl -> bytestr.
Variable rdeal_dec : bytestr -> option (RvssModel.rdeal Gl).
Notation ell := (Z.to_nat PropsSc.order).

(** On edwards25519 the EdDSA verifier accepts the signature under the public key that was generated at first. *)
Theorem C102_verifies (a r : Fl) (Q Q' : seq nat) (ps : seq Gl) (t : nat) (x : nat -> Fl) (long random : nat -> dks Gl)
    (i : nat) (K : seq nat) (msg : bytestr) (k : nat -> Fl) (ord : hash_order Fl) :
  crates_ok sha X -> (forall d, deal_dec (deal_enc d) = Some d) -> (forall d, rdeal_dec (rdeal_enc d) = Some d) ->
  (size ps < ell)%N -> su_good S a -> su_good S r ->
  life S deal_enc deal_dec ddeal_enc rdeal_enc rdeal_dec ell a Q ps t x long ->
  life S deal_enc deal_dec ddeal_enc rdeal_enc rdeal_dec ell r Q' ps t x random ->
  {subset i :: K <= Q} -> {subset i :: K <= Q'} ->
  (forall j, su_good S (k j)) -> (forall k s, perm_eq (ord k s) s) -> uniq (i :: K) -> (t <= size (i :: K))%N ->
  exists (d : nat -> dss Gl) (part : nat -> partial_sig Fl) (sig : bytestr),
    [/\ (forall j, j \in i :: K -> new_dss S (x j) ps (long j) (random j) msg t = Ok (d j) /\ (dss_partial_sig S (chal_l sha) (d j) (k j)).2 = Ok (part j)),
        dss_signature S ord (dss_run S (chal_l sha) (d i) (DSign (k i) :: [seq DReceive (part j) | j <- K])) = Ok sig &
        eddsa_verify ed25519 sha (sp (a *: (gbase : Gl))) (toZ msg) (toZ sig) = Ok tt].
Proof.
move=> cr ser rser pn ga gr hl hr sl sr gk po uK tK.
have [d [part [sig [H E sE _]]]] := C102_signs (chal_l sha) msg (ed_ok hash Rs fuel xof cr) ser rser char_l pn hl hr sl sr gk po uK tK.
exists d, part, sig; split; [exact H|exact E|rewrite sE].
case: cr => shok _ _; exact (@dss_valid_l sha shok a r msg ga gr).
Qed.
End Ed.
Print Assumptions C102_verifies.

(** *** Example: keys 1, 2, 3 generate 2 + X, hand it over to keys 4, 5, 6 (dealers 0 and 2), who refresh it with 4 X *)
Definition lsec (i : nat) : K := if i == 0%N then K2 else K0.
Definition lpicks (i m : nat) : K := if i == 0%N then K1 else K0.
Definition lkey (i : nat) : K := k7_of (i + 4).
Definition lnode (i : nat) : dkg V := rnew_node (lkey i).
(** What new holder i sees: the two deals and the answers of the others. *)
Definition lrun (i : nat) : seq (devent V) :=
  let others := [seq k <- iota 0 3 | k != i] in
  [:: DEvDeal (rdeal (rhonest 0) i) (K1 : K) (K1 : K); DEvDeal (rdeal (rhonest 2) i) (K1 : K) (K1 : K)] ++
  [seq DEvResponse V (rr (lkey k) (rhonest 0) k) (K1 : K) | k <- others] ++ [seq DEvResponse V (rr (lkey k) (rhonest 2) k) (K1 : K) | k <- others].
Definition lopens (i j : nat) (e : enc_deal V) : option (seq V) :=
  if mget j (g_verifiers (lnode i)) is Some v then
    if decrypt_deal ktoy kdeal_dec v e is Ok d then Some (d_commits d) else None
  else None.
Lemma lopens_consistent i f dd k k' : lopens i (dd_index dd) (dd_deal dd) = Some [seq a *: su_base ktoy | a <- f (dd_index dd)] ->
  consistent ktoy kdeal_dec (lnode i) f (DEvDeal dd k k').
Proof. by move=> h v d M D; move: h; rewrite /lopens M D => -[]. Qed.
Lemma lt2 (P : nat -> Prop) : P 0%N -> P 1%N -> forall i, (i < 2)%N -> P i.
Proof. by move=> h0 h1 [|[|]]. Qed.
Lemma ldeal_consistent i j : (i < 2)%N -> (j = 0 \/ j = 2)%N -> consistent ktoy kdeal_dec (lnode i) rf (DEvDeal (rdeal (rhonest j) i) (K1 : K) (K1 : K)).
Proof.
move=> li h; apply: lopens_consistent; case: h => ->; move: i li; apply: lt2.
- by vm_cast_no_check (erefl (Some [:: K3 : V; K3 : V])).
- by vm_cast_no_check (erefl (Some [:: K3 : V; K3 : V])).
- by vm_cast_no_check (erefl (Some [:: K5 : V; K3 : V])).
- by vm_cast_no_check (erefl (Some [:: K5 : V; K3 : V])).
Qed.
Lemma lnode_ok i : (i < 2)%N -> new_dist_key_handler ktoy (rnew_conf (lkey i)) (K0 : K) (fun _ => K3 : K) = Ok (lnode i).
Proof. by case: i => [|[|i]] li; [vm_cast_no_check (erefl (@Ok dkg_error _ (lnode 0)))|vm_cast_no_check (erefl (@Ok dkg_error _ (lnode 1)))|]. Qed.
Lemma lhistory i : (i < 2)%N -> reshare_history ktoy kdeal_enc kdeal_dec kddeal_enc rpoly rf (rnew_conf (lkey i)) (lnode i) (lrun i).
Proof.
move=> li; split; [|by []|by move: i li; apply: lt2; vm_cast_no_check (erefl true)|by move: i li; apply: lt2; vm_cast_no_check (erefl true)|by []|by []|by []| | | |].
- by exists (K0 : K), (fun _ => K3 : K); exact: lnode_ok.
- by case=> [|[|[|]]] //; split=> //; apply/eqP; rewrite /share_value /peval !big_ord_recl big_ord0; vm_compute.
- by move: i li; apply: lt2; vm_cast_no_check (erefl true).
- by move: i li; apply: lt2 => ev [<-|[<-|[<-|[<-|[<-|[<-|[]]]]]]] //; apply: ldeal_consistent => //; [left|right|left|right].
- by apply: mem_certifiedP; move: i li; apply: lt2; vm_cast_no_check (erefl true).
Qed.
Definition lmid (i : nat) : dks V := Dks [:: K2 : V; K3 : V] (PriShare i (if i == 0%N then K5 : K else K1 : K)).
Definition lzero (i : nat) : dks V := Dks [:: K0 : V; K5 : V] (PriShare i (if i == 0%N then K5 : K else K3 : K)).
Definition lend (i : nat) : dks V := Dks [:: K2 : V; K1 : V] (PriShare i (if i == 0%N then K3 : K else K4 : K)).
Lemma lhanded : handed_over ktoy kdeal_enc kdeal_dec kddeal_enc 7 rpoly kkeys rnew 2 lkey [:: 0; 1]%N lmid.
Proof.
exists rf, 2%N, [:: 0; 2]%N, (fun i => rnew_conf (lkey i)), lnode, lrun, (fun _ => id), (fun _ _ _ l => l); split.
- split=> //; exact: charK.
- by [].
- by split=> //; vm_cast_no_check (erefl true).
- move=> i iQ; have li : (i < 2)%N by move: iQ; rewrite !inE => /orP[]/eqP->.
  split; [exact: ltnW| |by split=> //; move: i li {iQ}; apply: lt2; vm_cast_no_check (erefl true)|by []|split; [exact: lhistory| |]].
  + by move: i li {iQ}; apply: lt2; apply/eqP; vm_cast_no_check (erefl true).
  + by move: i li {iQ}; apply: lt2; vm_cast_no_check (erefl true).
  + by move: i li {iQ}; apply: lt2; vm_cast_no_check (erefl [:: 0; 2]%N).
- move=> i iQ; have li : (i < 2)%N by move: iQ; rewrite !inE => /orP[]/eqP->.
  move: i li {iQ}; apply: lt2.
  + exists (@DKShare K V [:: K2 : V; K3 : V] (@PriShare K 0 (K5 : K)) [:: K5 : K; K1 : K]); split; last by [].
    by vm_cast_no_check (erefl (@Ok dkg_error _ (@DKShare K V [:: K2 : V; K3 : V] (@PriShare K 0 (K5 : K)) [:: K5 : K; K1 : K]))).
  + exists (@DKShare K V [:: K2 : V; K3 : V] (@PriShare K 1 (K1 : K)) [:: K1 : K; K1 : K]); split; last by [].
    by vm_cast_no_check (erefl (@Ok dkg_error _ (@DKShare K V [:: K2 : V; K3 : V] (@PriShare K 1 (K1 : K)) [:: K1 : K; K1 : K]))).
Qed.
Lemma lrefreshed : refreshed ktoy 2 [:: 0; 1]%N lmid lzero lend.
Proof.
exists [:: K0 : K; K5 : K]; split=> // i iQ; have li : (i < 2)%N by move: iQ; rewrite !inE => /orP[]/eqP->.
split.
  split; first by apply/eqP; vm_cast_no_check (erefl true).
  by apply/eqP; move: i li {iQ}; apply: lt2; rewrite /share_value /peval !big_ord_recl big_ord0; vm_cast_no_check (erefl true).
exists [::], [::], (DKShare (dks_commits (lend i)) (dks_share (lend i)) [::]); split; last by [].
move: i li {iQ}; apply: lt2.
  by vm_cast_no_check (erefl (@Ok dkg_error _ (DKShare (dks_commits (lend 0)) (dks_share (lend 0)) [::]))).
by vm_cast_no_check (erefl (@Ok dkg_error _ (DKShare (dks_commits (lend 1)) (dks_share (lend 1)) [::]))).
Qed.

(** The life of this key; at its end holders 0 and 1 have shares of 2 + X again, at other indices of other people. *)
Example C102_nonvacuous :
  life ktoy kdeal_enc kdeal_dec kddeal_enc krdeal_enc krdeal_dec 7 (K2 : K) [:: 0; 1]%N rnew 2 lkey lend.
Proof.
have [got [dk gE]] := @dkg_runs K V ktoy kdeal_enc kdeal_dec kddeal_enc kkeys 2 kkey lsec lpicks kcoins kacts ktoy_ok kdeal_dec_enc isT
   (fun i li => match kfresh (T := 2%N) isT with And3 _ h _ => h i li end) isT kcoins_ok isT kacts_complete.
have jE : joint_poly 2 lsec lpicks (iota 0 3) = rpoly by rewrite /joint_poly /= unlock; vm_compute.
apply: (Refreshed (Q := [:: 0; 1]%N) (old := lmid)) lrefreshed => //.
have bo : life ktoy kdeal_enc kdeal_dec kddeal_enc krdeal_enc krdeal_dec 7 (K2 : K) (iota 0 3) kkeys 2 kkey got.
  apply: (@Born K V ktoy kdeal_enc kdeal_dec kddeal_enc krdeal_enc krdeal_dec 7 (K2 : K) kkeys 2 kkey lsec got) => //.
  by rewrite unlock; vm_compute.
have cE : dks_commits (got 0%N) = [seq c *: su_base ktoy | c <- rpoly] by rewrite gE; [rewrite -jE|].
exact: (HandedOver bo (j := 0%N) isT cE lhanded isT).
Qed.
(** The nonce: the three new holders generate one among themselves. *)
Example C102_nonce_nonvacuous :
  exists random, life ktoy kdeal_enc kdeal_dec kddeal_enc krdeal_enc krdeal_dec 7 (K2 : K) (iota 0 3) rnew 2 lkey random.
Proof.
have h i : (i < size rnew)%N -> nth 0 rnew i = lkey i *: su_base ktoy /\ su_good ktoy (lkey i).
  by case: i => [|[|[|]]] //; split; apply/eqP; vm_compute.
have [got [dk gE]] := @dkg_runs K V ktoy kdeal_enc kdeal_dec kddeal_enc rnew 2 lkey lsec lpicks kcoins kacts ktoy_ok kdeal_dec_enc isT
   h isT kcoins_ok isT kacts_complete.
exists got; apply: (@Born K V ktoy kdeal_enc kdeal_dec kddeal_enc krdeal_enc krdeal_dec 7 (K2 : K) rnew 2 lkey lsec got) => //.
by rewrite unlock; vm_compute.
Qed.
(** On edwards25519: the key of [C86_nonvacuous]. *)
Example C102_ed_nonvacuous :
  exists got, life xS xdeal_enc xdeal_dec (fun _ _ => [::]) xrdeal_enc xrdeal_dec (Z.to_nat PropsSc.order) 1 (iota 0 2) xkeys 2 xkey got.
Proof.
have [[cr ser] [u h] [t2 co] [sch comp] _] := C86_nonvacuous.
have [got [dk _]] := @C86_runs toysha toyaead (fun b => b) nat estream 1 (fun b => size b) cr xdeal_enc xdeal_dec (fun _ _ => [::]) ser xkeys 2 xkey xsec (fun _ _ => 1) xcoins xacts u h t2 co sch comp.
exists got; exact (@Born Fl Gl xS xdeal_enc xdeal_dec (fun _ _ => [::]) xrdeal_enc xrdeal_dec (Z.to_nat PropsSc.order) 1 xkeys 2 xkey xsec got isT dk (esym xsum)).
Qed.
