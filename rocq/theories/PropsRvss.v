(** Properties C53-C56 and C73, and the Rabin parts of C45, C52 and C72: src/share/vss/rabin/vss.rs. *)
From mathcomp Require Import all_ssreflect all_algebra.
From mathcomp Require Import zify.
From Coq Require Import String.
From Verif Require Import Base PolyModel PolySpec PolyProofs PolyProps PropsPoly Suite SuiteProofs VssModel VssProofs PropsVss
  RvssModel RvssSpec RvssProofs.

Set Implicit Arguments.
Unset Strict Implicit.
Unset Printing Implicit Defensive.

Import GRing.Theory.
Local Open Scope ring_scope.

(** A serialisation of deals for the toy suite (lengths in front). *)
Definition rdeal_enc7 (d : rdeal G7) : bytestr :=
  size (rd_sid d) :: rd_sid d ++
  [:: ps_i (rd_sec d); nat_of_ord (ps_v (rd_sec d)); ps_i (rd_rnd d); nat_of_ord (ps_v (rd_rnd d)); rd_t d]
  ++ map (fun P : F7 => nat_of_ord P) (rd_commits d).
Definition rdeal_dec7 (b : bytestr) : option (rdeal G7) :=
  if b is n :: b' then
    if drop n b' is i :: x :: j :: y :: t :: cs
    then Some (@RDeal F7 G7 (take n b') (@PriShare F7 i (inZp x)) (@PriShare F7 j (inZp y)) t (map (fun c => inZp c : G7) cs))
    else None
  else None.
Lemma rdeal_dec_enc7 d : rdeal_dec7 (rdeal_enc7 d) = Some d.
Proof.
case: d => sid [i x] [j y] t cs; rewrite /rdeal_dec7 /rdeal_enc7 /= drop_size_cat // take_size_cat //=.
rewrite !valZpK -map_comp (@eq_map _ _ _ id) ?map_id //; by move=> P /=; rewrite valZpK.
Qed.

(** ** C53: honest dealer is always approved *)
(** Full statement: for every verifier list.  Missing: repeated keys (refused exactly as in C46) and the neutral point
    as a key, which the Schnorr verifier refuses. *)
Theorem C53_honest_deal_approved_partial (F : fieldType) (G : lmodType F) (S : suite G) rdeal_enc rdeal_dec
    (long secret : F) (vs : seq G) (t : nat) (fp gp : nat -> F) dl (i : nat) (x dh k k' k'' : F) :
  suite_ok S -> (forall d, rdeal_dec (rdeal_enc d) = Some d) ->
  new_rdealer S long secret vs t fp gp = Ok dl ->
  uniq vs -> (i < size vs)%N -> nth 0 vs i = x *: su_base S -> su_good S long -> su_good S x -> su_good S k -> su_good S k' ->
  exists e v v' r dl',
  [/\ rencrypted_deal S rdeal_enc dl i dh k = Ok e, new_rverifier S x (rl_pub dl) vs = Ok v,
      rprocess_encrypted_deal S rdeal_dec v e k' = (v', Ok r), r_status r = true /\ r_index r = i &
      rdealer_process_response S rdeal_enc dl r k'' = (dl', Ok None) /\ rstatus_of (rl_agg dl') i = Some true].
Proof.
move=> okS de nd u lt nv nl nx nk nk'.
have [e E] := @rencrypted_deal_def _ _ S rdeal_enc _ _ _ _ _ _ _ i dh k nd lt.
have [v V _] := @new_rverifier_def _ _ S long _ _ _ u nv lt.
have pubE : rl_pub dl = long *: su_base S by have [_ _ ->] := new_rdealerP nd.
have P := rhonest_process okS de k' nd E V u nv lt nl nk.
exists e, v; eexists; eexists; eexists; split; [exact: E|by rewrite pubE|exact: P|by []|].
have [_ _ dlE] := new_rdealerP nd.
have vr : rverify_response S (rl_agg dl) (honest_response S x (rl_sid dl) i k') =
    (ra_set_responses (rl_agg dl) (minsert i (honest_response S x (rl_sid dl) i k') (ra_responses (rl_agg dl))), Ok tt).
  apply: rverify_response_ok; rewrite ?dlE //=.
  by rewrite nv; apply: (su_sign_ok okS).
rewrite /rdealer_process_response vr /=; split; first reflexivity.
by rewrite /rstatus_of /= mget_minsert eqxx.
Qed.
Print Assumptions C53_honest_deal_approved_partial.

(** All n verifiers answer; in whatever order the answers arrive, the dealer and every verifier accept them all and end
    up certified, the dealer publishes the commitments to the secret polynomial and verifier i holds its two shares. *)
Theorem C53_honest_run_certified_partial (F : fieldType) (G : lmodType F) (S : suite G) rdeal_enc rdeal_dec
    (long secret : F) (vs : seq G) (t : nat) (fp gp : nat -> F) dl
    (xs : nat -> F) (e : nat -> enc_deal G) (v v' : nat -> rverifier G) (resp : nat -> response) (dh k k' : nat -> F) :
  suite_ok S -> (forall d, rdeal_dec (rdeal_enc d) = Some d) ->
  new_rdealer S long secret vs t fp gp = Ok dl ->
  uniq vs -> su_good S long ->
  (forall i, (i < size vs)%N -> [/\ nth 0 vs i = xs i *: su_base S, su_good S (xs i), su_good S (k i) & su_good S (k' i)] /\
     [/\ rencrypted_deal S rdeal_enc dl i (dh i) (k i) = Ok (e i), new_rverifier S (xs i) (rl_pub dl) vs = Ok (v i) &
         rprocess_encrypted_deal S rdeal_dec (v i) (e i) (k' i) = (v' i, Ok (resp i))]) ->
  (forall js, perm_eq js (iota 0 (size vs)) ->
     exists2 a, rfeed S (rl_agg dl) (map resp js) = Some a &
       rsecret_commit S (rl_set_agg dl a) = Some (secret *: su_base S) /\
       rdealer_commits (rl_set_agg dl a) = Some [seq c *: su_base S | c <- secret :: mkseq fp (t - 1)]) /\
  (forall i js, (i < size vs)%N -> perm_eq (i :: js) (iota 0 (size vs)) ->
     exists2 a, (exists2 a0, rv_agg (v' i) = Some a0 & rfeed S a0 (map resp js) = Some a) &
       exists2 d, rverifier_deal (rv_set_agg (v' i) a) = Some d &
         rd_sec d = PriShare i (share_value (secret :: mkseq fp (t - 1)) i) /\
         rd_rnd d = PriShare i (share_value (mkseq gp t) i)).
Proof.
move=> okS de nd u nl H.
have [h1 h2 dlE] := new_rdealerP nd.
have pubE : rl_pub dl = long *: su_base S by rewrite dlE.
have R i : (i < size vs)%N -> resp i = honest_response S (xs i) (rl_sid dl) i (k' i) /\
    rv_agg (v' i) = Some (RAggregator (long *: su_base S) vs (rd_commits (the_rdeal S long secret vs t fp gp i))
        [:: (i, honest_response S (xs i) (rl_sid dl) i (k' i))] (rl_sid dl) (Some (the_rdeal S long secret vs t fp gp i)) t false).
  move=> lt; have [[nv nx nk nk'] [E V P]] := H i lt; rewrite pubE in V.
  by move: P; rewrite (rhonest_process okS de (k' i) nd E V u nv lt nl nk) => -[<- ->].
split=> [js pj|i js lt pj].
  have mj j : j \in js -> (j < size vs)%N by rewrite (perm_mem pj) mem_iota add0n.
  have [|||m fE [mE wm]] := @rfeed_ok _ _ S resp (rl_agg dl) js.
  - by rewrite (perm_uniq pj) iota_uniq.
  - move=> j /mj lt; have [-> _] := R j lt; have [[nv nx nk nk'] _] := H j lt.
    by rewrite dlE /=; split=> //; rewrite nv; apply: (su_sign_ok okS).
  - by rewrite dlE.
  exists (ra_set_responses (rl_agg dl) m) => //.
  have ct : rdeal_certified (ra_set_responses (rl_agg dl) m).
    apply: rall_approved_certified => //; rewrite ?dlE //= => j lt.
    rewrite /rstatus_of /= mE (perm_mem pj) mem_iota /= add0n lt /=.
    by have [-> _] := R j lt.
  have en : enough_approvals (ra_set_responses (rl_agg dl) m) by case/andP: ct.
  by rewrite /rsecret_commit /rdealer_commits /= ct en /= dlE.
have uj : uniq (i :: js) by rewrite (perm_uniq pj) iota_uniq.
have mj j : j \in js -> (j < size vs)%N /\ j != i.
  move=> jj; split; last by apply: contraTneq jj => ->; case/andP: uj.
  have: j \in i :: js by rewrite in_cons jj orbT.
  by rewrite (perm_mem pj) mem_iota add0n.
have [_ v'E] := R i lt; move: v'E; set a0 := RAggregator _ _ _ _ _ _ _ _ => v'E.
have [|||m fE [mE wm]] := @rfeed_ok _ _ S resp a0 js.
- by case/andP: uj.
- move=> j /mj [ltj nj]; have [-> _] := R j ltj; have [[nv nx nk nk'] _] := H j ltj.
  split=> //=; first by rewrite nv; apply: (su_sign_ok okS).
  by rewrite (negPf nj).
- by split=> //= j; rewrite inE => /eqP ->.
exists (ra_set_responses a0 m); first by exists a0.
have ct : rdeal_certified (ra_set_responses a0 m).
  apply: rall_approved_certified => //= j ltj.
  rewrite /rstatus_of /= mE /=.
  have: j \in i :: js by rewrite (perm_mem pj) mem_iota add0n.
  rewrite in_cons; case: (eqVneq j i) => [->|nj] /=; first by case: ifP => // _; have [-> _] := R i lt.
  by move=> ->; have [-> _] := R j ltj.
have en : enough_approvals (ra_set_responses a0 m) by case/andP: ct.
exists (the_rdeal S long secret vs t fp gp i); first by rewrite /rverifier_deal /= ct en.
split=> //=; congr (PriShare _ (share_value _ _)).
by case: (t) h1 => // t' _; rewrite subn1 /= /mkseq /= -[1%N]addn0 iotaDl -map_comp.
Qed.
Print Assumptions C53_honest_run_certified_partial.

(** Any t of the honest dealer's deals recover the secret, for every order of the hash map. *)
Theorem C53_honest_shares_recover (F : fieldType) (G : lmodType F) (S : suite G) (p : nat) (ord : hash_order F)
    (long secret : F) (vs : seq G) (t : nat) (fp gp : nat -> F) dl (ds : seq (rdeal G)) :
  p \in [char F] -> (forall k s, perm_eq (ord k s) s) -> (size vs < p)%N ->
  new_rdealer S long secret vs t fp gp = Ok dl ->
  (forall d, List.In d ds -> exists i, rplaintext_deal dl i = Ok d) ->
  distinct_at_least [seq ps_i (rd_sec d) | d <- ds] t ->
  rvss_recover_secret ord ds t = Ok secret.
Proof.
move=> cF op sp nd pd dis; have [h1 h2 dlE] := new_rdealerP nd.
have H d : List.In d ds -> exists2 i, (i < size vs)%N & d = the_rdeal S long secret vs t fp gp i.
  move=> /pd [i]; rewrite /rplaintext_deal dlE /= size_map size_iota; case: leqP => // lt.
  rewrite (nth_map (the_rdeal S long secret vs t fp gp 0)) ?size_map ?size_iota //.
  by rewrite (nth_map 0%N) ?size_iota // nth_iota // add0n !pri_eval_spec => -[<-]; exists i.
rewrite /rvss_recover_secret.
have fE : forall l acc, (forall d, List.In d l -> rd_sid d = rd_sid (head d ds)) ->
   foldo (E:=vss_error) (fun acc d => if rd_sid d == rd_sid (head d ds) then Ok (rcons acc (Some (rd_sec d))) else Err DealsSameID)
     acc l = Ok (acc ++ [seq Some (rd_sec d) | d <- l]).
  elim=> [|d l IH] acc Hl /=; first by rewrite cats0.
  rewrite {1}(Hl d (or_introl erefl)) eqxx /= IH ?cat_rcons // => d' i; apply: Hl; by right.
rewrite fE /=; last first.
  move=> d /H [i _ ->]; case: (ds) H => [|d' ds'] //= H; by have [|i' _ ->] := H d' _; first by left.
rewrite (C01_recover_secret (f := secret :: mkseq fp (t - 1)) cF op) //=.
- by rewrite size_mkseq; lia.
- by move=> s /List.in_map_iff [d [[<-] /H [i lt ->]]] /=; split=> //; lia.
- have -> : [seq ps_i i | i <- pmap id [seq Some (rd_sec d) | d <- ds]] = [seq ps_i (rd_sec d) | d <- ds] by elim: (ds) => //= d l ->.
  exact: dis.
Qed.
Print Assumptions C53_honest_shares_recover.

Definition rdl7 : outcome vss_error (rdealer G7) :=
  new_rdealer toy (4%:R : F7) (5%:R : F7) keys7 2 (fun _ => 3%:R) (fun k => (k.+1)%:R).
Example C53_nonvacuous :
  [/\ suite_ok toy, (forall d, rdeal_dec7 (rdeal_enc7 d) = Some d), is_ok rdl7 &
   [/\ uniq keys7, nth 0 keys7 1 = (2%:R : F7) *: su_base toy, (4%:R : F7) != 0 & (2%:R : F7) != 0]].
Proof. by split; [exact: toy_ok|exact: rdeal_dec_enc7|by []|by split]. Qed.

(** With a repeated key the verifier at the later position refuses its own, honestly made deal. *)
Theorem C53_repeated_key_refused (F : fieldType) (G : lmodType F) (S : suite G) rdeal_enc rdeal_dec
    (long secret : F) (vs : seq G) (t : nat) (fp gp : nat -> F) dl (i j : nat) (x dh k k' : F) e :
  suite_ok S -> (forall d, rdeal_dec (rdeal_enc d) = Some d) ->
  new_rdealer S long secret vs t fp gp = Ok dl -> rencrypted_deal S rdeal_enc dl i dh k = Ok e ->
  (j < i)%N -> (i < size vs)%N -> nth 0 vs i = x *: su_base S -> nth 0 vs j = x *: su_base S -> su_good S long -> su_good S k ->
  exists2 v, new_rverifier S x (rl_pub dl) vs = Ok v &
             rprocess_encrypted_deal S rdeal_dec v e k' = (v, Err DealWrongIndex).
Proof.
move=> okS de nd E ji lt nvi nvj nl nk.
have [h1 h2 dlE] := new_rdealerP nd.
have pubE : rl_pub dl = long *: su_base S by rewrite dlE.
have ix : (seq.index (x *: su_base S) vs <= j)%N by rewrite leqNgt; apply/negP => /(before_find 0) /=; rewrite nvj eqxx.
have ix' : (seq.index (x *: su_base S) vs < size vs)%N by apply: leq_ltn_trans ix (ltn_trans ji lt).
rewrite /new_rverifier /pmul /= ix'; eexists; first reflexivity.
move: E; rewrite /rencrypted_deal dlE find_pubE lt.
rewrite (nth_map (the_rdeal S long secret vs t fp gp 0)) ?size_map ?size_iota //.
rewrite (nth_map 0%N) ?size_iota // nth_iota // add0n !pri_eval_spec /= => -[<-].
rewrite /rprocess_encrypted_deal /rdecrypt_deal /= [su_verify _ _ _ _](su_sign_ok okS) //=.
rewrite nvi !scalerA [x * dh]mulrC (su_open_seal okS) de /=.
by case: eqP => // ei; move: ix; rewrite -ei; lia.
Qed.
Print Assumptions C53_repeated_key_refused.

Theorem C53_honest_deal_approved_refuted :
  exists (dl : rdealer G7) (e : enc_deal G7) (v : rverifier G7),
  [/\ new_rdealer toy (4%:R : F7) 5%:R keys7d 2 (fun _ => 3%:R) (fun _ => 2%:R) = Ok dl,
      nth 0 keys7d 2 = (2%:R : F7) *: su_base toy, rencrypted_deal toy rdeal_enc7 dl 2 (6%:R : F7) 1 = Ok e,
      new_rverifier toy (2%:R : F7) (rl_pub dl) keys7d = Ok v &
      rprocess_encrypted_deal toy rdeal_dec7 v e 1 = (v, Err DealWrongIndex)].
Proof.
have [dl D] : exists dl, new_rdealer toy (4%:R : F7) 5%:R keys7d 2 (fun _ => 3%:R) (fun _ => 2%:R) = Ok dl by eexists.
have [e E] : exists e, rencrypted_deal toy rdeal_enc7 dl 2 (6%:R : F7) 1 = Ok e by apply: rencrypted_deal_def D _.
have [k1 k2] : nth 0 keys7d 1 = (2%:R : F7) *: su_base toy /\ nth 0 keys7d 2 = (2%:R : F7) *: su_base toy by [].
have [v V P] := C53_repeated_key_refused (i := 2) (j := 1) 1 toy_ok rdeal_dec_enc7 D E isT isT k2 k1 isT isT.
by exists dl, e, v; split.
Qed.
Print Assumptions C53_honest_deal_approved_refuted.

(** ** C54: approved deals are consistent and hiding *)
(** Full statement: also that the session id inside the deal is the one of this session, and that any t approved shares
    determine the secret up to a revealed logarithm; the first is refuted below, the second holds when there are at most
    t commitments, which the verifier does not check, and is refuted without that. *)
Theorem C54_approval_sound_partial (F : fieldType) (G : lmodType F) (S : suite G) rdeal_dec
    (x : F) (D : G) (vs : seq G) (v0 v v' : rverifier G) evs (e : enc_deal G) (k : F) (r : response) :
  new_rverifier S x D vs = Ok v0 -> v = rvrun S rdeal_dec v0 evs ->
  rprocess_encrypted_deal S rdeal_dec v e k = (v', Ok r) -> r_status r = true ->
  exists d a',
  [/\ rdecrypt_deal S rdeal_dec v e = Ok d, rv_agg v' = Some a', ra_deal a' = Some d,
      [/\ r_index r = rv_index v, ps_i (rd_sec d) = rv_index v, ps_i (rd_rnd d) = rv_index v, (rv_index v < size vs)%N &
          (2 <= rd_t d)%N /\ (rd_t d <= size vs)%N] &
      [/\ ps_v (rd_sec d) *: su_base S + ps_v (rd_rnd d) *: derive_h S vs = pub_share_value (rd_commits d) (rv_index v),
          rd_commits d <> [::], r_sid r = session_id S D vs (rd_commits d) (rd_t d) &
          ra_sid a' = rd_sid d /\ ra_commits a' = rd_commits d]].
Proof.
move=> N vE E st.
have [i0 n0] := new_rverifier_inv N.
have I : rinv v by rewrite vE; exact: rrun_inv.
have vsE : rv_verifiers v = vs /\ rv_dealer v = D.
  have: rv_verifiers v0 = vs /\ rv_dealer v0 = D by move: N; rewrite /new_rverifier; case: ifP => // _ [<-].
  rewrite vE; elim: (evs) v0 {vE I N i0 n0} => //= ev l IH w [h1 h2]; apply: IH.
  by have [_ _ -> -> _] := rstep_static S rdeal_dec w ev.
have [vE1 vE2] := vsE.
case: (rprocess_encrypted_dealP E) => [[_]//|[d Dd [ei [[_]//|[st' [-> [rE] [lt nn] nd ck]]]]]].
have [w av] := ragg_forP d I.
move: st; rewrite rE /= => st; move/ck/rdeal_checksP: (st) => [[h1 h2 h3] h4 h5 h6 h7].
rewrite rstored_verifiers av vE1 in lt h2 h5 h7; exists d; eexists; split; [exact: Dd|reflexivity|..].
- by rewrite /= /rstored nd.
- by split=> //=; rewrite ?h4 ?ei.
- split=> //=; first by rewrite -ei.
    by rewrite vE1 vE2.
  by rewrite /rstored nd.
Qed.
Print Assumptions C54_approval_sound_partial.

(** Binding: two selections of at least t deals that match the same commitments recover the same secret, or their random
    shares recover two different values that give away the logarithm of H - by the displayed formula. *)
Theorem C54_binding_partial (F : fieldType) (G : lmodType F) (S : suite G) (p : nat) (ord : hash_order F)
    (H : G) (cs : seq G) (ds1 ds2 : seq (rdeal G)) (t : nat) :
  suite_ok S -> p \in [char F] -> (forall k s, perm_eq (ord k s) s) -> (size cs <= t)%N ->
  (forall ds, ds = ds1 \/ ds = ds2 ->
     (forall d, List.In d ds -> rd_sid d = rd_sid (head d ds) /\ ps_i (rd_rnd d) = ps_i (rd_sec d) /\
        ((ps_i (rd_sec d)).+1 < p)%N /\
        ps_v (rd_sec d) *: su_base S + ps_v (rd_rnd d) *: H = pub_share_value cs (ps_i (rd_sec d))) /\
     distinct_at_least [seq ps_i (rd_sec d) | d <- ds] t) ->
  exists s1 r1 s2 r2,
  [/\ rvss_recover_secret ord ds1 t = Ok s1, rvss_recover_secret ord ds2 t = Ok s2,
      recover_secret ord [seq Some (rd_rnd d) | d <- ds1] t = Ok r1, recover_secret ord [seq Some (rd_rnd d) | d <- ds2] t = Ok r2 &
      s1 = s2 \/ (r1 <> r2 /\ H = ((s1 - s2) / (r2 - r1)) *: su_base S)].
Proof.
move=> okS cF op sc HH.
have rec ds : ds = ds1 \/ ds = ds2 -> exists s r, [/\ rvss_recover_secret ord ds t = Ok s,
    recover_secret ord [seq Some (rd_rnd d) | d <- ds] t = Ok r & s *: su_base S + r *: H = head 0 cs].
  move=> /HH [Hd dis].
  have fE : forall l acc, (forall d, List.In d l -> rd_sid d = rd_sid (head d ds)) ->
     foldo (E:=vss_error) (fun acc d => if rd_sid d == rd_sid (head d ds) then Ok (rcons acc (Some (rd_sec d))) else Err DealsSameID)
       acc l = Ok (acc ++ [seq Some (rd_sec d) | d <- l]).
    elim=> [|d l IH] acc Hl /=; first by rewrite cats0.
    rewrite {1}(Hl d (or_introl erefl)) eqxx /= IH ?cat_rcons // => d' i; apply: Hl; by right.
  rewrite /rvss_recover_secret fE /=; last by move=> d /Hd [].
  pose sh := [seq Some (ps_i (rd_sec d), (ps_v (rd_sec d), ps_v (rd_rnd d))) | d <- ds].
  have [||s [r [e1 e2 e3]]] := @recover_pair _ _ cF ord op G (su_base S) H cs sh t _ sc.
  - by move=> i u /List.in_map_iff [d [[<- <-] /Hd [_ [_ [h1 h2]]]]].
  - move/distinctP: dis.
    by have -> : pidx (present sh) = [seq ps_i (rd_sec d) | d <- ds] by rewrite /sh; elim: (ds) => //= d l ->.
  have m1 : [seq omap (fun iu => PriShare iu.1 iu.2.1) o | o <- sh] = [seq Some (rd_sec d) | d <- ds].
    by rewrite /sh -map_comp; apply: eq_map => d /=; case: (rd_sec d).
  have m2 : [seq omap (fun iu => PriShare iu.1 iu.2.2) o | o <- sh] = [seq Some (rd_rnd d) | d <- ds].
    have Hi : forall d, List.In d ds -> ps_i (rd_rnd d) = ps_i (rd_sec d) by move=> d /Hd [_ []].
    rewrite /sh -map_comp; elim: (ds) Hi => //= d l IH Hl; rewrite IH; last by move=> d' dl; apply: Hl; right.
    by rewrite -(Hl d (or_introl erefl)); case: (rd_rnd d).
  by rewrite m1 in e1; rewrite m2 in e2; exists s, r; rewrite e1 e2.
have [s1 [r1 [a1 b1 c1]]] := rec ds1 (or_introl erefl); have [s2 [r2 [a2 b2 c2]]] := rec ds2 (or_intror erefl).
exists s1, r1, s2, r2; split=> //.
case: (eqVneq s1 s2) => [->|ns]; first by left.
right; have e : (s1 - s2) *: su_base S = (r2 - r1) *: H.
  by apply/eqP; rewrite !scalerBl subr_eq addrAC eq_sym subr_eq c1 addrC c2.
have nr : r2 - r1 != 0.
  apply: contraNneq ns => z; move/eqP: e; rewrite z scale0r scaler_eq0 (negPf (su_base_nz okS)) orbF subr_eq0 //.
split; first by move=> re; rewrite re subrr eqxx in nr.
by rewrite mulrC -scalerA e scalerA mulVf // scale1r.
Qed.
Print Assumptions C54_binding_partial.

(** Perfect hiding: with H = h G, h non-zero, for every set A of fewer than t verifiers and every other secret s' there
    is a choice of random coefficients under which a dealer of s' shows them exactly the same: the same public
    commitments, session id and key-derivation context, and the same deals to the members of A. *)
Theorem C54_hiding (F : fieldType) (G : lmodType F) (S : suite G) (p : nat) (h : F)
    (long s s' : F) (vs : seq G) (t : nat) (fp gp : nat -> F) dl (A : seq nat) :
  p \in [char F] -> derive_h S vs = h *: su_base S -> h != 0 ->
  new_rdealer S long s vs t fp gp = Ok dl ->
  uniq A -> (size A < t)%N -> (forall i, i \in A -> (i.+1 < p)%N) ->
  exists fp' gp' dl',
  [/\ new_rdealer S long s' vs t fp' gp' = Ok dl', rl_sid dl' = rl_sid dl, rl_agg dl' = rl_agg dl, rl_ctx dl' = rl_ctx dl &
      forall i, i \in A -> rplaintext_deal dl' i = rplaintext_deal dl i].
Proof.
move=> cF hE nh nd uA sA lA; have [h1 h2 dlE] := new_rdealerP nd.
pose f := s :: mkseq fp (t - 1).
pose g := gp 0%N :: mkseq (fun k => gp k.+1) (t - 1).
have [f0 [[sf0 f00 f0i] _]] := C03_lemma (fun i => share_value f i) s' cF uA lA.
pose f' := f0 ++ nseq (t - size f0) (0 : F).
have sf : size f = t by rewrite /= size_mkseq; lia.
have sg : size g = t by rewrite /= size_mkseq; lia.
have sf' : size f' = t by rewrite size_cat size_nseq sf0; lia.
have f'0 : f'`_0 = s' by rewrite /f' nth_cat sf0.
have f'i i : i \in A -> share_value f' i = share_value f i.
  by move=> iA; rewrite -(f0i i iA) share_value_eval !pri_eval_v /f' Poly_pad.
pose g' := mkseq (fun k => g`_k - (f'`_k - f`_k) / h) t.
have sg' : size g' = t by rewrite size_mkseq.
have pE (q : seq F) : size q = t -> forall x, peval q x = \sum_(j < t) q`_j * x ^+ j by move=> <-.
have g'i i : i \in A -> share_value g' i = share_value g i.
  move=> iA; have := f'i i iA; rewrite /share_value !pE // => ef.
  have -> : \sum_(j < t) g'`_j * i.+1%:R ^+ j =
     \sum_(j < t) g`_j * i.+1%:R ^+ j - (\sum_(j < t) f'`_j * i.+1%:R ^+ j - \sum_(j < t) f`_j * i.+1%:R ^+ j) / h.
    rewrite -sumrB mulr_suml -sumrB; apply: eq_bigr => j _.
    by rewrite /g' nth_mkseq // !mulrBl -!mulrA ![h^-1 * _]mulrC.
  by rewrite ef subrr mul0r subr0.
have [v0 [fp' fE]] : exists v0, exists fp', f' = v0 :: mkseq fp' (t - 1).
  exists (f'`_0), (fun k => f'`_k.+1); apply: (@eq_from_nth _ 0); first by rewrite /= size_mkseq sf'; lia.
  by rewrite sf' => -[|i] lt //=; rewrite nth_mkseq //; lia.
have [gp' gE] : exists gp', g' = gp' 0%N :: mkseq (fun k => gp' k.+1) (t - 1).
  exists (fun k => g'`_k); apply: (@eq_from_nth _ 0); first by rewrite /= size_mkseq sg'; lia.
  by rewrite sg' => -[|i] lt //=; rewrite nth_mkseq //; lia.
have v0E : v0 = s' by rewrite -f'0 fE.
have [dl' D'] : exists dl', new_rdealer S long s' vs t fp' gp' = Ok dl'.
  by rewrite /new_rdealer /valid_t h1 h2 /= /pub_add /= !size_map !size_iota eqxx /=; eexists.
exists fp', gp', dl'; have [_ _ dlE'] := new_rdealerP D'.
have csE : rcommits S (derive_h S vs) (s' :: mkseq fp' (t - 1)) (gp' 0%N :: mkseq (fun k => gp' k.+1) (t - 1)) =
           rcommits S (derive_h S vs) f g.
  rewrite -v0E -fE -gE; apply: (@eq_from_nth _ 0); first by rewrite !size_map !size_zip sf sg sf' sg'.
  rewrite size_map size_zip sf' sg' minnn => i lt.
  rewrite !(nth_map (0, 0)) ?size_zip ?sf ?sg ?sf' ?sg' ?minnn // !nth_zip ?sf ?sg ?sf' ?sg' //=.
  rewrite /g' nth_mkseq // hE !scalerA -!scalerDl; congr (_ *: _).
  by rewrite mulrBl divfK // opprB addrCA [_ + (_ - _)]addrC subrK addrC.
split=> //; try by rewrite dlE dlE' csE.
move=> i iA; rewrite dlE dlE' /rplaintext_deal /= !size_map size_iota; case: leqP => // lt.
rewrite -!map_comp !(nth_map 0%N) ?size_iota // nth_iota // add0n /= csE !pri_eval_spec.
by rewrite -v0E -fE -gE f'i // g'i.
Qed.
Print Assumptions C54_hiding.

Example C54_hiding_nonvacuous :
  [/\ 7%N \in [char F7], derive_h toy keys7 = (3%:R : F7) *: su_base toy, (3%:R : F7) != 0, is_ok rdl7 &
      [/\ uniq [:: 2%N], (size [:: 2%N] < 2)%N & forall i, i \in [:: 2%N] -> (i.+1 < 7)%N]].
Proof.
split=> //; split=> // i; by rewrite inE => /eqP ->.
Qed.

(** Verifiers of the toy suite and crafted deals. *)
Definition rver7 (x : F7) (i : nat) : rverifier G7 :=
  @RVerifier F7 G7 x (x *: su_base toy) ((4%:R : F7) *: su_base toy) i keys7 (context toy ((4%:R : F7) *: su_base toy) keys7) None.
Definition re7 (x : F7) (d : rdeal G7) : enc_deal G7 := rcraft toy rdeal_enc7 (4%:R : F7) (5%:R : F7) 1 keys7 x d.
Definition rd7 (cs : seq G7) (i : nat) (y z : F7) : rdeal G7 := @RDeal F7 G7 sid7 (@PriShare F7 i y) (@PriShare F7 i z) 2 cs.

Lemma rver7_new (x : F7) i : (i < 3)%N -> nth 0 keys7 i = x ->
  new_rverifier toy x ((4%:R : F7) *: su_base toy) keys7 = Ok (rver7 x i).
Proof. by case: i => [|[|[|]]] // _ <-. Qed.

Lemma rver7_approves (x : F7) i k d : (i < 3)%N -> ps_i (rd_sec d) = i ->
  rdeal_checks toy (rstored (ragg_for (rver7 x i) d) d) d = Ok tt ->
  exists v' r, rprocess_encrypted_deal toy rdeal_dec7 (rver7 x i) (re7 x d) k = (v', Ok r) /\ r_status r = true.
Proof.
move=> lt e c.
have D : rdecrypt_deal toy rdeal_dec7 (rver7 x i) (re7 x d) = Ok d by apply: (rcraft_decrypts toy_ok rdeal_dec_enc7).
by rewrite (rapprove_if k D) //; do 2 eexists; split; first reflexivity.
Qed.

Lemma rd7_checks (x : F7) (cs : seq G7) i j (y z : F7) : cs <> [::] -> (i < 3)%N ->
  y *: su_base toy + z *: (3%:R : G7) = pub_share_value cs i ->
  rdeal_checks toy (rstored (ragg_for (rver7 x j) (rd7 cs i y z)) (rd7 cs i y z)) (rd7 cs i y z) = Ok tt.
Proof.
by move=> ncs lt e; apply/rdeal_checksP; split.
Qed.

(** Deals matching commitments to a polynomial of degree two, declared with threshold two, are approved by everybody;
    two pairs of them recover different secrets, from equal (zero) random shares: nothing is revealed about H. *)
Theorem C54_degree_refuted :
  exists (v0 v1 v2 : rverifier G7) (d0 d1 d2 : rdeal G7) (e0 e1 e2 : enc_deal G7) (x y : F7),
  [/\ [/\ new_rverifier toy (1 : F7) (rv_dealer v0) keys7 = Ok v0, new_rverifier toy (2%:R : F7) (rv_dealer v0) keys7 = Ok v1 &
          new_rverifier toy (3%:R : F7) (rv_dealer v0) keys7 = Ok v2],
      [/\ rdecrypt_deal toy rdeal_dec7 v0 e0 = Ok d0, rdecrypt_deal toy rdeal_dec7 v1 e1 = Ok d1 &
          rdecrypt_deal toy rdeal_dec7 v2 e2 = Ok d2],
      [/\ exists v' r, rprocess_encrypted_deal toy rdeal_dec7 v0 e0 1 = (v', Ok r) /\ r_status r = true,
          exists v' r, rprocess_encrypted_deal toy rdeal_dec7 v1 e1 1 = (v', Ok r) /\ r_status r = true &
          exists v' r, rprocess_encrypted_deal toy rdeal_dec7 v2 e2 1 = (v', Ok r) /\ r_status r = true],
      [/\ rd_t d0 = 2%N, rd_t d1 = 2%N, rd_t d2 = 2%N, rd_sid d0 = rd_sid d1 & rd_sid d0 = rd_sid d2] &
      [/\ rvss_recover_secret (fun _ s => s) [:: d0; d1] 2 = Ok x, rvss_recover_secret (fun _ s => s) [:: d0; d2] 2 = Ok y,
          x <> y & [/\ ps_v (rd_rnd d0) = 0, ps_v (rd_rnd d1) = 0 & ps_v (rd_rnd d2) = 0]]].
Proof.
have c7 : 7%N \in [char F7] by exact: char_Fp.
have rec (a b u w : F7) i j : (i < 3)%N -> (j < 3)%N -> i != j ->
    u = share_value [:: a; b] i -> w = share_value [:: a; b] j ->
    rvss_recover_secret (fun _ s => s) [:: rd7 cs7 i u 0; rd7 cs7 j w 0] 2 = Ok a.
  move=> li lj nij eu ew; rewrite /rvss_recover_secret /=.
  rewrite (C01_recover_secret (f := [:: a; b]) c7) //.
  - by move=> s [[<-]|[[<-]|//]] /=; split=> //; lia.
  - exists [:: i; j] => //=; first by rewrite inE nij.
exists (rver7 1 0), (rver7 2%:R 1), (rver7 3%:R 2), (rd7 cs7 0 3%:R 0), (rd7 cs7 1 0 0), (rd7 cs7 2 6%:R 0),
  (re7 1 (rd7 cs7 0 3%:R 0)), (re7 2%:R (rd7 cs7 1 0 0)), (re7 3%:R (rd7 cs7 2 6%:R 0)), 6%:R, 5%:R.
split.
- by split; apply: rver7_new.
- by split; apply: (rcraft_decrypts toy_ok rdeal_dec_enc7).
- by split; apply: rver7_approves => //; apply: rd7_checks => //; apply/eqP;
    rewrite /pub_share_value /geval !big_ord_recl big_ord0.
- by [].
split; [apply: (@rec _ 4%:R)|apply: (@rec _ 5%:R)|by []|by []] => //; apply/eqP;
  by rewrite /share_value /peval !big_ord_recl big_ord0.
Qed.
Print Assumptions C54_degree_refuted.

(** The session id inside the deal is not compared with the one of this session: the verifier approves, but has stored
    another id, and refuses every response of the session from then on. *)
Theorem C54_session_refuted :
  exists (v v' : rverifier G7) a' (e : enc_deal G7) (r : response),
  [/\ new_rverifier toy (2%:R : F7) (rv_dealer v) keys7 = Ok v, rprocess_encrypted_deal toy rdeal_dec7 v e 1 = (v', Ok r),
      r_status r = true, rv_agg v' = Some a' /\ ra_sid a' <> r_sid r &
      forall r', r_sid r' = r_sid r -> (rverifier_process_response toy v' r').2 = Err ResponseInconsistentSessionId].
Proof.
pose d := rd7 [:: 1; 1] 1 3%:R 0.
have ck : rdeal_checks toy (rstored (ragg_for (rver7 2%:R 1) d) d) d = Ok tt.
  by apply: rd7_checks => //; apply/eqP; rewrite /pub_share_value /geval !big_ord_recl big_ord0.
exists (rver7 2%:R 1); eexists; eexists; exists (re7 2%:R d); eexists.
have D : rdecrypt_deal toy rdeal_dec7 (rver7 2%:R 1) (re7 2%:R d) = Ok d by apply: (rcraft_decrypts toy_ok rdeal_dec_enc7).
split; [exact: rver7_new|exact: (rapprove_if 1 D)|by []|by []|].
by move=> r' e; rewrite /rverifier_process_response /rverify_response /= e.
Qed.
Print Assumptions C54_session_refuted.

Example C54_binding_nonvacuous :
  let ds := [:: rd7 [:: 3%:R; 2%:R] 2 2%:R 0; rd7 [:: 3%:R; 2%:R] 0 2%:R 1] in
  (forall d, List.In d ds -> rd_sid d = rd_sid (head d ds) /\ ps_i (rd_rnd d) = ps_i (rd_sec d) /\
        ((ps_i (rd_sec d)).+1 < 7)%N /\
        ps_v (rd_sec d) *: su_base toy + ps_v (rd_rnd d) *: (3%:R : G7) = pub_share_value ([:: 3%:R; 2%:R] : seq G7) (ps_i (rd_sec d))) /\
  distinct_at_least [seq ps_i (rd_sec d) | d <- ds] 2.
Proof.
split; last by exists [:: 2%N; 0%N].
by move=> d [<-|[<-|//]]; do 3 split=> //; apply/eqP; rewrite /pub_share_value /geval !big_ord_recl big_ord0.
Qed.

(** ** C55: certification rule and timeout *)
(** For every verifier reached by any history, and every dealer: certified iff t approvals, no missing answer and the
    dealer not marked bad. *)
Theorem C55_certified_iff (F : fieldType) (G : lmodType F) (S : suite G) rdeal_dec (x : F) (D : G) (vs : seq G) v0 evs a :
  new_rverifier S x D vs = Ok v0 -> rv_agg (rvrun S rdeal_dec v0 evs) = Some a ->
  (rdeal_certified a <-> [/\ (ra_t a <= ranswers a (Some true))%N, ranswers a None = 0%N & ra_bad a = false]) /\
  (enough_approvals a <-> (ra_t a <= ranswers a (Some true))%N) /\
  (ranswers a (Some true) + ranswers a (Some false) + ranswers a None = size vs)%N.
Proof.
move=> N aE; have [I0 _] := new_rverifier_inv N.
have vE : rv_verifiers (rvrun S rdeal_dec v0 evs) = vs.
  have: rv_verifiers v0 = vs by move: N; rewrite /new_rverifier; case: ifP => // _ [<-].
  elim: (evs) v0 {I0 N aE} => //= ev l IH w h1; apply: IH.
  by have [_ _ _ -> _] := rstep_static S rdeal_dec w ev.
have := rrun_inv S rdeal_dec evs I0; rewrite /rinv aE vE => -[w av].
rewrite rcertified_count // enough_approvalsE //; split; last split=> //.
  by split=> [/and3P[-> /eqP -> /negbTE ->]|[-> -> ->]].
rewrite -av /ranswers; elim: (size _) => // n IH.
rewrite -addn1 iotaD !count_cat addn1 /= add0n !addn0; case: (rstatus_of a n) => [[]|] /=; lia.
Qed.
Print Assumptions C55_certified_iff.

Theorem C55_dealer_certified_iff (F : fieldType) (G : lmodType F) (S : suite G) rdeal_enc (long s : F) (vs : seq G) t fp gp dl0 evs :
  new_rdealer S long s vs t fp gp = Ok dl0 ->
  let dl := rlrun S rdeal_enc dl0 evs in
  let a := rl_agg dl in
  (rdeal_certified a <-> (t <= ranswers a (Some true))%N /\ ranswers a None = 0%N) /\
  (rsecret_commit S dl = if rdeal_certified a then Some (s *: su_base S) else None) /\
  (rdealer_commits dl = if rdeal_certified a then Some [seq c *: su_base S | c <- s :: mkseq fp (t - 1)] else None).
Proof.
move=> N /=; have [h1 h2 dlE] := new_rdealerP N.
have K : forall evs dl, rwf (rl_agg dl) -> let dl' := rlrun S rdeal_enc dl evs in
   [/\ rwf (rl_agg dl'), ra_t (rl_agg dl') = ra_t (rl_agg dl), ra_bad (rl_agg dl') = ra_bad (rl_agg dl),
       rl_secret dl' = rl_secret dl & rl_secret_commits dl' = rl_secret_commits dl].
  elim=> //= ev l IH dl w; have w' : rwf (rl_agg (rlstep S rdeal_enc dl ev)) /\
      [/\ ra_t (rl_agg (rlstep S rdeal_enc dl ev)) = ra_t (rl_agg dl), ra_bad (rl_agg (rlstep S rdeal_enc dl ev)) = ra_bad (rl_agg dl),
          rl_secret (rlstep S rdeal_enc dl ev) = rl_secret dl & rl_secret_commits (rlstep S rdeal_enc dl ev) = rl_secret_commits dl].
    case: ev => [[r k]|] /=; last by split; [exact: rwf_clean|].
    rewrite /rdealer_process_response; case E: rverify_response => [a' o] /=.
    case: (rverify_responseP E) => [[_ [lt ve si nn ->]]|[_ ->]] //=; split=> //; exact: rwf_insert.
  by case: w' => w1 [e1 e2 e3 e4]; have [q1 q2 q3 q4 q5] := IH _ w1; rewrite /= q2 q3 q4 q5.
have [|w tE bE sE cE] := K evs dl0; first by rewrite dlE.
split; first by rewrite rcertified_count // tE bE dlE /= andbT; split=> [/andP[-> /eqP ->]|[-> ->]].
rewrite /rsecret_commit /rdealer_commits sE cE; have -> : rl_secret dl0 = s by rewrite dlE.
have -> : rl_secret_commits dl0 = [seq c *: su_base S | c <- s :: mkseq fp (t - 1)] by rewrite dlE.
by case C: (rdeal_certified _); rewrite ?orbT //=; case/andP: C => ->.
Qed.
Print Assumptions C55_dealer_certified_iff.

(** The timeout records an unsigned complaint for exactly the missing verifiers and changes nothing else. *)
Theorem C55_timeout (F : fieldType) (G : lmodType F) (v : rverifier G) (a : raggregator G) :
  rv_agg v = Some a ->
  exists2 a', rv_agg (rverifier_set_timeout v) = Some a' &
  [/\ forall i, mget i (ra_responses a') = match mget i (ra_responses a) with
                                           | Some r => Some r
                                           | None => if (i < size (ra_verifiers a))%N then Some (Response (ra_sid a) i false [::]) else None
                                           end,
      ranswers a' (Some true) = ranswers a (Some true),
      ranswers a' (Some false) = (ranswers a (Some false) + ranswers a None)%N, ranswers a' None = 0%N &
      [/\ ra_deal a' = ra_deal a, ra_sid a' = ra_sid a, ra_t a' = ra_t a & ra_bad a' = ra_bad a]].
Proof.
move=> E; rewrite /rverifier_set_timeout E; exists (clean_verifiers a) => //.
have S1 i : (i < size (ra_verifiers a))%N -> rstatus_of (clean_verifiers a) i =
   if rstatus_of a i is Some b then Some b else Some false.
  by move=> lt; rewrite /rstatus_of clean_get lt; case: mget.
have c b : count (fun i => rstatus_of (clean_verifiers a) i == b) (iota 0 (size (ra_verifiers a))) =
   count (fun i => (if rstatus_of a i is Some b then Some b else Some false) == b) (iota 0 (size (ra_verifiers a))).
  by apply: eq_in_count => i; rewrite mem_iota add0n => /andP[_ /S1 ->].
split=> //; rewrite /ranswers /= ?c; first exact: clean_get.
- by apply: eq_count => i; case: rstatus_of => [[]|].
- by elim: (iota _ _) => //= i l ->; case: rstatus_of => [[]|] /=; lia.
- by rewrite (@eq_count _ _ pred0) ?count_pred0 // => i; case: rstatus_of.
Qed.
Print Assumptions C55_timeout.

Definition ragg7 : raggregator G7 :=
  @RAggregator F7 G7 0 keys7 [:: 1; 1] [:: (1%N, resp7 sid7 1 true); (0%N, resp7 sid7 0 true)] sid7
    (Some (rd7 [:: 1; 1] 1 3%:R 0)) 2 false.
Example C55_nonvacuous :
  [/\ rdeal_certified ragg7 = false, rdeal_certified (clean_verifiers ragg7), ranswers ragg7 None = 1%N &
      ranswers (clean_verifiers ragg7) (Some false) = 1%N].
Proof. by []. Qed.
(** The same state is reached by messages. *)
Example C55_reachable :
  let d := rd7 [:: 1; 1] 1 3%:R 0 in
  exists k a, new_rverifier toy (2%:R : F7) (rv_dealer (rver7 2%:R 1)) keys7 = Ok (rver7 2%:R 1) /\
  rv_agg (rvrun toy rdeal_dec7 (rver7 2%:R 1) [:: REvDeal (re7 2%:R d) k; REvResponse G7 (resp7 sid7 0 true); REvTimeout G7]) = Some a /\
  rdeal_certified a.
Proof.
move=> d; exists 1.
have ck : rdeal_checks toy (rstored (ragg_for (rver7 2%:R 1) d) d) d = Ok tt.
  by apply: rd7_checks => //; apply/eqP; rewrite /pub_share_value /geval !big_ord_recl big_ord0.
have D : rdecrypt_deal toy rdeal_dec7 (rver7 2%:R 1) (re7 2%:R d) = Ok d by apply: (rcraft_decrypts toy_ok rdeal_dec_enc7).
have P := rapprove_if 1 D erefl erefl isT ck.
rewrite /rvrun /foldl /rvstep P.
by eexists; split; [exact: rver7_new|split].
Qed.

(** ** C56: justifications *)
Lemma rdeal_validP (F : fieldType) (G : lmodType F) (S : suite G) (a : raggregator G) (d : rdeal G) :
  rdeal_checks S a d = Ok tt <-> rdeal_valid S a d.
Proof.
rewrite rdeal_checksP /rdeal_valid /pub_share_value /geval; split.
  by case=> [[h1 h2 h3] h4 h5 h6 h7]; split=> //; apply/andP.
by case=> /andP[h1 h2] h3 [h4 h5] h6 h7.
Qed.

(** For every verifier reached by any history: a justification for a complaint is accepted iff its deal is a valid deal of
    the session; then exactly that complaint becomes an approval.  Otherwise the dealer is marked bad, nothing else
    changes, and the deal is never certified afterwards. *)
Theorem C56_justification (F : fieldType) (G : lmodType F) (S : suite G) rdeal_dec (x : F) (D : G) (vs : seq G) v0 evs a j v' o :
  new_rverifier S x D vs = Ok v0 -> rv_agg (rvrun S rdeal_dec v0 evs) = Some a ->
  rstatus_of a (rj_index j) = Some false ->
  rverifier_process_justification S (rvrun S rdeal_dec v0 evs) j = (v', o) ->
  exists2 a', rv_agg v' = Some a' &
  [/\ o = Ok tt <-> rdeal_valid S a (rj_deal j),
      o = Ok tt -> [/\ rstatus_of a' (rj_index j) = Some true, forall i, i <> rj_index j -> rstatus_of a' i = rstatus_of a i,
                       ra_bad a' = ra_bad a & ranswers a' (Some true) = (ranswers a (Some true)).+1],
      is_err o -> ra_bad a' /\ forall i, rstatus_of a' i = rstatus_of a i,
      is_err o -> forall evs', exists2 a'', rv_agg (rvrun S rdeal_dec v' evs') = Some a'' & rdeal_certified a'' = false &
      is_panic o -> rd_commits (rj_deal j) = [::]].
Proof.
move=> N aE st; have [I0 n0] := new_rverifier_inv N.
have H0 : rhas_deal v0 by rewrite /rhas_deal n0.
have := rrun_has_deal S rdeal_dec evs H0; rewrite /rhas_deal aE => hd.
have := rrun_inv S rdeal_dec evs I0; rewrite /rinv aE => -[w _].
rewrite /rverifier_process_justification aE; case E: rverify_justification => [a' o'] [<- ?]; subst o'.
have sd d : rstored a d = a by apply: rstored_id; case: (ra_deal a) hd.
exists a' => //; move: st; rewrite /rstatus_of.
case m1: mget => [r0|] //= [st].
have E1 : o = rdeal_checks S a (rj_deal j) /\ a' = match o with
   | Ok _ => ra_set_responses a (minsert (rj_index j) (Response (r_sid r0) (r_index r0) true (r_sig r0)) (ra_responses a))
   | Err _ => ra_set_responses (ra_set_bad a) (minsert (rj_index j) r0 (ra_responses a))
   | _ => a end.
  move: E; rewrite /rverify_justification find_pubE.
  have -> : (rj_index j < size (ra_verifiers a))%N by case: w => _; apply; rewrite mget_in m1.
  rewrite m1 st /rverify_deal andbF; have -> : (if ra_deal a is Some _ then a else ra_set_deal a (rj_deal j)) = a.
    by case: (ra_deal a) hd.
  by case: rdeal_checks => [[]|e||] [<- <-].
case: E1 => oE a'E; split.
- by rewrite oE rdeal_validP.
- move=> ok; move: a'E; rewrite ok => ->; rewrite /= mget_minsert eqxx; split=> //.
    by move=> i /eqP ni; rewrite mget_minsert (negbTE ni).
  have lt : (rj_index j < size (ra_verifiers a))%N by case: w => _; apply; rewrite mget_in m1.
  rewrite /ranswers /rstatus_of /=.
  have : rj_index j \in iota 0 (size (ra_verifiers a)) by rewrite mem_iota.
  have : uniq (iota 0 (size (ra_verifiers a))) by exact: iota_uniq.
  elim: (iota _ _) => //= i l IH /andP[ni ul]; rewrite inE mget_minsert.
  case: (eqVneq (rj_index j) i) => [ej _|nj] /=; last first.
    by move=> /(IH ul) ->; case: (omap _ (mget i _) == _).
  rewrite -ej m1 /= st /= add0n add1n; congr _.+1; apply: eq_in_count => k kl; rewrite mget_minsert.
  by case: (eqVneq k (rj_index j)) => // ek; move: ni; rewrite -ej -ek kl.
- move=> er; move: a'E; case: o er oE {E} => // e _ _ ->; split=> //= i; rewrite mget_minsert.
  by case: eqP => // ->; rewrite m1.
- move=> er evs'.
  have : rv_bad (rv_set_agg (rvrun S rdeal_dec v0 evs) a').
    by move: a'E; case: o er oE {E} => // e _ _ ->.
  move/(rrun_bad S rdeal_dec evs'); rewrite /rv_bad; case: (rv_agg _) => // a'' b.
  by exists a'' => //; exact: rbad_blocks.
- move=> pa; case: (rd_commits (rj_deal j) =P [::]) => // nc.
  by have := rdeal_checks_panic S a nc; rewrite -oE; case: o pa {E a'E oE}.
Qed.
Print Assumptions C56_justification.

Definition rv56 : rverifier G7 := rv_set_agg (rver7 2%:R 1) ragg7.
Definition rv56' : rverifier G7 :=
  rv_set_agg (rver7 2%:R 1) (ra_set_responses ragg7 [:: (1%N, resp7 sid7 1 true); (0%N, resp7 sid7 0 false)]).

(** A reachable verifier with a complaint of verifier 0. *)
Example C56_nonvacuous :
  let d := rd7 [:: 1; 1] 1 3%:R 0 in
  let evs := [:: REvDeal (re7 2%:R d) 1; REvResponse G7 (resp7 sid7 0 false)] in
  exists a,
  [/\ new_rverifier toy (2%:R : F7) (rv_dealer (rver7 2%:R 1)) keys7 = Ok (rver7 2%:R 1),
      rv_agg (rvrun toy rdeal_dec7 (rver7 2%:R 1) evs) = Some a, rstatus_of a 0 = Some false,
      rdeal_valid toy a (rd7 [:: 1; 1] 0 2%:R 0) & ~ rdeal_valid toy a (rd7 [:: 1; 1] 0 3%:R 0)].
Proof.
move=> d evs.
have ck : rdeal_checks toy (rstored (ragg_for (rver7 2%:R 1) d) d) d = Ok tt.
  by apply: rd7_checks => //; apply/eqP; rewrite /pub_share_value /geval !big_ord_recl big_ord0.
have D : rdecrypt_deal toy rdeal_dec7 (rver7 2%:R 1) (re7 2%:R d) = Ok d by apply: (rcraft_decrypts toy_ok rdeal_dec_enc7).
have P := rapprove_if 1 D erefl erefl isT ck.
rewrite /evs /rvrun /foldl /rvstep P.
eexists; split; [exact: rver7_new|reflexivity|by []| |].
  by split=> //; apply/eqP; rewrite !big_ord_recl big_ord0.
by case=> _ _ _ _ /eqP; rewrite !big_ord_recl big_ord0.
Qed.

(** The acceptance test looks at neither the signature nor the index nor the stored commitments: in that state the
    complaint of verifier 0 is cleared by an unsigned justification carrying the deal of verifier 2, and by one carrying
    shares of a different polynomial. *)
Theorem C56_wrong_deal_refuted :
  exists (evs : seq (revent G7)) (a : raggregator G7) (d2 d' : rdeal G7),
  [/\ rv_agg (rvrun toy rdeal_dec7 (rver7 2%:R 1) evs) = Some a, rstatus_of a 0 = Some false,
      ps_i (rd_sec d2) = 2%N /\ rd_commits d' <> ra_commits a &
      forall d sid sig, d = d2 \/ d = d' ->
      (rverifier_process_justification toy (rvrun toy rdeal_dec7 (rver7 2%:R 1) evs) (RJustification sid 0 d sig)).2 = Ok tt].
Proof.
have [a [N aE st _ _]] := C56_nonvacuous.
eexists; exists a, (rd7 [:: 1; 1] 2 4%:R 0), (rd7 [:: 2%:R] 0 2%:R 0); split; [exact: aE|exact: st| |].
  split=> //; move: aE; set d := rd7 _ _ _ _.
  have ck : rdeal_checks toy (rstored (ragg_for (rver7 2%:R 1) d) d) d = Ok tt.
    by apply: rd7_checks => //; apply/eqP; rewrite /pub_share_value /geval !big_ord_recl big_ord0.
  have D : rdecrypt_deal toy rdeal_dec7 (rver7 2%:R 1) (re7 2%:R d) = Ok d by apply: (rcraft_decrypts toy_ok rdeal_dec_enc7).
  by rewrite /rvrun /foldl /rvstep (rapprove_if 1 D erefl erefl isT ck) => -[<-].
move=> d sid sig dd; case E: rverifier_process_justification => [v' o].
have [a' _ [H _ _ _ _]] := @C56_justification _ _ _ _ _ _ _ _ _ _ (RJustification sid 0 d sig) _ _ N aE st E; apply/H.
have [sE vE] : ra_sid a = sid7 /\ ra_verifiers a = keys7.
  move: aE; set d0 := rd7 _ _ _ _.
  have ck : rdeal_checks toy (rstored (ragg_for (rver7 2%:R 1) d0) d0) d0 = Ok tt.
    by apply: rd7_checks => //; apply/eqP; rewrite /pub_share_value /geval !big_ord_recl big_ord0.
  have D : rdecrypt_deal toy rdeal_dec7 (rver7 2%:R 1) (re7 2%:R d0) = Ok d0 by apply: (rcraft_decrypts toy_ok rdeal_dec_enc7).
  by rewrite /rvrun /foldl /rvstep (rapprove_if 1 D erefl erefl isT ck) => -[<-].
by case: dd => ->; split; rewrite ?sE ?vE //; apply/eqP; rewrite !big_ord_recl big_ord0.
Qed.
Print Assumptions C56_wrong_deal_refuted.

(** The honest dealer's answer to a complaint is accepted by every verifier of the session. *)
Theorem C56_honest_justification (F : fieldType) (G : lmodType F) (S : suite G) rdeal_enc (long s : F)
    (vs : seq G) t fp gp dl0 evs r k dl' oj :
  new_rdealer S long s vs t fp gp = Ok dl0 ->
  rdealer_process_response S rdeal_enc (rlrun S rdeal_enc dl0 evs) r k = (dl', Ok oj) ->
  if r_status r then oj = None else
  exists j, [/\ oj = Some j, rj_index j = r_index r, rplaintext_deal dl0 (r_index r) = Ok (rj_deal j) &
  forall rdeal_dec (x : F) (D : G) v0 evs' a,
    new_rverifier S x D vs = Ok v0 -> rv_agg (rvrun S rdeal_dec v0 evs') = Some a -> ra_sid a = rl_sid dl0 ->
    rstatus_of a (r_index r) = Some false ->
    (rverifier_process_justification S (rvrun S rdeal_dec v0 evs') j).2 = Ok tt].
Proof.
move=> N; have [h1 h2 dlE] := new_rdealerP N.
have K : forall evs dl, let dl' := rlrun S rdeal_enc dl evs in
    [/\ rl_deals dl' = rl_deals dl, rl_sid dl' = rl_sid dl & ra_verifiers (rl_agg dl') = ra_verifiers (rl_agg dl)].
  elim=> //= ev l IH dl; have [-> -> ->] := IH (rlstep S rdeal_enc dl ev).
  case: ev => [[r0 k0]|] //=; rewrite /rdealer_process_response; case E: rverify_response => [a' o] /=.
  by case: (rverify_responseP E) => [[_ [lt ve si nn ->]]|[_ ->]].
rewrite /rdealer_process_response; have [e1 e2 e3] := K evs dl0.
case E: rverify_response => [a1 o1] [_]; rewrite e1 e2.
case: (rverify_responseP E) => [[-> [lt _ _ _ _]]|[er _]]; last by case: o1 er {E}.
rewrite /=; case: ifP => _; first by case.
move: lt; rewrite e3 {1}dlE /= => lt.
have dE : nth None [seq Some d | d <- rl_deals dl0] (r_index r) = Some (the_rdeal S long s vs t fp gp (r_index r)).
  rewrite dlE /= -map_comp (nth_map 0%N) ?size_iota // nth_iota // add0n /=.
  by rewrite !pri_eval_spec.
rewrite dE /= => -[<-]; eexists; split; [reflexivity|by []| |].
  by rewrite /rplaintext_deal dE; case: leqP => //; rewrite {1}dlE /= !size_map size_iota leqNgt lt.
move=> rdeal_dec x D v0 evs' a Nv aE sE st; set j := RJustification _ _ _ _.
case P: rverifier_process_justification => [v' o].
have [a' _ [H _ _ _ _]] := @C56_justification _ _ _ _ _ _ _ _ _ _ j _ _ Nv aE st P; apply/H/rdeal_validP.
have [I0 _] := new_rverifier_inv Nv.
have := rrun_inv S rdeal_dec evs' I0; rewrite /rinv aE => -[_ vE].
apply: the_rdeal_checks => //; last by rewrite sE dlE.
rewrite vE; have : rv_verifiers v0 = vs by move: Nv; rewrite /new_rverifier; case: ifP => // _ [<-].
elim: (evs') v0 {I0 Nv aE P vE} => //= ev l IH w hw; apply: IH.
by have [_ _ _ -> _] := rstep_static S rdeal_dec w ev.
Qed.
Print Assumptions C56_honest_justification.

Example C56_honest_nonvacuous :
  exists dl j, [/\ rdl7 = Ok dl,
    (rdealer_process_response toy rdeal_enc7 dl (resp7 (rl_sid dl) 0 false) 1).2 = Ok (Some j) & rj_index j = 0%N].
Proof.
have : is_ok rdl7 by [].
case E: rdl7 => [dl|||] // _; exists dl.
have [h1 h2 dlE] := new_rdealerP E.
have e1 : ra_sid (rl_agg dl) = rl_sid dl by rewrite dlE.
have e2 : ra_verifiers (rl_agg dl) = keys7 by rewrite dlE.
have e3 : ra_responses (rl_agg dl) = [::] by rewrite dlE.
have e4 : exists d, nth None [seq Some d | d <- rl_deals dl] 0 = Some d by rewrite dlE; eexists; reflexivity.
case: e4 => d e4; eexists; split=> //.
  rewrite /rdealer_process_response (@rverify_response_ok _ _ toy) ?e2 ?e3 ?e1 // {dlE E}; first by rewrite e4.
  have V := su_sign_ok toy_ok (response_hash toy (Response (rl_sid dl) 0 false [::])) (oner_neq0 F7) (oner_neq0 F7).
  have e : (1 : F7) *: su_base toy = nth 0 keys7 0 by exact: mulr1.
  by rewrite e in V; exact: V.
by [].
Qed.

(** ** C72 for this scheme: the signature and the session id of a justification are ignored *)
Theorem C72_rabin_justification_not_authenticated (F : fieldType) (G : lmodType F) (S : suite G) (v : rverifier G)
    (i : nat) (d : rdeal G) (sid sid' sig sig' : bytestr) :
  rverifier_process_justification S v (RJustification sid i d sig) =
  rverifier_process_justification S v (RJustification sid' i d sig').
Proof. by []. Qed.
Print Assumptions C72_rabin_justification_not_authenticated.

(** Anybody can make an honest dealer bad, once there is a complaint (or a timeout). *)
Theorem C72_rabin_forged_justification_refuted (F : fieldType) (G : lmodType F) (S : suite G) rdeal_dec (x : F) (D : G)
    (vs : seq G) v0 evs a i :
  new_rverifier S x D vs = Ok v0 -> rv_agg (rvrun S rdeal_dec v0 evs) = Some a -> rstatus_of a i = Some false ->
  exists d, forall sid sig evs', exists2 a'',
    rv_agg (rvrun S rdeal_dec (rverifier_process_justification S (rvrun S rdeal_dec v0 evs) (RJustification sid i d sig)).1 evs') = Some a'' &
    rdeal_certified a'' = false.
Proof.
move=> N aE st; exists (RDeal [::] (PriShare 0 0) (PriShare 0 0) 0 [::]) => sid sig evs'.
set j := RJustification _ _ _ _.
case E: rverifier_process_justification => [v' o].
have [a' _ [H _ _ H4 H5]] := @C56_justification _ _ _ _ _ _ _ _ _ _ j _ _ N aE st E.
apply: H4; move: E; rewrite /rverifier_process_justification aE /rverify_justification find_pubE.
have [I0 _] := new_rverifier_inv N; have := rrun_inv S rdeal_dec evs I0; rewrite /rinv aE => -[[_ w] _].
move: st; rewrite /rstatus_of; case m: mget => [r|] // -[st].
have -> : (rj_index j < size (ra_verifiers a))%N by apply: w; rewrite mget_in m.
by rewrite st /rverify_deal andbF /rdeal_checks /valid_t /=; case: (ra_deal a) => [d0|] /= [_ <-].
Qed.
Print Assumptions C72_rabin_forged_justification_refuted.

(** ** C73: panics of the verifier *)
(** Every query answers once there is a deal, and no message makes the verifier panic, apart from two malformed deals:
    a nonce that is not twelve bytes long and an empty list of commitments. *)
Theorem C73_no_panic_partial (F : fieldType) (G : lmodType F) (S : suite G) rdeal_dec (v : rverifier G) (e : enc_deal G) (k : F)
    (r : response) (j : rjustification G) :
  [/\ is_panic (rprocess_encrypted_deal S rdeal_dec v e k).2 ->
        size (e_nonce e) <> 12%N \/ exists2 d, rdecrypt_deal S rdeal_dec v e = Ok d & rd_commits d = [::],
      is_panic (rverifier_process_response S v r).2 = false,
      is_panic (rverifier_process_justification S v j).2 -> rd_commits (rj_deal j) = [::] &
      forall a, rv_agg v = Some a -> [/\ rverifier_session_id v = Ok (ra_sid a),
        rverifier_deal_certified v = Ok (rdeal_certified a) & rverifier_enough_approvals v = Ok (enough_approvals a)]].
Proof.
have ck a d : is_panic (rdeal_checks S a d) -> rd_commits d = [::].
  by case: (rd_commits d =P [::]) => // /(rdeal_checks_panic S a); case: rdeal_checks.
split.
- case: (size (e_nonce e) =P 12%N) => [n|n]; last by left.
  move=> P; right; move: P; rewrite /rprocess_encrypted_deal.
  case D: rdecrypt_deal => [d|er||] //=; last first.
    by move: D; rewrite /rdecrypt_deal n /=; case: ifP => // _; case: su_open => // pt; case: rdeal_dec.
  move=> P; exists d => //; move: P; case: ifP => // _; case V: rverify_deal => [a1 o1].
  have fin r0 : is_panic (let '(a2, o2) := radd_response a1 r0 in (rv_set_agg v a2, bindo o2 (fun _ => Ok r0))).2 = false.
    case A: radd_response => [a2 o2]; case: (radd_responseP A) => [[-> _]|[er _]] //=; by case: o2 er {A}.
  case: o1 V => [[]|er||] V //=; first by rewrite fin.
    by case: er V => [|||pe|||||||||||||||||||||] V //; rewrite fin.
  move=> _; move: V; rewrite /rverify_deal; case: ifP => // _ [_ /(congr1 (@is_panic _ _))]; exact: ck.
- rewrite /rverifier_process_response; case: (rv_agg v) => // a; case E: rverify_response => [a' o] /=.
  by case: (rverify_responseP E) => [[-> _]|[er _]] //; case: o er {E}.
- rewrite /rverifier_process_justification; case: (rv_agg v) => // a; case E: rverify_justification => [a' o] /= pa.
  case: (rvjustP E) => [[_ er]|[r0 [_ _ _ oE _]]]; first by case: o er pa {E}.
  by apply: (ck (rstored a (rj_deal j))); rewrite -oE.
by move=> a aE; rewrite /rverifier_session_id /rverifier_deal_certified /rverifier_enough_approvals /rv_deref aE.
Qed.
Print Assumptions C73_no_panic_partial.

(** Full statement false: every fresh verifier panics on its queries, up to its first deal. *)
Theorem C73_query_refuted (F : fieldType) (G : lmodType F) (S : suite G) (x : F) (D : G) (vs : seq G) v :
  new_rverifier S x D vs = Ok v ->
  [/\ is_panic (rverifier_session_id v), is_panic (rverifier_deal_certified v) & is_panic (rverifier_enough_approvals v)].
Proof. by move=> N; have [_ n0] := new_rverifier_inv N; rewrite /rverifier_session_id /rverifier_deal_certified /rverifier_enough_approvals /rv_deref n0. Qed.
Print Assumptions C73_query_refuted.

(** ... and a deal with a valid signature but a wrong nonce panics: the signature covers the ephemeral key only, so anybody
    can alter the nonce of a genuine deal. *)
Theorem C73_nonce_refuted (F : fieldType) (G : lmodType F) (S : suite G) rdeal_dec (v : rverifier G) (e : enc_deal G) (nonce : bytestr) k d :
  rdecrypt_deal S rdeal_dec v e = Ok d -> size nonce <> 12%N ->
  is_panic (rprocess_encrypted_deal S rdeal_dec v (EncDeal (e_dhkey e) (e_sig e) nonce (e_cipher e)) k).2.
Proof.
move=> H /eqP sn; rewrite /rprocess_encrypted_deal.
have -> : rdecrypt_deal S rdeal_dec v (EncDeal (e_dhkey e) (e_sig e) nonce (e_cipher e)) = Panic.
  by move: H; rewrite /rdecrypt_deal /=; case: ifP => // _; rewrite sn.
by [].
Qed.
Print Assumptions C73_nonce_refuted.

Theorem C73_empty_commitments_refuted :
  exists (v : rverifier G7) (e : enc_deal G7) (evs : seq (revent G7)) (j : rjustification G7),
  [/\ new_rverifier toy (2%:R : F7) (rv_dealer v) keys7 = Ok v, is_panic (rprocess_encrypted_deal toy rdeal_dec7 v e 1).2 &
      is_panic (rverifier_process_justification toy (rvrun toy rdeal_dec7 v evs) j).2].
Proof.
pose d0 := rd7 [::] 1 3%:R 0.
pose d := rd7 [:: 1; 1] 1 3%:R 0.
exists (rver7 2%:R 1), (re7 2%:R d0), [:: REvDeal (re7 2%:R d) 1; REvResponse G7 (resp7 sid7 0 false)],
  (RJustification sid7 0 (rd7 [::] 0 1 0) [::]); split.
- exact: rver7_new.
- have D : rdecrypt_deal toy rdeal_dec7 (rver7 2%:R 1) (re7 2%:R d0) = Ok d0 by apply: (rcraft_decrypts toy_ok rdeal_dec_enc7).
  by rewrite /rprocess_encrypted_deal D.
have ck : rdeal_checks toy (rstored (ragg_for (rver7 2%:R 1) d) d) d = Ok tt.
  by apply: rd7_checks => //; apply/eqP; rewrite /pub_share_value /geval !big_ord_recl big_ord0.
have D : rdecrypt_deal toy rdeal_dec7 (rver7 2%:R 1) (re7 2%:R d) = Ok d by apply: (rcraft_decrypts toy_ok rdeal_dec_enc7).
by rewrite /rvrun /foldl /rvstep (rapprove_if 1 D erefl erefl isT ck).
Qed.
Print Assumptions C73_empty_commitments_refuted.
Example C73_nonvacuous : rv_agg rv56 = Some ragg7 /\ size ([:: 1%N] : bytestr) <> 12%N. Proof. by []. Qed.
