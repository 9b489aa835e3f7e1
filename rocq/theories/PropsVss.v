(** Properties C46-C52 and C72: src/share/vss/pedersen/vss.rs. *)
From mathcomp Require Import all_ssreflect all_algebra.
From mathcomp Require Import zify.
From Coq Require Import String.
From Verif Require Import Base PolyModel PolySpec PolyProofs PolyProps PropsPoly Suite SuiteProofs VssModel VssSpec VssProofs.

Set Implicit Arguments.
Unset Strict Implicit.
Unset Printing Implicit Defensive.

Import GRing.Theory.
Local Open Scope ring_scope.

(** A serialisation of deals for the toy suite (lengths in front). *)
Definition deal_enc7 (d : deal G7) : bytestr :=
  size (d_sid d) :: d_sid d ++
  [:: ps_i (d_share d); nat_of_ord (ps_v (d_share d)); d_t d] ++ map (fun P : F7 => nat_of_ord P) (d_commits d).
Definition deal_dec7 (b : bytestr) : option (deal G7) :=
  if b is n :: b' then
    if drop n b' is i :: x :: t :: cs
    then Some (@Deal F7 G7 (take n b') (@PriShare F7 i (inZp x)) t (map (fun c => inZp c : G7) cs)) else None
  else None.
Lemma deal_dec_enc7 d : deal_dec7 (deal_enc7 d) = Some d.
Proof.
case: d => sid [i x] t cs; rewrite /deal_dec7 /deal_enc7 /= drop_size_cat // take_size_cat //=.
rewrite valZpK -map_comp (@eq_map _ _ _ id) ?map_id //; by move=> P /=; rewrite valZpK.
Qed.

Definition keys7 : seq G7 := [:: 1; 2%:R; 3%:R].

(** ** C46: honest dealer is always approved *)
(** Full statement: for every verifier list.  Missing: repeated keys (see the refutation) and the neutral point as a key,
    which the Schnorr verifier refuses. *)
Theorem C46_honest_deal_approved_partial (F : fieldType) (G : lmodType F) (S : suite G) deal_enc deal_dec
    (long secret : F) (vs : seq G) (t : nat) (picks : nat -> F) dl (i : nat) (x dh k k' k'' : F) :
  suite_ok S -> (forall d, deal_dec (deal_enc d) = Some d) ->
  new_dealer S long secret vs t picks = Ok dl ->
  uniq vs -> (i < size vs)%N -> nth 0 vs i = x *: su_base S -> su_good S long -> su_good S x -> su_good S k -> su_good S k' ->
  exists e v v' r dl',
  [/\ encrypted_deal S deal_enc dl i dh k = Ok e, new_verifier S x (dl_pub dl) vs = Ok v,
      process_encrypted_deal S deal_dec v e k' = (v', Ok r), r_status r = true /\ r_index r = i &
      dealer_process_response S deal_enc dl r k'' = (dl', Ok None) /\ status_of (dl_agg dl') i = Some true].
Proof.
move=> okS de nd u lt nv nl nx nk nk'.
have [e E] := @encrypted_deal_def _ _ S deal_enc _ _ _ _ _ _ i dh k nd lt.
have [v V _] := new_verifier_def nd u nv lt.
have pubE : dl_pub dl = long *: su_base S by have [_ _ ->] := new_dealerP nd.
have P := honest_process okS de k' nd E V u nv lt nl nk.
exists e, v; eexists; eexists; eexists; split; [exact: E|by rewrite pubE|exact: P|by []|].
have [_ _ dlE] := new_dealerP nd.
have vr : verify_response S (dl_agg dl) (honest_response S x (dl_sid dl) i k') =
    (a_set_responses (dl_agg dl) (minsert i (honest_response S x (dl_sid dl) i k') (a_responses (dl_agg dl))), Ok tt).
  apply: verify_response_ok; rewrite ?dlE //=; last by right.
  by rewrite nv; apply: (su_sign_ok okS).
rewrite /dealer_process_response vr /=; split; first reflexivity.
by rewrite /status_of /= mget_minsert eqxx.
Qed.
Print Assumptions C46_honest_deal_approved_partial.

(** All n verifiers answer; in whatever order the answers arrive, the dealer and every verifier accept them all and end
    up certified, the dealer publishes the commitment to the secret and verifier i holds the i-th share. *)
Theorem C46_honest_run_certified_partial (F : fieldType) (G : lmodType F) (S : suite G) deal_enc deal_dec
    (long secret : F) (vs : seq G) (t : nat) (picks : nat -> F) dl
    (xs : nat -> F) (e : nat -> enc_deal G) (v v' : nat -> verifier G) (resp : nat -> response) (dh k k' : nat -> F) :
  suite_ok S -> (forall d, deal_dec (deal_enc d) = Some d) ->
  new_dealer S long secret vs t picks = Ok dl ->
  uniq vs -> su_good S long ->
  (forall i, (i < size vs)%N -> [/\ nth 0 vs i = xs i *: su_base S, su_good S (xs i), su_good S (k i) & su_good S (k' i)] /\
     [/\ encrypted_deal S deal_enc dl i (dh i) (k i) = Ok (e i), new_verifier S (xs i) (dl_pub dl) vs = Ok (v i) &
         process_encrypted_deal S deal_dec (v i) (e i) (k' i) = (v' i, Ok (resp i))]) ->
  (forall js, perm_eq js (iota 0 (size vs)) ->
     exists2 a, feed S (dl_agg dl) (map resp js) = Some a &
       secret_commit S (dl_set_agg dl a) = Some (secret *: su_base S)) /\
  (forall i js, (i < size vs)%N -> perm_eq (i :: js) (iota 0 (size vs)) ->
     exists2 a, feed S (v_agg (v' i)) (map resp js) = Some a &
       exists2 d, verifier_deal (v_set_agg (v' i) a) = Some d &
         d_share d = PriShare i (share_value (secret :: mkseq picks (t - 1)) i)).
Proof.
move=> okS de nd u nl H.
have [h1 h2 dlE] := new_dealerP nd.
have pubE : dl_pub dl = long *: su_base S by rewrite dlE.
have R i : (i < size vs)%N -> resp i = honest_response S (xs i) (dl_sid dl) i (k' i) /\
    v' i = v_set_agg (v i) (a_set_responses (a_set_deal (new_empty_aggregator vs) (the_deal S long secret vs t picks i))
                    [:: (i, honest_response S (xs i) (dl_sid dl) i (k' i))]).
  move=> lt; have [[nv nx nk nk'] [E V P]] := H i lt; rewrite pubE in V.
  by move: P; rewrite (honest_process okS de (k' i) nd E V u nv lt nl nk) => -[-> ->].
have sidE : dl_sid dl = d_sid (the_deal S long secret vs t picks 0) by rewrite dlE.
split=> [js pj|i js lt pj].
  have mj j : j \in js -> (j < size vs)%N by rewrite (perm_mem pj) mem_iota add0n.
  have [||m fE mE] := @feed_ok _ _ S resp (dl_agg dl) js.
  - by rewrite (perm_uniq pj) iota_uniq.
  - move=> j /mj lt; have [-> _] := R j lt; have [[nv nx nk nk'] _] := H j lt.
    by rewrite dlE /=; split=> //; rewrite nv; apply: (su_sign_ok okS).
  exists (a_set_responses (dl_agg dl) m) => //.
  rewrite /secret_commit all_approved_certified ?dlE //= => j lt.
  rewrite /status_of /= mE (perm_mem pj) mem_iota /= add0n lt /=.
  by have [-> _] := R j lt.
have uj : uniq (i :: js) by rewrite (perm_uniq pj) iota_uniq.
have mj j : j \in js -> (j < size vs)%N /\ j != i.
  move=> jj; split; last by apply: contraTneq jj => ->; case/andP: uj.
  have: j \in i :: js by rewrite in_cons jj orbT.
  by rewrite (perm_mem pj) mem_iota add0n.
have [_ v'E] := R i lt.
have [||m fE mE] := @feed_ok _ _ S resp (v_agg (v' i)) js.
- by case/andP: uj.
- move=> j /mj [ltj nj]; have [-> _] := R j ltj; have [[nv nx nk nk'] _] := H j ltj.
  rewrite v'E /=; split=> //; first by rewrite nv; apply: (su_sign_ok okS).
  by rewrite (negPf nj).
exists (a_set_responses (v_agg (v' i)) m) => //.
exists (the_deal S long secret vs t picks i) => //.
rewrite /verifier_deal all_approved_certified ?v'E //= => j ltj.
rewrite /status_of /= mE v'E /=.
have: j \in i :: js by rewrite (perm_mem pj) mem_iota add0n.
rewrite in_cons; case: (eqVneq j i) => [->|nj] /=; first by case: ifP => // _; have [-> _] := R i lt.
by move=> ->; have [-> _] := R j ltj.
Qed.
Print Assumptions C46_honest_run_certified_partial.

(** A concrete session: three verifiers, threshold two, over F_7. *)
Definition dl7 : outcome vss_error (dealer G7) := new_dealer toy (4%:R : F7) (5%:R : F7) keys7 2 (fun _ => 3%:R).
Example C46_nonvacuous :
  [/\ suite_ok toy, (forall d, deal_dec7 (deal_enc7 d) = Some d), is_ok dl7 &
   [/\ uniq keys7, nth 0 keys7 1 = (2%:R : F7) *: su_base toy, (4%:R : F7) != 0 & (2%:R : F7) != 0]].
Proof.
split; [exact: toy_ok|exact: deal_dec_enc7|by []|by split].
Qed.

(** With a repeated key the verifier at the later position refuses its own, honestly made deal. *)
Theorem C46_repeated_key_refused (F : fieldType) (G : lmodType F) (S : suite G) deal_enc deal_dec
    (long secret : F) (vs : seq G) (t : nat) (picks : nat -> F) dl (i j : nat) (x dh k k' : F) e :
  suite_ok S -> (forall d, deal_dec (deal_enc d) = Some d) ->
  new_dealer S long secret vs t picks = Ok dl -> encrypted_deal S deal_enc dl i dh k = Ok e ->
  (j < i)%N -> (i < size vs)%N -> nth 0 vs i = x *: su_base S -> nth 0 vs j = x *: su_base S -> su_good S long -> su_good S k ->
  exists2 v, new_verifier S x (dl_pub dl) vs = Ok v &
             process_encrypted_deal S deal_dec v e k' = (v, Err DealWrongIndex).
Proof.
move=> okS de nd E ji lt nvi nvj nl nk.
have [h1 h2 dlE] := new_dealerP nd.
have pubE : dl_pub dl = long *: su_base S by rewrite dlE.
have ix : (seq.index (x *: su_base S) vs <= j)%N by rewrite leqNgt; apply/negP => /(before_find 0) /=; rewrite nvj eqxx.
have ix' : (seq.index (x *: su_base S) vs < size vs)%N by apply: leq_ltn_trans ix (ltn_trans ji lt).
rewrite /new_verifier /pmul /= ix'; eexists; first reflexivity.
move: E; rewrite /encrypted_deal dlE find_pubE lt.
rewrite (nth_map (the_deal S long secret vs t picks 0)) ?size_map ?size_iota //.
rewrite (nth_map 0%N) ?size_iota // nth_iota // add0n pri_eval_spec /= => -[<-].
rewrite /process_encrypted_deal /decrypt_deal /= [su_verify _ _ _ _](su_sign_ok okS) //=.
rewrite nvi !scalerA [x * dh]mulrC (su_open_seal okS) de /=.
by case: eqP => // ei; move: ix; rewrite -ei; lia.
Qed.
Print Assumptions C46_repeated_key_refused.

Definition keys7d : seq G7 := [:: 1; 2%:R; 2%:R].
Theorem C46_honest_deal_approved_refuted :
  exists (dl : dealer G7) (e : enc_deal G7) (v : verifier G7),
  [/\ new_dealer toy (4%:R : F7) 5%:R keys7d 2 (fun _ => 3%:R) = Ok dl,
      nth 0 keys7d 2 = (2%:R : F7) *: su_base toy, encrypted_deal toy deal_enc7 dl 2 (6%:R : F7) 1 = Ok e,
      new_verifier toy (2%:R : F7) (dl_pub dl) keys7d = Ok v &
      process_encrypted_deal toy deal_dec7 v e 1 = (v, Err DealWrongIndex)].
Proof.
have [dl D] : exists dl, new_dealer toy (4%:R : F7) 5%:R keys7d 2 (fun _ => 3%:R) = Ok dl by eexists.
have [e E] : exists e, encrypted_deal toy deal_enc7 dl 2 (6%:R : F7) 1 = Ok e by apply: encrypted_deal_def D _.
have [k1 k2] : nth 0 keys7d 1 = (2%:R : F7) *: su_base toy /\ nth 0 keys7d 2 = (2%:R : F7) *: su_base toy by [].
have [v V P] := C46_repeated_key_refused (i := 2) (j := 1) 1 toy_ok deal_dec_enc7 D E isT isT k2 k1 isT isT.
by exists dl, e, v; split.
Qed.
Print Assumptions C46_honest_deal_approved_refuted.

(** ** C47: approved deals are consistent *)
(** Full statement: also that the session id inside the deal is the one of this session, and that any t approved shares
    determine the committed secret.  The first is refuted below; the second holds when there are at most t commitments,
    which the verifier does not check, and is refuted without that. *)
Theorem C47_approval_sound_partial (F : fieldType) (G : lmodType F) (S : suite G) deal_dec
    (v v' : verifier G) (e : enc_deal G) (k : F) (r : response) :
  process_encrypted_deal S deal_dec v e k = (v', Ok r) -> r_status r = true ->
  exists d,
  [/\ decrypt_deal S deal_dec v e = Ok d, a_deal (v_agg v) = None, a_deal (v_agg v') = Some d,
      [/\ r_index r = v_index v, ps_i (d_share d) = v_index v, (v_index v < size (a_verifiers (v_agg v)))%N,
          (2 <= d_t d)%N & (d_t d <= size (a_verifiers (v_agg v)))%N] &
      [/\ ps_v (d_share d) *: su_base S = pub_share_value (d_commits d) (v_index v), d_commits d <> [::],
          r_sid r = session_id S (v_dealer v) (v_verifiers v) (d_commits d) (d_t d) & a_t (v_agg v') = d_t d]].
Proof.
move=> E st; case: (process_encrypted_dealP E) => [[_]//|[d D [ei [[_]//|[st' [-> [rE] [lt nn] nd ck]]]]]].
move: st; rewrite rE /= => st; move/ck/deal_checksP: (st) => [[h1 h2 h3 h4] h5 h6 h7].
rewrite stored_verifiers in lt h2 h5; exists d; split=> //=.
- by rewrite stored_deal nd.
- by rewrite -ei.
Qed.
Print Assumptions C47_approval_sound_partial.

(** Shares matching at most t commitments: every selection of t of them recovers the same value, the discrete logarithm
    of the first commitment. *)
Theorem C47_approved_shares_recover_partial (F : fieldType) (G : lmodType F) (S : suite G) (p : nat) (ord : hash_order F)
    (cs : seq G) (deals : seq (deal G)) (t : nat) :
  suite_ok S -> p \in [char F] -> (forall k s, perm_eq (ord k s) s) -> (size cs <= t)%N ->
  (forall d, List.In d deals -> d_sid d = d_sid (head d deals) /\ ((ps_i (d_share d)).+1 < p)%N /\
     ps_v (d_share d) *: su_base S = pub_share_value cs (ps_i (d_share d))) ->
  distinct_at_least [seq ps_i (d_share d) | d <- deals] t ->
  exists2 s, vss_recover_secret ord deals t = Ok s & s *: su_base S = head 0 cs.
Proof.
move=> okS cF op sc H dis; rewrite /vss_recover_secret.
have fE : forall l acc, (forall d, List.In d l -> d_sid d = d_sid (head d deals)) ->
   foldo (E:=vss_error) (fun acc d => if d_sid d == d_sid (head d deals) then Ok (rcons acc (Some (d_share d))) else Err DealsSameID)
     acc l = Ok (acc ++ [seq Some (d_share d) | d <- l]).
  elim=> [|d l IH] acc Hl /=; first by rewrite cats0.
  rewrite {1}(Hl d (or_introl erefl)) eqxx /= IH ?cat_rcons // => d' i; apply: Hl; by right.
rewrite fE /=; last by move=> d /H [].
have [||s sE sB] := @recover_secret_dlog _ _ _ cF ord op (su_base S) cs [seq Some (d_share d) | d <- deals] t _ sc _.
- by move=> s /List.in_map_iff [d [[<-] /H [_ [h1 h2]]]].
- move/distinctP: dis; rewrite /pri_indices.
  by have -> : [seq ps_i i | i <- pmap id [seq Some (d_share d) | d <- deals]] = [seq ps_i (d_share d) | d <- deals]
    by elim: (deals) => //= d l ->.
by exists s; rewrite ?sE.
Qed.
Print Assumptions C47_approved_shares_recover_partial.

(** Three deals of a degree-two polynomial declared with threshold two. *)
Definition cs7 : seq G7 := [:: 1; 1; 1].
Definition sid7 : bytestr := [:: 9%N; 9%N].
Definition d47 (i : nat) (y : F7) : deal G7 := @Deal F7 G7 sid7 (@PriShare F7 i y) 2 cs7.
Definition e47 (x : F7) (d : deal G7) : enc_deal G7 := craft toy deal_enc7 (4%:R : F7) (5%:R : F7) 1 keys7 x d.
Definition ver7 (x : F7) (i : nat) : verifier G7 :=
  @Verifier F7 G7 x (x *: su_base toy) ((4%:R : F7) *: su_base toy) i keys7 (context toy ((4%:R : F7) *: su_base toy) keys7)
     (new_empty_aggregator keys7).

Lemma ver7_new (x : F7) i : (i < 3)%N -> nth 0 keys7 i = x -> new_verifier toy x ((4%:R : F7) *: su_base toy) keys7 = Ok (ver7 x i).
Proof.
by case: i => [|[|[|]]] // _ <-.
Qed.

Lemma ver7_approves (x : F7) i k d : (i < 3)%N -> ps_i (d_share d) = i -> deal_checks toy (a_set_deal (new_empty_aggregator keys7) d) d = Ok tt ->
  exists v' r, process_encrypted_deal toy deal_dec7 (ver7 x i) (e47 x d) k = (v', Ok r) /\ r_status r = true.
Proof.
move=> lt e c.
have D : decrypt_deal toy deal_dec7 (ver7 x i) (e47 x d) = Ok d by apply: (craft_decrypts toy_ok deal_dec_enc7).
by rewrite (approve_if k D) //; do 2 eexists; split; first reflexivity.
Qed.

Lemma d47_checks i y : (i < 3)%N -> y *: (1 : G7) = pub_share_value cs7 i ->
  deal_checks toy (a_set_deal (new_empty_aggregator keys7) (d47 i y)) (d47 i y) = Ok tt.
Proof. by move=> lt e; apply/deal_checksP; split. Qed.

Theorem C47_degree_refuted :
  exists (v0 v1 v2 : verifier G7) (d0 d1 d2 : deal G7) (e0 e1 e2 : enc_deal G7) (x y : F7),
  [/\ [/\ new_verifier toy (1 : F7) (v_dealer v0) keys7 = Ok v0, new_verifier toy (2%:R : F7) (v_dealer v0) keys7 = Ok v1 &
          new_verifier toy (3%:R : F7) (v_dealer v0) keys7 = Ok v2],
      [/\ decrypt_deal toy deal_dec7 v0 e0 = Ok d0, decrypt_deal toy deal_dec7 v1 e1 = Ok d1 &
          decrypt_deal toy deal_dec7 v2 e2 = Ok d2],
      [/\ exists v' r, process_encrypted_deal toy deal_dec7 v0 e0 1 = (v', Ok r) /\ r_status r = true,
          exists v' r, process_encrypted_deal toy deal_dec7 v1 e1 1 = (v', Ok r) /\ r_status r = true &
          exists v' r, process_encrypted_deal toy deal_dec7 v2 e2 1 = (v', Ok r) /\ r_status r = true],
      [/\ d_t d0 = 2%N, d_t d1 = 2%N, d_t d2 = 2%N, d_sid d0 = d_sid d1 & d_sid d0 = d_sid d2] &
      [/\ vss_recover_secret (fun _ s => s) [:: d0; d1] 2 = Ok x, vss_recover_secret (fun _ s => s) [:: d0; d2] 2 = Ok y & x <> y]].
Proof.
have c7 : 7%N \in [char F7] by exact: char_Fp.
have rec (a b u w : F7) i j : (i < 3)%N -> (j < 3)%N -> i != j ->
    u = share_value [:: a; b] i -> w = share_value [:: a; b] j ->
    vss_recover_secret (fun _ s => s) [:: d47 i u; d47 j w] 2 = Ok a.
  move=> li lj nij eu ew; rewrite /vss_recover_secret /=.
  rewrite (C01_recover_secret (f := [:: a; b]) c7) //.
  - by move=> s [[<-]|[[<-]|//]] /=; split=> //; lia.
  - exists [:: i; j] => //=; first by rewrite inE nij.
exists (ver7 1 0), (ver7 2%:R 1), (ver7 3%:R 2), (d47 0 3%:R), (d47 1 0), (d47 2 6%:R),
  (e47 1 (d47 0 3%:R)), (e47 2%:R (d47 1 0)), (e47 3%:R (d47 2 6%:R)), 6%:R, 5%:R.
have ev i y : y = pub_share_value cs7 i :> F7 -> y *: (1 : G7) = pub_share_value cs7 i by move=> <-; exact: mulr1.
split.
- by split; apply: ver7_new.
- by split; apply: (craft_decrypts toy_ok deal_dec_enc7).
- by split; apply: ver7_approves => //; apply: d47_checks => //; apply: ev; apply/eqP;
    rewrite /pub_share_value /geval !big_ord_recl big_ord0.
- by [].
split; [apply: (@rec _ 4%:R)|apply: (@rec _ 5%:R)|by []] => //; apply/eqP;
  by rewrite /share_value /peval !big_ord_recl big_ord0.
Qed.
Print Assumptions C47_degree_refuted.

(** The session id inside the deal is not compared with the one of this session: the verifier approves, but has stored
    another id, and refuses every response of the session from then on - its own approval would be refused too. *)
Theorem C47_session_refuted :
  exists (v v' : verifier G7) (e : enc_deal G7) (r : response),
  [/\ new_verifier toy (2%:R : F7) (v_dealer v) keys7 = Ok v, process_encrypted_deal toy deal_dec7 v e 1 = (v', Ok r),
      r_status r = true, a_sid (v_agg v') <> r_sid r &
      forall r', r_sid r' = r_sid r -> (verifier_process_response toy v' r').2 = Err ResponseInconsistentSessionId].
Proof.
pose d : deal G7 := @Deal F7 G7 sid7 (@PriShare F7 1 3%:R) 2 [:: 1; 1].
have ck : deal_checks toy (a_set_deal (new_empty_aggregator keys7) d) d = Ok tt.
  apply/deal_checksP; split=> //; apply/eqP.
  by rewrite /pub_share_value /geval !big_ord_recl big_ord0.
exists (ver7 2%:R 1); eexists; exists (e47 2%:R d); eexists.
have D : decrypt_deal toy deal_dec7 (ver7 2%:R 1) (e47 2%:R d) = Ok d by apply: (craft_decrypts toy_ok deal_dec_enc7).
split; [exact: ver7_new|exact: (approve_if 1 D)|by []|by []|].
by move=> r' e; rewrite /verifier_process_response /verify_response /= e.
Qed.
Print Assumptions C47_session_refuted.

Definition ex_deals7 : seq (deal G7) :=
  [:: @Deal F7 G7 sid7 (@PriShare F7 2 2%:R) 2 [:: 3%:R; 2%:R]; @Deal F7 G7 sid7 (@PriShare F7 0 5%:R) 2 [:: 3%:R; 2%:R]].
Example C47_nonvacuous :
  (forall d, List.In d ex_deals7 -> d_sid d = d_sid (head d ex_deals7) /\ ((ps_i (d_share d)).+1 < 7)%N /\
     ps_v (d_share d) *: su_base toy = pub_share_value ([:: 3%:R; 2%:R] : seq G7) (ps_i (d_share d))) /\
  distinct_at_least [seq ps_i (d_share d) | d <- ex_deals7] 2 /\
  exists2 s, vss_recover_secret (fun _ s => rev s) ex_deals7 2 = Ok s & s *: su_base toy = (3%:R : G7).
Proof.
have c7 : 7%N \in [char F7] by exact: char_Fp.
have H : forall d, List.In d ex_deals7 -> d_sid d = d_sid (head d ex_deals7) /\ ((ps_i (d_share d)).+1 < 7)%N /\
     ps_v (d_share d) *: su_base toy = pub_share_value ([:: 3%:R; 2%:R] : seq G7) (ps_i (d_share d)).
  by move=> d [<-|[<-|//]]; split=> //; split=> //; apply/eqP; rewrite /pub_share_value /geval !big_ord_recl big_ord0.
have D : distinct_at_least [seq ps_i (d_share d) | d <- ex_deals7] 2 by exists [:: 2%N; 0%N].
split=> //; split=> //.
have P : forall (k : nat) (s : seq (nat * F7)), perm_eq (rev s) s by move=> k s; rewrite perm_rev.
by have := C47_approved_shares_recover_partial (cs := [:: 3%:R; 2%:R] : seq G7) (t := 2) (ord := fun _ s => rev s) toy_ok c7 P isT H D.
Qed.

(** ** C48: the certification rule *)
Theorem C48_certified_iff (F : fieldType) (G : lmodType F) (a : aggregator G) :
  deal_certified a <->
  [/\ a_bad a = false, (a_t a <= answers a (Some true))%N, answers a (Some false) = 0%N &
      if a_timeout a then (answers a None <= size (a_verifiers a) - a_t a)%N else answers a None == 0%N].
Proof.
rewrite certified_count /= /answers; set n := size _; set ap := count _ _; set co := count _ _; set mi := count _ _.
have apn : (ap <= n)%N by rewrite -[X in (_ <= X)%N](size_iota 0) count_size.
split.
  case/and4P=> /negbTE -> h1 /eqP h2; case: (a_timeout a) => h3; split=> //; lia.
case=> -> h1 -> ; rewrite h1 /=; case: (a_timeout a) => [h|->] //; lia.
Qed.
Print Assumptions C48_certified_iff.

(** The three kinds of answers partition the verifiers, and [missing_responses] lists those without one. *)
Theorem C48_missing_responses (F : fieldType) (G : lmodType F) (a : aggregator G) :
  (answers a (Some true) + answers a (Some false) + answers a None = size (a_verifiers a))%N /\
  size (missing_responses a) = answers a None /\
  (forall i, i \in missing_responses a <-> (i < size (a_verifiers a))%N /\ status_of a i = None).
Proof.
split; last split.
- rewrite /answers; elim: (size _) => // n IH.
  rewrite -addn1 iotaD !count_cat addn1 /= add0n !addn0; case: (status_of a n) => [[]|] /=; lia.
- rewrite /missing_responses size_filter; apply: eq_count => i; by rewrite /status_of; case: mget.
- move=> i; rewrite mem_filter mem_iota /= add0n /status_of.
  by case: mget => [r|] /=; split=> // -[].
Qed.
Print Assumptions C48_missing_responses.

(** Full statement: [deal()] is a value iff certified.  True when a deal has been received. *)
Theorem C48_deal_iff_certified_partial (F : fieldType) (G : lmodType F) (S : suite G) (v : verifier G) (dl : dealer G) :
  (forall d, verifier_deal v = Some d <-> deal_certified (v_agg v) /\ a_deal (v_agg v) = Some d) /\
  (secret_commit S dl = if deal_certified (dl_agg dl) then Some (dl_secret dl *: su_base S) else None).
Proof.
rewrite /verifier_deal /secret_commit; split; last by case: deal_certified.
by move=> d; case: deal_certified => /=; split=> // -[].
Qed.
Print Assumptions C48_deal_iff_certified_partial.

(** A verifier that has received nothing at all reports a certified deal as soon as the timeout is set. *)
Theorem C48_empty_certified (F : fieldType) (G : lmodType F) (S : suite G) (x : F) (dealer : G) (vs : seq G) v :
  new_verifier S x dealer vs = Ok v ->
  deal_certified (v_agg (verifier_set_timeout v)) = true /\ verifier_deal (verifier_set_timeout v) = None.
Proof.
rewrite /new_verifier; case: ifP => // _ [<-].
rewrite /verifier_deal certified_count /=; split=> //; last by case: ifP.
rewrite (@eq_count _ (fun i => _ == Some false) pred0) ?count_pred0 //=.
by rewrite addn0 -[X in (_ <= X)%N](size_iota 0) count_size.
Qed.
Print Assumptions C48_empty_certified.

Theorem C48_deal_iff_certified_refuted :
  exists v : verifier G7, (exists x dealer vs, new_verifier toy x dealer vs = Ok v) /\
    deal_certified (v_agg (verifier_set_timeout v)) = true /\ verifier_deal (verifier_set_timeout v) = None.
Proof.
exists (ver7 2%:R 1); have V := @ver7_new 2%:R 1 isT erefl.
by split; [do 3 eexists; exact: V|exact: C48_empty_certified V].
Qed.
Print Assumptions C48_deal_iff_certified_refuted.

Definition agg7 : aggregator G7 :=
  @Aggregator F7 G7 0 keys7 [::] [:: (0%N, Response [::] 0 true [::]); (2%N, Response [::] 2 true [::])] sid7 None 2 false true.
Example C48_nonvacuous :
  deal_certified agg7 /\ answers agg7 (Some true) = 2%N /\ answers agg7 None = 1%N /\ missing_responses agg7 = [:: 1%N].
Proof. by []. Qed.

(** ** C49: one authenticated response per verifier *)
(** What one call of [process_response] does, for every state and response. *)
Theorem C49_process_response (F : fieldType) (G : lmodType F) (S : suite G) (v v' : verifier G) (r : response) o :
  verifier_process_response S v r = (v', o) ->
  (o = Ok tt ->
     [/\ (r_index r < size (a_verifiers (v_agg v)))%N,
         su_verify S (nth 0 (a_verifiers (v_agg v)) (r_index r)) (response_hash S r) (r_sig r),
         mget (r_index r) (a_responses (v_agg v)) = None, a_sid (v_agg v) = [::] \/ r_sid r = a_sid (v_agg v) &
         forall i, mget i (a_responses (v_agg v')) = if i == r_index r then Some r else mget i (a_responses (v_agg v))]) /\
  (o <> Ok tt -> v' = v /\ is_err o).
Proof.
rewrite /verifier_process_response; case E: verify_response => [a o'] [<- <-].
case: (verify_responseP E) => [[-> [h1 h2 h3 h4 ->]]|[h1 ->]].
  by split=> // _; split=> //= i; rewrite mget_minsert.
by split=> [e|_]; [rewrite e in h1|rewrite v_set_agg_id].
Qed.
Print Assumptions C49_process_response.

(** Full statement: also that the recorded response is for the session of the deal.  Over any history: a recorded response is never altered, and whatever is recorded
    was either sent in the history with a valid signature of the verifier at its index, or is the verifier's own signed
    answer to a deal. *)
Theorem C49_history_partial (F : fieldType) (G : lmodType F) (S : suite G) deal_dec (v : verifier G)
    (evs : seq (vevent G)) (i : nat) (r : response) :
  (mget i (a_responses (v_agg v)) = Some r -> mget i (a_responses (v_agg (vrun S deal_dec v evs))) = Some r) /\
  (mget i (a_responses (v_agg (vrun S deal_dec v evs))) = Some r ->
     mget i (a_responses (v_agg v)) = Some r \/
     [/\ List.In (EvResponse G r) evs, r_index r = i, (i < size (a_verifiers (v_agg v)))%N &
         su_verify S (nth 0 (a_verifiers (v_agg v)) i) (response_hash S r) (r_sig r)] \/
     (i = v_index v /\ exists e k, List.In (EvDeal e k) evs /\
        r = Response (r_sid r) i (r_status r) (su_sign S (v_long v) (response_hash S r) k))).
Proof.
split; first exact: run_responses.
elim: evs v => [|ev evs IH] v /=; first by left.
move/IH; rewrite vstep_verifiers; have [-> -> _ _] := step_fields S deal_dec v ev.
case=> [|[[h1 h2 h3 h4]|[h1 [e [k [h2 h3]]]]]].
- case: (vstep_responses S deal_dec v ev i) => [->|[nn [r' ->]]]; first by left.
  case=> [[eE [h1 h2 h3 h4]] [re]|[h1 [e [k [sid [st [eE rE]]]]]] [re]].
    by right; left; rewrite -re -h1; split=> //; [left|rewrite h1|rewrite h1].
  by right; right; split=> //; exists e, k; split; [left|rewrite -re rE h1].
- by right; left; split=> //; right.
- by right; right; split=> //; exists e, k; split=> //; right.
Qed.
Print Assumptions C49_history_partial.

Definition resp7 (sid : bytestr) (i : nat) (st : bool) : response :=
  Response sid i st (su_sign toy (nth 0 keys7 i : F7) (response_hash toy (Response sid i st [::])) 1).
Example C49_nonvacuous :
  (verifier_process_response toy (ver7 2%:R 1) (resp7 sid7 2 true)).2 = Ok tt /\
  (verifier_process_response toy (ver7 2%:R 1) (Response sid7 2 true [:: 5%N])).2 = Err SignatureErr /\
  (verifier_process_response toy (ver7 2%:R 1) (resp7 sid7 3 true)).2 = Err ResponseIndexOutOfBounds.
Proof. by []. Qed.

Lemma vrun2 (F : fieldType) (G : lmodType F) (S : suite G) deal_dec (v : verifier G) e1 e2 :
  vrun S deal_dec v [:: e1; e2] = vstep S deal_dec (vstep S deal_dec v e1) e2.
Proof. by []. Qed.
Lemma vstep_deal_def (F : fieldType) (G : lmodType F) (S : suite G) deal_dec (v : verifier G) e k :
  vstep S deal_dec v (EvDeal e k) = (process_encrypted_deal S deal_dec v e k).1.
Proof. by []. Qed.

(** Before its deal arrives a verifier records responses of any other session; they stay, and count. *)
Theorem C49_session_refuted :
  exists (v : verifier G7) evs r, (exists x dealer, new_verifier toy x dealer keys7 = Ok v) /\
    let v' := vrun toy deal_dec7 v evs in
    [/\ mget 2 (a_responses (v_agg v')) = Some r, a_sid (v_agg v') <> [::], r_sid r <> a_sid (v_agg v') &
        answers (v_agg v') (Some true) = 2%N].
Proof.
pose d : deal G7 := @Deal F7 G7 sid7 (@PriShare F7 1 3%:R) 2 [:: 1; 1].
exists (ver7 2%:R 1), [:: EvResponse G7 (resp7 [:: 1%N] 2 true); EvDeal (e47 2%:R d) 1]; eexists.
split; first by exists 2%:R; eexists; exact: ver7_new.
pose v1 := (verifier_process_response toy (ver7 2%:R 1) (resp7 [:: 1%N] 2 true)).1.
have v1E : v1 = v_set_agg (ver7 2%:R 1) (a_set_responses (v_agg (ver7 2%:R 1)) [:: (2%N, resp7 [:: 1%N] 2 true)]) by [].
have D : decrypt_deal toy deal_dec7 v1 (e47 2%:R d) = Ok d by rewrite v1E; apply: (craft_decrypts toy_ok deal_dec_enc7).
have ck : deal_checks toy (a_set_deal (v_agg v1) d) d = Ok tt.
  rewrite v1E; apply/deal_checksP; split=> //; apply/eqP.
  by rewrite /pub_share_value /geval !big_ord_recl big_ord0.
rewrite vrun2 vstep_deal_def -[vstep _ _ _ _]/v1.
have -> := approve_if 1 D erefl; rewrite v1E //=.
Qed.
Print Assumptions C49_session_refuted.

(** ** C50: justifications *)
(** Full statement: a valid justification clears the complaint.  It never does (below).  What holds: an invalid deal in a
    justification for a complaint marks the dealer bad, for every later history, and a bad dealer is never certified. *)
Theorem C50_bad_justification_partial (F : fieldType) (G : lmodType F) (S : suite G) deal_dec (v v' : verifier G)
    (j : justification G) e evs :
  verifier_process_justification S v j = (v', Err e) -> status_of (v_agg v) (j_index j) = Some false ->
  (j_index j < size (a_verifiers (v_agg v)))%N ->
  a_bad (v_agg v') = true /\ a_bad (v_agg (vrun S deal_dec v' evs)) = true /\
  deal_certified (v_agg (vrun S deal_dec v' evs)) = false.
Proof.
rewrite /verifier_process_justification; case E: verify_justification => [a o] [<- oE] st lt.
have b : a_bad a.
  move: E; rewrite oE /verify_justification find_pubE lt; move: st; rewrite /status_of; case: mget => //= r [->].
  by case: verify_deal => a1 [x|e'||] // [<- _].
have b' := @run_bad _ _ S deal_dec (v_set_agg v a) evs b.
by split=> //; split=> //; exact: bad_blocks b'.
Qed.
Print Assumptions C50_bad_justification_partial.

(** A complaint is for ever: whatever is received afterwards, including its valid justification, the deal is not
    certified. *)
Theorem C50_complaint_is_permanent (F : fieldType) (G : lmodType F) (S : suite G) deal_dec (v : verifier G) evs (i : nat) :
  (i < size (a_verifiers (v_agg v)))%N -> status_of (v_agg v) i = Some false ->
  status_of (v_agg (vrun S deal_dec v evs)) i = Some false /\ deal_certified (v_agg (vrun S deal_dec v evs)) = false.
Proof.
move=> lt; rewrite /status_of; case E: mget => [r|] //= [st].
have E' := run_responses S deal_dec evs E; rewrite E' /= st; split=> //.
apply: (@complaint_blocks _ _ _ i); first by rewrite run_verifiers.
by rewrite /status_of E' /= st.
Qed.
Print Assumptions C50_complaint_is_permanent.

Definition d50 : deal G7 := @Deal F7 G7 sid7 (@PriShare F7 2 4%:R) 2 [:: 1; 1].
Definition agg50 : aggregator G7 :=
  @Aggregator F7 G7 0 keys7 [:: 1; 1] [:: (0%N, Response sid7 0 true [::]); (1%N, Response sid7 1 true [::]);
     (2%N, Response sid7 2 false [::])] sid7 (Some (@Deal F7 G7 sid7 (@PriShare F7 1 3%:R) 2 [:: 1; 1])) 2 false false.
Definition v50 : verifier G7 := v_set_agg (ver7 2%:R 1) agg50.

(** Two approvals and one complaint, then the dealer publishes the correct share of the complaining verifier, which is
    accepted: two verifiers have approved, the third's share is public and right, yet nothing is certified. *)
Theorem C50_justification_clears_refuted :
  exists (v v' : verifier G7) (j : justification G7),
  [/\ (j_index j < size (a_verifiers (v_agg v)))%N, status_of (v_agg v) (j_index j) = Some false,
      verifier_process_justification toy v j = (v', Ok tt),
      ps_v (d_share (j_deal j)) *: su_base toy = pub_share_value (d_commits (j_deal j)) (j_index j) &
      status_of (v_agg v') (j_index j) = Some false /\ deal_certified (v_agg v') = false].
Proof.
have ev : ps_v (d_share d50) *: su_base toy = pub_share_value (d_commits d50) 2.
  by apply/eqP; rewrite /pub_share_value /geval !big_ord_recl big_ord0.
exists v50, v50, (Justification sid7 2 d50 [::]); split=> //.
Qed.
Print Assumptions C50_justification_clears_refuted.

Example C50_nonvacuous :
  let j := Justification sid7 2 (@Deal F7 G7 sid7 (@PriShare F7 2 5%:R) 2 [:: 1; 1]) [::] in
  status_of (v_agg v50) (j_index j) = Some false /\
  (verifier_process_justification toy v50 j).2 = Err DealDoesNotVerify /\
  a_bad (v_agg (verifier_process_justification toy v50 j).1) = true.
Proof. by []. Qed.

(** ** C72: justifications come from the dealer *)
(** Neither the signature, nor the session id of a justification is looked at; and the deal inside may be anybody's. *)
Theorem C72_justification_not_authenticated (F : fieldType) (G : lmodType F) (S : suite G) (v : verifier G)
    (i : nat) (d : deal G) (sid sid' sig sig' : bytestr) :
  verifier_process_justification S v (Justification sid i d sig) = verifier_process_justification S v (Justification sid' i d sig').
Proof. by []. Qed.
Print Assumptions C72_justification_not_authenticated.

(** One forged message from anybody makes a verifier brand an honest dealer: from a state in which the deal is complained
    about by one verifier, for every dealer key and every signature. *)
Theorem C72_forged_justification_refuted (F : fieldType) (G : lmodType F) (S : suite G) deal_dec (v : verifier G) (i : nat) evs :
  (i < size (a_verifiers (v_agg v)))%N -> status_of (v_agg v) i = Some false ->
  exists d, forall sid sig,
    let v' := (verifier_process_justification S v (Justification sid i d sig)).1 in
    a_bad (v_agg v') = true /\ deal_certified (v_agg (vrun S deal_dec v' evs)) = false.
Proof.
move=> lt st; exists (Deal [::] (PriShare 0 0) 0 [::]) => sid sig /=.
case E: verifier_process_justification => [v' o].
have [e oE] : exists e, o = Err e.
  move: E; rewrite /verifier_process_justification /verify_justification find_pubE /= lt.
  move: st; rewrite /status_of; case: mget => //= r [->].
  by rewrite /verify_deal andbF /deal_checks /= => -[_ <-]; eexists.
rewrite oE in E.
by have [h [_ h']] := C50_bad_justification_partial deal_dec evs E st lt.
Qed.
Print Assumptions C72_forged_justification_refuted.

Example C72_nonvacuous : (2 < size (a_verifiers (v_agg v50)))%N /\ status_of (v_agg v50) 2 = Some false.
Proof. by []. Qed.

(** ** C51: threshold and session pinning *)
(** Full statement: also a threshold given by [set_threshold].  What holds: once a deal is stored, no history of messages
    changes the deal, session id, threshold or commitments. *)
Theorem C51_pinned_after_deal_partial (F : fieldType) (G : lmodType F) (S : suite G) deal_dec (v : verifier G) evs d :
  a_deal (v_agg v) = Some d ->
  let a := v_agg (vrun S deal_dec v evs) in
  [/\ a_deal a = Some d, a_sid a = a_sid (v_agg v), a_t a = a_t (v_agg v) & a_commits a = a_commits (v_agg v)].
Proof.
move=> e; have [|h1 h2 h3 h4] := @run_deal _ _ S deal_dec v evs; first by rewrite e.
by rewrite /= h1 h2 h3 h4.
Qed.
Print Assumptions C51_pinned_after_deal_partial.

Example C51_nonvacuous : isSome (a_deal (v_agg v50)) /\ a_t (v_agg v50) = 2%N. Proof. by []. Qed.

(** A threshold set beforehand is overwritten by the first deal: every deal that would be approved by a fresh verifier is
    approved by one that was told another threshold, and replaces it. *)
Theorem C51_set_threshold_ignored (F : fieldType) (G : lmodType F) (S : suite G) deal_dec (v : verifier G) (t0 : nat) e k :
  a_deal (v_agg v) = None ->
  process_encrypted_deal S deal_dec (v_set_agg v (set_threshold (v_agg v) t0)) e k =
  process_encrypted_deal S deal_dec v e k \/
  ((process_encrypted_deal S deal_dec v e k).1 = v /\
   (process_encrypted_deal S deal_dec (v_set_agg v (set_threshold (v_agg v) t0)) e k).1 = v_set_agg v (set_threshold (v_agg v) t0)).
Proof.
move=> nd; rewrite /process_encrypted_deal /decrypt_deal /=.
case: (su_verify _ _ _ _) => /=; last by right.
case: (size _ == _) => /=; last by right.
case: (su_open _ _ _ _ _) => [pt|]; last by right.
case: (deal_dec pt) => [d|]; last by right.
case: (ps_i _ == _) => /=; last by right.
by left; rewrite /verify_deal /= nd.
Qed.
Print Assumptions C51_set_threshold_ignored.

Theorem C51_configured_threshold_refuted :
  exists (v v' : verifier G7) (e : enc_deal G7) (r : response) (d : deal G7),
  [/\ new_verifier toy (2%:R : F7) (v_dealer v) keys7 = Ok v,
      process_encrypted_deal toy deal_dec7 (v_set_agg v (set_threshold (v_agg v) 3)) e 1 = (v', Ok r),
      r_status r = true, a_deal (v_agg v') = Some d & d_t d = 2%N /\ a_t (v_agg v') = 2%N].
Proof.
pose d : deal G7 := @Deal F7 G7 sid7 (@PriShare F7 1 3%:R) 2 [:: 1; 1].
pose v3 := v_set_agg (ver7 2%:R 1) (set_threshold (v_agg (ver7 2%:R 1)) 3).
have ck : deal_checks toy (a_set_deal (v_agg v3) d) d = Ok tt.
  by apply/deal_checksP; split=> //; apply/eqP; rewrite /pub_share_value /geval !big_ord_recl big_ord0.
exists (ver7 2%:R 1); eexists; exists (e47 2%:R d); eexists; exists d.
have D : decrypt_deal toy deal_dec7 v3 (e47 2%:R d) = Ok d by apply: (craft_decrypts toy_ok deal_dec_enc7).
by split; [exact: ver7_new|exact: (approve_if 1 D)|..].
Qed.
Print Assumptions C51_configured_threshold_refuted.

(** ** C52: the session id *)
(** Full statement: for any two parameter tuples.  Holds when the numbers of verifiers agree (e.g. when the verifier list
    is known, as in [process_encrypted_deal]).  [session_input] is what the id is the hash of. *)
Definition session_input (F : fieldType) (G : lmodType F) (S : suite G) (dl : G) (vs cs : seq G) (t : nat) : bytestr :=
  su_enc S dl ++ flatten (map (su_enc S) vs) ++ flatten (map (su_enc S) cs) ++ u32le t.
Theorem C52_session_id_binds_partial (F : fieldType) (G : lmodType F) (S : suite G) (dl dl' : G) (vs vs' cs cs' : seq G) (t t' : nat) :
  suite_ok S -> (t < 256 ^ 4)%N -> (t' < 256 ^ 4)%N -> size vs = size vs' ->
  session_id S dl vs cs t = session_id S dl' vs' cs' t' ->
  [/\ dl = dl', vs = vs', cs = cs' & t = t'] \/
  (session_input S dl vs cs t <> session_input S dl' vs' cs' t' /\
   su_hash S (session_input S dl vs cs t) = su_hash S (session_input S dl' vs' cs' t')).
Proof.
move=> okS lt lt' sv H.
case: (eqVneq (session_input S dl vs cs t) (session_input S dl' vs' cs' t')) => [|ne]; last by right; split=> //; exact/eqP.
case/(enc_inj_cat okS)=> -> /(flat_inj_cat okS sv) [-> e].
have [|/(flat_inj okS) -> /(u32le_inj lt lt') ->] := cat_inj_r _ e; first by rewrite !u32le_size.
by left.
Qed.
Print Assumptions C52_session_id_binds_partial.

(** Nothing separates the verifiers from the commitments: moving the boundary leaves the id unchanged. *)
Theorem C52_no_separator (F : fieldType) (G : lmodType F) (S : suite G) (dl : G) (vs ws cs : seq G) (t : nat) :
  session_id S dl (vs ++ ws) cs t = session_id S dl vs (ws ++ cs) t.
Proof. by rewrite /session_id !map_cat !flatten_cat -!catA. Qed.
Print Assumptions C52_no_separator.

Theorem C52_session_id_binds_refuted :
  exists (dl : G7) (vs vs' cs cs' : seq G7) (t : nat), vs <> vs' /\ cs <> cs' /\ uniq vs /\ uniq vs' /\
    (2 <= t)%N /\ (t <= size vs)%N /\ (t <= size vs')%N /\ size cs = t /\
    session_id toy dl vs cs t = session_id toy dl vs' cs' t.
Proof. by exists 1, [:: 2%:R; 3%:R; 4%:R], [:: 2%:R; 3%:R], [:: 5%:R; 6%:R], [:: 4%:R; 5%:R; 6%:R], 2%N. Qed.
Print Assumptions C52_session_id_binds_refuted.

Example C52_nonvacuous :
  (2 < 256 ^ 4)%N /\ session_id toy (1 : G7) keys7 [:: 5%:R] 2 <> session_id toy (1 : G7) keys7 [:: 6%:R] 2.
Proof. by []. Qed.

(** ** C45 (Pedersen VSS part): decryption of an encrypted deal *)
(** Full statement: never a panic.  Holds for nonces of the right length. *)
Theorem C45_decrypt_deal_no_panic_partial (F : fieldType) (G : lmodType F) (S : suite G) deal_dec (v : verifier G) (e : enc_deal G) :
  size (e_nonce e) = 12%N -> is_panic (decrypt_deal S deal_dec v e) = false.
Proof.
move=> n; rewrite /decrypt_deal n /=; case: ifP => // _; case: su_open => // pt; by case: deal_dec.
Qed.
Print Assumptions C45_decrypt_deal_no_panic_partial.

(** Any dealer can crash a verifier: sign the ephemeral key, send a nonce of another length. *)
Theorem C45_decrypt_deal_refuted (F : fieldType) (G : lmodType F) (S : suite G) deal_dec (v : verifier G) (long dh k : F)
    (nonce cipher : bytestr) :
  suite_ok S -> v_dealer v = long *: su_base S -> su_good S long -> su_good S k -> size nonce <> 12%N ->
  decrypt_deal S deal_dec v (EncDeal (dh *: su_base S) (su_sign S long (su_enc S (dh *: su_base S)) k) nonce cipher) = Panic.
Proof.
move=> okS e nl nk /eqP sn; rewrite /decrypt_deal e [su_verify _ _ _ _](su_sign_ok okS) //=.
by rewrite sn.
Qed.
Print Assumptions C45_decrypt_deal_refuted.
Example C45_deal_nonvacuous : size ([:: 0%N] : bytestr) <> 12%N /\ v_dealer (ver7 2%:R 1) = (4%:R : F7) *: su_base toy.
Proof. by []. Qed.

(** Empty commitments in an otherwise acceptable first deal: the verifier panics instead of complaining. *)
Theorem C45_empty_commitments_refuted :
  exists (v : verifier G7) (e : enc_deal G7), new_verifier toy (2%:R : F7) (v_dealer v) keys7 = Ok v /\
    is_panic (process_encrypted_deal toy deal_dec7 v e 1).2.
Proof.
pose d : deal G7 := @Deal F7 G7 sid7 (@PriShare F7 1 3%:R) 2 [::].
exists (ver7 2%:R 1), (e47 2%:R d); split; first exact: ver7_new.
have D : decrypt_deal toy deal_dec7 (ver7 2%:R 1) (e47 2%:R d) = Ok d by apply: (craft_decrypts toy_ok deal_dec_enc7).
by rewrite /process_encrypted_deal D.
Qed.
Print Assumptions C45_empty_commitments_refuted.
