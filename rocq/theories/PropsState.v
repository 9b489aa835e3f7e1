(** C94: saved protocol states. *)
From Coq Require Import ZArith List Bool Lia Permutation.
From Verif Require Import Base Bytes Limb ScModel FeModel GeModel GeMul PointModel PointProofs WireModel WireProofs PropsWire StateModel StateProofs.
Import ListNotations.
Local Open Scope Z_scope.

Opaque ge_scalar_mult ge_scalar_mult_base ge_scalar_mult_vartime ext_set_bytes ext_write_bytes to_extended comp_add comp_sub write_cached ext_neg
  ext_double proj_double to_projective mixed_add mixed_sub.

(** ** C94: a node that saves its state and reads it back is where it was *)

(** The state written is the state read, whatever the receiver held and whatever follows; a file cut short is refused and
    leaves the receiver unchanged; what is accepted is a value of the type; no input panics. *)
Definition resumes {A} (c : codec A) (value : A -> Prop) : Prop :=
  (forall x, value x -> exists b, marshal c x = Ok b /\ Forall (fun z => 0 <= z < 256) b /\
     (forall y rest, unmarshal c y (b ++ rest) = (Ok tt, x)) /\
     (forall y n, (n < length b)%nat -> unmarshal c y (firstn n b) = (Err tt, y))) /\
  (forall y b x, Forall (fun z => 0 <= z < 256) b -> unmarshal c y b = (Ok tt, x) -> value x) /\
  (forall y b, (exists x, unmarshal c y b = (Ok tt, x)) \/ unmarshal c y b = (Err tt, y)).

Lemma res_resumes {A} (c : codec A) w : codec_res c w -> resumes c w.
Proof.
  intros H. split; [|split].
  - intros x Hx. exists (c_enc c x). split; [reflexivity|]. split; [exact (res_bytes _ _ H _ Hx)|]. split.
    + intros y r. unfold unmarshal. now rewrite (res_dec _ _ H _ _ Hx).
    + intros y n Hn. unfold unmarshal. now rewrite (res_prefix _ _ H _ _ Hx Hn).
  - intros y b x Hb. unfold unmarshal. destruct (c_dec c b) as [[v r]|] eqn:E; [|discriminate]. intros [= <-].
    exact (proj1 (res_local _ _ H _ _ _ Hb E)).
  - intros y b. unfold unmarshal. destruct (c_dec c b) as [[v r]|]; [left; now exists v|now right].
Qed.

Theorem C94_polynomials : resumes cod_pripoly wf_scalars /\ resumes cod_pubpoly wf_pubpoly.
Proof. exact (conj (res_resumes _ _ pripoly_res) (res_resumes _ _ pubpoly_res)). Qed.
Print Assumptions C94_polynomials.
Theorem C94_pedersen_sharing : resumes cod_agg wf_agg /\ resumes cod_dealer wf_dealer /\ resumes cod_verifier wf_verifier.
Proof. exact (conj (res_resumes _ _ agg_res) (conj (res_resumes _ _ dealer_res) (res_resumes _ _ verifier_res))). Qed.
Print Assumptions C94_pedersen_sharing.
Theorem C94_rabin_sharing : resumes cod_ragg wf_ragg /\ resumes cod_rdealer wf_rdealer /\ resumes cod_rverifier wf_rverifier.
Proof. exact (conj (res_resumes _ _ ragg_res) (conj (res_resumes _ _ rdealer_res) (res_resumes _ _ rverifier_res))). Qed.
Print Assumptions C94_rabin_sharing.
(** For every entropy source type that itself serializes. *)
Theorem C94_key_generators {R} (cr : codec R) (w : R -> Prop) : codec_ok cr w ->
  resumes (cod_config cr) (wf_config w) /\ resumes (cod_dkg cr) (wf_dkg w) /\ resumes cod_rdkg wf_rdkg.
Proof.
  intros H. exact (conj (res_resumes _ _ (config_res _ _ (ok_res _ _ H))) (conj (res_resumes _ _ (dkg_res _ _ (ok_res _ _ H))) (res_resumes _ _ rdkg_res))).
Qed.
Print Assumptions C94_key_generators.
(** With the shares of either key generation. *)
Theorem C94_signing_sessions : resumes (cod_dss cod_dks) (wf_dss wf_dks) /\ resumes (cod_dss cod_rdks) (wf_dss wf_rdks).
Proof. exact (conj (res_resumes _ _ (dss_res _ _ (ok_res _ _ dks_ok))) (res_resumes _ _ (dss_res _ _ (ok_res _ _ rdks_ok)))). Qed.
Print Assumptions C94_signing_sessions.

(** *** Maps *)

(** std [HashMap::get]. *)
Fixpoint get {V} (m : list (Z * V)) (k : Z) : option V :=
  match m with [] => None | (k', v) :: r => if k' =? k then Some v else get r k end.
(** Two maps are equal ([HashMap]'s [PartialEq]) when they have the same entries, in whatever order they iterate. *)
Definition same_map {V} (m m' : list (Z * V)) : Prop := forall k, get m k = get m' k.

Lemma get_put {V} (m : list (Z * V)) k v x : get (put m k v) x = if k =? x then Some v else get m x.
Proof.
  induction m as [|[k' v'] m IH]; [reflexivity|]. cbn [put]. destruct (Z.eqb_spec k' k) as [->|N]; cbn [get].
  - destruct (k =? x); reflexivity.
  - rewrite IH. destruct (Z.eqb_spec k' x) as [->|]; [|reflexivity]. destruct (Z.eqb_spec k x); [congruence|reflexivity].
Qed.
Lemma get_in {V} (m : list (Z * V)) k v : NoDup (keys m) -> (get m k = Some v <-> In (k, v) m).
Proof.
  induction m as [|[k' v'] m IH]; intros N; cbn [get In]; [split; [discriminate|intros []]|]. cbn [keys map fst] in N. inversion N as [|? ? N1 N2]; subst.
  destruct (Z.eqb_spec k' k) as [->|D].
  - split; [intros [= ->]; now left|]. intros [[= ->]|H]; [reflexivity|]. exfalso. apply N1. change k with (fst (k, v)). now apply in_map.
  - rewrite (IH N2). split; [now right|]. intros [[= -> _]|H]; [congruence|exact H].
Qed.
(** An equal map, iterating in another order, may be written differently, but is read back equal. *)
Theorem C94_map_order {V} (cv : codec V) (w : V -> Prop) (m m' : list (Z * V)) : codec_ok cv w ->
  map_wf u32_range w m -> Permutation m m' ->
  same_map m m' /\ map_wf u32_range w m' /\
  forall y rest, exists r r', unmarshal (cod_hashmap cod_u32 cv) y (c_enc (cod_hashmap cod_u32 cv) m ++ rest) = (Ok tt, r) /\
    unmarshal (cod_hashmap cod_u32 cv) y (c_enc (cod_hashmap cod_u32 cv) m' ++ rest) = (Ok tt, r') /\ same_map r r'.
Proof.
  intros HV Wm P. pose proof (hashmap_res _ _ _ _ (ok_res _ _ u32_ok) (ok_res _ _ HV)) as H. destruct Wm as [N [L F]].
  assert (Wm' : map_wf u32_range w m').
  { split; [exact (Permutation_NoDup (Permutation_map fst P) N)|]. split; [now rewrite <- (Permutation_length P)|].
    rewrite Forall_forall in F |- *. intros e He. apply F. exact (Permutation_in _ (Permutation_sym P) He). }
  assert (S : same_map m m').
  { intros k. destruct (get m k) as [v|] eqn:E.
    - symmetry. apply (get_in m' k v (proj1 Wm')). apply (Permutation_in _ P). now apply (get_in m k v N).
    - destruct (get m' k) as [v|] eqn:E'; [|reflexivity]. apply (get_in m' k v (proj1 Wm')) in E'.
      apply (Permutation_in _ (Permutation_sym P)), (get_in m k v N) in E'. congruence. }
  split; [exact S|]. split; [exact Wm'|]. intros y rest. exists m, m'. unfold unmarshal.
  rewrite (res_dec _ _ H m rest (conj N (conj L F))), (res_dec _ _ H m' rest Wm'). now repeat split.
Qed.
Print Assumptions C94_map_order.

(** With a repeated key the last entry counts: the file of a map is not unique even for one order. *)
Theorem C94_map_last {V} (cv : codec V) (w : V -> Prop) (l : list (Z * V)) : codec_ok cv w ->
  Z.of_nat (length l) < 2 ^ 64 -> Forall (fun e => u32_range (fst e) /\ w (snd e)) l ->
  forall y, exists r, unmarshal (cod_hashmap cod_u32 cv) y (c_enc (cod_hashmap cod_u32 cv) l) = (Ok tt, r) /\
    NoDup (keys r) /\ forall k, get r k = get (rev l) k.
Proof.
  intros HV L F y. pose proof (vec_res _ _ (pair_res _ _ _ _ (ok_res _ _ u32_ok) (ok_res _ _ HV))) as H.
  exists (fold_left (fun m e => put m (fst e) (snd e)) l []). split; [|split].
  - unfold unmarshal, cod_hashmap. cbn [c_enc c_dec]. pose proof (res_dec _ _ H l [] (conj L F)) as D. rewrite app_nil_r in D.
    cbn [c_enc c_dec] in D |- *. now rewrite D.
  - apply puts_nodup. constructor.
  - intros k. rewrite <- fold_left_rev_right. clear L F. induction (rev l) as [|[k' v'] l' IH]; [reflexivity|]. cbn [fold_right fst snd get].
    rewrite get_put, IH. reflexivity.
Qed.
Print Assumptions C94_map_last.

(** *** Equal states have different files *)

(** Full statement: nodes with equal states write equal files.  Refuted: the responses of an aggregator are written in the
    iteration order of a [HashMap], which differs between equal maps. *)
Definition agg_with (m : list (Z * w_resp)) : s_agg :=
  SAgg (point_base point_default) [point_base point_default] [] m [1; 2] None 2 false false.
Definition resp1 : w_resp := WResp [1; 2] 0 true [7].
Definition resp2 : w_resp := WResp [1; 2] 1 false [8; 9].
Lemma wf_base : wf_point (point_base point_default).
Proof. exact (repr_wf _ _ (base_ok _)). Qed.
Ltac bytes_tac := split; [reflexivity|repeat (constructor; [unfold is_byte; lia|]); constructor].
Lemma resp1_wf : wf_resp resp1.
Proof. split; [bytes_tac|]. split; [unfold u32_range; cbn; lia|]. split; [exact I|bytes_tac]. Qed.
Lemma resp2_wf : wf_resp resp2.
Proof. split; [bytes_tac|]. split; [unfold u32_range; cbn; lia|]. split; [exact I|bytes_tac]. Qed.
Lemma agg_wf m : map_wf u32_range wf_resp m -> wf_agg (agg_with m).
Proof.
  intros H. split; [exact wf_base|]. split; [split; [reflexivity|constructor; [exact wf_base|constructor]]|].
  split; [split; [reflexivity|constructor]|]. split; [exact H|]. split; [bytes_tac|]. split; [exact I|]. split; [unfold usize_range; cbn; lia|now split].
Qed.
Lemma two_wf : map_wf u32_range wf_resp [(0, resp1); (1, resp2)].
Proof.
  split; [repeat constructor; cbn; intuition lia|]. split; [reflexivity|]. constructor; [split; [unfold u32_range; cbn; lia|exact resp1_wf]|].
  constructor; [split; [unfold u32_range; cbn; lia|exact resp2_wf]|constructor].
Qed.
Theorem C94_file_refuted : exists a a' : s_agg, wf_agg a /\ wf_agg a' /\
  sa_dealer a = sa_dealer a' /\ sa_verifiers a = sa_verifiers a' /\ sa_commits a = sa_commits a' /\ same_map (sa_responses a) (sa_responses a') /\
  sa_sid a = sa_sid a' /\ sa_deal a = sa_deal a' /\ sa_t a = sa_t a' /\ sa_bad a = sa_bad a' /\ sa_timeout a = sa_timeout a' /\
  marshal cod_agg a <> marshal cod_agg a'.
Proof.
  assert (P : Permutation [(0, resp1); (1, resp2)] [(1, resp2); (0, resp1)]) by apply perm_swap.
  pose proof (C94_map_order cod_resp wf_resp _ _ resp_ok two_wf P) as [S [W _]].
  exists (agg_with [(0, resp1); (1, resp2)]), (agg_with [(1, resp2); (0, resp1)]).
  split; [exact (agg_wf _ two_wf)|]. split; [exact (agg_wf _ W)|]. do 3 (split; [reflexivity|]). split; [exact S|]. do 5 (split; [reflexivity|]).
  intros E. assert (E' : c_enc cod_agg (agg_with [(0, resp1); (1, resp2)]) = c_enc cod_agg (agg_with [(1, resp2); (0, resp1)])) by (unfold marshal in E; congruence).
  clear E. revert E'. vm_compute. discriminate.
Qed.
Print Assumptions C94_file_refuted.

(** A key generator in the middle of a run: a dealer with a deal and responses, two verifiers, one of them waiting for its
    deal, and a user entropy source with one byte left. *)
Definition ex_agg : s_agg := SAgg (point_base point_default) [point_base point_default] [] [(0, resp1); (1, resp2)] [1; 2] (Some ex_deal) 2 false true.
Definition ex_dealer : s_dealer :=
  SDealer (le_bytes 32 5) (point_base point_default) (le_bytes 32 6) [point_base point_default] [le_bytes 32 6; le_bytes 32 9] [] [4] 2 [1; 2] [ex_deal; ex_deal] ex_agg.
Definition ex_dkg : s_dkg Z :=
  SDkg (SConfig (le_bytes 32 5) [] (Some [point_base point_default]) [] (Some (WDks [] (WPriShare 1 (le_bytes 32 3)) [le_bytes 32 2])) 2 0 (Some 200) true)
    (le_bytes 32 5) (point_base point_default) (SPubPoly None []) ex_dealer
    [(1, SVerifier (le_bytes 32 5) (point_base point_default) (point_base point_default) 1 [] [4] None);
     (0, SVerifier (le_bytes 32 5) (point_base point_default) (point_base point_default) 1 [] [4] (Some ex_agg))]
    [] 0 1 0 2 false true true true false true false.
Lemma wf_sc v : wf_scalar (le_bytes 32 v).
Proof. split; [now rewrite le_bytes_length|apply le_bytes_bytes]. Qed.
Lemma ex_agg_wf : wf_agg ex_agg.
Proof.
  split; [exact wf_base|]. split; [split; [reflexivity|constructor; [exact wf_base|constructor]]|].
  split; [split; [reflexivity|constructor]|]. split; [exact two_wf|]. split; [bytes_tac|]. split; [exact (proj1 C88_nonvacuous)|]. split; [unfold usize_range; cbn; lia|now split].
Qed.
Lemma ex_dealer_wf : wf_dealer ex_dealer.
Proof.
  split; [apply wf_sc|]. split; [exact wf_base|]. split; [apply wf_sc|]. split; [split; [reflexivity|constructor; [exact wf_base|constructor]]|].
  split; [split; [reflexivity|constructor; [apply wf_sc|constructor; [apply wf_sc|constructor]]]|]. split; [split; [reflexivity|constructor]|].
  split; [bytes_tac|]. split; [unfold usize_range; cbn; lia|]. split; [bytes_tac|].
  split; [split; [reflexivity|constructor; [exact (proj1 C88_nonvacuous)|constructor; [exact (proj1 C88_nonvacuous)|constructor]]]|exact ex_agg_wf].
Qed.
Lemma ex_verifier_wf o : opt_wf wf_agg o -> wf_verifier (SVerifier (le_bytes 32 5) (point_base point_default) (point_base point_default) 1 [] [4] o).
Proof.
  intros H. split; [apply wf_sc|]. split; [exact wf_base|]. split; [exact wf_base|]. split; [unfold usize_range; cbn; lia|].
  split; [split; [reflexivity|constructor]|]. split; [bytes_tac|exact H].
Qed.
Example C94_nonvacuous : codec_ok cod_u8 is_byte /\ wf_dkg is_byte ex_dkg /\ exists b, marshal (cod_dkg cod_u8) ex_dkg = Ok b /\
  (forall y rest, unmarshal (cod_dkg cod_u8) y (b ++ rest) = (Ok tt, ex_dkg)) /\ (2000 < length b)%nat.
Proof.
  assert (W : wf_dkg is_byte ex_dkg).
  { split.
    { split; [apply wf_sc|]. split; [split; [reflexivity|constructor]|]. split; [split; [reflexivity|constructor; [exact wf_base|constructor]]|].
      split; [split; [reflexivity|constructor]|]. split.
      - split; [split; [reflexivity|constructor]|]. split; [split; [unfold usize_range; cbn; lia|apply wf_sc]|split; [reflexivity|constructor; [apply wf_sc|constructor]]].
      - split; [unfold usize_range; cbn; lia|]. split; [unfold usize_range; cbn; lia|]. split; [cbn; unfold is_byte; lia|exact I]. }
    split; [apply wf_sc|]. split; [exact wf_base|]. split; [split; [exact I|split; [reflexivity|constructor]]|]. split; [exact ex_dealer_wf|].
    split.
    { split; [repeat constructor; cbn; intuition lia|]. split; [reflexivity|]. constructor; [split; [unfold u32_range; cbn; lia|exact (ex_verifier_wf None I)]|].
      constructor; [split; [unfold u32_range; cbn; lia|exact (ex_verifier_wf (Some ex_agg) ex_agg_wf)]|constructor]. }
    split; [split; [constructor|split; [reflexivity|constructor]]|].
    do 4 (split; [unfold usize_range; cbn; lia|]). repeat split. }
  split; [exact u8_ok|]. split; [exact W|].
  pose proof (res_dec _ _ (dkg_res _ _ (ok_res _ _ u8_ok)) ex_dkg) as D.
  exists (c_enc (cod_dkg cod_u8) ex_dkg). split; [reflexivity|]. split.
  - intros y rest. unfold unmarshal. now rewrite (D rest W).
  - clear D W. apply Nat.ltb_lt. vm_compute. reflexivity.
Qed.
(** A map whose key 1 occurs twice is read with the later value. *)
Example C94_map_nonvacuous : Forall (fun e => u32_range (fst e) /\ True) [(1, true); (0, true); (1, false)] /\
  unmarshal (cod_hashmap cod_u32 cod_bool) [] (c_enc (cod_hashmap cod_u32 cod_bool) [(1, true); (0, true); (1, false)]) = (Ok tt, [(1, false); (0, true)]).
Proof. split; [repeat (constructor; [split; [unfold u32_range; cbn; lia|exact I]|]); constructor|]. vm_compute. reflexivity. Qed.
