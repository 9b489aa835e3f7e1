(** Round trip and truncation of the saved states.  A map may be written in any order and with repeated keys, so a
    decoder of states is not the inverse of its encoder; what it keeps is locality: it reads a prefix, whatever follows. *)
From Coq Require Import ZArith List Bool Lia.
From Verif Require Import Base Bytes Limb ScModel FeModel GeModel PointModel WireModel WireProofs StateModel.
Import ListNotations.
Local Open Scope Z_scope.

Record codec_res {A} (c : codec A) (wf : A -> Prop) : Prop := {
  res_dec : forall a r, wf a -> c_dec c (c_enc c a ++ r) = Some (a, r);
  res_local : forall b a r, bytes b -> c_dec c b = Some (a, r) ->
    wf a /\ exists u, b = u ++ r /\ u <> [] /\ forall r', bytes r' -> c_dec c (u ++ r') = Some (a, r');
  res_bytes : forall a, wf a -> bytes (c_enc c a);
  res_pos : forall a, wf a -> c_enc c a <> []
}.

Lemma ok_res {A} (c : codec A) w : codec_ok c w -> codec_res c w.
Proof.
  intros H. split; [exact (ok_dec _ _ H)| |exact (ok_bytes _ _ H)|exact (ok_pos _ _ H)].
  intros b a r Hb D. destruct (ok_exact _ _ H _ _ _ Hb D) as [W E]. split; [exact W|].
  exists (c_enc c a). split; [exact E|split; [exact (ok_pos _ _ H _ W)|]]. intros r' _. exact (ok_dec _ _ H _ _ W).
Qed.

Lemma pair_res {A B} (ca : codec A) (cb : codec B) wa wb :
  codec_res ca wa -> codec_res cb wb -> codec_res (cod_pair ca cb) (fun p => wa (fst p) /\ wb (snd p)).
Proof.
  intros HA HB. split; cbn [c_enc c_dec cod_pair].
  - intros [a b] r [Ha Hb]. cbn [fst snd] in *. rewrite <- app_assoc, (res_dec _ _ HA _ _ Ha), (res_dec _ _ HB _ _ Hb). reflexivity.
  - intros l [a b] r Hl. destruct (c_dec ca l) as [[x r1]|] eqn:E1; [|discriminate].
    destruct (res_local _ _ HA _ _ _ Hl E1) as [W1 [u [-> [Nu Lu]]]]. pose proof (proj1 (proj1 (Forall_app _ _ _) Hl)) as Bu. apply Forall_app in Hl as [_ Hl].
    destruct (c_dec cb r1) as [[y r2]|] eqn:E2; [|discriminate]. destruct (res_local _ _ HB _ _ _ Hl E2) as [W2 [v [-> [Nv Lv]]]].
    intros [= <- <- <-]. cbn [fst snd]. split; [now split|]. exists (u ++ v). split; [now rewrite app_assoc|]. split.
    + intros E. apply app_eq_nil in E as [E _]. exact (Nu E).
    + intros r' Hr. apply Forall_app in Hl as [Bv _]. rewrite <- app_assoc, Lu; [now rewrite Lv|]. now apply bytes_app.
  - intros [a b] [Ha Hb]. apply bytes_app; [now apply (res_bytes _ _ HA)|now apply (res_bytes _ _ HB)].
  - intros [a b] [Ha Hb] H. cbn [fst snd] in H. apply app_eq_nil in H as [H _]. exact (res_pos _ _ HA _ Ha H).
Qed.

Lemma map_res {A B} (f : B -> A) (g : A -> B) (c : codec A) w :
  (forall v, g (f v) = v) -> (forall v, f (g v) = v) -> codec_res c w -> codec_res (cod_map f g c) (fun v => w (f v)).
Proof.
  intros G F H. split; cbn [c_enc c_dec cod_map].
  - intros a r Ha. now rewrite (res_dec _ _ H _ _ Ha), G.
  - intros b a r Hb. destruct (c_dec c b) as [[x r1]|] eqn:E; [|discriminate]. intros [= <- <-]. rewrite F.
    destruct (res_local _ _ H _ _ _ Hb E) as [W [u [E' [Nu Lu]]]]. split; [exact W|]. exists u. split; [exact E'|split; [exact Nu|]].
    intros r' Hr. now rewrite Lu.
  - intros a Ha. exact (res_bytes _ _ H _ Ha).
  - intros a Ha. exact (res_pos _ _ H _ Ha).
Qed.

Lemma weaken_res {A} (c : codec A) (w w' : A -> Prop) : (forall a, w a <-> w' a) -> codec_res c w -> codec_res c w'.
Proof.
  intros E H. split.
  - intros a r Ha. apply (res_dec _ _ H). now apply E.
  - intros b a r Hb D. destruct (res_local _ _ H _ _ _ Hb D) as [W X]. split; [now apply E|exact X].
  - intros a Ha. apply (res_bytes _ _ H). now apply E.
  - intros a Ha. apply (res_pos _ _ H). now apply E.
Qed.

Definition opt_wf {A} (w : A -> Prop) (o : option A) : Prop := match o with Some a => w a | None => True end.
Lemma option_res {A} (c : codec A) w : codec_res c w -> codec_res (cod_option c) (opt_wf w).
Proof.
  intros H. split; cbn [c_enc c_dec cod_option].
  - intros [a|] r Ha; [|reflexivity]. cbn [app]. change (1 =? 0) with false. change (1 =? 1) with true. cbn match.
    now rewrite (res_dec _ _ H _ _ Ha).
  - intros b a r Hb. destruct b as [|x b]; [discriminate|]. assert (Hb' := Forall_inv_tail Hb).
    destruct (Z.eqb_spec x 0) as [->|N0].
    + intros [= <- <-]. split; [exact I|]. exists [0]. split; [reflexivity|split; [discriminate|reflexivity]].
    + destruct (Z.eqb_spec x 1) as [->|N1]; [|discriminate]. destruct (c_dec c b) as [[v r1]|] eqn:E; [|discriminate].
      intros [= <- <-]. destruct (res_local _ _ H _ _ _ Hb' E) as [W [u [-> [Nu Lu]]]]. split; [exact W|].
      exists (1 :: u). split; [reflexivity|split; [discriminate|]]. intros r' Hr. cbn [app]. change (1 =? 0) with false. change (1 =? 1) with true. cbn match.
      now rewrite Lu.
  - intros [a|] Ha.
    + constructor; [unfold is_byte; lia|exact (res_bytes _ _ H _ Ha)].
    + constructor; [unfold is_byte; lia|constructor].
  - intros [a|] _; discriminate.
Qed.

Lemma rseq_dec {A} (c : codec A) w : codec_res c w -> forall l r, Forall w l -> dec_seq c (length l) (flat_map (c_enc c) l ++ r) = Some (l, r).
Proof.
  intros H l. induction l as [|a l IH]; intros r Hl; [reflexivity|]. cbn [length flat_map dec_seq]. rewrite <- app_assoc.
  rewrite (res_dec _ _ H _ _ (Forall_inv Hl)). now rewrite (IH _ (Forall_inv_tail Hl)).
Qed.
Lemma rseq_length {A} (c : codec A) w : codec_res c w -> forall l, Forall w l -> (length l <= length (flat_map (c_enc c) l))%nat.
Proof.
  intros H l. induction l as [|a l IH]; intros Hl; [cbn; lia|]. cbn [length flat_map]. rewrite app_length.
  pose proof (IH (Forall_inv_tail Hl)). pose proof (res_pos _ _ H _ (Forall_inv Hl)). destruct (c_enc c a); [congruence|cbn [length]; lia].
Qed.
Lemma rseq_bytes {A} (c : codec A) w : codec_res c w -> forall l, Forall w l -> bytes (flat_map (c_enc c) l).
Proof.
  intros H l. induction l as [|a l IH]; intros Hl; [constructor|]. cbn [flat_map].
  apply bytes_app; [exact (res_bytes _ _ H _ (Forall_inv Hl))|exact (IH (Forall_inv_tail Hl))].
Qed.
Lemma rseq_local {A} (c : codec A) w : codec_res c w -> forall n b l r, bytes b -> dec_seq c n b = Some (l, r) ->
  length l = n /\ Forall w l /\ exists u, b = u ++ r /\ (n <= length u)%nat /\ forall r', bytes r' -> dec_seq c n (u ++ r') = Some (l, r').
Proof.
  intros H n. induction n as [|n IH]; intros b l r Hb; cbn [dec_seq].
  - intros [= <- <-]. split; [reflexivity|]. split; [constructor|]. exists []. split; [reflexivity|]. split; [cbn; lia|reflexivity].
  - destruct (c_dec c b) as [[x r1]|] eqn:E; [|discriminate]. destruct (res_local _ _ H _ _ _ Hb E) as [W [u [-> [Nu Lu]]]].
    apply Forall_app in Hb as [Bu Hb]. destruct (dec_seq c n r1) as [[l1 r2]|] eqn:E2; [|discriminate].
    destruct (IH _ _ _ Hb E2) as [L [F [v [-> [Lv Dv]]]]]. intros [= <- <-]. apply Forall_app in Hb as [Bv _].
    split; [cbn [length]; congruence|]. split; [now constructor|]. exists (u ++ v). split; [now rewrite app_assoc|]. split.
    + rewrite app_length. destruct u; [congruence|cbn [length]; lia].
    + intros r' Hr. rewrite <- app_assoc, Lu; [|now apply bytes_app]. now rewrite Dv.
Qed.

Definition vec_wf {A} (w : A -> Prop) (l : list A) : Prop := Z.of_nat (length l) < 2 ^ 64 /\ Forall w l.
Lemma vec_res {A} (c : codec A) w : codec_res c w -> codec_res (cod_vec c) (vec_wf w).
Proof.
  intros H. assert (U := uint_ok 8 ltac:(lia)). split; cbn [c_enc c_dec cod_vec].
  - intros l r [L Hl]. rewrite <- app_assoc.
    change (le_bytes 8 (Z.of_nat (length l))) with (c_enc cod_usize (Z.of_nat (length l))). unfold cod_usize.
    rewrite (ok_dec _ _ U).
    + rewrite app_length. pose proof (rseq_length _ _ H _ Hl) as B.
      destruct (Z.ltb_spec (Z.of_nat (length (flat_map (c_enc c) l) + length r)) (Z.of_nat (length l))); [lia|].
      rewrite Nat2Z.id. now apply rseq_dec with (w := w).
    + unfold urange. change (256 ^ Z.of_nat 8) with (2 ^ 64). lia.
  - intros b l r Hb. unfold cod_usize. destruct (c_dec (cod_uint 8) b) as [[n r1]|] eqn:E; [|discriminate].
    destruct (ok_exact _ _ U _ _ _ Hb E) as [Wn ->]. apply Forall_app in Hb as [Bn Hb].
    destruct (Z.ltb_spec (Z.of_nat (length r1)) n) as [_|Hn]; [discriminate|]. intros D.
    destruct (rseq_local _ _ H _ _ _ _ Hb D) as [L [F [u [-> [Lu Du]]]]]. unfold urange in Wn. change (256 ^ Z.of_nat 8) with (2 ^ 64) in Wn.
    split; [split; [lia|exact F]|]. exists (c_enc (cod_uint 8) n ++ u). split; [now rewrite app_assoc|]. split.
    + intros X. apply app_eq_nil in X as [X _]. discriminate X.
    + intros r' Hr. rewrite <- app_assoc, (ok_dec _ _ U); [|exact Wn]. rewrite app_length.
      destruct (Z.ltb_spec (Z.of_nat (length u + length r')) n); [lia|]. exact (Du _ Hr).
  - intros l [_ Hl]. apply bytes_app; [apply le_bytes_bytes|exact (rseq_bytes _ _ H _ Hl)].
  - intros l _ E. discriminate E.
Qed.

(** ** Maps *)

Definition keys {V} (m : list (Z * V)) : list Z := map fst m.
Lemma put_keys {V} (m : list (Z * V)) k v : forall x, In x (keys (put m k v)) <-> x = k \/ In x (keys m).
Proof.
  induction m as [|[k' v'] m IH]; intros x; cbn [put keys map In fst]; [split; intros [H|H]; auto; now left|].
  destruct (Z.eqb_spec k' k) as [->|N]; cbn [map In fst keys].
  - split; [intros [H|H]; auto|intros [H|[H|H]]; auto].
  - fold (keys (put m k v)) (keys m). rewrite IH. split; intros [H|[H|H]]; auto.
Qed.
Lemma put_nodup {V} (m : list (Z * V)) k v : NoDup (keys m) -> NoDup (keys (put m k v)).
Proof.
  induction m as [|[k' v'] m IH]; intros N; cbn [put keys map fst]; [constructor; [intros []|constructor]|].
  inversion N as [|? ? N1 N2]; subst. destruct (Z.eqb_spec k' k) as [->|D]; cbn [map fst]; [now constructor|].
  constructor; [|now apply IH]. fold (keys (put m k v)). rewrite put_keys. intros [E|E]; [congruence|now apply N1].
Qed.
Lemma put_forall {V} (P : Z -> Prop) (w : V -> Prop) (m : list (Z * V)) k v : P k -> w v ->
  Forall (fun e => P (fst e) /\ w (snd e)) m -> Forall (fun e => P (fst e) /\ w (snd e)) (put m k v).
Proof.
  intros Pk Wv. induction m as [|[k' v'] m IH]; intros F; cbn [put]; [now repeat constructor|].
  inversion F as [|? ? F1 F2]; subst. destruct (k' =? k); constructor; auto. cbn [fst snd] in *. split; [apply F1|exact Wv].
Qed.
Lemma put_length {V} (m : list (Z * V)) k v : (length (put m k v) <= S (length m))%nat.
Proof. induction m as [|[k' v'] m IH]; cbn [put length]; [lia|]. destruct (k' =? k); cbn [length]; lia. Qed.
Lemma put_fresh {V} (m : list (Z * V)) k v : ~ In k (keys m) -> put m k v = m ++ [(k, v)].
Proof.
  induction m as [|[k' v'] m IH]; intros N; [reflexivity|]. cbn [put]. destruct (Z.eqb_spec k' k) as [->|_]; [exfalso; apply N; now left|].
  cbn [app]. f_equal. apply IH. intros H. apply N. now right.
Qed.
Lemma puts_app {V} (l m : list (Z * V)) : NoDup (keys (m ++ l)) -> fold_left (fun m e => put m (fst e) (snd e)) l m = m ++ l.
Proof.
  revert m. induction l as [|[k v] l IH]; intros m N; cbn [fold_left fst snd]; [now rewrite app_nil_r|].
  rewrite put_fresh.
  - rewrite IH; [now rewrite <- app_assoc|]. now rewrite <- app_assoc.
  - unfold keys in *. rewrite map_app in N. cbn [map fst] in N. apply NoDup_remove_2 in N. intros H. apply N. apply in_or_app. now left.
Qed.
Lemma puts_length {V} (l m : list (Z * V)) : (length (fold_left (fun m e => put m (fst e) (snd e)) l m) <= length m + length l)%nat.
Proof.
  revert m. induction l as [|[k v] l IH]; intros m; cbn [fold_left fst snd length]; [lia|].
  pose proof (IH (put m k v)). pose proof (put_length m k v). lia.
Qed.
Lemma puts_nodup {V} (l m : list (Z * V)) : NoDup (keys m) -> NoDup (keys (fold_left (fun m e => put m (fst e) (snd e)) l m)).
Proof. revert m. induction l as [|[k v] l IH]; intros m N; [exact N|]. apply IH. now apply put_nodup. Qed.
Lemma puts_forall {V} (P : Z -> Prop) (w : V -> Prop) (l m : list (Z * V)) :
  Forall (fun e => P (fst e) /\ w (snd e)) l -> Forall (fun e => P (fst e) /\ w (snd e)) m ->
  Forall (fun e => P (fst e) /\ w (snd e)) (fold_left (fun m e => put m (fst e) (snd e)) l m).
Proof.
  revert m. induction l as [|[k v] l IH]; intros m Fl Fm; [exact Fm|]. inversion Fl as [|? ? F1 F2]; subst. cbn [fst snd] in F1.
  apply IH; [exact F2|]. now apply put_forall.
Qed.

Definition map_wf {V} (P : Z -> Prop) (w : V -> Prop) (m : list (Z * V)) : Prop :=
  NoDup (keys m) /\ Z.of_nat (length m) < 2 ^ 64 /\ Forall (fun e => P (fst e) /\ w (snd e)) m.
Lemma hashmap_res {V} (ck : codec Z) (cv : codec V) P w : codec_res ck P -> codec_res cv w -> codec_res (cod_hashmap ck cv) (map_wf P w).
Proof.
  intros HK HV. pose proof (vec_res _ _ (pair_res _ _ _ _ HK HV)) as H. split; unfold cod_hashmap; cbn [c_enc c_dec].
  - intros m r [N [L F]]. fold (c_enc (cod_vec (cod_pair ck cv)) m). rewrite (res_dec _ _ H m r (conj L F)). now rewrite puts_app.
  - intros b m r Hb. destruct (c_dec (cod_vec (cod_pair ck cv)) b) as [[l r1]|] eqn:E; [|discriminate]. intros [= <- <-].
    destruct (res_local _ _ H _ _ _ Hb E) as [[L F] [u [-> [Nu Lu]]]]. split.
    + split; [apply puts_nodup; constructor|]. split; [pose proof (puts_length l []) as X; cbn [length] in X; lia|].
      apply puts_forall; [exact F|constructor].
    + exists u. split; [reflexivity|]. split; [exact Nu|]. intros r' Hr. now rewrite Lu.
  - intros m [N [L F]]. exact (res_bytes _ _ H m (conj L F)).
  - intros m [N [L F]]. exact (res_pos _ _ H m (conj L F)).
Qed.

(** ** Truncation *)

Lemma res_prefix {A} (c : codec A) w : codec_res c w -> forall a n, w a -> (n < length (c_enc c a))%nat -> c_dec c (firstn n (c_enc c a)) = None.
Proof.
  intros H a n Ha Hn. destruct (c_dec c (firstn n (c_enc c a))) as [[a' r]|] eqn:E; [exfalso|reflexivity].
  pose proof (res_bytes _ _ H _ Ha) as B. destruct (res_local _ _ H _ _ _ (bytes_firstn n _ B) E) as [W [u [F [_ Lu]]]].
  pose proof (res_dec _ _ H a [] Ha) as D. rewrite app_nil_r in D. pose proof (firstn_skipn n (c_enc c a)) as S. rewrite F in S.
  assert (Br : bytes (r ++ skipn n (c_enc c a))).
  { rewrite <- S, <- app_assoc in B. exact (proj2 (proj1 (Forall_app _ _ _) B)). }
  rewrite <- app_assoc in S. pose proof (Lu _ Br) as D'. rewrite S, D in D'.
  assert (D2 : @nil Z = r ++ skipn n (c_enc c a)) by congruence. symmetry in D2. apply app_eq_nil in D2 as [_ D2].
  apply (f_equal (@length Z)) in D2. rewrite skipn_length in D2. cbn in D2. lia.
Qed.

(** ** The state types *)

Definition wf_scalars (l : list (list Z)) : Prop := vec_wf wf_scalar l.
Definition wf_pubpoly (p : s_pubpoly) : Prop := opt_wf wf_point (spp_b p) /\ wf_points (spp_commits p).
Definition wf_agg (a : s_agg) : Prop :=
  wf_point (sa_dealer a) /\ wf_points (sa_verifiers a) /\ wf_points (sa_commits a) /\ map_wf u32_range wf_resp (sa_responses a) /\
  wf_bytes (sa_sid a) /\ opt_wf wf_deal (sa_deal a) /\ usize_range (sa_t a) /\ True /\ True.
Definition wf_dealer (d : s_dealer) : Prop :=
  wf_scalar (sd_long d) /\ wf_point (sd_pub d) /\ wf_scalar (sd_secret d) /\ wf_points (sd_scommits d) /\ wf_scalars (sd_poly d) /\
  wf_points (sd_verifiers d) /\ wf_bytes (sd_hkdf d) /\ usize_range (sd_t d) /\ wf_bytes (sd_sid d) /\ vec_wf wf_deal (sd_deals d) /\ wf_agg (sd_agg d).
Definition wf_verifier (v : s_verifier) : Prop :=
  wf_scalar (sv_long v) /\ wf_point (sv_pub v) /\ wf_point (sv_dealer v) /\ usize_range (sv_index v) /\ wf_points (sv_verifiers v) /\
  wf_bytes (sv_hkdf v) /\ opt_wf wf_agg (sv_agg v).
Definition wf_ragg (a : s_ragg) : Prop :=
  wf_point (sra_dealer a) /\ wf_points (sra_verifiers a) /\ wf_points (sra_commits a) /\ map_wf u32_range wf_resp (sra_responses a) /\
  wf_bytes (sra_sid a) /\ opt_wf wf_rdeal (sra_deal a) /\ usize_range (sra_t a) /\ True.
Definition wf_rdealer (d : s_rdealer) : Prop :=
  wf_scalar (srd_long d) /\ wf_point (srd_pub d) /\ wf_scalar (srd_secret d) /\ wf_points (srd_scommits d) /\
  wf_points (srd_verifiers d) /\ wf_bytes (srd_hkdf d) /\ usize_range (srd_t d) /\ wf_bytes (srd_sid d) /\ vec_wf wf_rdeal (srd_deals d) /\ wf_ragg (srd_agg d).
Definition wf_rverifier (v : s_rverifier) : Prop :=
  wf_scalar (srv_long v) /\ wf_point (srv_pub v) /\ wf_point (srv_dealer v) /\ usize_range (srv_index v) /\ wf_points (srv_verifiers v) /\
  wf_bytes (srv_hkdf v) /\ opt_wf wf_ragg (srv_agg v).
Definition wf_config {R} (w : R -> Prop) (c : s_config R) : Prop :=
  wf_scalar (sc_long c) /\ wf_points (sc_old c) /\ opt_wf wf_points (sc_coeffs c) /\ wf_points (sc_new c) /\ opt_wf wf_dks (sc_share c) /\
  usize_range (sc_t c) /\ usize_range (sc_old_t c) /\ opt_wf w (sc_reader c) /\ True.
Definition wf_dkg {R} (w : R -> Prop) (g : s_dkg R) : Prop :=
  wf_config w (sg_c g) /\ wf_scalar (sg_long g) /\ wf_point (sg_pub g) /\ wf_pubpoly (sg_dpub g) /\ wf_dealer (sg_dealer g) /\
  map_wf u32_range wf_verifier (sg_verifiers g) /\ map_wf u32_range wf_agg (sg_old_aggs g) /\
  usize_range (sg_oidx g) /\ usize_range (sg_nidx g) /\ usize_range (sg_old_t g) /\ usize_range (sg_new_t g) /\
  True /\ True /\ True /\ True /\ True /\ True /\ True.
Definition wf_rdkg (g : s_rdkg) : Prop :=
  u32_range (srg_index g) /\ wf_scalar (srg_long g) /\ wf_point (srg_pub g) /\ wf_points (srg_participants g) /\ usize_range (srg_t g) /\
  wf_rdealer (srg_dealer g) /\ map_wf u32_range wf_rverifier (srg_verifiers g) /\ map_wf u32_range wf_pubpoly (srg_commitments g) /\
  map_wf u32_range (vec_wf wf_rc) (srg_pending g) /\ map_wf u32_range (fun _ => True) (srg_reconstructed g).
Definition wf_dss {K} (w : K -> Prop) (s : s_dss K) : Prop :=
  wf_scalar (ss_secret s) /\ wf_point (ss_public s) /\ usize_range (ss_index s) /\ wf_points (ss_participants s) /\ usize_range (ss_t s) /\
  w (ss_long s) /\ w (ss_random s) /\ wf_pubpoly (ss_long_poly s) /\ wf_pubpoly (ss_random_poly s) /\ wf_bytes (ss_msg s) /\
  vec_wf (opt_wf wf_prishare) (ss_partials s) /\ map_wf usize_range (fun _ => True) (ss_partials_idx s) /\ True /\ wf_bytes (ss_sid s).

Create HintDb state.
#[local] Hint Resolve ok_res option_res vec_res hashmap_res u32_ok usize_ok bool_ok bytes_ok scalar_ok cpoint_ok cpoints_ok prishare_ok deal_ok rdeal_ok resp_ok rc_ok dks_ok rdks_ok : state.
Ltac struct :=
  eapply weaken_res;
  [|apply map_res;
    [intros []; reflexivity
    |intros; repeat match goal with p : (_ * _)%type |- _ => destruct p end; reflexivity
    |repeat apply pair_res; eauto 6 with state]];
  intros a; apply iff_refl.

Lemma pripoly_res : codec_res cod_pripoly wf_scalars.
Proof. exact (vec_res _ _ (ok_res _ _ scalar_ok)). Qed.
Lemma pubpoly_res : codec_res cod_pubpoly wf_pubpoly.
Proof. unfold cod_pubpoly. struct. Qed.
#[local] Hint Resolve pripoly_res pubpoly_res : state.
Lemma agg_res : codec_res cod_agg wf_agg.
Proof. unfold cod_agg. struct. Qed.
Lemma ragg_res : codec_res cod_ragg wf_ragg.
Proof. unfold cod_ragg. struct. Qed.
#[local] Hint Resolve agg_res ragg_res : state.
Lemma dealer_res : codec_res cod_dealer wf_dealer.
Proof. unfold cod_dealer. struct. Qed.
Lemma rdealer_res : codec_res cod_rdealer wf_rdealer.
Proof. unfold cod_rdealer. struct. Qed.
Lemma verifier_res : codec_res cod_verifier wf_verifier.
Proof. unfold cod_verifier. struct. Qed.
Lemma rverifier_res : codec_res cod_rverifier wf_rverifier.
Proof. unfold cod_rverifier. struct. Qed.
#[local] Hint Resolve dealer_res rdealer_res verifier_res rverifier_res : state.
Lemma config_res {R} (cr : codec R) w : codec_res cr w -> codec_res (cod_config cr) (wf_config w).
Proof. intros H. unfold cod_config. struct. Qed.
#[local] Hint Resolve config_res : state.
Lemma dkg_res {R} (cr : codec R) w : codec_res cr w -> codec_res (cod_dkg cr) (wf_dkg w).
Proof. intros H. unfold cod_dkg. struct. Qed.
Lemma rdkg_res : codec_res cod_rdkg wf_rdkg.
Proof. unfold cod_rdkg. struct. Qed.
Lemma dss_res {K} (ck : codec K) w : codec_res ck w -> codec_res (cod_dss ck) (wf_dss w).
Proof. intros H. unfold cod_dss. struct. Qed.
