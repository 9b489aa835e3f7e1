(** C95-C96: what is printed. *)
From Coq Require Import ZArith List Bool String Ascii DecimalString DecimalPos DecimalZ Lia.
From Verif Require Import Base Bytes Limb ScModel FeModel GeModel GeMul EdCurve PointModel PointProofs IntModel GeBase GeEnc PropsPoint PropsSubgroup WireModel WireProofs PropsWire StateModel StateProofs PropsState FmtModel.
Import ListNotations.
Local Open Scope Z_scope.
Local Open Scope string_scope.

Opaque ge_scalar_mult ge_scalar_mult_base ge_scalar_mult_vartime ext_set_bytes ext_write_bytes to_extended comp_add comp_sub write_cached ext_neg
  ext_double proj_double to_projective mixed_add mixed_sub.

(** ** Values that differ in their secrets only *)

(** Equal but for the scalars: private keys, secrets, polynomial coefficients, values of shares; and but for the bytes of the
    user's entropy source.  Indices, thresholds, points, identifiers, signatures, ciphertexts and flags agree. *)
Definition lift {A} (R : A -> A -> Prop) (o o' : option A) : Prop :=
  match o, o' with Some a, Some a' => R a a' | None, None => True | _, _ => False end.
Definition each {A} (R : A -> A -> Prop) : list A -> list A -> Prop := Forall2 R.
Definition entry {A} (R : A -> A -> Prop) (m m' : list (Z * A)) : Prop := Forall2 (fun e e' => fst e = fst e' /\ R (snd e) (snd e')) m m'.

Definition like_prishare (s s' : w_prishare) : Prop := wps_i s = wps_i s'.
Definition like_pripoly (c c' : list (list Z)) : Prop := List.length c = List.length c'.
Definition like_deal (d d' : w_deal) : Prop :=
  wd_sid d = wd_sid d' /\ like_prishare (wd_share d) (wd_share d') /\ wd_t d = wd_t d' /\ wd_commits d = wd_commits d'.
Definition like_rdeal (d d' : w_rdeal) : Prop :=
  wrd_sid d = wrd_sid d' /\ like_prishare (wrd_sec d) (wrd_sec d') /\ like_prishare (wrd_rnd d) (wrd_rnd d') /\ wrd_t d = wrd_t d' /\ wrd_commits d = wrd_commits d'.
Definition like_just {D} (R : D -> D -> Prop) (j j' : w_just D) : Prop :=
  wj_sid j = wj_sid j' /\ wj_index j = wj_index j' /\ R (wj_deal j) (wj_deal j') /\ wj_sig j = wj_sig j'.
Definition like_idx {M} (R : M -> M -> Prop) (j j' : w_idx M) : Prop := wi_index j = wi_index j' /\ R (wi_msg j) (wi_msg j').
Definition like_agg (a a' : s_agg) : Prop :=
  sa_dealer a = sa_dealer a' /\ sa_verifiers a = sa_verifiers a' /\ sa_commits a = sa_commits a' /\ sa_responses a = sa_responses a' /\ sa_sid a = sa_sid a' /\
  lift like_deal (sa_deal a) (sa_deal a') /\ sa_t a = sa_t a' /\ sa_bad a = sa_bad a' /\ sa_timeout a = sa_timeout a'.
Definition like_dealer (d d' : s_dealer) : Prop :=
  sd_pub d = sd_pub d' /\ sd_scommits d = sd_scommits d' /\ like_pripoly (sd_poly d) (sd_poly d') /\ sd_verifiers d = sd_verifiers d' /\ sd_hkdf d = sd_hkdf d' /\
  sd_t d = sd_t d' /\ sd_sid d = sd_sid d' /\ each like_deal (sd_deals d) (sd_deals d') /\ like_agg (sd_agg d) (sd_agg d').
Definition like_verifier (v v' : s_verifier) : Prop :=
  sv_pub v = sv_pub v' /\ sv_dealer v = sv_dealer v' /\ sv_index v = sv_index v' /\ sv_verifiers v = sv_verifiers v' /\ sv_hkdf v = sv_hkdf v' /\
  lift like_agg (sv_agg v) (sv_agg v').
Definition like_ragg (a a' : s_ragg) : Prop :=
  sra_dealer a = sra_dealer a' /\ sra_verifiers a = sra_verifiers a' /\ sra_commits a = sra_commits a' /\ sra_responses a = sra_responses a' /\ sra_sid a = sra_sid a' /\
  lift like_rdeal (sra_deal a) (sra_deal a') /\ sra_t a = sra_t a' /\ sra_bad a = sra_bad a'.
Definition like_rdealer (d d' : s_rdealer) : Prop :=
  srd_pub d = srd_pub d' /\ srd_scommits d = srd_scommits d' /\ srd_verifiers d = srd_verifiers d' /\ srd_hkdf d = srd_hkdf d' /\
  srd_t d = srd_t d' /\ srd_sid d = srd_sid d' /\ each like_rdeal (srd_deals d) (srd_deals d') /\ like_ragg (srd_agg d) (srd_agg d').
Definition like_rverifier (v v' : s_rverifier) : Prop :=
  srv_pub v = srv_pub v' /\ srv_dealer v = srv_dealer v' /\ srv_index v = srv_index v' /\ srv_verifiers v = srv_verifiers v' /\ srv_hkdf v = srv_hkdf v' /\
  lift like_ragg (srv_agg v) (srv_agg v').
Definition like_dks (d d' : w_dks) : Prop := wk_commits d = wk_commits d' /\ like_prishare (wk_share d) (wk_share d') /\ like_pripoly (wk_poly d) (wk_poly d').
Definition like_rdks (d d' : w_rdks) : Prop := wrk_commits d = wrk_commits d' /\ like_prishare (wrk_share d) (wrk_share d').
Definition like_config {R} (c c' : s_config R) : Prop :=
  sc_old c = sc_old c' /\ sc_coeffs c = sc_coeffs c' /\ sc_new c = sc_new c' /\ lift like_dks (sc_share c) (sc_share c') /\ sc_t c = sc_t c' /\
  sc_old_t c = sc_old_t c' /\ lift (fun _ _ => True) (sc_reader c) (sc_reader c') /\ sc_reader_only c = sc_reader_only c'.
Definition like_dkg {R} (g g' : s_dkg R) : Prop :=
  like_config (sg_c g) (sg_c g') /\ sg_pub g = sg_pub g' /\ sg_dpub g = sg_dpub g' /\ like_dealer (sg_dealer g) (sg_dealer g') /\
  entry like_verifier (sg_verifiers g) (sg_verifiers g') /\ entry like_agg (sg_old_aggs g) (sg_old_aggs g') /\
  sg_oidx g = sg_oidx g' /\ sg_nidx g = sg_nidx g' /\ sg_old_t g = sg_old_t g' /\ sg_new_t g = sg_new_t g' /\ sg_resharing g = sg_resharing g' /\
  sg_can_issue g = sg_can_issue g' /\ sg_can_receive g = sg_can_receive g' /\ sg_new_present g = sg_new_present g' /\ sg_old_present g = sg_old_present g' /\
  sg_processed g = sg_processed g' /\ sg_timeout g = sg_timeout g'.
Definition like_cc (s s' : w_cc) : Prop :=
  wcc_index s = wcc_index s' /\ wcc_dealer s = wcc_dealer s' /\ like_rdeal (wcc_deal s) (wcc_deal s') /\ wcc_sig s = wcc_sig s'.
Definition like_rc (s s' : w_rc) : Prop :=
  wrc_sid s = wrc_sid s' /\ wrc_index s = wrc_index s' /\ wrc_dealer s = wrc_dealer s' /\ like_prishare (wrc_share s) (wrc_share s') /\ wrc_sig s = wrc_sig s'.
Definition like_rdkg (g g' : s_rdkg) : Prop :=
  srg_index g = srg_index g' /\ srg_pub g = srg_pub g' /\ srg_participants g = srg_participants g' /\ srg_t g = srg_t g' /\ like_rdealer (srg_dealer g) (srg_dealer g') /\
  entry like_rverifier (srg_verifiers g) (srg_verifiers g') /\ srg_commitments g = srg_commitments g' /\ entry (each like_rc) (srg_pending g) (srg_pending g') /\
  srg_reconstructed g = srg_reconstructed g'.
Definition like_dss {K} (R : K -> K -> Prop) (s s' : s_dss K) : Prop :=
  ss_public s = ss_public s' /\ ss_index s = ss_index s' /\ ss_participants s = ss_participants s' /\ ss_t s = ss_t s' /\ R (ss_long s) (ss_long s') /\
  R (ss_random s) (ss_random s') /\ ss_long_poly s = ss_long_poly s' /\ ss_random_poly s = ss_random_poly s' /\ ss_msg s = ss_msg s' /\
  each (lift like_prishare) (ss_partials s) (ss_partials s') /\ ss_partials_idx s = ss_partials_idx s' /\ ss_signed s = ss_signed s' /\ ss_sid s = ss_sid s'.
Definition like_psig (s s' : w_psig) : Prop := like_prishare (wp_partial s) (wp_partial s') /\ wp_sid s = wp_sid s' /\ wp_sig s = wp_sig s'.
Definition like_keypair (k k' : w_keypair) : Prop := wkp_pub k = wkp_pub k'.
Definition like_eddsa (k k' : w_eddsa) : Prop := wed_public k = wed_public k'.

(** ** C95: secrets are not printed *)

(** [f] (a way of printing) gives the same text on values that differ in their secrets only. *)
Definition hides {A} (like : A -> A -> Prop) (f : A -> string) : Prop := forall x x', like x x' -> f x = f x'.

Lemma hides_opt {A} (R : A -> A -> Prop) f : hides R f -> hides (lift R) (dopt f).
Proof. intros H [a|] [a'|] L; try contradiction; [|reflexivity]. unfold dopt. now rewrite (H a a' L). Qed.
Lemma hides_map {A} (R : A -> A -> Prop) f : hides R f -> forall l l', each R l l' -> map f l = map f l'.
Proof. intros H l l' F. induction F as [|a a' l l' L F IH]; [reflexivity|]. cbn [map]. now rewrite (H a a' L), IH. Qed.
Lemma hides_list {A} (R : A -> A -> Prop) f : hides R f -> hides (each R) (dlist f).
Proof. intros H l l' F. unfold dlist. now rewrite (hides_map R f H l l' F). Qed.
Lemma hides_join {A} (R : A -> A -> Prop) f sep : hides R f -> hides (each R) (fun l => join sep (map f l)).
Proof. intros H l l' F. now rewrite (hides_map R f H l l' F). Qed.
Lemma hides_entry {A} (R : A -> A -> Prop) f (g : string -> string -> string) : hides R f ->
  forall m m', entry R m m' -> map (fun e => g (dec (fst e)) (f (snd e))) m = map (fun e => g (dec (fst e)) (f (snd e))) m'.
Proof.
  intros H m m' F. apply (hides_map (fun e e' => fst e = fst e' /\ R (snd e) (snd e'))); [|exact F].
  intros e e' [-> L]. now rewrite (H _ _ L).
Qed.
Lemma hides_dmap {A} (R : A -> A -> Prop) f : hides R f -> hides (entry R) (dmap f).
Proof. intros H m m' F. unfold dmap. now rewrite (hides_entry R f (fun k v => k ++ ": " ++ v) H m m' F). Qed.
Lemma hides_entries {A} (R : A -> A -> Prop) f : hides R f -> hides (entry R) (entries f).
Proof. intros H m m' F. unfold entries. now rewrite (hides_entry R f (fun k v => "(" ++ k ++ ", " ++ v ++ ")") H m m' F). Qed.

Ltac eqs := repeat match goal with H : _ /\ _ |- _ => destruct H end; repeat match goal with H : _ = _ |- _ => rewrite H; clear H end.

Theorem C95_shares : hides like_prishare prishare_debug /\ hides like_prishare prishare_display /\
  hides like_pripoly pripoly_debug /\ hides like_pripoly pripoly_display.
Proof. repeat split; intros x x' H; try reflexivity; unfold prishare_debug, prishare_display; now rewrite H. Qed.
Print Assumptions C95_shares.
Lemma deal_hides : hides like_deal deal_debug /\ hides like_deal deal_display.
Proof. split; intros x x' (H1 & H2 & H3 & H4); unfold deal_debug, deal_display; now rewrite H1, H3, H4. Qed.
Lemma rdeal_hides : hides like_rdeal rdeal_debug /\ hides like_rdeal rdeal_display.
Proof. split; intros x x' (H1 & H2 & H2' & H3 & H4); unfold rdeal_debug, rdeal_display; now rewrite H1, H3, H4. Qed.
Lemma agg_hides : hides like_agg agg_debug /\ hides like_agg agg_display.
Proof.
  split; intros x x' (H1 & H2 & H3 & H4 & H5 & L & H6 & H7 & H8); unfold agg_debug, agg_display.
  - now rewrite H1, H2, H3, H4, H5, H6, H7, H8, (hides_opt _ _ (proj1 deal_hides) _ _ L).
  - now rewrite H1, H2, H3, H4, H5, H6, H7, H8, (hides_opt _ _ (proj2 deal_hides) _ _ L).
Qed.
Lemma ragg_hides : hides like_ragg ragg_debug /\ hides like_ragg ragg_display.
Proof.
  split; intros x x' (H1 & H2 & H3 & H4 & H5 & L & H6 & H7); unfold ragg_debug, ragg_display.
  - now rewrite H1, H2, H3, H4, H5, H6, H7, (hides_opt _ _ (proj1 rdeal_hides) _ _ L).
  - now rewrite H1, H2, H3, H4, H5, H6, H7, (hides_opt _ _ (proj2 rdeal_hides) _ _ L).
Qed.
Lemma just_hides {D} (R : D -> D -> Prop) f : hides R f -> hides (like_just R) (just_debug f) /\ hides (like_just R) (just_display f).
Proof. intros H. split; intros x x' (H1 & H2 & H3 & H4); unfold just_debug, just_display; now rewrite H1, H2, H4, (H _ _ H3). Qed.
Lemma idx_hides {M} (R : M -> M -> Prop) f n fd : hides R f -> hides (like_idx R) (idx_debug n fd f) /\ hides (like_idx R) (idx_display n fd f).
Proof. intros H. split; intros x x' (H1 & H2); unfold idx_debug, idx_display; now rewrite H1, (H _ _ H2). Qed.
Lemma dealer_hides : hides like_dealer dealer_debug /\ hides like_dealer dealer_display.
Proof.
  split; intros x x' (H1 & H2 & H3 & H4 & H5 & H6 & H7 & L & LA); unfold dealer_debug, dealer_display.
  - now rewrite H1, H4, H5, H6, H7, (hides_list _ _ (proj1 deal_hides) _ _ L), (proj1 agg_hides _ _ LA).
  - now rewrite H1, H4, H5, H6, H7, (hides_map _ _ (proj2 deal_hides) _ _ L), (proj2 agg_hides _ _ LA).
Qed.
Lemma rdealer_hides : hides like_rdealer rdealer_debug /\ hides like_rdealer rdealer_display.
Proof.
  split; intros x x' (H1 & H2 & H4 & H5 & H6 & H7 & L & LA); unfold rdealer_debug, rdealer_display.
  - now rewrite H1, H4, H5, H6, H7, (hides_list _ _ (proj1 rdeal_hides) _ _ L), (proj1 ragg_hides _ _ LA).
  - now rewrite H1, H4, H5, H6, H7, (hides_map _ _ (proj2 rdeal_hides) _ _ L), (proj2 ragg_hides _ _ LA).
Qed.
Lemma verifier_hides : hides like_verifier verifier_debug /\ hides like_verifier verifier_display.
Proof.
  split; intros x x' (H1 & H2 & H3 & H4 & H5 & L); unfold verifier_debug, verifier_display.
  - now rewrite H1, H2, H3, H4, H5, (hides_opt _ _ (proj1 agg_hides) _ _ L).
  - now rewrite H1, H2, H3, H4, H5, (hides_opt _ _ (proj2 agg_hides) _ _ L).
Qed.
Lemma rverifier_hides : hides like_rverifier rverifier_debug /\ hides like_rverifier rverifier_display.
Proof.
  split; intros x x' (H1 & H2 & H3 & H4 & H5 & L); unfold rverifier_debug, rverifier_display.
  - now rewrite H1, H2, H3, H4, H5, (hides_opt _ _ (proj1 ragg_hides) _ _ L).
  - now rewrite H1, H2, H3, H4, H5, (hides_opt _ _ (proj2 ragg_hides) _ _ L).
Qed.
Theorem C95_pedersen_sharing :
  hides like_deal deal_debug /\ hides like_deal deal_display /\
  hides (like_just like_deal) (just_debug deal_debug) /\ hides (like_just like_deal) (just_display deal_display) /\
  hides like_agg agg_debug /\ hides like_agg agg_display /\ hides like_dealer dealer_debug /\ hides like_dealer dealer_display /\
  hides like_verifier verifier_debug /\ hides like_verifier verifier_display.
Proof.
  exact (conj (proj1 deal_hides) (conj (proj2 deal_hides) (conj (proj1 (just_hides _ _ (proj1 deal_hides))) (conj (proj2 (just_hides _ _ (proj2 deal_hides)))
    (conj (proj1 agg_hides) (conj (proj2 agg_hides) (conj (proj1 dealer_hides) (conj (proj2 dealer_hides) verifier_hides)))))))).
Qed.
Print Assumptions C95_pedersen_sharing.
Theorem C95_rabin_sharing :
  hides like_rdeal rdeal_debug /\ hides like_rdeal rdeal_display /\
  hides (like_just like_rdeal) (just_debug rdeal_debug) /\ hides (like_just like_rdeal) (just_display rdeal_display) /\
  hides like_ragg ragg_debug /\ hides like_ragg ragg_display /\ hides like_rdealer rdealer_debug /\ hides like_rdealer rdealer_display /\
  hides like_rverifier rverifier_debug /\ hides like_rverifier rverifier_display.
Proof.
  exact (conj (proj1 rdeal_hides) (conj (proj2 rdeal_hides) (conj (proj1 (just_hides _ _ (proj1 rdeal_hides))) (conj (proj2 (just_hides _ _ (proj2 rdeal_hides)))
    (conj (proj1 ragg_hides) (conj (proj2 ragg_hides) (conj (proj1 rdealer_hides) (conj (proj2 rdealer_hides) rverifier_hides)))))))).
Qed.
Print Assumptions C95_rabin_sharing.

Lemma dks_hides : hides like_dks dks_debug /\ hides like_dks dks_display.
Proof. split; intros x x' (H & _); unfold dks_debug, dks_display; now rewrite H. Qed.
Lemma rdks_hides : hides like_rdks rdks_debug /\ hides like_rdks rdks_display.
Proof. split; intros x x' (H & _); unfold rdks_debug, rdks_display; now rewrite H. Qed.
Lemma reader_hides {R : Type} (r r' : option R) : lift (fun _ _ => True) r r' -> match r with Some _ => true | None => false end = match r' with Some _ => true | None => false end.
Proof. destruct r, r'; cbn; intros H; try reflexivity; contradiction. Qed.
Lemma config_hides {R} : hides (@like_config R) config_debug /\ hides (@like_config R) config_display.
Proof.
  split; intros x x' (H1 & H2 & H3 & L & H4 & H5 & L' & H6); unfold config_debug, config_display.
  - now rewrite H1, H2, H3, H4, H5, H6, (hides_opt _ _ (proj1 dks_hides) _ _ L), (reader_hides _ _ L').
  - now rewrite H1, H2, H3, H4, H5, H6, (hides_opt _ _ (proj2 dks_hides) _ _ L), (reader_hides _ _ L').
Qed.
Lemma dkg_hides {R} : hides (@like_dkg R) dkg_debug /\ hides (@like_dkg R) dkg_display.
Proof.
  split; intros x x' (C & H1 & H2 & D & V & A & K1 & K2 & K3 & K4 & K5 & K6 & K7 & K8 & K9 & K10 & K11); unfold dkg_debug, dkg_display.
  - rewrite (proj1 config_hides _ _ C), (proj1 dealer_hides _ _ D), (hides_dmap _ _ (proj1 verifier_hides) _ _ V), (hides_dmap _ _ (proj1 agg_hides) _ _ A).
    now rewrite H1, H2, K1, K2, K3, K4, K5, K6, K7, K8, K9, K10, K11.
  - rewrite (proj2 config_hides _ _ C), (proj2 dealer_hides _ _ D), (hides_entries _ _ (proj2 verifier_hides) _ _ V), (hides_entries _ _ (proj2 agg_hides) _ _ A).
    now rewrite H1, H2, K1, K2, K3, K4, K5, K6, K7, K8, K9, K10, K11.
Qed.
Lemma rc_hides : hides like_rc rc_debug /\ hides like_rc rc_display.
Proof. split; intros x x' (H1 & H2 & H3 & _ & H4); unfold rc_debug, rc_display; now rewrite H1, H2, H3, H4. Qed.
Lemma cc_hides : hides like_cc cc_debug /\ hides like_cc cc_display.
Proof.
  split; intros x x' (H1 & H2 & L & H4); unfold cc_debug, cc_display.
  - now rewrite H1, H2, H4, (proj1 rdeal_hides _ _ L).
  - now rewrite H1, H2, H4, (proj2 rdeal_hides _ _ L).
Qed.
Lemma rdkg_hides : hides like_rdkg rdkg_debug /\ hides like_rdkg rdkg_display.
Proof.
  split; intros x x' (H1 & H2 & H3 & H4 & D & V & H5 & P & H6); unfold rdkg_debug, rdkg_display.
  - rewrite (proj1 rdealer_hides _ _ D), (hides_dmap _ _ (proj1 rverifier_hides) _ _ V), (hides_dmap _ _ (hides_list _ _ (proj1 rc_hides)) _ _ P).
    now rewrite H1, H2, H3, H4, H5, H6.
  - assert (L : hides (each like_rc) (fun l => "[" ++ join ", " (map rc_display l) ++ "]")).
    { intros l l' F. now rewrite (hides_map _ _ (proj2 rc_hides) l l' F). }
    rewrite (proj2 rdealer_hides _ _ D), (hides_entries _ _ (proj2 rverifier_hides) _ _ V), (hides_entries _ _ L _ _ P).
    now rewrite H1, H2, H3, H4, H5, H6.
Qed.
Theorem C95_pedersen_keys {R : Type} :
  hides like_dks dks_debug /\ hides like_dks dks_display /\ hides (@like_config R) config_debug /\ hides (@like_config R) config_display /\
  hides (@like_dkg R) dkg_debug /\ hides (@like_dkg R) dkg_display /\
  hides (like_idx (like_just like_deal)) (idx_debug "Justification" "justification" (just_debug deal_debug)) /\
  hides (like_idx (like_just like_deal)) (idx_display "Justification" "justification" (just_display deal_display)).
Proof.
  exact (conj (proj1 dks_hides) (conj (proj2 dks_hides) (conj (proj1 config_hides) (conj (proj2 config_hides) (conj (proj1 dkg_hides) (conj (proj2 dkg_hides)
    (conj (proj1 (idx_hides _ _ _ _ (proj1 (just_hides _ _ (proj1 deal_hides))))) (proj2 (idx_hides _ _ _ _ (proj2 (just_hides _ _ (proj2 deal_hides)))))))))))).
Qed.
Print Assumptions C95_pedersen_keys.
Theorem C95_rabin_keys :
  hides like_rdks rdks_debug /\ hides like_rdks rdks_display /\ hides like_cc cc_debug /\ hides like_cc cc_display /\ hides like_rc rc_debug /\ hides like_rc rc_display /\
  hides like_rdkg rdkg_debug /\ hides like_rdkg rdkg_display /\
  hides (like_idx (like_just like_rdeal)) (idx_debug "Justification" "justification" (just_debug rdeal_debug)) /\
  hides (like_idx (like_just like_rdeal)) (idx_display "Justification" "justification" (just_display rdeal_display)).
Proof.
  exact (conj (proj1 rdks_hides) (conj (proj2 rdks_hides) (conj (proj1 cc_hides) (conj (proj2 cc_hides) (conj (proj1 rc_hides) (conj (proj2 rc_hides) (conj (proj1 rdkg_hides)
    (conj (proj2 rdkg_hides) (conj (proj1 (idx_hides _ _ _ _ (proj1 (just_hides _ _ (proj1 rdeal_hides))))) (proj2 (idx_hides _ _ _ _ (proj2 (just_hides _ _ (proj2 rdeal_hides)))))))))))))).
Qed.
Print Assumptions C95_rabin_keys.
(** Signing sessions (whatever the two key shares are), partial signatures, key pairs. *)
Theorem C95_signing {K} : hides (@like_dss K (fun _ _ => True)) dss_debug /\ hides (@like_dss K (fun _ _ => True)) dss_display /\ hides like_psig psig_debug /\
  hides like_keypair keypair_debug /\ hides like_keypair keypair_display.
Proof.
  split; [|split; [|split; [|split]]].
  - intros x x' (H1 & H2 & H3 & H4 & _ & _ & H5 & H6 & H7 & L & H8 & H9 & H10). unfold dss_debug.
    now rewrite H1, H2, H3, H4, H5, H6, H7, H8, H9, H10, (hides_list _ _ (hides_opt _ _ (proj1 C95_shares)) _ _ L).
  - intros x x' (H1 & H2 & H3 & H4 & _ & _ & H5 & H6 & H7 & L & H8 & H9 & H10). unfold dss_display.
    now rewrite H1, H2, H3, H4, H5, H6, H7, H8, H9, H10, (hides_map _ _ (hides_opt _ _ (proj1 (proj2 C95_shares))) _ _ L).
  - intros x x' (L & H1 & H2). unfold psig_debug. now rewrite H1, H2, (proj1 C95_shares _ _ L).
  - intros x x' H. unfold keypair_debug. now rewrite H.
  - intros x x' H. unfold keypair_display. now rewrite H.
Qed.
Print Assumptions C95_signing.

(** *** The exceptions *)

Lemma app_as (a b c : string) : (a ++ b) ++ c = a ++ b ++ c.
Proof. induction a as [|x a IH]; [reflexivity|]. cbn. now rewrite IH. Qed.
Lemma app_nil (a : string) : a ++ "" = a.
Proof. induction a as [|x a IH]; [reflexivity|]. cbn. now rewrite IH. Qed.
(** A string without the character [c]. *)
Fixpoint free (c : ascii) (s : string) : bool := match s with EmptyString => true | String x r => negb (Ascii.eqb x c) && free c r end.
Lemma free_split c s s' r r' : free c s = true -> free c s' = true -> s ++ String c r = s' ++ String c r' -> s = s' /\ r = r'.
Proof.
  revert s'. induction s as [|x s IH]; intros [|y s'] F F'; cbn [append free] in *.
  - intros [= ->]. now split.
  - intros [= <- _]. rewrite Ascii.eqb_refl in F'. discriminate F'.
  - intros [= -> _]. rewrite Ascii.eqb_refl in F. discriminate F.
  - intros [= -> E]. apply andb_true_iff in F as [_ F], F' as [_ F']. destruct (IH _ F F' E) as [-> ->]. now split.
Qed.
Lemma free_app c s r : free c (s ++ r) = free c s && free c r.
Proof. induction s as [|x s IH]; [reflexivity|]. cbn [append free]. now rewrite IH, andb_assoc. Qed.
Lemma free_cut c s s' r : free c s = true -> s = s' ++ String c r -> False.
Proof. intros F ->. rewrite free_app in F. cbn [free] in F. rewrite Ascii.eqb_refl, andb_false_r in F. discriminate F. Qed.

(** The separators do not occur in numbers. *)
Lemma uint_free c d : (forall k, (k < 10)%nat -> Ascii.eqb (ascii_of_nat (48 + k)) c = false) -> free c (NilEmpty.string_of_uint d) = true.
Proof.
  intros H. induction d as [|d IH|d IH|d IH|d IH|d IH|d IH|d IH|d IH|d IH|d IH]; [reflexivity|..]; cbn [NilEmpty.string_of_uint free]; rewrite IH, andb_true_r, negb_true_iff.
  - exact (H 0%nat ltac:(lia)). - exact (H 1%nat ltac:(lia)). - exact (H 2%nat ltac:(lia)). - exact (H 3%nat ltac:(lia)). - exact (H 4%nat ltac:(lia)).
  - exact (H 5%nat ltac:(lia)). - exact (H 6%nat ltac:(lia)). - exact (H 7%nat ltac:(lia)). - exact (H 8%nat ltac:(lia)). - exact (H 9%nat ltac:(lia)).
Qed.
Lemma dec_free c v : (forall k, (k < 10)%nat -> Ascii.eqb (ascii_of_nat (48 + k)) c = false) -> Ascii.eqb "-" c = false -> free c (dec v) = true.
Proof.
  intros H N. assert (U : forall d, free c (NilZero.string_of_uint d) = true).
  { intros d. destruct d; try exact (uint_free c _ H). cbn [NilZero.string_of_uint free]. rewrite andb_true_r, negb_true_iff. exact (H 0%nat ltac:(lia)). }
  unfold dec, NilZero.string_of_int. destruct (Z.to_int v); [apply U|]. cbn [free]. now rewrite N, U.
Qed.
Lemma digits_not c : Ascii.eqb c "," = true \/ Ascii.eqb c "]" = true -> forall k, (k < 10)%nat -> Ascii.eqb (ascii_of_nat (48 + k)) c = false.
Proof.
  intros H k Hk. assert (E : c = ","%char \/ c = "]"%char) by (destruct H as [H|H]; [left|right]; now apply Ascii.eqb_eq).
  do 10 (destruct k as [|k]; [destruct E as [-> | ->]; reflexivity|]). lia.
Qed.
Lemma dec_inj v v' : dec v = dec v' -> v = v'.
Proof.
  unfold dec. intros E. assert (N : forall z, Z.to_int z <> Decimal.Pos Decimal.Nil /\ Z.to_int z <> Decimal.Neg Decimal.Nil).
  { intros [|p|p]; cbn [Z.to_int]; split; try discriminate; intros [= X]; exact (Unsigned.to_uint_nonnil _ X). }
  pose proof (NilZero.isi _ (proj1 (N v)) (proj2 (N v))) as A. rewrite E, (NilZero.isi _ (proj1 (N v')) (proj2 (N v'))) in A.
  injection A as A. now apply to_int_inj.
Qed.
Lemma dec_pos v : dec v <> "".
Proof. unfold dec, NilZero.string_of_int. destruct (Z.to_int v) as [d|d]; [|discriminate]. destruct d; discriminate. Qed.
Lemma join_cons sep a b l : join sep (a :: b :: l) = a ++ sep ++ join sep (b :: l).
Proof. reflexivity. Qed.
Lemma join_free l : free "]" (join ", " (map dec l)) = true.
Proof.
  induction l as [|a [|b l] IH]; [reflexivity|exact (dec_free _ _ (digits_not "]" (or_intror eq_refl)) eq_refl)|].
  cbn [map]. rewrite join_cons, !free_app. cbn [map] in IH. rewrite IH, (dec_free _ _ (digits_not "]" (or_intror eq_refl)) eq_refl). reflexivity.
Qed.
Lemma join_inj l l' : join ", " (map dec l) = join ", " (map dec l') -> l = l'.
Proof.
  assert (C : forall v, free "," (dec v) = true) by (intros v; exact (dec_free _ _ (digits_not "," (or_introl eq_refl)) eq_refl)).
  revert l'. induction l as [|a l IH]; intros l'.
  - destruct l' as [|b [|c l']]; [reflexivity| |]; intros E.
    + exfalso. exact (dec_pos b (eq_sym E)).
    + exfalso. cbn [map] in E. rewrite join_cons in E. pose proof (dec_pos b). destruct (dec b); [congruence|discriminate E].
  - destruct l as [|a2 l].
    + destruct l' as [|b [|c l']]; intros E.
      * exfalso. exact (dec_pos a E).
      * cbn in E. now rewrite (dec_inj _ _ E).
      * exfalso. cbn [map] in E. rewrite join_cons in E. exact (free_cut "," _ _ _ (C a) E).
    + destruct l' as [|b [|c l']]; intros E.
      * exfalso. cbn [map] in E. rewrite join_cons in E. pose proof (dec_pos a). destruct (dec a); [congruence|discriminate E].
      * exfalso. cbn [map] in E. rewrite join_cons in E. exact (free_cut "," _ _ _ (C b) (eq_sym E)).
      * cbn [map] in E. rewrite !join_cons in E. destruct (free_split _ _ _ _ _ (C a) (C b) E) as [E1 E2]. injection E2 as E2.
        change (join ", " (map dec (a2 :: l)) = join ", " (map dec (c :: l'))) in E2. now rewrite (dec_inj _ _ E1), (IH _ E2).
Qed.
Lemma dbytes_split l l' r r' : dbytes l ++ r = dbytes l' ++ r' -> l = l' /\ r = r'.
Proof.
  unfold dbytes, dlist. rewrite !app_as. cbn [append]. intros [= E].
  destruct (free_split _ _ _ _ _ (join_free l) (join_free l') E) as [E1 E2]. split; [exact (join_inj _ _ E1)|exact E2].
Qed.
Lemma app_inv (a b c : string) : a ++ b = a ++ c -> b = c.
Proof. induction a as [|x a IH]; [trivial|]. cbn. intros [= E]. exact (IH E). Qed.

Lemma point_debug_eq p r : point_debug p ++ r = "Point { ge: ExtendedGroupElement { x: " ++ dbytes (ge_x (p_ge p)) ++ ", y: " ++ dbytes (ge_y (p_ge p)) ++
  ", z: " ++ dbytes (ge_z (p_ge p)) ++ ", t: " ++ dbytes (ge_t (p_ge p)) ++ " }, var_time: " ++ fbool (p_vt p) ++ " }" ++ r.
Proof. unfold point_debug, ext_debug, dstruct, join. cbn [map fst snd String.concat]. rewrite !app_as. reflexivity. Qed.
Lemma point_debug_split p p' r r' : point_debug p ++ r = point_debug p' ++ r' -> p = p' /\ r = r'.
Proof.
  rewrite !point_debug_eq. intros E. apply app_inv in E. apply dbytes_split in E as [E1 E]. apply app_inv in E. apply dbytes_split in E as [E2 E].
  apply app_inv in E. apply dbytes_split in E as [E3 E]. apply app_inv in E. apply dbytes_split in E as [E4 E]. apply app_inv in E.
  destruct p as [[x y z t] v], p' as [[x' y' z' t'] v']. cbn [p_ge p_vt ge_x ge_y ge_z ge_t] in *. subst x' y' z' t'.
  destruct v, v'; cbn [fbool append] in E; try discriminate E; injection E as E; now split.
Qed.
Lemma eddsa_debug_eq k : eddsa_debug k = "EdDSA { secret: Scalar { v: " ++ dbytes (wed_secret k) ++ " }, public: " ++ point_debug (wed_public k) ++
  ", seed: " ++ dbytes (wed_seed k) ++ ", prefix: " ++ dbytes (wed_prefix k) ++ " }".
Proof. unfold eddsa_debug, scalar_debug, dstruct, join. cbn [map fst snd String.concat]. rewrite !app_as. reflexivity. Qed.

(** Full statement: printing an [EdDSA] key hides its private part too.  It does not: the derived [Debug] prints all fields,
    and the private key, the seed and the prefix can be read off the text. *)
Theorem C95_eddsa_refuted : (exists k k', wf_eddsa k /\ wf_eddsa k' /\ like_eddsa k k' /\ eddsa_debug k <> eddsa_debug k') /\
  forall k k', eddsa_debug k = eddsa_debug k' -> wed_secret k = wed_secret k' /\ wed_seed k = wed_seed k' /\ wed_prefix k = wed_prefix k'.
Proof.
  assert (I : forall k k', eddsa_debug k = eddsa_debug k' -> wed_secret k = wed_secret k' /\ wed_seed k = wed_seed k' /\ wed_prefix k = wed_prefix k').
  { intros k k'. rewrite !eddsa_debug_eq. intros E. apply app_inv in E. apply dbytes_split in E as [E1 E]. apply app_inv in E.
    apply point_debug_split in E as [_ E]. apply app_inv in E. apply dbytes_split in E as [E2 E]. apply app_inv in E. apply dbytes_split in E as [E3 _].
    now repeat split. }
  split; [|exact I].
  exists (WEddsa (le_bytes 32 1) (point_base point_default) (repeat 7 32) (repeat 8 32)), (WEddsa (le_bytes 32 2) (point_base point_default) (repeat 7 32) (repeat 8 32)).
  assert (W : forall s, wf_scalar s -> wf_eddsa (WEddsa s (point_base point_default) (repeat 7 32) (repeat 8 32))).
  { intros s Ws. split; [exact Ws|]. split; [exact (repr_wf _ _ (base_ok _))|]. split; (split; [reflexivity|]); apply Forall_forall; intros x Hx; apply repeat_spec in Hx; subst; unfold is_byte; lia. }
  assert (S : forall v, wf_scalar (le_bytes 32 v)) by (intros v; split; [now rewrite le_bytes_length|apply le_bytes_bytes]).
  split; [exact (W _ (S 1))|]. split; [exact (W _ (S 2))|]. split; [reflexivity|]. intros E. pose proof (proj1 (I _ _ E)) as X. clear - X. cbn in X. discriminate X.
Qed.
Print Assumptions C95_eddsa_refuted.

(** ** C96: the text of a number or point determines it *)

(** The crate hex's [decode]: pairs of hexadecimal digits of either case. *)
Definition unhex_digit (c : ascii) : option Z :=
  let n := Z.of_N (N_of_ascii c) in
  (if (48 <=? n) && (n <? 58) then Some (n - 48) else if (97 <=? n) && (n <? 103) then Some (n - 87) else
   if (65 <=? n) && (n <? 71) then Some (n - 55) else None)%Z.
Fixpoint unhex (s : string) : option (list Z) :=
  match s with
  | EmptyString => Some []
  | String a (String b r) =>
      match unhex_digit a, unhex_digit b, unhex r with Some x, Some y, Some l => Some ((16 * x + y)%Z :: l) | _, _, _ => None end
  | String _ EmptyString => None
  end.
(** [BigInt::from_str_radix] in base 16 on a text of digits only. *)
Fixpoint radix16 (acc : Z) (s : string) : option Z :=
  match s with
  | EmptyString => Some acc
  | String a r => match unhex_digit a with Some x => radix16 (16 * acc + x)%Z r | None => None end
  end.

Lemma unhex_hex u d : (0 <= d < 16)%Z -> unhex_digit (hex_digit u d) = Some d.
Proof.
  intros H. assert (E : (d = 0 \/ d = 1 \/ d = 2 \/ d = 3 \/ d = 4 \/ d = 5 \/ d = 6 \/ d = 7 \/ d = 8 \/ d = 9 \/ d = 10 \/ d = 11 \/ d = 12 \/ d = 13 \/ d = 14 \/ d = 15)%Z) by lia.
  destruct u; repeat (destruct E as [-> | E]; [reflexivity|]); rewrite E; reflexivity.
Qed.
Lemma byte_split b : (0 <= b < 256)%Z -> (0 <= b / 16 < 16 /\ 0 <= b mod 16 < 16 /\ 16 * (b / 16) + b mod 16 = b)%Z.
Proof. intros H. pose proof (Z.div_mod b 16 ltac:(lia)). pose proof (Z.mod_pos_bound b 16 ltac:(lia)). lia. Qed.
Lemma unhex_of u l : bytes l -> unhex (hex_of u l) = Some l.
Proof.
  induction l as [|b l IH]; intros H; [reflexivity|]. cbn [hex_of unhex]. destruct (byte_split b (Forall_inv H)) as [H1 [H2 E]].
  rewrite (unhex_hex u _ H1), (unhex_hex u _ H2), (IH (Forall_inv_tail H)), E. reflexivity.
Qed.
Lemma radix16_of u l acc : bytes l -> radix16 acc (hex_of u l) = Some (acc * 256 ^ Z.of_nat (List.length l) + be_val l)%Z.
Proof.
  revert acc. induction l as [|b l IH]; intros acc H.
  - cbn [hex_of radix16 List.length]. unfold be_val. cbn. f_equal. lia.
  - cbn [hex_of radix16]. destruct (byte_split b (Forall_inv H)) as [H1 [H2 E]]. rewrite (unhex_hex u _ H1), (unhex_hex u _ H2), (IH _ (Forall_inv_tail H)).
    f_equal. unfold be_val. cbn [rev List.length]. rewrite le_val_app, rev_length. cbn [le_val]. rewrite Nat2Z.inj_succ, Z.pow_succ_r by lia. nia.
Qed.
Lemma hex_inj u l l' : bytes l -> bytes l' -> hex_of u l = hex_of u l' -> l = l'.
Proof. intros H H' E. pose proof (unhex_of u l H) as A. rewrite E, (unhex_of u l' H') in A. now injection A. Qed.
Lemma hex_free u c l : (forall d, (0 <= d < 16)%Z -> Ascii.eqb (hex_digit u d) c = false) -> bytes l -> free c (hex_of u l) = true.
Proof.
  intros D. induction l as [|b l IH]; intros H; [reflexivity|]. cbn [hex_of free]. destruct (byte_split b (Forall_inv H)) as [H1 [H2 _]].
  rewrite (D _ H1), (D _ H2), (IH (Forall_inv_tail H)). reflexivity.
Qed.

(** The hexadecimal form of a scalar is its 32 bytes, from which it is read back; equal scalars print alike and only they. *)
Theorem C96_scalars (v v' : list Z) (upper : bool) : wf_scalar v -> wf_scalar v' ->
  (exists b, unhex (scalar_hex upper false v) = Some b /\ forall recv, scalar_unmarshal recv b = (Ok tt, v)) /\
  (scalar_display v = scalar_display v' <-> scalar_eq v v' = true).
Proof.
  intros [L B] [L' B']. split.
  - exists v. split; [exact (unhex_of upper v B)|]. intros recv. unfold scalar_unmarshal. rewrite L. reflexivity.
  - unfold scalar_eq. destruct (list_eq_dec Z.eq_dec v v') as [->|N]; [now split|]. split; [|discriminate]. intros E. exfalso. apply N.
    unfold scalar_display, scalar_hex in E. rewrite !app_as in E. cbn [append] in E. injection E as E.
    assert (D : forall d, (0 <= d < 16)%Z -> Ascii.eqb (hex_digit false d) ")" = false).
    { intros d Hd. assert (X : (d = 0 \/ d = 1 \/ d = 2 \/ d = 3 \/ d = 4 \/ d = 5 \/ d = 6 \/ d = 7 \/ d = 8 \/ d = 9 \/ d = 10 \/ d = 11 \/ d = 12 \/ d = 13 \/ d = 14 \/ d = 15)%Z) by lia.
      repeat (destruct X as [-> | X]; [reflexivity|]); rewrite X; reflexivity. }
    exact (hex_inj false _ _ B B' (proj1 (free_split ")" _ _ _ _ (hex_free _ _ _ D B) (hex_free _ _ _ D B') E))).
Qed.
Print Assumptions C96_scalars.

(** The hexadecimal form of a point is its encoding, from which it is read back; equal points print alike and only they,
    whatever their coordinates. *)
Theorem C96_points (p q : point) (P Q : epoint) (upper : bool) : repr p P -> repr q Q ->
  (exists b, unhex (point_hex upper false p) = Some b /\ forall self, exists r, point_unmarshal self b = (Ok tt, r) /\ repr r P) /\
  (point_display p = point_display q <-> P = Q).
Proof.
  intros HP HQ.
  assert (B : forall x X, repr x X -> bytes (ext_write_bytes (p_ge x))).
  { intros x X HX. change (bytes (point_marshal x)). rewrite (marshal_ok x X HX). exact (enc_bytes X). }
  split.
  - exists (point_marshal p). split; [exact (unhex_of upper _ (B p P HP))|]. intros self.
    destruct (C35_round_trip self p P HP) as [r [H1 [H2 _]]]. exists r. split; [exact H1|exact H2].
  - rewrite <- (proj2 (C35_equality p q P Q HP HQ)). unfold point_display, point_hex, point_marshal. split; [|intros E; rewrite E; reflexivity].
    intros E. pose proof (B p P HP) as Bp. pose proof (B q Q HQ) as Bq. clear B HP HQ. revert E Bp Bq.
    generalize (ext_write_bytes (p_ge p)) as a, (ext_write_bytes (p_ge q)) as b. clear. intros a b E Bp Bq.
    rewrite !app_as in E. cbn [append] in E. injection E as E.
    assert (D : forall d, (0 <= d < 16)%Z -> Ascii.eqb (hex_digit false d) ")" = false).
    { intros d Hd. assert (X : (d = 0 \/ d = 1 \/ d = 2 \/ d = 3 \/ d = 4 \/ d = 5 \/ d = 6 \/ d = 7 \/ d = 8 \/ d = 9 \/ d = 10 \/ d = 11 \/ d = 12 \/ d = 13 \/ d = 14 \/ d = 15)%Z) by lia.
      repeat (destruct X as [-> | X]; [reflexivity|]); rewrite X; reflexivity. }
    exact (hex_inj false _ _ Bp Bq (proj1 (free_split ")" _ _ _ _ (hex_free _ _ _ D Bp) (hex_free _ _ _ D Bq) E))).
Qed.
Print Assumptions C96_points.

(** The hexadecimal form of a non-negative [Int] is read back by [set_string] in base 16; two of them print alike exactly when
    they are equal. *)
Theorem C96_ints_partial (i j : Int) (upper : bool) : (0 <= iv i)%Z -> (0 <= iv j)%Z ->
  set_string j (radix16 0 (int_hex upper false i)) None = Ok (mkInt (iv i) (im j) (ibo j)) /\
  (int_hex upper true i = int_hex upper true j <-> iv i = iv j).
Proof.
  intros Hi Hj. assert (R : forall u k, (0 <= iv k)%Z -> radix16 0 (int_hex u false k) = Some (iv k)).
  { intros u k Hk. unfold int_hex. cbn [append]. rewrite (radix16_of _ _ _ (to_bytes_be_bytes _)), to_bytes_be_val, Z.abs_eq by exact Hk. f_equal. }
  split; [now rewrite (R upper i Hi)|]. unfold int_hex. split; [|intros ->; reflexivity]. intros E. apply app_inv in E.
  apply (f_equal (radix16 0)) in E. pose proof (R upper i Hi) as A. pose proof (R upper j Hj) as A'. unfold int_hex in A, A'. cbn [append] in A, A'.
  rewrite A, A' in E. now injection E.
Qed.
Print Assumptions C96_ints_partial.
(** Full statement: for every [Int].  The sign is dropped: [set_string] accepts "-5", and the value is printed like 5. *)
Theorem C96_ints_refuted : exists i j : Int,
  set_string (mkInt 0 7 BigEndian) (Some (-5)%Z) None = Ok i /\ set_string (mkInt 0 7 BigEndian) (Some 5%Z) None = Ok j /\
  iv i <> iv j /\ forall upper alt, int_hex upper alt i = int_hex upper alt j.
Proof.
  exists (mkInt (-5) 7 BigEndian), (mkInt 5 7 BigEndian). split; [reflexivity|]. split; [reflexivity|]. split; [discriminate|]. intros [|] [|]; reflexivity.
Qed.
Print Assumptions C96_ints_refuted.
(** [Debug] of points shows coordinates: equal points are printed differently. *)
Theorem C96_debug_refuted : exists p q : point, point_eqb p q = true /\ point_display p = point_display q /\ point_debug p <> point_debug q.
Proof.
  pose proof (base_ok point_default) as H1.
  destruct C81_refuted as [p [q [Ep [Eq' [E N]]]]]. destruct (C35_round_trip point_default p ebase) as [q' [U [HQ _]]]; [rewrite Ep; exact H1|].
  assert (q' = q) by congruence. subst q'.
  exists p, q. split; [exact E|]. split.
  - apply (C96_points p q ebase ebase false); [rewrite Ep; exact H1|exact HQ|reflexivity].
  - intros D. apply N. assert (X : p = q).
    { apply (f_equal (fun s => s ++ "")) in D. exact (proj1 (point_debug_split _ _ _ _ D)). }
    apply (cmp_eq p q ebase ebase); [rewrite Ep; exact H1|exact HQ|exact X].
Qed.
Print Assumptions C96_debug_refuted.

(** [PriPoly::string] is the one text form of a polynomial that shows its coefficients. *)
Theorem C96_pripoly_string (c c' : list (list Z)) : Forall wf_scalar c -> Forall wf_scalar c' -> pripoly_string c = pripoly_string c' -> c = c'.
Proof.
  assert (D : forall d, (0 <= d < 16)%Z -> Ascii.eqb (hex_digit false d) ")" = false).
  { intros d Hd. assert (X : (d = 0 \/ d = 1 \/ d = 2 \/ d = 3 \/ d = 4 \/ d = 5 \/ d = 6 \/ d = 7 \/ d = 8 \/ d = 9 \/ d = 10 \/ d = 11 \/ d = 12 \/ d = 13 \/ d = 14 \/ d = 15)%Z) by lia.
    repeat (destruct X as [-> | X]; [reflexivity|]); rewrite X; reflexivity. }
  assert (S : forall v v' r r', wf_scalar v -> wf_scalar v' -> scalar_display v ++ r = scalar_display v' ++ r' -> v = v' /\ r = r').
  { intros v v' r r' [L B] [L' B'] E. unfold scalar_display, scalar_hex in E. rewrite !app_as in E. cbn [append] in E. injection E as E.
    destruct (free_split ")" _ _ _ _ (hex_free _ _ _ D B) (hex_free _ _ _ D B') E) as [E1 E2]. split; [exact (hex_inj false _ _ B B' E1)|exact E2]. }
  intros F F' E. unfold pripoly_string in E. apply app_inv in E. revert c' F' E. induction F as [|v c Wv F IH]; intros [|v' c'] F' E.
  - reflexivity.
  - exfalso. destruct c'; discriminate E.
  - exfalso. destruct c; discriminate E.
  - assert (Wv' := Forall_inv F'). assert (Fc' := Forall_inv_tail F'). destruct c as [|w c]; destruct c' as [|w' c']; cbn [map] in E.
    + destruct (S _ _ _ _ Wv Wv' E) as [-> _]. reflexivity.
    + rewrite join_cons, app_as in E. destruct (S _ _ _ _ Wv Wv' E) as [_ X]. discriminate X.
    + rewrite join_cons, app_as in E. destruct (S _ _ _ _ Wv Wv' E) as [_ X]. discriminate X.
    + rewrite !join_cons, !app_as in E. destruct (S _ _ _ _ Wv Wv' E) as [-> X]. f_equal. apply (IH _ Fc'). injection X as X. exact X.
Qed.
Print Assumptions C96_pripoly_string.

(** *** Examples *)

(** Two key generators with different keys, secrets, shares and entropy print the same, and something. *)
Definition ex_dkg2 : s_dkg Z :=
  SDkg (SConfig (le_bytes 32 55) [] (Some [point_base point_default]) [] (Some (WDks [] (WPriShare 1 (le_bytes 32 33)) [le_bytes 32 22])) 2 0 (Some 201%Z) true)
    (le_bytes 32 55) (point_base point_default) (SPubPoly None [])
    (SDealer (le_bytes 32 55) (point_base point_default) (le_bytes 32 66) [point_base point_default] [le_bytes 32 66; le_bytes 32 99] [] [4%Z] 2 [1%Z; 2%Z]
      [ex_deal; WDeal (wd_sid ex_deal) (WPriShare (wps_i (wd_share ex_deal)) (le_bytes 32 78)) (wd_t ex_deal) (wd_commits ex_deal)] ex_agg)
    [(1%Z, SVerifier (le_bytes 32 55) (point_base point_default) (point_base point_default) 1 [] [4%Z] None);
     (0%Z, SVerifier (le_bytes 32 55) (point_base point_default) (point_base point_default) 1 [] [4%Z] (Some ex_agg))]
    [] 0 1 0 2 false true true true false true false.
Example C95_nonvacuous : like_dkg ex_dkg ex_dkg2 /\ ex_dkg <> ex_dkg2 /\
  String.prefix "DistKeyGenerator { c: Config { suite: SuiteEd25519 { curve: Curve }, old_nodes: [], public_coeffs: Some([Point { ge: " (dkg_debug ex_dkg) = true.
Proof.
  assert (LD : forall d v, like_deal d (WDeal (wd_sid d) (WPriShare (wps_i (wd_share d)) v) (wd_t d) (wd_commits d))) by (intros d v; repeat split).
  assert (LD' : forall d, like_deal d d) by (intros d; repeat split).
  assert (LA : like_agg ex_agg ex_agg) by (repeat split).
  split; [|split].
  - split; [repeat split|]. split; [reflexivity|]. split; [reflexivity|]. split.
    { do 7 (split; [reflexivity|]). split; [constructor; [apply LD'|constructor; [apply LD|constructor]]|exact LA]. }
    split; [constructor; [repeat split|constructor; [|constructor]]; split; [reflexivity|]; do 5 (split; [reflexivity|]); exact LA|].
    split; [constructor|]. repeat split.
  - intros E. apply (f_equal (fun g => sc_reader (sg_c g))) in E. discriminate E.
  - vm_compute. reflexivity.
Qed.
Example C96_nonvacuous : point_display (point_base point_default) = "Ed25519Point(0x5866666666666666666666666666666666666666666666666666666666666666)" /\
  scalar_display (le_bytes 32 258) = "Ed25519Scalar(0x0201000000000000000000000000000000000000000000000000000000000000)" /\
  int_hex true true (mkInt 48879 65537 BigEndian) = "0XBEEF" /\ int_hex false true (mkInt 0 7 BigEndian) = "0x00" /\
  deal_display (WDeal [171%Z] (WPriShare 3 (le_bytes 32 9)) 2 []) = "Deal( session_id: 0xab, threshold: 2,) commitments: [] )" /\
  point_debug point_default = "Point { ge: ExtendedGroupElement { x: [0, 0, 0, 0, 0, 0, 0, 0, 0, 0], y: [0, 0, 0, 0, 0, 0, 0, 0, 0, 0], z: [0, 0, 0, 0, 0, 0, 0, 0, 0, 0], t: [0, 0, 0, 0, 0, 0, 0, 0, 0, 0] }, var_time: false }".
Proof.
  split; [unfold point_display, point_hex; change (ext_write_bytes (p_ge (point_base point_default))) with (point_marshal (point_base point_default));
    rewrite (marshal_ok _ _ (base_ok point_default)); vm_compute; reflexivity|].
  split; [vm_compute; reflexivity|]. split; [vm_compute; reflexivity|]. split; [vm_compute; reflexivity|]. split; [vm_compute; reflexivity|]. vm_compute; reflexivity.
Qed.
