(** C116: how long the messages are. *)
From Coq Require Import ZArith List Bool Lia.
From Verif Require Import Base Bytes Limb RandModel ScModel FeModel GeModel PointModel EdModel EdSpec ToyCurve EciesModel PropsEcies WireModel WireProofs.
Import ListNotations.
Local Open Scope nat_scope.

(** The sizes of the parts, in bytes: a scalar 32, a point 161 (four coordinates of ten i32 limbs and a flag), a usize 8, a u32 4,
    a [Vec] 8 and its elements. *)
Lemma len_uint n v : length (c_enc (cod_uint n) v) = n.
Proof. apply le_bytes_length. Qed.
Lemma len_flat {A} (c : codec A) (k : nat) (w : A -> Prop) : (forall a, w a -> length (c_enc c a) = k) ->
  forall l, Forall w l -> length (flat_map (c_enc c) l) = length l * k.
Proof. intros H l Hl. induction Hl as [|a l Ha _ IH]; [reflexivity|]. cbn [flat_map length]. rewrite app_length, IH, (H a Ha). lia. Qed.
Lemma len_pair {A B} (ca : codec A) (cb : codec B) a b : length (c_enc (cod_pair ca cb) (a, b)) = length (c_enc ca a) + length (c_enc cb b).
Proof. cbn [cod_pair c_enc fst snd]. apply app_length. Qed.
Lemma len_bytes l : length (c_enc cod_bytes l) = 8 + length l.
Proof.
  unfold cod_bytes, cod_vec. cbn [c_enc]. rewrite app_length, le_bytes_length. f_equal.
  rewrite (len_flat cod_u8 1 (fun _ => True) (fun a _ => len_uint 1 a)); [lia|]. apply Forall_forall. auto.
Qed.
Lemma len_scalar v : wf_scalar v -> length (c_enc cod_scalar v) = 32.
Proof.
  intros [L _]. unfold cod_scalar, cod_array. cbn [c_enc]. rewrite (len_flat cod_u8 1 (fun _ => True) (fun a _ => len_uint 1 a)); [lia|]. apply Forall_forall. auto.
Qed.
Lemma len_fe v : wf_fe v -> length (c_enc cod_fe v) = 40.
Proof.
  intros [L _]. unfold cod_fe, cod_array. cbn [c_enc]. rewrite (len_flat cod_i32 4 (fun _ => True)); [lia| |apply Forall_forall; auto].
  intros a _. apply (le_bytes_length 4).
Qed.
Lemma len_point p : wf_point p -> length (c_enc cod_point p) = 161.
Proof.
  intros [Hx [Hy [Hz Ht]]]. unfold cod_point, cod_map. cbn [c_enc]. rewrite len_pair. unfold cod_ext, cod_map. cbn [c_enc].
  rewrite !len_pair, !len_fe by assumption. reflexivity.
Qed.
Lemma len_points l : wf_points l -> length (c_enc cod_points l) = 8 + 161 * length l.
Proof.
  intros [_ H]. unfold cod_points, cod_vec. cbn [c_enc]. rewrite app_length, le_bytes_length, (len_flat cod_point 161 wf_point len_point l H). lia.
Qed.
Lemma len_prishare s : wf_prishare s -> length (c_enc cod_prishare s) = 40.
Proof. intros [_ H]. unfold cod_prishare, cod_map. cbn [c_enc]. rewrite len_pair, (len_scalar _ H). unfold cod_usize. rewrite len_uint. reflexivity. Qed.
Lemma len_deal d : wf_deal d -> length (c_enc cod_deal d) = 64 + length (wd_sid d) + 161 * length (wd_commits d).
Proof.
  intros [_ [Hs [_ Hc]]]. unfold cod_deal, cod_map. cbn [c_enc]. rewrite !len_pair, len_bytes, (len_prishare _ Hs), (len_points _ Hc). unfold cod_usize. rewrite len_uint. lia.
Qed.
Lemma len_rdeal d : wf_rdeal d -> length (c_enc cod_rdeal d) = 104 + length (wrd_sid d) + 161 * length (wrd_commits d).
Proof.
  intros [_ [Hs [Hr [_ Hc]]]]. unfold cod_rdeal, cod_map. cbn [c_enc]. rewrite !len_pair, len_bytes, (len_prishare _ Hs), (len_prishare _ Hr), (len_points _ Hc).
  unfold cod_usize. rewrite len_uint. lia.
Qed.
Lemma len_enc e : wf_enc e -> length (c_enc cod_enc e) = 185 + length (we_sig e) + length (we_nonce e) + length (we_cipher e).
Proof. intros [Hk _]. unfold cod_enc, cod_map. cbn [c_enc]. rewrite !len_pair, !len_bytes, (len_point _ Hk). lia. Qed.
Lemma len_resp r : length (c_enc cod_resp r) = 21 + length (wr_sid r) + length (wr_sig r).
Proof. unfold cod_resp, cod_map. cbn [c_enc]. rewrite !len_pair, !len_bytes. unfold cod_u32. rewrite len_uint. cbn [c_enc cod_bool length]. lia. Qed.
Lemma len_just {D} (cd : codec D) j : length (c_enc (cod_just cd) j) = 20 + length (wj_sid j) + length (c_enc cd (wj_deal j)) + length (wj_sig j).
Proof. unfold cod_just, cod_map. cbn [c_enc]. rewrite !len_pair, !len_bytes. unfold cod_u32. rewrite len_uint. lia. Qed.
Lemma len_idx {M} (cm : codec M) d : length (c_enc (cod_idx cm) d) = 4 + length (c_enc cm (wi_msg d)).
Proof. unfold cod_idx, cod_map. cbn [c_enc]. rewrite len_pair. unfold cod_u32. rewrite len_uint. lia. Qed.
Lemma len_ddeal d : wf_ddeal d -> length (c_enc cod_ddeal d) =
  197 + length (we_sig (wdd_deal d)) + length (we_nonce (wdd_deal d)) + length (we_cipher (wdd_deal d)) + length (wdd_sig d).
Proof. intros [_ [He _]]. unfold cod_ddeal, cod_map. cbn [c_enc]. rewrite !len_pair, len_bytes, (len_enc _ He). unfold cod_u32. rewrite len_uint. lia. Qed.

(** ** C116 *)

(** The number of bytes of a message is the given function of the message. *)
Definition takes {A} (c : codec A) (value : A -> Prop) (size : A -> nat) : Prop :=
  forall x b, value x -> marshal c x = Ok b -> length b = size x.
Lemma takesI {A} (c : codec A) (value : A -> Prop) size : (forall x, value x -> length (c_enc c x) = size x) -> takes c value size.
Proof. intros H x b W E. unfold marshal in E. injection E as <-. exact (H x W). Qed.

(** Secret sharing and key generation after Pedersen: only the session identifier, the number of commitments, signatures and
    ciphertexts count; the index, the share and the status do not. *)
Theorem C116_pedersen_messages :
  takes cod_prishare wf_prishare (fun _ => 40) /\
  takes cod_deal wf_deal (fun d => 64 + length (wd_sid d) + 161 * length (wd_commits d)) /\
  takes cod_ddeal wf_ddeal (fun d => 197 + length (we_sig (wdd_deal d)) + length (we_nonce (wdd_deal d)) + length (we_cipher (wdd_deal d)) + length (wdd_sig d)) /\
  takes (cod_idx cod_resp) (wf_idx wf_resp) (fun r => 25 + length (wr_sid (wi_msg r)) + length (wr_sig (wi_msg r))) /\
  takes (cod_idx (cod_just cod_deal)) (wf_idx (wf_just wf_deal)) (fun j => 88 + length (wj_sid (wi_msg j)) + length (wd_sid (wj_deal (wi_msg j))) +
    161 * length (wd_commits (wj_deal (wi_msg j))) + length (wj_sig (wi_msg j))).
Proof.
  split; [|split; [|split; [|split]]]; apply takesI.
  - exact len_prishare.
  - exact len_deal.
  - exact len_ddeal.
  - intros r _. rewrite len_idx, len_resp. lia.
  - intros j [_ [_ [_ [Hd _]]]]. rewrite len_idx, len_just, (len_deal _ Hd). lia.
Qed.
Print Assumptions C116_pedersen_messages.

(** After Rabin. *)
Theorem C116_rabin_messages :
  takes cod_rdeal wf_rdeal (fun d => 104 + length (wrd_sid d) + 161 * length (wrd_commits d)) /\
  takes (cod_idx cod_enc) (wf_idx wf_enc) (fun d => 189 + length (we_sig (wi_msg d)) + length (we_nonce (wi_msg d)) + length (we_cipher (wi_msg d))) /\
  takes (cod_idx (cod_just cod_rdeal)) (wf_idx (wf_just wf_rdeal)) (fun j => 128 + length (wj_sid (wi_msg j)) + length (wrd_sid (wj_deal (wi_msg j))) +
    161 * length (wrd_commits (wj_deal (wi_msg j))) + length (wj_sig (wi_msg j))) /\
  takes cod_sc wf_sc (fun s => 28 + 161 * length (wsc_commits s) + length (wsc_sid s) + length (wsc_sig s)) /\
  takes cod_cc wf_cc (fun c => 120 + length (wrd_sid (wcc_deal c)) + 161 * length (wrd_commits (wcc_deal c)) + length (wcc_sig c)) /\
  takes cod_rc wf_rc (fun r => 64 + length (wrc_sid r) + length (wrc_sig r)).
Proof.
  split; [|split; [|split; [|split; [|split]]]]; apply takesI.
  - exact len_rdeal.
  - intros d [_ He]. rewrite len_idx, (len_enc _ He). lia.
  - intros j [_ [_ [_ [Hd _]]]]. rewrite len_idx, len_just, (len_rdeal _ Hd). lia.
  - intros s [_ [Hc _]]. unfold cod_sc, cod_map. cbn [c_enc]. rewrite !len_pair, !len_bytes, (len_points _ Hc). unfold cod_u32. rewrite len_uint. lia.
  - intros c [_ [_ [Hd _]]]. unfold cod_cc, cod_map. cbn [c_enc]. rewrite !len_pair, !len_bytes, (len_rdeal _ Hd). unfold cod_u32. rewrite !len_uint. lia.
  - intros r [_ [_ [_ [Hs _]]]]. unfold cod_rc, cod_map. cbn [c_enc]. rewrite !len_pair, !len_bytes, (len_prishare _ Hs). unfold cod_u32. rewrite !len_uint. lia.
Qed.
Print Assumptions C116_rabin_messages.

(** Keys and signatures: all of a fixed size, except that a partial signature carries a session identifier and a signature and a
    key generation result its commitments. *)
Theorem C116_keys :
  takes cod_scalar wf_scalar (fun _ => 32) /\ takes cod_point wf_point (fun _ => 161) /\ takes cod_keypair wf_keypair (fun _ => 193) /\
  takes cod_psig wf_psig (fun s => 56 + length (wp_sid s) + length (wp_sig s)) /\
  takes cod_dks wf_dks (fun k => 56 + 161 * length (wk_commits k) + 32 * length (wk_poly k)) /\
  takes cod_rdks wf_rdks (fun k => 48 + 161 * length (wrk_commits k)).
Proof.
  split; [|split; [|split; [|split; [|split]]]]; apply takesI.
  - exact len_scalar.
  - exact len_point.
  - intros k [Hp Hs]. unfold cod_keypair, cod_map. cbn [c_enc]. rewrite len_pair, (len_point _ Hp), (len_scalar _ Hs). reflexivity.
  - intros s [Hp _]. unfold cod_psig, cod_map. cbn [c_enc]. rewrite !len_pair, !len_bytes, (len_prishare _ Hp). lia.
  - intros k [Hc [Hs [_ Hp]]]. unfold cod_dks, cod_map. cbn [c_enc]. rewrite !len_pair, (len_points _ Hc), (len_prishare _ Hs).
    unfold cod_vec. cbn [c_enc]. rewrite app_length, le_bytes_length, (len_flat cod_scalar 32 wf_scalar len_scalar _ Hp). lia.
  - intros k [Hc Hs]. unfold cod_rdks, cod_map. cbn [c_enc]. rewrite len_pair, (len_points _ Hc), (len_prishare _ Hs). lia.
Qed.
Print Assumptions C116_keys.

(** Encryption adds the tag, and for ECIES the ephemeral point; [tag] is 16 for AES-GCM.  Hence what decrypts is exactly that much
    shorter than the ciphertext, and nothing shorter than point and tag decrypts. *)
Theorem C116_encryption (C : curve) (ok : curve_ok C) (X : aead_prims) (okX : prims_ok X) (tag : nat) :
  (forall k n a m c, aes_enc X k n a m = Some c -> length c = length m + tag) ->
  (forall pre info nonce m c, dh_encrypt C X pre info nonce m = Ok c -> length c = length m + tag) /\
  (forall St (R : stream St) fuel st public m ctx st', ecies_encrypt C X St R fuel st public m = Ok (ctx, st') -> length ctx = 32 + length m + tag) /\
  (forall private ctx m, ecies_decrypt C X private ctx = Ok m -> length ctx = 32 + length m + tag).
Proof.
  intros T. split; [|split].
  - intros pre info nonce m c. unfold dh_encrypt, aes_encrypt. rewrite (hkdf_None X okX). cbn [bindo]. rewrite (po_expand X okX). cbn [Nat.eqb negb].
    destruct (aes_enc X _ _ _ _) as [c'|] eqn:E; [|discriminate]. intros H. injection H as <-. exact (T _ _ _ _ _ E).
  - intros St R fuel st public m ctx st'. unfold ecies_encrypt. destruct (must _) as [[r s]| | |]; cbn [bindo]; try discriminate.
    unfold ecies_encrypt_with. cbv zeta. change (32 + NONCE_SIZE) with 44. rewrite (derive_44 C X okX). cbn [bindo]. rewrite (po_expand X okX). cbn [Nat.ltb Nat.leb].
    rewrite (aead_newE C X okX). cbn [bindo]. unfold aead_seal, aes_encrypt. rewrite (po_expand X okX). cbn [Nat.eqb negb].
    destruct (aes_enc X _ _ _ _) as [c|] eqn:E; cbn [bindo copy_dst]; [|discriminate]. intros H. injection H as <- _.
    rewrite app_length, (T _ _ _ _ _ E), (proj2 (co_enc C ok _)). lia.
  - intros private ctx m. unfold ecies_decrypt. destruct (Nat.ltb_spec (length ctx) 32) as [|L]; [discriminate|].
    destruct (pdec C _) as [P|]; cbn [bindo]; [|discriminate]. cbv zeta. change (32 + NONCE_SIZE) with 44. rewrite (derive_44 C X okX). cbn [bindo].
    rewrite (po_expand X okX). cbn [Nat.ltb Nat.leb]. rewrite (aead_newE C X okX). cbn [bindo]. unfold aead_open, aes_decrypt. rewrite (po_expand X okX). cbn [Nat.eqb negb].
    destruct (aes_dec X _ _ _ _) as [d|] eqn:E; cbn [bindo copy_dst]; [|discriminate]. intros H. injection H as <-.
    apply (po_enc_dec X okX) in E. apply T in E. rewrite skipn_length in E. lia.
Qed.
Print Assumptions C116_encryption.

(** *** Examples *)
(** Two complaint messages that differ in index, share values, threshold and limbs have the same number of bytes. *)
Definition ex_rdeal (v : Z) (p : point) : w_rdeal := WRDeal [v; 2%Z] (WPriShare v (repeat v 32)) (WPriShare v (repeat 0%Z 32)) v [p; p; p].
Lemma ex_rdeal_wf v p : (0 <= v < 256)%Z -> wf_point p -> wf_rdeal (ex_rdeal v p).
Proof.
  intros B P. assert (S : forall u, (0 <= u < 256)%Z -> wf_scalar (repeat u 32)).
  { intros u Hu. split; [apply repeat_length|]. apply Forall_forall. intros x Hx. apply repeat_spec in Hx. subst x. exact Hu. }
  assert (U : usize_range v) by (split; [lia|change (256 ^ Z.of_nat 8)%Z with (2 ^ 64)%Z; lia]).
  assert (R : forall u, (0 <= u < 256)%Z -> wf_prishare (WPriShare v (repeat u 32))) by (intros u Hu; split; [exact U|exact (S u Hu)]).
  split; [split; [reflexivity|repeat (constructor; [unfold is_byte; lia|]); constructor]|].
  split; [exact (R v B)|]. split; [exact (R 0%Z ltac:(lia))|]. split; [exact U|]. split; [reflexivity|]. repeat (constructor; [exact P|]). constructor.
Qed.
Lemma ex_point_wf : wf_point (Pt (Ext fe_one fe_zero fe_one fe_one) true).
Proof. repeat split; try reflexivity; repeat (constructor; [unfold irange; lia|]); constructor. Qed.
Example C116_messages_nonvacuous :
  let c := WCc 1 2 (ex_rdeal 200 (Pt (Ext fe_one fe_zero fe_one fe_one) true)) [7%Z] in
  wf_cc c /\ exists b, marshal cod_cc c = Ok b /\ length b = 606.
Proof.
  cbv zeta. split.
  - split; [split; [discriminate|reflexivity]|]. split; [split; [discriminate|reflexivity]|]. split; [exact (ex_rdeal_wf 200 _ ltac:(lia) ex_point_wf)|].
    split; [reflexivity|]. repeat constructor; discriminate.
  - eexists. split; [reflexivity|]. vm_compute. reflexivity.
Qed.
Example C116_encryption_nonvacuous : prims_ok toyprims /\ (forall k n a m c, aes_enc toyprims k n a m = Some c -> length c = length m + 3) /\
  exists ctx st', ecies_encrypt toyc toyprims nat estream 5 1 (tmk 4242) [10; 20; 30]%Z = Ok (ctx, st') /\ length ctx = 38.
Proof.
  split; [exact toyprims_ok|]. split.
  - intros k n a m c E. injection E as <-. rewrite app_length, map_length. reflexivity.
  - eexists. eexists. split; vm_compute; reflexivity.
Qed.
