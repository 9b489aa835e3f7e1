(** Round trip, truncation and exactness of the wire format, by structural combinators. *)
From Coq Require Import ZArith List Bool Lia.
From Verif Require Import Base Bytes Limb ScModel FeModel GeModel PointModel WireModel.
Import ListNotations.
Local Open Scope Z_scope.

(** ** The laws of a codec *)

(** [wf] are the values of the Rust type. *)
Record codec_ok {A} (c : codec A) (wf : A -> Prop) : Prop := {
  ok_dec : forall a r, wf a -> c_dec c (c_enc c a ++ r) = Some (a, r);
  ok_exact : forall b a r, bytes b -> c_dec c b = Some (a, r) -> wf a /\ b = c_enc c a ++ r;
  ok_bytes : forall a, wf a -> bytes (c_enc c a);
  ok_pos : forall a, wf a -> c_enc c a <> []
}.

Lemma take_app n x r : length x = n -> take n (x ++ r) = Some (x, r).
Proof.
  intros H. unfold take. rewrite app_length, (proj2 (Nat.leb_le n (length x + length r))) by lia.
  rewrite firstn_app, skipn_app, <- H, firstn_all, skipn_all, Nat.sub_diag. cbn [firstn skipn]. now rewrite app_nil_r.
Qed.
Lemma take_some n b x r : take n b = Some (x, r) -> b = x ++ r /\ length x = n.
Proof.
  unfold take. destruct (Nat.leb n (length b)) eqn:E; [|discriminate]. apply Nat.leb_le in E. intros [= <- <-]. split.
  - symmetry. apply firstn_skipn.
  - rewrite firstn_length. lia.
Qed.

Definition urange (n : nat) (v : Z) : Prop := 0 <= v < 256 ^ Z.of_nat n.
Lemma uint_ok n : (0 < n)%nat -> codec_ok (cod_uint n) (urange n).
Proof.
  intros Hn. split; cbn [c_enc c_dec cod_uint].
  - intros a r H. rewrite (take_app n _ r (le_bytes_length n a)), (le_val_le_bytes_small n a H). reflexivity.
  - intros b a r Hb. destruct (take n b) as [[x r']|] eqn:E; [|discriminate]. intros [= <- <-].
    destruct (take_some _ _ _ _ E) as [-> Hl]. apply Forall_app in Hb as [Hx _]. split.
    + pose proof (le_val_bound x Hx) as B. rewrite Hl in B. exact B.
    + pose proof (le_bytes_le_val x Hx) as B. rewrite Hl in B. now rewrite B.
  - intros a _. apply le_bytes_bytes.
  - intros a _ H. apply (f_equal (@length Z)) in H. rewrite le_bytes_length in H. cbn in H. lia.
Qed.

Definition irange (v : Z) : Prop := - 2 ^ 31 <= v < 2 ^ 31.
Lemma le_bytes_mod n v : le_bytes n v = le_bytes n (v mod 256 ^ Z.of_nat n).
Proof.
  apply le_val_inj; try apply le_bytes_bytes; rewrite ?le_bytes_length; [reflexivity|].
  rewrite !le_val_le_bytes. symmetry. apply Z.mod_mod. pose proof (pow256_pos n). lia.
Qed.
Lemma wrap_mod v : (wrap I32 v) mod 2 ^ 32 = v mod 2 ^ 32.
Proof.
  unfold wrap, half. change (2 * 2 ^ 31) with (2 ^ 32). rewrite Zminus_mod_idemp_l. f_equal. lia.
Qed.
Lemma i32_ok : codec_ok cod_i32 irange.
Proof.
  split; cbn [c_enc c_dec cod_i32].
  - intros a r H. rewrite (take_app 4 _ r (le_bytes_length 4 a)), le_val_le_bytes. unfold irange in H.
    change (256 ^ Z.of_nat 4) with (2 ^ 32).
    assert (E : wrap I32 (a mod 2 ^ 32) = a); [|now rewrite E].
    unfold wrap, half. change (2 * 2 ^ 31) with (2 ^ 32). rewrite Zplus_mod_idemp_l, Z.mod_small by lia. lia.
  - intros b a r Hb. destruct (take 4 b) as [[x r']|] eqn:E; [|discriminate]. intros [= <- <-].
    destruct (take_some _ _ _ _ E) as [-> Hl]. apply Forall_app in Hb as [Hx _]. split.
    + exact (wrap_range I32 (le_val x)).
    + rewrite le_bytes_mod. change (256 ^ Z.of_nat 4) with (2 ^ 32). rewrite wrap_mod.
      change (2 ^ 32) with (256 ^ Z.of_nat 4). rewrite <- le_bytes_mod, <- Hl, le_bytes_le_val; [reflexivity|exact Hx].
  - intros a _. apply le_bytes_bytes.
  - intros a _ H. discriminate H.
Qed.

Lemma bool_ok : codec_ok cod_bool (fun _ => True).
Proof.
  split; cbn [c_enc c_dec cod_bool].
  - intros [|] r _; reflexivity.
  - intros [|x b] a r Hb; [discriminate|]. destruct (Z.eqb_spec x 1); [intros [= <- <-]; subst x; split; [exact I|reflexivity]|].
    destruct (Z.eqb_spec x 0); [intros [= <- <-]; subst x; split; [exact I|reflexivity]|discriminate].
  - intros [|] _; (constructor; [unfold is_byte; lia|constructor]).
  - intros [|] _; discriminate.
Qed.

Lemma pair_ok {A B} (ca : codec A) (cb : codec B) wa wb :
  codec_ok ca wa -> codec_ok cb wb -> codec_ok (cod_pair ca cb) (fun p => wa (fst p) /\ wb (snd p)).
Proof.
  intros HA HB. split; cbn [c_enc c_dec cod_pair].
  - intros [a b] r [Ha Hb]. cbn [fst snd] in *. rewrite <- app_assoc, (ok_dec _ _ HA _ _ Ha), (ok_dec _ _ HB _ _ Hb). reflexivity.
  - intros l [a b] r Hl. destruct (c_dec ca l) as [[x r1]|] eqn:E1; [|discriminate].
    destruct (ok_exact _ _ HA _ _ _ Hl E1) as [W1 ->]. apply Forall_app in Hl as [_ Hl].
    destruct (c_dec cb r1) as [[y r2]|] eqn:E2; [|discriminate]. destruct (ok_exact _ _ HB _ _ _ Hl E2) as [W2 ->].
    intros [= <- <- <-]. cbn [fst snd]. split; [now split|]. now rewrite app_assoc.
  - intros [a b] [Ha Hb]. apply bytes_app; [now apply (ok_bytes _ _ HA)|now apply (ok_bytes _ _ HB)].
  - intros [a b] [Ha Hb] H. cbn [fst snd] in H. apply app_eq_nil in H as [H _]. exact (ok_pos _ _ HA _ Ha H).
Qed.

Lemma map_ok {A B} (f : B -> A) (g : A -> B) (c : codec A) w :
  (forall v, g (f v) = v) -> (forall v, f (g v) = v) -> codec_ok c w -> codec_ok (cod_map f g c) (fun v => w (f v)).
Proof.
  intros G F H. split; cbn [c_enc c_dec cod_map].
  - intros a r Ha. now rewrite (ok_dec _ _ H _ _ Ha), G.
  - intros b a r Hb. destruct (c_dec c b) as [[x r1]|] eqn:E; [|discriminate]. intros [= <- <-]. rewrite F.
    exact (ok_exact _ _ H _ _ _ Hb E).
  - intros a Ha. exact (ok_bytes _ _ H _ Ha).
  - intros a Ha. exact (ok_pos _ _ H _ Ha).
Qed.

Lemma weaken_ok {A} (c : codec A) (w w' : A -> Prop) : (forall a, w a <-> w' a) -> codec_ok c w -> codec_ok c w'.
Proof.
  intros E H. split.
  - intros a r Ha. apply (ok_dec _ _ H). now apply E.
  - intros b a r Hb D. destruct (ok_exact _ _ H _ _ _ Hb D) as [W ->]. split; [now apply E|reflexivity].
  - intros a Ha. apply (ok_bytes _ _ H). now apply E.
  - intros a Ha. apply (ok_pos _ _ H). now apply E.
Qed.

Lemma seq_dec {A} (c : codec A) w : codec_ok c w -> forall l r, Forall w l -> dec_seq c (length l) (flat_map (c_enc c) l ++ r) = Some (l, r).
Proof.
  intros H l r Hl. induction Hl as [|a l Ha Hl IH]; [reflexivity|]. cbn [length dec_seq flat_map].
  rewrite <- app_assoc, (ok_dec _ _ H _ _ Ha), IH. reflexivity.
Qed.
Lemma seq_exact {A} (c : codec A) w : codec_ok c w -> forall n b l r, bytes b -> dec_seq c n b = Some (l, r) ->
  length l = n /\ Forall w l /\ b = flat_map (c_enc c) l ++ r.
Proof.
  intros H n; induction n as [|n IH]; intros b l r Hb; cbn [dec_seq].
  - intros [= <- <-]. now repeat split.
  - destruct (c_dec c b) as [[x r1]|] eqn:E; [|discriminate]. destruct (ok_exact _ _ H _ _ _ Hb E) as [W ->].
    apply Forall_app in Hb as [_ Hb]. destruct (dec_seq c n r1) as [[l' r2]|] eqn:E2; [|discriminate]. intros [= <- <-].
    destruct (IH _ _ _ Hb E2) as [L [F ->]]. cbn [length flat_map]. rewrite L. split; [reflexivity|]. split; [now constructor|]. now rewrite app_assoc.
Qed.
Lemma seq_bytes {A} (c : codec A) w : codec_ok c w -> forall l, Forall w l -> bytes (flat_map (c_enc c) l).
Proof.
  intros H l Hl. induction Hl as [|a l Ha Hl IH]; [constructor|]. cbn [flat_map]. apply bytes_app; [exact (ok_bytes _ _ H _ Ha)|exact IH].
Qed.
Lemma seq_length {A} (c : codec A) w : codec_ok c w -> forall l, Forall w l -> (length l <= length (flat_map (c_enc c) l))%nat.
Proof.
  intros H l Hl. induction Hl as [|a l Ha Hl IH]; [apply le_n|]. cbn [flat_map length]. rewrite app_length.
  pose proof (ok_pos _ _ H _ Ha) as P. destruct (c_enc c a); [contradiction|]. cbn [length]. lia.
Qed.

Lemma array_ok {A} (c : codec A) w n : (0 < n)%nat -> codec_ok c w -> codec_ok (cod_array c n) (fun l => length l = n /\ Forall w l).
Proof.
  intros Hn H. split; cbn [c_enc c_dec cod_array].
  - intros l r [<- Hl]. now apply seq_dec with (w := w).
  - intros b l r Hb D. destruct (seq_exact _ _ H _ _ _ _ Hb D) as [L [F E]]. now repeat split.
  - intros l [_ Hl]. exact (seq_bytes _ _ H _ Hl).
  - intros l [L Hl] E. pose proof (seq_length _ _ H _ Hl) as B. rewrite E in B. cbn in B. lia.
Qed.

(** A vector's length fits into a u64. *)
Lemma vec_ok {A} (c : codec A) w : codec_ok c w -> codec_ok (cod_vec c) (fun l => Z.of_nat (length l) < 2 ^ 64 /\ Forall w l).
Proof.
  intros H. assert (U := uint_ok 8 ltac:(lia)). split; cbn [c_enc c_dec cod_vec].
  - intros l r [L Hl]. rewrite <- app_assoc.
    change (le_bytes 8 (Z.of_nat (length l))) with (c_enc cod_usize (Z.of_nat (length l))). unfold cod_usize.
    rewrite (ok_dec _ _ U).
    + rewrite app_length. pose proof (seq_length _ _ H _ Hl) as B.
      destruct (Z.ltb_spec (Z.of_nat (length (flat_map (c_enc c) l) + length r)) (Z.of_nat (length l))); [lia|].
      rewrite Nat2Z.id. now apply seq_dec with (w := w).
    + unfold urange. change (256 ^ Z.of_nat 8) with (2 ^ 64). lia.
  - intros b l r Hb. unfold cod_usize. destruct (c_dec (cod_uint 8) b) as [[n r1]|] eqn:E; [|discriminate].
    destruct (ok_exact _ _ U _ _ _ Hb E) as [Wn ->]. apply Forall_app in Hb as [_ Hb].
    destruct (Z.ltb_spec (Z.of_nat (length r1)) n) as [_|Hn]; [discriminate|]. intros D.
    destruct (seq_exact _ _ H _ _ _ _ Hb D) as [L [F ->]]. unfold urange in Wn. change (256 ^ Z.of_nat 8) with (2 ^ 64) in Wn.
    split; [split; [lia|exact F]|]. rewrite app_assoc. f_equal. f_equal. cbn [c_enc cod_uint]. f_equal. lia.
  - intros l [_ Hl]. apply bytes_app; [apply le_bytes_bytes|exact (seq_bytes _ _ H _ Hl)].
  - intros l _ E. discriminate E.
Qed.



(** ** What the laws mean for [marshal] and [unmarshal] *)

Lemma ok_prefix {A} (c : codec A) w : codec_ok c w -> forall a n, w a -> (n < length (c_enc c a))%nat -> c_dec c (firstn n (c_enc c a)) = None.
Proof.
  intros H a n Ha Hn. destruct (c_dec c (firstn n (c_enc c a))) as [[a' r]|] eqn:E; [exfalso|reflexivity].
  pose proof (ok_bytes _ _ H _ Ha) as B. destruct (ok_exact _ _ H _ _ _ (bytes_firstn n _ B) E) as [W F].
  pose proof (ok_dec _ _ H a [] Ha) as D. rewrite app_nil_r in D. pose proof (firstn_skipn n (c_enc c a)) as S. rewrite F in S.
  rewrite <- app_assoc in S. pose proof (ok_dec _ _ H a' (r ++ skipn n (c_enc c a)) W) as D'. rewrite S, D in D'.
  injection D' as _ D'. symmetry in D'. apply app_eq_nil in D' as [_ D']. apply (f_equal (@length Z)) in D'. rewrite skipn_length in D'. cbn in D'. lia.
Qed.

(** ** The message types *)

(** The values of the Rust types. *)
Definition wf_bytes (l : list Z) : Prop := Z.of_nat (length l) < 2 ^ 64 /\ bytes l.
Definition wf_scalar (l : list Z) : Prop := length l = 32%nat /\ bytes l.
Definition wf_fe (l : list Z) : Prop := length l = 10%nat /\ Forall irange l.
Definition wf_ext (e : ext) : Prop := wf_fe (ge_x e) /\ wf_fe (ge_y e) /\ wf_fe (ge_z e) /\ wf_fe (ge_t e).
Definition wf_point (p : point) : Prop := wf_ext (p_ge p).
Definition wf_points (l : list point) : Prop := Z.of_nat (length l) < 2 ^ 64 /\ Forall wf_point l.
Definition u32_range (v : Z) : Prop := 0 <= v < 2 ^ 32.
Definition usize_range (v : Z) : Prop := 0 <= v < 2 ^ 64.
Definition wf_prishare (s : w_prishare) : Prop := usize_range (wps_i s) /\ wf_scalar (wps_v s).
Definition wf_pubshare (s : w_pubshare) : Prop := usize_range (wpb_i s) /\ wf_point (wpb_v s).
Definition wf_deal (d : w_deal) : Prop := wf_bytes (wd_sid d) /\ wf_prishare (wd_share d) /\ usize_range (wd_t d) /\ wf_points (wd_commits d).
Definition wf_rdeal (d : w_rdeal) : Prop :=
  wf_bytes (wrd_sid d) /\ wf_prishare (wrd_sec d) /\ wf_prishare (wrd_rnd d) /\ usize_range (wrd_t d) /\ wf_points (wrd_commits d).
Definition wf_enc (e : w_enc) : Prop := wf_point (we_dhkey e) /\ wf_bytes (we_sig e) /\ wf_bytes (we_nonce e) /\ wf_bytes (we_cipher e).
Definition wf_resp (r : w_resp) : Prop := wf_bytes (wr_sid r) /\ u32_range (wr_index r) /\ True /\ wf_bytes (wr_sig r).
Definition wf_just {D} (w : D -> Prop) (j : w_just D) : Prop := wf_bytes (wj_sid j) /\ u32_range (wj_index j) /\ w (wj_deal j) /\ wf_bytes (wj_sig j).
Definition wf_ddeal (d : w_ddeal) : Prop := u32_range (wdd_index d) /\ wf_enc (wdd_deal d) /\ wf_bytes (wdd_sig d).
Definition wf_idx {M} (w : M -> Prop) (d : w_idx M) : Prop := u32_range (wi_index d) /\ w (wi_msg d).
Definition wf_dks (d : w_dks) : Prop :=
  wf_points (wk_commits d) /\ wf_prishare (wk_share d) /\ Z.of_nat (length (wk_poly d)) < 2 ^ 64 /\ Forall wf_scalar (wk_poly d).
Definition wf_rdks (d : w_rdks) : Prop := wf_points (wrk_commits d) /\ wf_prishare (wrk_share d).
Definition wf_sc (s : w_sc) : Prop := u32_range (wsc_index s) /\ wf_points (wsc_commits s) /\ wf_bytes (wsc_sid s) /\ wf_bytes (wsc_sig s).
Definition wf_cc (s : w_cc) : Prop := u32_range (wcc_index s) /\ u32_range (wcc_dealer s) /\ wf_rdeal (wcc_deal s) /\ wf_bytes (wcc_sig s).
Definition wf_rc (s : w_rc) : Prop :=
  wf_bytes (wrc_sid s) /\ u32_range (wrc_index s) /\ u32_range (wrc_dealer s) /\ wf_prishare (wrc_share s) /\ wf_bytes (wrc_sig s).
Definition wf_psig (s : w_psig) : Prop := wf_prishare (wp_partial s) /\ wf_bytes (wp_sid s) /\ wf_bytes (wp_sig s).
Definition wf_keypair (k : w_keypair) : Prop := wf_point (wkp_pub k) /\ wf_scalar (wkp_priv k).
Definition wf_eddsa (k : w_eddsa) : Prop := wf_scalar (wed_secret k) /\ wf_point (wed_public k) /\ wf_bytes (wed_seed k) /\ wf_bytes (wed_prefix k).

Lemma is_byte_urange v : urange 1 v <-> is_byte v.
Proof. unfold urange, is_byte. change (256 ^ Z.of_nat 1) with 256. lia. Qed.
Lemma u8_ok : codec_ok cod_u8 is_byte.
Proof. apply (weaken_ok cod_u8 (urange 1)); [exact is_byte_urange|]. apply uint_ok. lia. Qed.
Lemma u32_ok : codec_ok cod_u32 u32_range.
Proof. exact (uint_ok 4 ltac:(lia)). Qed.
Lemma usize_ok : codec_ok cod_usize usize_range.
Proof. exact (uint_ok 8 ltac:(lia)). Qed.
Lemma scalar_ok : codec_ok cod_scalar wf_scalar.
Proof. exact (array_ok _ _ 32 ltac:(lia) u8_ok). Qed.
Lemma fe_ok : codec_ok cod_fe wf_fe.
Proof. exact (array_ok _ _ 10 ltac:(lia) i32_ok). Qed.
Lemma bytes_ok : codec_ok cod_bytes wf_bytes.
Proof. exact (vec_ok _ _ u8_ok). Qed.

Ltac struct :=
  eapply weaken_ok;
  [|apply map_ok;
    [intros []; reflexivity
    |intros; repeat match goal with p : (_ * _)%type |- _ => destruct p end; reflexivity
    |repeat apply pair_ok; eauto with wire]];
  intros a; apply iff_refl.
Create HintDb wire.
#[local] Hint Resolve u32_ok usize_ok bool_ok bytes_ok scalar_ok fe_ok : wire.

Lemma cext_ok : codec_ok cod_ext wf_ext.
Proof. unfold cod_ext. struct. Qed.
#[local] Hint Resolve cext_ok : wire.
Lemma cpoint_ok' : codec_ok cod_point (fun p => wf_ext (p_ge p) /\ True).
Proof. unfold cod_point. struct. Qed.
Lemma cpoint_ok : codec_ok cod_point wf_point.
Proof. apply (weaken_ok _ _ _ (fun p => conj (@proj1 _ _) (fun H => conj H I)) cpoint_ok'). Qed.
Lemma cpoints_ok : codec_ok cod_points wf_points.
Proof. exact (vec_ok _ _ cpoint_ok). Qed.
#[local] Hint Resolve cpoint_ok cpoints_ok : wire.
Lemma prishare_ok : codec_ok cod_prishare wf_prishare.
Proof. unfold cod_prishare. struct. Qed.
Lemma pubshare_ok : codec_ok cod_pubshare wf_pubshare.
Proof. unfold cod_pubshare. struct. Qed.
#[local] Hint Resolve prishare_ok pubshare_ok : wire.
Lemma deal_ok : codec_ok cod_deal wf_deal.
Proof. unfold cod_deal. struct. Qed.
Lemma rdeal_ok : codec_ok cod_rdeal wf_rdeal.
Proof. unfold cod_rdeal. struct. Qed.
Lemma enc_ok : codec_ok cod_enc wf_enc.
Proof. unfold cod_enc. struct. Qed.
Lemma resp_ok : codec_ok cod_resp wf_resp.
Proof. unfold cod_resp. struct. Qed.
#[local] Hint Resolve deal_ok rdeal_ok enc_ok resp_ok : wire.
Lemma just_ok {D} (cd : codec D) w : codec_ok cd w -> codec_ok (cod_just cd) (wf_just w).
Proof. intros H. unfold cod_just. struct. Qed.
Lemma ddeal_ok : codec_ok cod_ddeal wf_ddeal.
Proof. unfold cod_ddeal. struct. Qed.
Lemma idx_ok {M} (cm : codec M) w : codec_ok cm w -> codec_ok (cod_idx cm) (wf_idx w).
Proof. intros H. unfold cod_idx. struct. Qed.
Lemma dks_ok : codec_ok cod_dks wf_dks.
Proof. pose proof (vec_ok _ _ scalar_ok). unfold cod_dks. struct. Qed.
Lemma rdks_ok : codec_ok cod_rdks wf_rdks.
Proof. unfold cod_rdks. struct. Qed.
Lemma sc_ok : codec_ok cod_sc wf_sc.
Proof. unfold cod_sc. struct. Qed.
Lemma cc_ok : codec_ok cod_cc wf_cc.
Proof. unfold cod_cc. struct. Qed.
Lemma rc_ok : codec_ok cod_rc wf_rc.
Proof. unfold cod_rc. struct. Qed.
Lemma psig_ok : codec_ok cod_psig wf_psig.
Proof. unfold cod_psig. struct. Qed.
Lemma keypair_ok : codec_ok cod_keypair wf_keypair.
Proof. unfold cod_keypair. struct. Qed.
Lemma eddsa_ok : codec_ok cod_eddsa wf_eddsa.
Proof. unfold cod_eddsa. struct. Qed.
