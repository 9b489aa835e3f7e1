(** C88-C92: what travels between the parties. *)
From Coq Require Import ZArith String List Lia Bool Znumtheory Field.
From Verif Require Import Base Bytes Limb ScLimbs IntModel RandModel ScModel ScProofs FeLimbs FeModel FeProofs Primes Group Edwards Fp EdCurve
  GeConsts GeModel GeProofs GeMul GeBase GeBaseMul GeEnc GeVar EdOrder EdModel EdBytes PropsSc PointModel PointProofs PointCurve EdPolyModel PropsPoint
  PropsSubgroup WireModel WireProofs.
Import ListNotations.
Local Open Scope Z_scope.
(** ** Points whose T coordinate is arbitrary *)

(** (X, Y, Z) represents the point and T is any field element; equality and the encoding do not look at T. *)
Definition no_t (p : point) (P : epoint) : Prop := proj_ok (ext_proj (p_ge p)) P /\ tight (ge_t (p_ge p)).

Lemma marshal_no_t p P : no_t p P -> point_marshal p = enc P.
Proof. intros [[[Tx [Ty Tz]] H] _]. exact (frac_bytes_ok _ _ _ P Tx Ty Tz H). Qed.

Lemma Fp_mul0 a : fmul a f0 = f0.
Proof. ring. Qed.
Lemma comp_add_null p q P : ext_ok p e0 -> no_t q P -> comp_ok (comp_add p (write_cached (p_ge q))) P.
Proof.
  intros [[Tx [Ty [Tz Tt]]] H] [[[Qx [Qy Qz]] H'] Qt]. cbn [ext_proj pj_x pj_y pj_z] in *.
  destruct H as [N [EX [EY ET]]]. destruct H' as [N' [EX' EY']].
  destruct D2_v as [TD ED]. destruct (add_v _ _ Qy Qx) as [Ta Ea]. destruct (sub_v _ _ Qy Qx) as [Tb Eb].
  destruct (mul_v (ge_t (p_ge q)) ED_D2 ltac:(bound) ltac:(bound)) as [Td Ed].
  assert (CO : cached_of (fv (fe_add (ge_y (p_ge q)) (ge_x (p_ge q)))) (fv (fe_sub (ge_y (p_ge q)) (ge_x (p_ge q)))) (fv (ge_z (p_ge q)))
    (fmul (fmul (fmul (fadd f1 f1) fd) (fmul (ex P) (ey P))) (fv (ge_z (p_ge q)))) P).
  { rewrite Ea, Eb, EX', EY'. split; [exact N'|]. split; [ring|]. split; [ring|]. ring. }
  assert (X0 : ext_of (fv (ge_x p)) (fv (ge_y p)) (fv (ge_z p)) (fv (ge_t p)) e0) by (split; [exact N|]; split; [exact EX|]; split; [exact EY|exact ET]).
  destruct (add_comp _ _ _ _ _ _ _ _ _ _ X0 CO) as [_ R]. cbv zeta in R. rewrite (EdCurve.eadd_0 P) in R.
  assert (T0 : fv (ge_t p) = f0) by (rewrite ET; cbn [e0 ex ey]; ring).
  unfold comp_add, write_cached. cbv zeta. cbn [ca_yp ca_ym ca_z ca_t2d].
  destruct (add_v _ _ Ty Tx) as [T1 E1]. destruct (sub_v _ _ Ty Tx) as [T2 E2].
  destruct (mul_v _ _ (l2_loose _ T1) (l2_loose _ Ta)) as [T3 E3]. destruct (mul_v _ _ (l2_loose _ T2) (l2_loose _ Tb)) as [T4 E4].
  destruct (mul_v _ _ (t_loose _ Td) (t_loose _ Tt)) as [T5 E5]. destruct (mul_v _ _ (t_loose _ Tz) (t_loose _ Qz)) as [T6 E6].
  destruct (add_v _ _ T6 T6) as [T7 E7]. destruct (sub_v _ _ T3 T4) as [T8 E8]. destruct (add_v _ _ T3 T4) as [T9 E9].
  destruct (add21_v _ _ T7 T5) as [T10 E10]. destruct (sub21_v _ _ T7 T5) as [T11 E11].
  split; cbn [cp_x cp_y cp_z cp_t].
  - split; [now apply l2_l3|]. split; [now apply l2_l3|]. split; assumption.
  - rewrite E8, E9, E10, E11, E7, E6, E5, E4, E3, E2, E1. rewrite T0 in *.
    rewrite (Fp_mul0 (fv (fe_mul (ge_t (p_ge q)) ED_D2))). rewrite Fp_mul0 in R. exact R.
Qed.
Lemma add_null self v c C : repr v e0 -> no_t c C -> repr (point_add self v c) C.
Proof. intros Hv Hc. exact (to_extended_ok _ _ (comp_add_null _ _ _ Hv Hc)). Qed.

(** Adding a point with T = 0: the denominators of the addition law disappear. *)
Lemma frac_bytes_val x y z a b : tight x -> tight y -> tight z -> fv z <> f0 -> fv x = fmul a (fv z) -> fv y = fmul b (fv z) ->
  frac_bytes x y z = le_bytes 32 (fz b + 2 ^ 255 * (fz a mod 2)).
Proof.
  intros Tx Ty Tz N Ex Ey. unfold frac_bytes. cbv zeta. destruct (invert_v z (t_loose _ Tz)) as [Ti Ei].
  destruct (mul_v x (fe_invert z) (t_loose _ Tx) (t_loose _ Ti)) as [T1 E1]. destruct (mul_v y (fe_invert z) (t_loose _ Ty) (t_loose _ Ti)) as [T2 E2].
  rewrite fe_to_bytes_ok by now apply t_loose. rewrite fe_is_negative_ok by now apply t_loose. rewrite !fv_val, E1, E2, Ei, Ex, Ey.
  replace (fmul (fmul a (fv z)) (finv (fv z))) with a by (field; exact N).
  replace (fmul (fmul b (fv z)) (finv (fv z))) with b by (field; exact N).
  apply xor_top_ok.
  - pose proof (fz_bound b) as B. change prime_p with (2 ^ 255 - 19) in B. lia.
  - pose proof (Z.mod_pos_bound (fz a) 2 ltac:(lia)). lia.
Qed.
Definition affine (e : ext) (x y : Fp) : Prop :=
  (tight (ge_x e) /\ tight (ge_y e) /\ tight (ge_z e)) /\ fv (ge_z e) <> f0 /\ fv (ge_x e) = fmul x (fv (ge_z e)) /\ fv (ge_y e) = fmul y (fv (ge_z e)).
Lemma add_t0 p q P Q : no_t p P -> fv (ge_t (p_ge p)) = f0 -> repr q Q ->
  affine (to_extended (comp_add (p_ge p) (write_cached (p_ge q))))
    (fadd (fmul (ex P) (ey Q)) (fmul (ex Q) (ey P))) (fadd (fmul (ey P) (ey Q)) (fmul (ex P) (ex Q))).
Proof.
  intros [[[Tx [Ty Tz]] [N [EX EY]]] Tt] T0 HQ. cbn [ext_proj pj_x pj_y pj_z] in *.
  destruct (write_cached_ok _ _ HQ) as [[Ta [Tb [Tc Td]]] [N' [Ea [Eb Ed]]]]. unfold comp_add. cbv zeta.
  destruct (add_v _ _ Ty Tx) as [T1 E1]. destruct (sub_v _ _ Ty Tx) as [T2 E2].
  destruct (mul_v _ _ (l2_loose _ T1) (l2_loose _ Ta)) as [T3 E3]. destruct (mul_v _ _ (l2_loose _ T2) (l2_loose _ Tb)) as [T4 E4].
  destruct (mul_v _ _ (t_loose _ Td) (t_loose _ Tt)) as [T5 E5]. destruct (mul_v _ _ (t_loose _ Tz) (t_loose _ Tc)) as [T6 E6].
  destruct (add_v _ _ T6 T6) as [T7 E7]. destruct (sub_v _ _ T3 T4) as [T8 E8]. destruct (add_v _ _ T3 T4) as [T9 E9].
  destruct (add21_v _ _ T7 T5) as [T10 E10]. destruct (sub21_v _ _ T7 T5) as [T11 E11].
  unfold to_extended, affine. cbn [cp_x cp_y cp_z cp_t ge_x ge_y ge_z].
  destruct (mul_v _ _ (l2_loose _ T8) (l3_loose _ T11)) as [T12 E12]. destruct (mul_v _ _ (l2_loose _ T9) (l3_loose _ T10)) as [T13 E13].
  destruct (mul_v _ _ (l3_loose _ T10) (l3_loose _ T11)) as [T14 E14].
  split; [now split; [|split]|]. rewrite E12, E13, E14, E8, E9, E10, E11, E7, E6, E5, E4, E3, E2, E1, T0, EX, EY, Ea, Eb.
  rewrite !Fp_mul0. pose proof f2_nz as N2. set (z := fv (ge_z (p_ge p))) in *. set (w := fv (ca_z (write_cached (p_ge q)))) in *.
  assert (Z0 : fadd (fadd (fmul z w) (fmul z w)) f0 = fmul (fmul (fadd f1 f1) z) w) by ring.
  assert (Z1 : fsub (fadd (fmul z w) (fmul z w)) f0 = fmul (fmul (fadd f1 f1) z) w) by ring.
  rewrite Z0, Z1. split; [repeat apply fmul_nz; assumption|]. split; ring.
Qed.

Opaque ge_scalar_mult ge_scalar_mult_base ge_scalar_mult_vartime ext_set_bytes ext_write_bytes to_extended comp_add comp_sub write_cached ext_neg
  ext_double proj_double to_projective mixed_add mixed_sub.

(** ** C88 *)

(** A value sent is the value received, whatever the receiver held and whatever follows on the wire; a message cut short is
    refused and leaves the receiver unchanged; what is accepted is the message of a value, possibly with more bytes behind it;
    no input panics. *)
Definition faithful {A} (c : codec A) (value : A -> Prop) : Prop :=
  (forall x, value x -> exists b, marshal c x = Ok b /\ Forall (fun z => 0 <= z < 256) b /\
     (forall y rest, unmarshal c y (b ++ rest) = (Ok tt, x)) /\
     (forall y n, (n < length b)%nat -> unmarshal c y (firstn n b) = (Err tt, y))) /\
  (forall y b x, Forall (fun z => 0 <= z < 256) b -> unmarshal c y b = (Ok tt, x) ->
     value x /\ exists m rest, marshal c x = Ok m /\ b = m ++ rest) /\
  (forall y b, (exists x, unmarshal c y b = (Ok tt, x)) \/ unmarshal c y b = (Err tt, y)).

Lemma ok_faithful {A} (c : codec A) w : codec_ok c w -> faithful c w.
Proof.
  intros H. split; [|split].
  - intros x Hx. exists (c_enc c x). split; [reflexivity|]. split; [exact (ok_bytes _ _ H _ Hx)|]. split.
    + intros y r. unfold unmarshal. now rewrite (ok_dec _ _ H _ _ Hx).
    + intros y n Hn. unfold unmarshal. now rewrite (ok_prefix _ _ H _ _ Hx Hn).
  - intros y b x Hb. unfold unmarshal. destruct (c_dec c b) as [[v r]|] eqn:E; [|discriminate]. intros [= <-].
    destruct (ok_exact _ _ H _ _ _ Hb E) as [W ->]. split; [exact W|]. exists (c_enc c v), r. now split.
  - intros y b. unfold unmarshal. destruct (c_dec c b) as [[v r]|]; [left; now exists v|now right].
Qed.


Theorem C88_shares : faithful cod_prishare wf_prishare /\ faithful cod_pubshare wf_pubshare /\ faithful cod_dks wf_dks /\ faithful cod_rdks wf_rdks.
Proof. exact (conj (ok_faithful _ _ prishare_ok) (conj (ok_faithful _ _ pubshare_ok) (conj (ok_faithful _ _ dks_ok) (ok_faithful _ _ rdks_ok)))). Qed.
Print Assumptions C88_shares.
Theorem C88_pedersen_messages :
  faithful cod_deal wf_deal /\ faithful cod_enc wf_enc /\ faithful cod_resp wf_resp /\ faithful (cod_just cod_deal) (wf_just wf_deal) /\
  faithful cod_ddeal wf_ddeal /\ faithful (cod_idx cod_resp) (wf_idx wf_resp) /\ faithful (cod_idx (cod_just cod_deal)) (wf_idx (wf_just wf_deal)).
Proof.
  exact (conj (ok_faithful _ _ deal_ok) (conj (ok_faithful _ _ enc_ok) (conj (ok_faithful _ _ resp_ok) (conj (ok_faithful _ _ (just_ok _ _ deal_ok))
    (conj (ok_faithful _ _ ddeal_ok) (conj (ok_faithful _ _ (idx_ok _ _ resp_ok)) (ok_faithful _ _ (idx_ok _ _ (just_ok _ _ deal_ok))))))))).
Qed.
Print Assumptions C88_pedersen_messages.
Theorem C88_rabin_messages :
  faithful cod_rdeal wf_rdeal /\ faithful (cod_just cod_rdeal) (wf_just wf_rdeal) /\ faithful (cod_idx cod_enc) (wf_idx wf_enc) /\
  faithful (cod_idx (cod_just cod_rdeal)) (wf_idx (wf_just wf_rdeal)) /\ faithful cod_sc wf_sc /\ faithful cod_cc wf_cc /\ faithful cod_rc wf_rc.
Proof.
  exact (conj (ok_faithful _ _ rdeal_ok) (conj (ok_faithful _ _ (just_ok _ _ rdeal_ok)) (conj (ok_faithful _ _ (idx_ok _ _ enc_ok))
    (conj (ok_faithful _ _ (idx_ok _ _ (just_ok _ _ rdeal_ok))) (conj (ok_faithful _ _ sc_ok) (conj (ok_faithful _ _ cc_ok) (ok_faithful _ _ rc_ok))))))).
Qed.
Print Assumptions C88_rabin_messages.
Theorem C88_keys_and_signatures :
  faithful cod_scalar wf_scalar /\ faithful cod_point wf_point /\ faithful cod_psig wf_psig /\ faithful cod_keypair wf_keypair /\ faithful cod_eddsa wf_eddsa.
Proof.
  exact (conj (ok_faithful _ _ scalar_ok) (conj (ok_faithful _ _ cpoint_ok) (conj (ok_faithful _ _ psig_ok)
    (conj (ok_faithful _ _ keypair_ok) (ok_faithful _ _ eddsa_ok))))).
Qed.
Print Assumptions C88_keys_and_signatures.

(** A deal with two commitments; negative limbs and a share index beyond 2^32. *)
Lemma tight_wf f : tight f -> wf_fe f.
Proof.
  intros [L B]. split; [exact L|]. destruct f as [|a0 [|a1 [|a2 [|a3 [|a4 [|a5 [|a6 [|a7 [|a8 [|a9 [|]]]]]]]]]]]; try discriminate L.
  cbn [alt_bound] in B. unfold TE, TO in B. unfold irange. repeat (constructor; [lia|]). constructor.
Qed.
Lemma repr_wf p P : repr p P -> wf_point p.
Proof. intros [[Tx [Ty [Tz Tt]]] _]. repeat split; now apply tight_wf. Qed.
Definition ex_deal : w_deal :=
  WDeal [1; 2; 3] (WPriShare (2 ^ 40 + 7) (le_bytes 32 77)) 2 [point_base point_default; Pt (Ext (map Z.opp fe_one) fe_one fe_one (map Z.opp fe_one)) true].
Example C88_nonvacuous : wf_deal ex_deal /\ exists b, marshal cod_deal ex_deal = Ok b /\ length b = 389%nat /\
  firstn 11 b = [3; 0; 0; 0; 0; 0; 0; 0; 1; 2; 3] /\ nth 228 b 0 = 255 /\ nth 388 b 0 = 1.
Proof.
  split.
  - split; [split; [reflexivity|repeat (constructor; [unfold is_byte; lia|]); constructor]|].
    split; [split; [unfold usize_range; cbn; lia|split; [reflexivity|apply le_bytes_bytes]]|].
    split; [unfold usize_range; cbn; lia|]. split; [reflexivity|]. constructor; [exact (repr_wf _ _ (base_ok _))|]. constructor; [|constructor].
    assert (W : wf_fe fe_one) by (split; [reflexivity|repeat (constructor; [unfold irange; lia|]); constructor]).
    assert (W' : wf_fe (map Z.opp fe_one)) by (split; [reflexivity|repeat (constructor; [unfold irange; lia|]); constructor]).
    split; [exact W'|]. split; [exact W|]. split; [exact W|exact W'].
  - eexists. split; [reflexivity|]. vm_compute. repeat split.
Qed.

(** ** C89 *)

(** Full statement: at most one byte string is accepted as a given message.  It fails for every message type: whatever is
    appended is ignored, also to the signed deal of the key generation, whose signature is checked over the value (structs.rs
    99-107) and not over what was received. *)
Theorem C89_refuted : exists (d : w_ddeal) (b b' : list Z), wf_ddeal d /\ marshal cod_ddeal d = Ok b /\ b <> b' /\
  Forall (fun z => 0 <= z < 256) b' /\ (forall y, unmarshal cod_ddeal y b = (Ok tt, d)) /\ (forall y, unmarshal cod_ddeal y b' = (Ok tt, d)).
Proof.
  set (d := WDDeal 3 (WEnc (point_base point_default) [5] [] [6; 7]) [9]).
  assert (W : wf_ddeal d).
  { split; [unfold u32_range; cbn; lia|]. split; [split; [exact (repr_wf _ _ (base_ok _))|]|]; repeat split; repeat (constructor; [unfold is_byte; lia|]); constructor. }
  destruct (proj1 (ok_faithful _ _ ddeal_ok) d W) as [b [E [B [R _]]]].
  exists d, b, (b ++ [0]). split; [exact W|]. split; [exact E|]. split.
  - intros H. apply (f_equal (@length Z)) in H. rewrite app_length in H. cbn in H. lia.
  - split; [apply Forall_app; split; [exact B|repeat constructor; lia]|]. split; intros y; [|apply R].
    rewrite <- (app_nil_r b). apply R.
Qed.
Print Assumptions C89_refuted.
(** Without surplus bytes the encoding is unique: two strings of one length, or two strings neither of which continues the
    message, accepted as the same value are equal; and different values are encoded differently, neither encoding a
    beginning of the other. *)
Theorem C89_partial {A} (c : codec A) (value : A -> Prop) : faithful c value ->
  (forall y y' b b' x, Forall (fun z => 0 <= z < 256) b -> Forall (fun z => 0 <= z < 256) b' -> length b = length b' ->
     unmarshal c y b = (Ok tt, x) -> unmarshal c y' b' = (Ok tt, x) ->
     exists m rest rest', marshal c x = Ok m /\ b = m ++ rest /\ b' = m ++ rest' /\ (length b = length m -> b = b')) /\
  (forall x x' m m' rest, value x -> value x' -> marshal c x = Ok m -> marshal c x' = Ok m' -> m' = m ++ rest -> x = x' /\ rest = []).
Proof.
  intros [F1 [F2 _]]. split.
  - intros y y' b b' x Hb Hb' L U U'. destruct (F2 y b x Hb U) as [_ [m [r [E1 ->]]]]. destruct (F2 y' b' x Hb' U') as [_ [m' [r' [E2 ->]]]].
    rewrite E1 in E2. injection E2 as <-. exists m, r, r'. split; [exact E1|]. split; [reflexivity|]. split; [reflexivity|].
    rewrite !app_length in *. intros Q. destruct r; [|cbn in Q; lia]. destruct r'; [reflexivity|cbn in *; lia].
  - intros x x' m m' r Hx Hx' E E' ->. destruct (F1 x Hx) as [b [Eb [_ [Rb _]]]]. destruct (F1 x' Hx') as [b' [Eb' [_ [Rb' Tb']]]].
    rewrite E in Eb. injection Eb as <-. rewrite E' in Eb'. injection Eb' as <-.
    assert (X : x = x').
    { pose proof (Rb x r) as U1. pose proof (Rb' x []) as U2. rewrite app_nil_r in U2. rewrite U1 in U2. now injection U2. }
    split; [exact X|]. subst x'. rewrite E in E'. injection E' as E'. apply (f_equal (@length Z)) in E'. rewrite app_length in E'.
    destruct r; [reflexivity|cbn in E'; lia].
Qed.
Print Assumptions C89_partial.
Example C89_nonvacuous : faithful cod_prishare wf_prishare /\ wf_prishare (WPriShare 1 (repeat 0 32)) /\ wf_prishare (WPriShare 256 (repeat 0 32)) /\
  marshal cod_prishare (WPriShare 256 (repeat 0 32)) = Ok (0 :: 1 :: repeat 0 38).
Proof.
  split; [exact (ok_faithful _ _ prishare_ok)|]. split; [|split; [|reflexivity]]; (split; [unfold usize_range; cbn; lia|]); (split; [reflexivity|apply bytes_repeat0]).
Qed.

(** ** C90 *)

(** Equality of encrypted deals (vss.rs 172, derived, with the equality of points point.rs 229-240). *)
Definition enc_eq (e e' : w_enc) : Prop :=
  point_eqb (we_dhkey e) (we_dhkey e') = true /\ we_sig e = we_sig e' /\ we_nonce e = we_nonce e' /\ we_cipher e = we_cipher e'.
(** Full statement: deals that are equal are signed over the same bytes, so a signature valid for one is valid for the other.
    It fails for every deal and needs no other representation of the curve point: the flag [var_time] is serialized. *)
Theorem C90_refuted (d : w_ddeal) : wf_ddeal d -> exists d' m m', wf_ddeal d' /\ wdd_index d = wdd_index d' /\ wdd_sig d = wdd_sig d' /\
  enc_eq (wdd_deal d) (wdd_deal d') /\ ddeal_marshal d = Ok m /\ ddeal_marshal d' = Ok m' /\ m <> m'.
Proof.
  intros [W1 [[W2 W3] W4]]. destruct d as [i [k g n c] s]. cbn [wdd_index wdd_deal wdd_sig we_dhkey we_sig we_nonce we_cipher] in *.
  set (d' := WDDeal i (WEnc (Pt (p_ge k) (negb (p_vt k))) g n c) s). set (z := WDDeal i (WEnc k g n c) []). set (z' := WDDeal i (wdd_deal d') []).
  assert (N0 : wf_bytes []) by (split; [reflexivity|constructor]).
  assert (Wz : wf_ddeal z) by (split; [exact W1|]; split; [split; [exact W2|exact W3]|exact N0]).
  assert (Wz' : wf_ddeal z') by (split; [exact W1|]; split; [split; [exact W2|exact W3]|exact N0]).
  exists d', (c_enc cod_ddeal z), (c_enc cod_ddeal z'). split; [split; [exact W1|]; split; [split; [exact W2|exact W3]|exact W4]|].
  split; [reflexivity|]. split; [reflexivity|]. split.
  - split; [|split; [reflexivity|split; reflexivity]]. apply bytes_eqb_ok; reflexivity.
  - split; [reflexivity|]. split; [reflexivity|]. intros E. pose proof (ok_dec _ _ ddeal_ok z [] Wz) as D1. pose proof (ok_dec _ _ ddeal_ok z' [] Wz') as D2.
    rewrite E, D2 in D1. apply (f_equal (fun o => match o with Some (x, _) => p_vt (we_dhkey (wdd_deal x)) | None => true end)) in D1. cbn in D1.
    destruct (p_vt k); discriminate D1.
Qed.
Print Assumptions C90_refuted.
(** What is signed determines the deal: the same bytes are signed only for the same index, ephemeral key, nonce and
    ciphertext. *)
Theorem C90_partial (d d' : w_ddeal) : wf_ddeal d -> wf_ddeal d' -> ddeal_marshal d = ddeal_marshal d' ->
  wdd_index d = wdd_index d' /\ wdd_deal d = wdd_deal d'.
Proof.
  intros [W1 [W2 _]] [V1 [V2 _]] E. assert (N0 : wf_bytes []) by (split; [reflexivity|constructor]).
  apply (f_equal (fun o => match o with Ok b => b | _ => [] end)) in E. cbn [ddeal_marshal marshal] in E.
  pose proof (ok_dec _ _ ddeal_ok (WDDeal (wdd_index d) (wdd_deal d) []) [] (conj W1 (conj W2 N0))) as D.
  pose proof (ok_dec _ _ ddeal_ok (WDDeal (wdd_index d') (wdd_deal d') []) [] (conj V1 (conj V2 N0))) as D'.
  rewrite E, D' in D. injection D as D1 D2. now split.
Qed.
Print Assumptions C90_partial.
Example C90_nonvacuous : wf_ddeal (WDDeal 3 (WEnc (point_base point_default) [5] [] [6; 7]) [9]).
Proof.
  split; [unfold u32_range; cbn; lia|]. split; [split; [exact (repr_wf _ _ (base_ok _))|]|]; repeat split; repeat (constructor; [unfold is_byte; lia|]); constructor.
Qed.

(** ** C91 *)

(** Full statement: a point read from a message is a point of the curve, and a scalar read from a message is reduced modulo
    the order of the group.  Nothing is checked: any limbs and any 32 bytes are accepted. *)
Definition ypoint : point := Pt (Ext fe_zero (2 :: repeat 0 9) fe_one fe_zero) false.
Lemma two_v : tight (2 :: repeat 0 9) /\ fv (2 :: repeat 0 9) = of_Z 2.
Proof. split; [apply tightP; reflexivity|]. apply of_Z_eq. vm_compute. reflexivity. Qed.
Theorem C91_refuted : exists (e : w_enc) (b : list Z) (s : w_prishare) (b' : list Z),
  (forall y, unmarshal cod_enc y b = (Ok tt, e)) /\ (forall P, ~ repr (we_dhkey e) P) /\
  (forall P, point_marshal (we_dhkey e) <> enc P) /\ (exists q, point_unmarshal point_default (point_marshal (we_dhkey e)) = (Err InvalidInput, q)) /\
  (forall y, unmarshal cod_prishare y b' = (Ok tt, s)) /\ order <= le_val (wps_v s).
Proof.
  set (e := WEnc ypoint [] [] []). assert (N0 : wf_bytes []) by (split; [reflexivity|constructor]).
  assert (W : wf_enc e).
  { split; [|split; [exact N0|split; exact N0]]. split; [|split; [|split]]; (split; [reflexivity|repeat (constructor; [unfold irange; lia|]); constructor]). }
  set (s := WPriShare 0 (repeat 255 32)).
  assert (Ws : wf_prishare s) by (split; [unfold usize_range; cbn; lia|split; [reflexivity|repeat (constructor; [unfold is_byte; lia|]); constructor]]).
  exists e, (c_enc cod_enc e), s, (c_enc cod_prishare s).
  assert (M : point_marshal ypoint = le_bytes 32 (2 + 2 ^ 255 * 0)).
  { destruct zero_v as [T0 E0]. destruct one_v as [T1 E1]. destruct two_v as [T2 E2].
    exact (frac_bytes_val _ _ _ f0 (of_Z 2) T0 T2 T1 ltac:(rewrite E1; exact f1_nz) ltac:(rewrite E0; ring) ltac:(rewrite E2, E1; ring)). }
  assert (NE : forall P, point_marshal (we_dhkey e) <> enc P).
  { intros P E. cbn [we_dhkey e] in E. rewrite M in E. apply (f_equal (fun l => le_val l mod 2 ^ 255)) in E. rewrite (proj1 (enc_parts P)) in E.
    apply (not_y2 P). apply fz_inj. rewrite <- E. reflexivity. }
  split; [intros y; unfold unmarshal; rewrite <- (app_nil_r (c_enc cod_enc e)), (ok_dec _ _ enc_ok e [] W); reflexivity|].
  split; [intros P HP; exact (NE P (marshal_ok _ _ HP))|]. split; [exact NE|]. split.
  - cbn [we_dhkey e]. rewrite M. pose proof (unmarshal_ok point_default (le_bytes 32 (2 + 2 ^ 255 * 0)) (le_bytes_bytes _ _)) as U.
    destruct (point_unmarshal point_default (le_bytes 32 (2 + 2 ^ 255 * 0))) as [[u|[|]| |] q]; try contradiction.
    + exfalso. destruct U as [P [_ [[D _] _]]]. apply (not_y2 P). rewrite D. apply fz_inj. vm_compute. reflexivity.
    + exists q. reflexivity.
    + exfalso. destruct U as [U _]. discriminate U.
  - split; [intros y; unfold unmarshal; rewrite <- (app_nil_r (c_enc cod_prishare s)), (ok_dec _ _ prishare_ok s [] Ws); reflexivity|]. vm_compute. discriminate.
Qed.
Print Assumptions C91_refuted.
(** It holds for what correct senders send: the receiver holds the same representation of the same curve point. *)
Theorem C91_partial (p : point) (P : epoint) : repr p P -> exists b, marshal cod_point p = Ok b /\ length b = 161%nat /\
  forall y rest, exists q, unmarshal cod_point y (b ++ rest) = (Ok tt, q) /\ repr q P /\ q = p.
Proof.
  intros HP. pose proof (repr_wf p P HP) as W. exists (c_enc cod_point p). split; [reflexivity|]. split.
  - destruct W as [[L1 _] [[L2 _] [[L3 _] [L4 _]]]]. destruct p as [[x y z t] v]. cbn [p_ge ge_x ge_y ge_z ge_t] in *.
    unfold cod_point, cod_ext, cod_fe. cbn [c_enc cod_map cod_pair cod_array fst snd p_ge p_vt ge_x ge_y ge_z ge_t cod_bool].
    assert (FL : forall l, length (flat_map (c_enc cod_i32) l) = (4 * length l)%nat).
    { induction l as [|a l IH]; [reflexivity|]. cbn [flat_map length]. rewrite app_length, IH. cbn [c_enc cod_i32]. rewrite le_bytes_length. lia. }
    rewrite !app_length, !FL, L1, L2, L3, L4. reflexivity.
  - intros y rest. exists p. split; [unfold unmarshal; rewrite (ok_dec _ _ cpoint_ok p rest W); reflexivity|]. split; [exact HP|reflexivity].
Qed.
Print Assumptions C91_partial.
Example C91_nonvacuous : repr (point_base point_default) ebase.
Proof. exact (base_ok _). Qed.

(** ** C92 *)

Lemma fold_same xi l : bytes xi -> length xi = 32%nat -> le_val xi < 2 ^ 255 -> Forall (fun c => exists C, repr c C) l ->
  forall v v' V, repr v V -> repr v' V -> exists W, repr (fold_left (pub_step xi) l v) W /\ repr (fold_left (pub_step xi) l v') W.
Proof.
  intros Bx Lx Hx H. induction H as [|c l [C HC] Hl IH]; intros v v' V Hv Hv'; [exists V; split; assumption|]. cbn [fold_left].
  apply (IH _ _ (eadd (mul (le_val xi) V) C)); unfold pub_step; cbv zeta; (apply add_ok; [apply mul_some_ok; assumption|exact HC]).
Qed.

Lemma match_snoc {A B} (l : list A) (c : A) (x y : B) : match l ++ [c] with [] => x | _ => y end = y.
Proof. destruct l; reflexivity. Qed.
Lemma fold_snoc {A B} (f : B -> A -> B) (l : list A) (c : A) (v : B) : fold_left f (rev (l ++ [c])) v = fold_left f (rev l) (f v c).
Proof. rewrite rev_app_distr. reflexivity. Qed.
Lemma eval_snoc commits c i : ed_pub_eval (commits ++ [c]) i =
  bindo (scalar_set_int64 (repeat 0 32) (i64_of (1 + i64_of i)))
    (fun xi => Ok (fold_left (pub_step xi) (rev commits) (pub_step xi (point_null point_default) c))).
Proof.
  unfold ed_pub_eval. rewrite match_snoc. destruct (scalar_set_int64 (repeat 0 32) (i64_of (1 + i64_of i))) as [xi|e| |]; cbn [bindo]; [|reflexivity..].
  rewrite fold_snoc. reflexivity.
Qed.
(** Commitments that differ in the T coordinate of the last one have the same encodings, so the same session identifier and
    the same equality tests, and the check of every share has the same result. *)
Theorem C92_check (commits : list point) (Cs : list epoint) (c c' : point) (C : epoint) (b : option point) (B : epoint) (i : Z) (v : list Z) :
  Forall2 repr commits Cs -> repr c C -> no_t c' C -> base_of b B -> 0 <= i < 2 ^ 63 - 1 -> scalar32 v -> le_val v < 2 ^ 255 ->
  map point_marshal (commits ++ [c']) = map point_marshal (commits ++ [c]) /\
  exists r, ed_pub_check (commits ++ [c]) b i v = Ok r /\ ed_pub_check (commits ++ [c']) b i v = Ok r.
Proof.
  intros HC Hc Hc' HB Hi [Bv Lv] Hv. split; [rewrite !map_app; cbn [map]; rewrite (marshal_ok c C Hc), (marshal_no_t c' C Hc'); reflexivity|].
  unfold ed_pub_check. rewrite !eval_snoc.
  assert (I1 : i64_of i = i) by (unfold i64_of; rewrite Z.mod_small; lia).
  assert (I2 : i64_of (1 + i) = 1 + i) by (unfold i64_of; rewrite Z.mod_small; lia). rewrite I1, I2.
  destruct (C27_setters_partial (repeat 0 32) (1 + i) [] (conj (bytes_repeat0 32) eq_refl) ltac:(lia) ltac:(constructor)) as [[xi [x [E [_ [_ Hx]]]]] _].
  rewrite E. cbn [bindo]. destruct (Hx eq_refl) as [[Bx Lx] [Rx Dx]].
  assert (Vx : le_val xi < 2 ^ 255) by (unfold order in *; lia). clear E Hx Dx.
  assert (FC : Forall (fun c => exists C, repr c C) (rev commits)).
  { apply Forall_forall. intros a Ha. apply in_rev in Ha. clear -HC Ha. induction HC as [|a0 A0 l L H0 HL IH]; [destruct Ha|].
    destruct Ha as [<-|Ha]; [exists A0; exact H0|exact (IH Ha)]. }
  assert (M0 : repr (point_mul (point_null point_default) xi (Some (point_null point_default))) e0).
  { pose proof (mul_some_ok (point_null point_default) xi (point_null point_default) e0 Bx Lx Vx (null_ok _)) as M. rewrite (zmul_g0 edg _ : mul (le_val xi) e0 = e0) in M. exact M. }
  assert (S1 : repr (pub_step xi (point_null point_default) c) C).
  { unfold pub_step. cbv zeta. rewrite <- (EdCurve.eadd_0 C). apply add_ok; [exact M0|exact Hc]. }
  assert (S2 : repr (pub_step xi (point_null point_default) c') C) by (unfold pub_step; cbv zeta; apply add_null; [exact M0|exact Hc']).
  destruct (fold_same xi (rev commits) Bx Lx Vx FC _ _ C S1 S2) as [W [W1 W2]].
  set (e1 := fold_left (pub_step xi) (rev commits) (pub_step xi (point_null point_default) c)) in *.
  set (e2 := fold_left (pub_step xi) (rev commits) (pub_step xi (point_null point_default) c')) in *. clearbody e1 e2.
  exists (bytes_eqb (enc W) (point_marshal (point_mul point_default v b))). unfold point_eqb. rewrite (marshal_ok e1 W W1), (marshal_ok e2 W W2). split; reflexivity.
Qed.
Print Assumptions C92_check.

(** Sums of polynomials whose commitments are points in every coordinate: term by term, and refused for unequal thresholds. *)
Theorem C92_sum_partial (p q : list point) (P Q : list epoint) : Forall2 repr p P -> Forall2 repr q Q ->
  (length p <> length q -> is_err (ed_pub_add p q) = true) /\
  (length p = length q -> exists r, ed_pub_add p q = Ok r /\ length r = length p /\
     forall k, (k < length p)%nat -> repr (nth k r point_default) (eadd (nth k P e0) (nth k Q e0))).
Proof.
  intros HP HQ. unfold ed_pub_add. destruct (Nat.eqb_spec (length p) (length q)) as [E|N]; cbn [negb]; (split; [intros H|intros H]).
  - now destruct H.
  - exists (map (fun xy => point_add point_default (fst xy) (snd xy)) (combine p q)). split; [reflexivity|].
    split; [rewrite map_length, combine_length; lia|]. clear H. revert q Q HQ E. induction HP as [|a A p P Ha HP IH]; intros q Q HQ E k Hk; [cbn in Hk; lia|].
    destruct HQ as [|b B q Q Hb HQ]; [discriminate E|]. cbn [combine map fst snd]. destruct k as [|k]; cbn [nth].
    + exact (add_ok point_default a b A B Ha Hb).
    + apply IH; [exact HQ|now injection E|cbn in Hk; lia].
  - reflexivity.
  - now elim N.
Qed.
Print Assumptions C92_sum_partial.
Example C92_sum_nonvacuous : Forall2 repr [point_base point_default] [ebase] /\ length [point_base point_default] = 1%nat.
Proof. split; [constructor; [exact (base_ok point_default)|constructor]|reflexivity]. Qed.

(** Full statement: verifiers that approve deals of one session hold the same public polynomial, so sums over the qualified
    dealers (PubPoly::add, share/dkg) agree.  Here [p] and [p'] are equal commitments to 1 + x, [p'] can be sent, every share is
    treated alike and the right shares are accepted; yet adding the same polynomial [q] gives a different result, which holds
    no curve point. *)
Definition tbase : point := Pt (Ext BASEEXT_x BASEEXT_y BASEEXT_z fe_zero) false.
Lemma tbase_no_t : no_t tbase ebase /\ fv (ge_t (p_ge tbase)) = f0.
Proof.
  destruct (base_ok point_default) as [[Tx [Ty [Tz _]]] H]. destruct zero_v as [T0 E0]. split; [|exact E0].
  split; [|exact T0]. split; [split; [exact Tx|split; [exact Ty|exact Tz]]|]. exact (EdCurve.ext_proj _ _ _ _ _ H).
Qed.
Definition sx : Fp := fadd (fmul (ex ebase) (ey ebase)) (fmul (ex ebase) (ey ebase)).
Definition sy : Fp := fadd (fmul (ey ebase) (ey ebase)) (fmul (ex ebase) (ex ebase)).
Lemma sxy_off : on_curveb sx sy = false.
Proof. vm_compute. reflexivity. Qed.
Lemma sy_den : fz (fmul sy (fmul (fmul (fmul (fmul fd (ex ebase)) (ex ebase)) (ey ebase)) (ey ebase))) <> 0.
Proof. vm_compute. discriminate. Qed.
Lemma sy_not : fz sy <> fz (ey (eadd ebase ebase)).
Proof.
  intros E. apply fz_inj in E. pose proof (law_dm _ _ _ _ (ep_on ebase) (ep_on ebase)) as N. cbn [eadd ey] in E. unfold law_y in E. fold sy in E.
  apply sy_den. apply (proj2 (fz_0 _)). pose proof sy_den as _. set (x := ex ebase) in *. set (y := ey ebase) in *. set (s := sy) in *.
  set (m := fmul (fmul (fmul (fmul fd x) x) y) y) in *. clearbody s m. apply (f_equal (fun a => fmul a (fsub f1 m))) in E.
  replace (fmul (fdiv s (fsub f1 m)) (fsub f1 m)) with s in E by (field; exact N).
  replace (fmul s m) with (fsub s (fmul s (fsub f1 m))) by ring. rewrite E. ring.
Qed.

Lemma tbase_sum b : repr b ebase -> point_marshal (point_add point_default tbase b) = le_bytes 32 (fz sy + 2 ^ 255 * (fz sx mod 2)) /\
  forall P, ~ repr (point_add point_default tbase b) P.
Proof.
  intros HB. destruct tbase_no_t as [TB T0]. pose proof (add_t0 tbase b ebase ebase TB T0 HB) as A. fold sx in A. fold sy in A.
  set (w := to_extended (comp_add (p_ge tbase) (write_cached (p_ge b)))) in A.
  change (point_marshal (point_add point_default tbase b)) with (ext_write_bytes w).
  destruct A as [[Tx [Ty Tz]] [N [EX EY]]]. split; [exact (frac_bytes_val _ _ _ sx sy Tx Ty Tz N EX EY)|].
  intros P HP. change (ext_ok w P) in HP. destruct HP as [_ [_ [EX' [EY' _]]]]. clearbody w.
  assert (C : forall a a' z, z <> f0 -> fmul a z = fmul a' z -> a = a').
  { intros a a' z Nz E. apply (f_equal (fun t => fmul t (finv z))) in E. replace (fmul (fmul a z) (finv z)) with a in E by (field; exact Nz).
    replace (fmul (fmul a' z) (finv z)) with a' in E by (field; exact Nz). exact E. }
  rewrite EX in EX'. rewrite EY in EY'. apply C in EX'; [|exact N]. apply C in EY'; [|exact N].
  pose proof (e_on P) as O. rewrite <- EX', <- EY' in O. rewrite sxy_off in O. discriminate O.
Qed.

Theorem C92_refuted : exists (p p' q r r' : list point),
  map point_marshal p = map point_marshal p' /\ Forall2 (fun a b => point_eqb a b = true) p p' /\ Forall wf_point p' /\
  (forall i v, 0 <= i < 2 ^ 63 - 1 -> scalar32 v -> le_val v < 2 ^ 255 -> ed_pub_check p None i v = ed_pub_check p' None i v) /\
  (forall i, 0 <= i < 2 ^ 32 -> ed_pub_check p' None i (le_bytes 32 (1 + (1 + i))) = Ok true) /\
  ed_pub_add p q = Ok r /\ ed_pub_add p' q = Ok r' /\
  (exists k, point_eqb (nth k r point_default) (nth k r' point_default) = false /\ (exists P, repr (nth k r point_default) P) /\
             forall P, ~ repr (nth k r' point_default) P).
Proof.
  set (b := point_base point_default). destruct tbase_no_t as [TB T0]. pose proof (base_ok point_default : repr b ebase) as HB.
  exists [b; b], [b; tbase], [b; b]. eexists. eexists.
  assert (F2 : Forall2 repr [b] [ebase]) by (constructor; [exact HB|constructor]).
  assert (Chk : forall i v, 0 <= i < 2 ^ 63 - 1 -> scalar32 v -> le_val v < 2 ^ 255 -> ed_pub_check [b; b] None i v = ed_pub_check [b; tbase] None i v).
  { intros i v Hi Sv Hv. destruct (C92_check [b] [ebase] b tbase ebase None ebase i v F2 HB TB eq_refl Hi Sv Hv) as [_ [x [E1 E2]]].
    exact (eq_trans E1 (eq_sym E2)). }
  assert (M : point_marshal b = point_marshal tbase) by (rewrite (marshal_ok b ebase HB), (marshal_no_t tbase ebase TB); reflexivity).
  split; [cbn [map]; rewrite M; reflexivity|]. split.
  { constructor; [apply (eqb_ok b b ebase ebase HB HB); reflexivity|]. constructor; [|constructor]. unfold point_eqb. rewrite M. apply bytes_eqb_ok; reflexivity. }
  split. { constructor; [exact (repr_wf _ _ HB)|]. constructor; [|constructor]. destruct TB as [[[Tx [Ty Tz]] _] Tt]. repeat split; now apply tight_wf. }
  split; [exact Chk|]. split.
  { intros i Hi. assert (V : le_val (le_bytes 32 (1 + (1 + i))) = 1 + (1 + i)) by (apply le_val_le_bytes_small; change (256 ^ Z.of_nat 32) with (2 ^ 256); lia).
    assert (S : scalar32 (le_bytes 32 (1 + (1 + i)))) by (split; [apply le_bytes_bytes|apply le_bytes_length]).
    rewrite <- (Chk i _ ltac:(lia) S ltac:(rewrite V; lia)).
    destruct (C84_check [b; b] [ebase; ebase] None ebase i (le_bytes 32 (1 + (1 + i))) ltac:(constructor; [exact HB|exact F2]) ltac:(discriminate) eq_refl
      ltac:(lia) S ltac:(rewrite V; lia)) as [x [E H]].
    rewrite E. apply (f_equal (@Ok int_error bool)). apply H. rewrite V. cbn [psum]. change (0 + 1) with 1. rewrite Z.pow_0_r, Z.pow_1_r, emul_1.
    rewrite (eadd_comm (mul (1 + i) ebase) e0), EdCurve.eadd_0. rewrite (emul_add 1 (1 + i) ebase), emul_1. reflexivity. }
  split; [reflexivity|]. split; [reflexivity|]. exists 1%nat. cbn [nth map combine fst snd].
  pose proof (add_ok point_default b b ebase ebase HB HB) as R. pose proof (tbase_sum b HB) as [M1 M2].
  set (u := point_add point_default b b) in *. set (w := point_add point_default tbase b) in *. clearbody u w.
  split; [|split; [exists (eadd ebase ebase); exact R|exact M2]].
  destruct (point_eqb u w) eqn:E; [exfalso|reflexivity]. unfold point_eqb in E. rewrite (marshal_ok u _ R), M1 in E.
  apply bytes_eqb_ok in E; [|rewrite enc_length, le_bytes_length; reflexivity]. apply (f_equal (fun l => le_val l mod 2 ^ 255)) in E.
  rewrite (proj1 (enc_parts _)) in E. apply sy_not. symmetry. rewrite E.
  pose proof (fz_bound sy) as B1. pose proof (Z.mod_pos_bound (fz sx) 2 eq_refl) as B2. change prime_p with (2 ^ 255 - 19) in B1.
  set (t := fz sx mod 2) in *. set (y := fz sy) in *. clearbody t y.
  rewrite le_val_le_bytes_small by (change (256 ^ Z.of_nat 32) with (2 ^ 256); lia).
  rewrite Z.mul_comm, Z.mod_add by lia. apply Z.mod_small. lia.
Qed.
Print Assumptions C92_refuted.
Example C92_nonvacuous : Forall2 repr [point_base point_default] [ebase] /\ repr (point_base point_default) ebase /\ no_t tbase ebase /\
  (forall P, ~ repr tbase P) /\ base_of None ebase /\ scalar32 (le_bytes 32 2).
Proof.
  split; [constructor; [exact (base_ok _)|constructor]|]. split; [exact (base_ok _)|]. destruct tbase_no_t as [TB T0]. split; [exact TB|].
  split; [|split; [reflexivity|split; [apply le_bytes_bytes|apply le_bytes_length]]].
  intros P HP. assert (E : P = ebase) by (apply enc_inj; rewrite <- (marshal_ok tbase P HP), (marshal_no_t tbase ebase TB); reflexivity).
  subst P. destruct HP as [_ [N [_ [_ ET]]]]. rewrite T0 in ET. symmetry in ET. apply (fmul_nz (fmul (ex ebase) (ey ebase)) (fv (ge_z (p_ge tbase)))) in ET; [exact ET| |exact N].
  intros E. apply (f_equal fz) in E. revert E. vm_compute. discriminate.
Qed.
