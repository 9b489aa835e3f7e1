(** point.rs computes in the group of edwards25519; the small-order points; embedding. *)
From Coq Require Import ZArith String List Lia Bool Ring Field Znumtheory.
From Verif Require Import Base Bytes Limb ScLimbs IntModel RandModel RandProofs ScModel ScProofs FeLimbs FeModel FeProofs Primes Group Edwards Fp EdCurve
  GeConsts GeModel GeProofs GeMul GeBase GeBaseMul GeEnc GeVar EdOrder EdModel EdBytes PointModel.
Import ListNotations.
Local Open Scope Z_scope.

(** ** Points of small order *)

Lemma zero_x P : ex P = f0 -> ey P = f1 \/ ey P = fopp f1.
Proof.
  intros E. pose proof (ep_on P) as H. unfold on_curve in H. rewrite E in H. apply sq_eq.
  transitivity (fsub (fmul (ey P) (ey P)) (fmul f0 f0)); [ring|]. rewrite H. ring.
Qed.
Lemma mul_3_tors : ey (mul 3 tors) = fopp ty.
Proof.
  change 3 with (2 + 1). rewrite emul_add, mul_2_tors, emul_1. cbn [eadd ey]. unfold law_y. apply div_eq.
  - exact (law_dm _ _ _ _ quarter_on tors_on).
  - cbn [ex ey quarter tors]. transitivity (fmul (fmul fi fi) ty); [ring|]. rewrite fi_sq. ring.
Qed.
Lemma ey_neg P : ey (eneg P) = ey P. Proof. reflexivity. Qed.
Lemma neg_mul j P : eneg (mul j P) = mul (- j) P. Proof. symmetry. apply emul_opp. Qed.
Lemma tors_neg j : mul (8 - j) tors = eneg (mul j tors).
Proof. rewrite neg_mul. change (8 - j) with (8 + - j). rewrite emul_add, mul_8_tors. apply EdCurve.eadd_0. Qed.
Theorem small_y P : mul 8 P = e0 <-> ey P = f0 \/ ey P = f1 \/ ey P = fopp f1 \/ ey P = ty \/ ey P = fopp ty.
Proof.
  assert (Y0 : ey (mul 0 tors) = f1) by reflexivity.
  assert (Y1 : ey (mul 1 tors) = ty) by (rewrite emul_1; reflexivity).
  assert (Y2 : ey (mul 2 tors) = f0) by (rewrite mul_2_tors; reflexivity).
  assert (Y3 : ey (mul 3 tors) = fopp ty) by exact mul_3_tors.
  assert (Y4 : ey (mul 4 tors) = fopp f1) by (rewrite mul_4_tors; reflexivity).
  assert (Yn : forall j, ey (mul (8 - j) tors) = ey (mul j tors)) by (intros j; rewrite tors_neg; reflexivity).
  split.
  - intros H. apply small_multiples in H as [j [Hj EP]]. rewrite EP. clear EP P.
    assert (Y5 := Yn 3). assert (Y6 := Yn 2). assert (Y7 := Yn 1). clear Yn. change (8 - 3) with 5 in Y5. change (8 - 2) with 6 in Y6. change (8 - 1) with 7 in Y7.
    set (f := fun j => ey (mul j tors)). change (ey (mul j tors)) with (f j).
    change (f 0 = f1) in Y0. change (f 1 = ty) in Y1. change (f 2 = f0) in Y2. change (f 3 = fopp ty) in Y3. change (f 4 = fopp f1) in Y4.
    change (f 5 = f 3) in Y5. change (f 6 = f 2) in Y6. change (f 7 = f 1) in Y7. clearbody f.
    assert (C : j = 0 \/ j = 1 \/ j = 2 \/ j = 3 \/ j = 4 \/ j = 5 \/ j = 6 \/ j = 7) by lia.
    destruct C as [->|[->|[->|[->|[->|[->|[->| ->]]]]]]]; rewrite ?Y7, ?Y6, ?Y5, ?Y4, ?Y3, ?Y2, ?Y1, ?Y0; auto 7.
  - assert (G : forall j, ey P = ey (mul j tors) -> mul 8 P = e0).
    { intros j E. destruct (same_y _ _ E) as [X|X].
      - rewrite (ep_inj _ _ X E), emul_comm_mul, mul_8_tors. apply (zmul_g0 edg).
      - assert (EP : P = eneg (mul j tors)) by (apply ep_inj; [exact X|exact E]).
        rewrite EP, neg_mul, emul_comm_mul, mul_8_tors. apply (zmul_g0 edg). }
    intros [E|[E|[E|[E|E]]]].
    + apply (G 2). congruence.
    + apply (G 0). congruence.
    + apply (G 4). congruence.
    + apply (G 1). congruence.
    + apply (G 3). congruence.
Qed.

Lemma y_field_enc P : y_field (enc P) = fz (ey P).
Proof. exact (proj1 (enc_parts P)). Qed.
Lemma weak_vals : map le_val WEAK_KEYS = [0; 1; fz ty; fz (fopp ty); fz (fopp f1)].
Proof. vm_compute. reflexivity. Qed.
Theorem small_enc P : pt_small_order (enc P) = true <-> mul 8 P = e0.
Proof.
  rewrite (pt_small_order_ok (enc P) (enc_bytes P) (enc_length P)), weak_vals, y_field_enc, small_y. cbn [In].
  assert (G : forall a, (fz a = fz (ey P)) <-> ey P = a) by (intros a; split; [intros E; now apply fz_inj|now intros ->]).
  change 0 with (fz f0). change 1 with (fz f1). rewrite !G. intuition.
Qed.

(** ** The operations of point.rs *)

Definition repr (p : point) (P : epoint) : Prop := ext_ok (p_ge p) P.
Opaque ge_scalar_mult ge_scalar_mult_base ge_scalar_mult_vartime ext_set_bytes ext_write_bytes to_extended comp_add comp_sub write_cached ext_neg.

Lemma marshal_ok p P : repr p P -> point_marshal p = enc P.
Proof. exact (write_bytes_ok (p_ge p) P). Qed.
Lemma repr_unique p P Q : repr p P -> repr p Q -> P = Q.
Proof. intros H1 H2. apply enc_inj. rewrite <- (marshal_ok p P H1), <- (marshal_ok p Q H2). reflexivity. Qed.

Lemma bytes_eqb_ok a : forall b, length a = length b -> (bytes_eqb a b = true <-> a = b).
Proof.
  induction a as [|x a IH]; intros [|y b] L; try discriminate L; cbn [bytes_eqb]; [split; reflexivity|].
  injection L as L. destruct (Z.eqb_spec x y) as [->|N].
  - rewrite (IH b L). split; [now intros ->|]. intros E. now injection E.
  - split; [discriminate|]. intros E. injection E as E _. contradiction.
Qed.
Lemma eqb_ok p q P Q : repr p P -> repr q Q -> (point_eqb p q = true <-> P = Q).
Proof.
  intros HP HQ. unfold point_eqb. rewrite (marshal_ok p P HP), (marshal_ok q Q HQ), bytes_eqb_ok by (rewrite !enc_length; reflexivity).
  split; [apply enc_inj|now intros ->].
Qed.
Lemma eqb_false p q P Q : repr p P -> repr q Q -> (point_eqb p q = false <-> P <> Q).
Proof.
  intros HP HQ. pose proof (eqb_ok p q P Q HP HQ) as E. destruct (point_eqb p q).
  - split; [discriminate|]. intros N. exfalso. apply N. now apply E.
  - split; [|reflexivity]. intros _ H. apply E in H. discriminate H.
Qed.

Lemma null_ok self : repr (point_null self) e0. Proof. exact ext_zero_ok. Qed.
Lemma base_ok self : repr (point_base self) ebase. Proof. exact baseext_ok. Qed.
Lemma set_ok self p P : repr p P -> repr (point_set self p) P. Proof. intros H. exact H. Qed.
Lemma add_ok self p q P Q : repr p P -> repr q Q -> repr (point_add self p q) (eadd P Q).
Proof. intros HP HQ. exact (to_extended_ok _ _ (comp_add_ok _ _ _ _ HP (write_cached_ok _ _ HQ))). Qed.
Lemma sub_ok self p q P Q : repr p P -> repr q Q -> repr (point_sub self p q) (eadd P (eneg Q)).
Proof. intros HP HQ. exact (to_extended_ok _ _ (comp_sub_ok _ _ _ _ HP (write_cached_ok _ _ HQ))). Qed.
Lemma neg_ok self p P : repr p P -> repr (point_neg self p) (eneg P).
Proof. intros HP. exact (ext_neg_ok _ _ HP). Qed.

Lemma mul_none_ok self s : bytes s -> length s = 32%nat -> repr (point_mul self s None) (mul (effective (le_val s)) ebase).
Proof. exact (ge_scalar_mult_base_ok s). Qed.
Lemma mul_ct_ok self s p P : p_vt self = false -> bytes s -> length s = 32%nat -> repr p P ->
  repr (point_mul self s (Some p)) (mul (effective (le_val s)) P).
Proof. intros V Hb Hl HP. unfold repr, point_mul. rewrite V. exact (ge_scalar_mult_ok s (p_ge p) P Hb Hl HP). Qed.
Lemma mul_vt_ok self s p P : p_vt self = true -> bytes s -> length s = 32%nat -> le_val s <= 2 ^ 255 -> repr p P ->
  repr (point_mul self s (Some p)) (mul (le_val s) P).
Proof. intros V Hb Hl Hs HP. unfold repr, point_mul. rewrite V. exact (ge_scalar_mult_vartime_ok s (p_ge p) P Hb Hl Hs HP). Qed.
Lemma mul_some_ok self s p P : bytes s -> length s = 32%nat -> le_val s < 2 ^ 255 -> repr p P ->
  repr (point_mul self s (Some p)) (mul (le_val s) P).
Proof.
  intros Hb Hl Hs HP. destruct (p_vt self) eqn:V; [apply mul_vt_ok; try assumption; lia|].
  rewrite <- (effective_id (le_val s)) by (split; [apply le_val_bound; exact Hb|exact Hs]). now apply mul_ct_ok.
Qed.
Lemma mul_base_small self s : bytes s -> length s = 32%nat -> le_val s < 2 ^ 255 -> repr (point_mul self s None) (mul (le_val s) ebase).
Proof.
  intros Hb Hl Hs. rewrite <- (effective_id (le_val s)) by (split; [apply le_val_bound; exact Hb|exact Hs]). now apply mul_none_ok.
Qed.

(** ** Decoding *)

Lemma unmarshal_ok self b : bytes b ->
  match point_unmarshal self b with
  | (Ok _, p) => exists P, repr p P /\ decodes b P /\ length b = 32%nat /\ p_vt p = p_vt self
  | (Err e, p) => e = InvalidInput /\ forall P, length b = 32%nat -> ~ decodes b P
  | _ => False
  end.
Proof.
  intros Hb. unfold point_unmarshal. destruct (Nat.eq_dec (length b) 32) as [L|L].
  - pose proof (set_bytes_ok (p_ge self) b Hb L) as H. destruct (ext_set_bytes (p_ge self) b) as [[|] e]; cbn [set_bytes_post] in H.
    + destruct H as [P [H1 H2]]. exists P. auto.
    + split; [reflexivity|]. intros P _ [E _]. exact (H P E).
  - rewrite (set_bytes_len (p_ge self) b L). split; [reflexivity|]. intros P H. contradiction.
Qed.

(** A string with a canonical y field that does not decode to a point with x = 0 is the encoding of the point. *)
Lemma decodes_canonical b P : bytes b -> length b = 32%nat -> decodes b P -> y_field b < prime_p -> ex P <> f0 -> enc P = b.
Proof.
  intros Hb Hl [Ey [Z|S]] Hy N; [contradiction|]. apply le_val_inj; [apply enc_bytes|exact Hb|now rewrite enc_length|].
  rewrite enc_val, S, Ey. unfold ycoord, sign_bit. fold (y_field b).
  assert (Y : fz (of_Z (y_field b)) = y_field b).
  { change (fz (of_Z (y_field b))) with (y_field b mod prime_p). apply Z.mod_small. split; [unfold y_field; apply Z.mod_pos_bound; reflexivity|exact Hy]. }
  rewrite Y. unfold y_field. rewrite (Z.div_mod (le_val b) (2 ^ 255)) at 3 by discriminate. lia.
Qed.
(** With x = 0 only the sign bit can differ. *)
Lemma decodes_low b P : bytes b -> length b = 32%nat -> decodes b P -> y_field b < prime_p -> y_field (enc P) = y_field b.
Proof.
  intros Hb Hl [Ey _] Hy. rewrite y_field_enc, Ey. unfold ycoord. fold (y_field b).
  change (fz (of_Z (y_field b))) with (y_field b mod prime_p). apply Z.mod_small. split; [unfold y_field; apply Z.mod_pos_bound; reflexivity|exact Hy].
Qed.

(** ** Embedding *)

Lemma prime_scalar : PRIME_ORDER_SCALAR = le_bytes 32 ell. Proof. vm_compute. reflexivity. Qed.
Lemma cof_scalar : COFACTOR_SCALAR = le_bytes 32 8. Proof. vm_compute. reflexivity. Qed.
Lemma mul_ell_ok self p P : repr p P -> repr (point_mul self PRIME_ORDER_SCALAR (Some p)) (mul ell P).
Proof.
  intros H. rewrite prime_scalar. assert (E : le_val (le_bytes 32 ell) = ell) by (apply le_val_le_bytes_small; split; [discriminate|reflexivity]).
  rewrite <- E at 2. apply mul_some_ok; [apply le_bytes_bytes|apply le_bytes_length|rewrite E; reflexivity|exact H].
Qed.
Lemma mul_8_ok self p P : repr p P -> repr (point_mul self COFACTOR_SCALAR (Some p)) (mul 8 P).
Proof.
  intros H. rewrite cof_scalar. assert (E : le_val (le_bytes 32 8) = 8) by (apply le_val_le_bytes_small; split; [discriminate|reflexivity]).
  rewrite <- E at 2. apply mul_some_ok; [apply le_bytes_bytes|apply le_bytes_length|rewrite E; reflexivity|exact H].
Qed.

Lemma embed_bytes_ok data b : bytes b -> length b = 32%nat -> (forall d, data = Some d -> bytes d) ->
  bytes (embed_bytes data b) /\ length (embed_bytes data b) = 32%nat.
Proof.
  intros Hb Hl Hd. destruct data as [d|]; [|auto]. specialize (Hd d eq_refl). unfold embed_bytes. cbv zeta.
  set (dl := Nat.min embed_len (length d)). assert (L : (dl <= 29)%nat) by (unfold dl, embed_len; lia). assert (L' : (dl <= length d)%nat) by (unfold dl; lia).
  split.
  - constructor; [unfold is_byte; lia|]. apply bytes_app; [now apply bytes_firstn|now apply bytes_skipn].
  - cbn [length]. rewrite app_length, skipn_length, firstn_length, Hl. lia.
Qed.

Lemma firstn31 a : bytes a -> length a = 32%nat -> le_val (firstn 31 a) = y_field a mod 256 ^ 31.
Proof.
  intros Hb Hl. rewrite (y_field_split a Hb Hl). rewrite Z.mul_comm, Z.mod_add by discriminate. symmetry. apply Z.mod_small.
  assert (L : length (firstn 31 a) = 31%nat) by (rewrite firstn_length; lia).
  pose proof (le_val_bound (firstn 31 a) (bytes_firstn 31 a Hb)) as B. rewrite L in B. exact B.
Qed.
Lemma low_bytes a b : bytes a -> bytes b -> length a = 32%nat -> length b = 32%nat -> y_field a = y_field b -> firstn 31 a = firstn 31 b.
Proof.
  intros Ha Hb La Lb E. apply le_val_inj; [now apply bytes_firstn|now apply bytes_firstn|rewrite !firstn_length; lia|].
  rewrite !firstn31 by assumption. now rewrite E.
Qed.
Lemma small_head b0 r : bytes (b0 :: r) -> length (b0 :: r) = 32%nat -> b0 <= 29 -> y_field (b0 :: r) < prime_p.
Proof.
  intros Hb Hl H0. pose proof (Z.mod_pos_bound (le_val (b0 :: r)) (2 ^ 255) eq_refl) as B. fold (y_field (b0 :: r)) in B.
  assert (M : y_field (b0 :: r) mod 256 = b0).
  { unfold y_field. cbn [le_val]. change (2 ^ 255) with (256 * 2 ^ 247). rewrite Z.rem_mul_r by lia.
    inversion_clear Hb as [|? ? Hb0 _]. unfold is_byte in Hb0.
    replace (b0 + 256 * le_val r) with (b0 + le_val r * 256) by lia. rewrite Z.mod_add by lia. rewrite (Z.mod_small b0 256) by lia.
    rewrite Z.mul_comm, Z.mod_add by lia. apply Z.mod_small. lia. }
  change prime_p with (2 ^ 255 - 19). destruct (Z_lt_ge_dec (y_field (b0 :: r)) (2 ^ 255 - 19)) as [L|G]; [exact L|exfalso].
  assert (E : y_field (b0 :: r) = (2 ^ 247 - 1) * 256 + (y_field (b0 :: r) - (2 ^ 255 - 256))) by lia.
  rewrite E in M. rewrite Z.add_comm, Z.mod_add, Z.mod_small in M by lia. lia.
Qed.

(** The data of a point decoded from bytes that carry d. *)
Lemma data_ok p P d b : repr p P -> bytes d -> bytes b -> length b = 32%nat -> decodes (embed_bytes (Some d) b) P ->
  point_data p = Ok (firstn 29 d).
Proof.
  intros HP Hd Hb Hl D. destruct (embed_bytes_ok (Some d) b Hb Hl ltac:(intros ? E; injection E as <-; exact Hd)) as [B L].
  set (dl := Nat.min embed_len (length d)). assert (Ldl : (dl <= 29)%nat) by (unfold dl, embed_len; lia).
  assert (Ed : embed_bytes (Some d) b = Z.of_nat dl :: firstn dl d ++ skipn (1 + dl) b) by reflexivity.
  assert (Y : y_field (enc P) = y_field (embed_bytes (Some d) b)).
  { apply decodes_low; try assumption. rewrite Ed. apply small_head; [rewrite <- Ed; exact B|rewrite <- Ed; exact L|lia]. }
  pose proof (low_bytes _ _ (enc_bytes P) B (enc_length P) L Y) as F. rewrite Ed, firstn_cons in F.
  unfold point_data. cbv zeta. rewrite (marshal_ok p P HP). set (e := enc P) in *. assert (Le : length e = 32%nat) by apply enc_length. clearbody e.
  destruct e as [|h e]; [discriminate Le|]. rewrite firstn_cons in F. pose proof (f_equal (hd 0) F) as F0. apply (f_equal (@tl Z)) in F. cbn [hd] in F0. cbn [tl] in F. subst h. cbn [nth]. rewrite Nat2Z.id.
  replace (Nat.ltb embed_len dl) with false by (symmetry; apply Nat.ltb_ge; unfold embed_len; exact Ldl).
  unfold slice. rewrite Le. replace (Nat.leb 1 (1 + dl) && Nat.leb (1 + dl) 32)%bool with true
    by (symmetry; apply andb_true_intro; split; apply Nat.leb_le; lia).
  f_equal. cbn [skipn]. replace (1 + dl - 1)%nat with dl by lia.
  assert (E1 : firstn dl e = firstn dl (firstn 30 e)) by (rewrite firstn_firstn; f_equal; lia). rewrite E1, F.
  rewrite firstn_firstn. replace (Nat.min dl 30) with dl by lia. rewrite firstn_app, firstn_firstn, firstn_length.
  replace (dl - Nat.min dl (length d))%nat with 0%nat by (unfold dl; lia). rewrite firstn_O, app_nil_r, Nat.min_id.
  unfold dl, embed_len. destruct (Nat.le_gt_cases (length d) 29) as [C|C].
  - rewrite Nat.min_r by exact C. rewrite (firstn_all2 (n := length d)) by lia. symmetry. apply firstn_all2. exact C.
  - f_equal; lia.
Qed.

Section EmbedProofs.
Variables (St : Type) (R : stream St).
Hypothesis law : stream_law R.

(** What a returned point is: decoded from some round's bytes. *)
Lemma embed_some_ok d : bytes d -> forall fuel self s p s', point_embed St R fuel self (Some d) s = Ok (p, s') ->
  exists P, repr p P /\ mul ell P = e0 /\ p_vt p = p_vt self /\ point_data p = Ok (firstn 29 d).
Proof.
  intros Hd. induction fuel as [|f IH]; intros self s p s' H; [discriminate H|]. cbn [point_embed] in H.
  destruct (xks R s (repeat 0 32)) as [[b|] s1] eqn:X; [|discriminate H].
  destruct (law _ _ _ _ X) as [Lb Bb]. specialize (Bb (bytes_repeat0 32)). rewrite repeat_length in Lb.
  destruct (embed_bytes_ok (Some d) b Bb Lb ltac:(intros ? E; injection E as <-; exact Hd)) as [B L].
  pose proof (set_bytes_ok (p_ge self) _ B L) as SB. destruct (ext_set_bytes (p_ge self) (embed_bytes (Some d) b)) as [[|] e]; cbn [set_bytes_post] in SB; cbn [negb] in H.
  - destruct SB as [P [HP D]]. cbv zeta in H. set (p1 := Pt e (p_vt self)) in *. assert (R1 : repr p1 P) by exact HP.
    assert (Rq := mul_ell_ok point_default p1 P R1). pose proof (eqb_ok _ _ _ _ Rq (null_ok point_default)) as Q. fold NULL_POINT in Q.
    destruct (point_eqb (point_mul point_default PRIME_ORDER_SCALAR (Some p1)) NULL_POINT).
    + injection H as <- <-. exists P. split; [exact R1|]. split; [now apply Q|]. split; [reflexivity|]. exact (data_ok p1 P d b R1 Hd Bb Lb D).
    + destruct (IH _ _ _ _ H) as [P' [A1 [A2 [A3 A4]]]]. exists P'. auto.
  - destruct (IH _ _ _ _ H) as [P' [A1 [A2 [A3 A4]]]]. exists P'. auto.
Qed.
Lemma embed_none_ok : forall fuel self s p s', point_embed St R fuel self None s = Ok (p, s') ->
  exists P, repr p P /\ mul ell P = e0 /\ P <> e0 /\ p_vt p = p_vt self.
Proof.
  induction fuel as [|f IH]; intros self s p s' H; [discriminate H|]. cbn [point_embed] in H.
  destruct (xks R s (repeat 0 32)) as [[b|] s1] eqn:X; [|discriminate H].
  destruct (law _ _ _ _ X) as [Lb Bb]. specialize (Bb (bytes_repeat0 32)). rewrite repeat_length in Lb.
  cbn [embed_bytes] in H. pose proof (set_bytes_ok (p_ge self) _ Bb Lb) as SB.
  destruct (ext_set_bytes (p_ge self) b) as [[|] e]; cbn [set_bytes_post] in SB; cbn [negb] in H.
  - destruct SB as [P [HP D]]. cbv zeta in H. set (p1 := Pt e (p_vt self)) in *. assert (R1 : repr p1 P) by exact HP.
    assert (Rq := mul_8_ok p1 p1 P R1). pose proof (eqb_false _ _ _ _ Rq (null_ok point_default)) as Q. fold NULL_POINT in Q.
    set (p2 := point_mul p1 COFACTOR_SCALAR (Some p1)) in *.
    destruct (point_eqb p2 NULL_POINT).
    + destruct (IH _ _ _ _ H) as [P' [A1 [A2 [A3 A4]]]]. exists P'. auto.
    + injection H as <- <-. exists (mul 8 P). split; [exact Rq|]. split; [|split; [now apply Q|reflexivity]].
      rewrite <- emul_mul, Z.mul_comm. apply full_order.
  - destruct (IH _ _ _ _ H) as [P' [A1 [A2 [A3 A4]]]]. exists P'. auto.
Qed.
(** No panic unless the stream fails. *)
Lemma embed_no_panic data : (forall s n, exists b s', xks R s (repeat 0 n) = (Some b, s')) ->
  forall fuel self s, match point_embed St R fuel self data s with Ok _ | OutOfFuel => True | _ => False end.
Proof.
  intros Hs. induction fuel as [|f IH]; intros self s; [exact I|]. cbn [point_embed].
  destruct (Hs s 32%nat) as [b [s' E]]. rewrite E. destruct (ext_set_bytes (p_ge self) (embed_bytes data b)) as [[|] e]; cbn [negb]; [|apply IH].
  destruct data as [d|]; cbv zeta; [destruct (point_eqb _ NULL_POINT); [exact I|apply IH]|].
  destruct (point_eqb _ NULL_POINT); [apply IH|exact I].
Qed.
End EmbedProofs.

Lemma data_no_panic p P : repr p P -> point_data p <> Panic.
Proof.
  intros HP. unfold point_data. cbv zeta. rewrite (marshal_ok p P HP). destruct (Nat.ltb_spec embed_len (Z.to_nat (nth 0 (enc P) 0))) as [H|H]; [discriminate|].
  unfold slice. rewrite enc_length. unfold embed_len in H. set (dl := Z.to_nat _) in *.
  replace (Nat.leb 1 (1 + dl) && Nat.leb (1 + dl) 32)%bool with true by (symmetry; apply andb_true_intro; split; apply Nat.leb_le; lia). discriminate.
Qed.
