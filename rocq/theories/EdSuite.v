(** The operations of a suite (Suite.v) written with the code of the curve, scalar, signature and encryption layers; byte
    strings are lists of natural numbers there and of integers here. *)
From Coq Require Import ZArith List Bool Sumbool Lia ssrbool.
From Verif Require Import Base Bytes RandModel RandProofs ScModel ScProofs Primes Group EdCurve GeModel GeMul GeBase GeEnc EdOrder EdModel EdBytes PropsSc EdSpec EdProofs PropsEd
  PointModel PointProofs PointCurve EciesModel PropsEcies EdScalars.
Import ListNotations.
Local Open Scope Z_scope.

Definition toZ (b : list nat) : list Z := map Z.of_nat b.
Definition toN (b : list Z) : list nat := map Z.to_nat b.
Lemma toN_toZ b : toN (toZ b) = b.
Proof. unfold toN, toZ. rewrite map_map. rewrite <- (map_id b) at 2. apply map_ext. intros. apply Nat2Z.id. Qed.
Lemma toZ_toN b : bytes b -> toZ (toN b) = b.
Proof. unfold toN, toZ. rewrite map_map. induction 1 as [|x l Hx _ IH]; [reflexivity|]. cbn [map]. rewrite IH, Z2Nat.id by apply Hx. reflexivity. Qed.

(** Point::marshal_binary (point.rs 36-41) and Scalar::marshal_binary (scalar.rs 92-99). *)
Definition enc_l (P : sub) : list nat := toN (penc ed25519 (sp P)).
Definition senc_l (a : fl) : list nat := match scalar_marshal (lbytes a) with Ok b => toN b | _ => [] end.
(** A point of the prime-order subgroup from a point of the curve; 0 for other points. *)
Definition to_sub (P : epoint) : sub := match sumbool_of_bool (insub P) with left H => mkSub P H | right _ => gnull end.

Section Ops.
Variables (sha : list Z -> list Z) (X : aead_prims).
(** schnorr_sig.rs 25-47 and 114-126. *)
Definition sign_l (x : fl) (m : list nat) (k : fl) : list nat :=
  match schnorr_sign_with ed25519 sha (lbytes k) (lbytes x) (toZ m) with Ok s => toN s | _ => [] end.
Definition verify_l (P : sub) (m s : list nat) : bool :=
  match schnorr_verify ed25519 sha (sp P) (toZ m) (toZ s) with Ok _ => true | _ => false end.
(** sha512 and [scalar().set_bytes] (dss_sig.rs 312-330). *)
Definition chal_l (m : list nat) : fl := match scalar_set_bytes scalar_default (sha (toZ m)) with Ok b => lof b | _ => l0 end.
(** dh_impl.rs 192-251: [AEAD::new], [seal] and [open] as vss.rs calls them.  Plaintexts that are not byte strings do not exist
    in the code; they are passed through behind a mark that is not a byte. *)
Definition is_bytes (b : list nat) : bool := forallb (fun x => Nat.ltb x 256) b.
Definition seal_l (P : sub) (ctx nonce plain : list nat) : list nat :=
  if is_bytes plain then
    match aead_new ed25519 X (sp P) (toZ ctx) with
    | Ok key => match aead_seal X key None (toZ nonce) (toZ plain) (Some (toZ ctx)) with Ok (c, _) => toN c | _ => [] end
    | _ => []
    end
  else 256%nat :: plain.
Definition open_l (P : sub) (ctx nonce cipher : list nat) : option (list nat) :=
  if is_bytes cipher then
    match aead_new ed25519 X (sp P) (toZ ctx) with
    | Ok key => match aead_open X key None (toZ nonce) (toZ cipher) (Some (toZ ctx)) with Ok (m, _) => Some (toN m) | _ => None end
    | _ => None
    end
  else match cipher with 256%nat :: m => Some m | _ => None end.
(** Keys and nonces the verifier lets through: not 0, and the point passes [is_canonical]. *)
Definition good_l (x : fl) : bool := negb (lz x =? 0) && pt_is_canonical (penc ed25519 (pmul_base ed25519 (lbytes x))).
(** [point().pick(xof(seed))] (rabin/vss.rs 1038): xof gives the initial state of the stream. *)
Definition derive_l {St : Type} (R : stream St) (fuel : nat) (xof : list Z -> St) (seed : list nat) : sub :=
  match point_pick St R fuel point_default (xof (toZ seed)) with Ok (p, _) => to_sub (pt_of p) | _ => gnull end.

Opaque ge_scalar_mult ge_scalar_mult_base ge_scalar_mult_vartime ext_set_bytes ext_write_bytes to_extended comp_add comp_sub write_cached ext_neg.

Lemma enc_l_inj P Q : enc_l P = enc_l Q -> P = Q.
Proof.
  unfold enc_l. intros E. apply sp_inj. apply (f_equal toZ) in E.
  rewrite !toZ_toN in E by exact (proj1 (co_enc ed25519 ed25519_ok _)).
  apply (f_equal (pdec ed25519)) in E. rewrite !(co_enc_dec ed25519 ed25519_ok) in E. injection E. auto.
Qed.
Lemma enc_l_len P : length (enc_l P) = 32%nat.
Proof. unfold enc_l, toN. rewrite map_length. exact (proj2 (co_enc ed25519 ed25519_ok (sp P))). Qed.

Lemma is_bytes_toZ b : is_bytes b = true -> bytes (toZ b).
Proof.
  unfold is_bytes, toZ. induction b as [|x b IH]; intros H; [constructor|]. cbn [forallb] in H. apply andb_prop in H as [H1 H2].
  apply Nat.ltb_lt in H1. assert (R : 0 <= Z.of_nat x < 256) by lia. constructor; [exact R|exact (IH H2)].
Qed.
Lemma toN_is_bytes b : bytes b -> is_bytes (toN b) = true.
Proof.
  unfold is_bytes, toN. induction 1 as [|x l Hx _ IH]; [reflexivity|]. cbn [map forallb]. rewrite IH, andb_true_r. apply Nat.ltb_lt. assert (R : 0 <= x < 256) by exact Hx. lia.
Qed.
Lemma seal_open_l (okX : prims_ok X) (tot : forall k n a m, bytes m -> exists c, aes_enc X k n a m = Some c /\ bytes c) P ctx nonce plain :
  open_l P ctx nonce (seal_l P ctx nonce plain) = Some plain.
Proof.
  unfold open_l, seal_l. destruct (is_bytes plain) eqn:Bp; [|reflexivity].
  assert (K : exists key, aead_new ed25519 X (sp P) (toZ ctx) = Ok key /\ length key = 32%nat).
  { unfold aead_new. rewrite (hkdf_None X okX). cbn [bindo]. rewrite (po_expand X okX). cbn [Nat.eqb negb]. eexists. split; [reflexivity|]. apply (po_expand X okX). }
  destruct K as [key [K LK]]. rewrite K.
  unfold aead_open, aead_seal, aes_encrypt, aes_decrypt. rewrite LK. cbn [Nat.eqb negb].
  destruct (tot key (toZ nonce) (aad_of (Some (toZ ctx))) (toZ plain) (is_bytes_toZ plain Bp)) as [c [Ec Bc]]. rewrite Ec. cbn [bindo copy_dst].
  rewrite (toN_is_bytes c Bc), toZ_toN by exact Bc. rewrite (po_dec_enc X okX _ _ _ _ _ Ec). cbn [bindo]. now rewrite toN_toZ.
Qed.
Lemma senc_lE a : senc_l a = toN (lbytes a).
Proof.
  unfold senc_l. rewrite (marshal_red _ (lbytes_32 a)). rewrite lbytes_val. unfold red. change order with ell. rewrite lz_mod. reflexivity.
Qed.
Lemma senc_l_inj a b : senc_l a = senc_l b -> a = b.
Proof.
  rewrite !senc_lE. intros E. apply (f_equal toZ) in E. rewrite !toZ_toN in E by apply lbytes_32.
  apply lz_inj. apply (f_equal le_val) in E. now rewrite !lbytes_val in E.
Qed.

Lemma sp_base_l x : sp (gscale x gbase) = zmul (co_group ed25519 ed25519_ok) (le_val (lbytes x)) (pbase ed25519).
Proof. rewrite gscale_base. exact (co_mul_base ed25519 ed25519_ok (lbytes x) (lbytes_32 x) (lbytes_small x)). Qed.
Lemma good_nd x : good_l x = true -> ~ (order | le_val (lbytes x)).
Proof.
  unfold good_l. intros H. apply andb_prop in H as [H _]. rewrite lbytes_val. intros D. pose proof (lz_bound x) as Hb.
  apply Z.mod_divide in D; [|discriminate]. change order with ell in D. rewrite Z.mod_small in D by exact Hb. rewrite D in H. discriminate H.
Qed.
Lemma good_y x : good_l x = true -> y_of (penc ed25519 (zmul (co_group ed25519 ed25519_ok) (le_val (lbytes x)) (pbase ed25519))) < p25519 - 217.
Proof.
  unfold good_l. intros H. apply andb_prop in H as [_ H]. rewrite <- sp_base_l, gscale_base.
  set (P := pmul_base ed25519 (lbytes x)) in *. apply (pt_is_canonical_ok _ (proj1 (co_enc ed25519 ed25519_ok P))) in H as [_ H]. exact H.
Qed.
Lemma sign_verify_l (shok : sha_ok sha) x m k : good_l x = true -> good_l k = true ->
  verify_l (gscale x gbase) m (sign_l x m k) = true.
Proof.
  intros Gx Gk. unfold verify_l, sign_l.
  rewrite (schnorr_sign_with_ok ed25519 ed25519_ok sha shok _ _ _ (lbytes_32 k) (lbytes_small k) (lbytes_32 x) (lbytes_small x)).
  rewrite sp_base_l.
  pose proof (sign_valid ed25519 ed25519_ok sha (le_val (lbytes x)) (le_val (lbytes k)) (toZ m) (good_nd x Gx) (good_nd k Gk)) as V.
  cbv zeta in V. apply proj2 in V. specialize (V (conj (good_y k Gk) (good_y x Gx))).
  set (A := zmul (co_group ed25519 ed25519_ok) (le_val (lbytes x)) (pbase ed25519)) in *.
  set (R := zmul (co_group ed25519 ed25519_ok) (le_val (lbytes k)) (pbase ed25519)) in *.
  set (c := challengeZ sha _ _ _) in *.
  assert (Bs : bytes (penc ed25519 R ++ red (le_val (lbytes k) + le_val (lbytes x) * c))).
  { apply bytes_app; [exact (proj1 (co_enc ed25519 ed25519_ok R))|apply red_scalar]. }
  rewrite toZ_toN by exact Bs.
  apply (C38_exact ed25519 ed25519_ok sha shok _ _ _ (proj1 (co_enc ed25519 ed25519_ok A)) Bs) in V.
  unfold schnorr_verify. rewrite V. reflexivity.
Qed.

(** A nonce r, a key f and the scalar c f + r with the challenge c make the Schnorr signature, and EdDSA verification takes it. *)
Lemma chal_lE (shok : sha_ok sha) m : chal_l m = of_l (le_val (sha (toZ m))).
Proof.
  unfold chal_l. rewrite set_bytes_red by apply shok. unfold lof. rewrite red_val. apply lz_inj. cbn [lz of_l]. change order with ell.
  apply Z.mod_mod. discriminate.
Qed.
Lemma toZ_app a b : toZ (a ++ b) = toZ a ++ toZ b. Proof. apply map_app. Qed.
Lemma toN_app a b : toN (a ++ b) = toN a ++ toN b. Proof. apply map_app. Qed.
Lemma toZ_enc P : toZ (enc_l P) = penc ed25519 (sp P). Proof. apply toZ_toN. exact (proj1 (co_enc ed25519 ed25519_ok (sp P))). Qed.
Lemma lin_mod c f r : lz (ladd (lmul (of_l c) f) r) = (lz r + lz f * c) mod order.
Proof.
  assert (E : ladd (lmul (of_l c) f) r = of_l (lz r + lz f * c)); [|rewrite E; reflexivity].
  rewrite laddE. apply of_l_eq. rewrite lmulE. pose proof (dvd1 (lz (of_l c) * lz f)) as D1. pose proof (of_l_dvd c (lz f)) as D2.
  replace (lz (of_l (lz (of_l c) * lz f)) + lz r - (lz r + lz f * c)) with
    ((lz (of_l (lz (of_l c) * lz f)) - lz (of_l c) * lz f) + (lz (of_l c) * lz f - c * lz f)) by ring.
  apply Z.divide_add_r; assumption.
Qed.
Lemma dss_sign_l (shok : sha_ok sha) f r m :
  enc_l (gscale r gbase) ++ senc_l (ladd (lmul (chal_l (enc_l (gscale r gbase) ++ enc_l (gscale f gbase) ++ m)) f) r) = sign_l f m r.
Proof.
  unfold sign_l.
  rewrite (schnorr_sign_with_ok ed25519 ed25519_ok sha shok _ _ _ (lbytes_32 r) (lbytes_small r) (lbytes_32 f) (lbytes_small f)).
  rewrite toN_app. rewrite <- !sp_base_l. unfold enc_l at 1. f_equal.
  rewrite senc_lE. f_equal. rewrite (chal_lE shok), !toZ_app, !toZ_enc. unfold lbytes at 1. rewrite lin_mod.
  unfold red, challengeZ. rewrite !lbytes_val. reflexivity.
Qed.
Lemma dss_valid_l (shok : sha_ok sha) f r m : good_l f = true -> good_l r = true ->
  eddsa_verify ed25519 sha (sp (gscale f gbase)) (toZ m)
    (toZ (enc_l (gscale r gbase) ++ senc_l (ladd (lmul (chal_l (enc_l (gscale r gbase) ++ enc_l (gscale f gbase) ++ m)) f) r))) = Ok tt.
Proof.
  intros Gf Gr. rewrite (dss_sign_l shok). pose proof (sign_verify_l shok f m r Gf Gr) as V. unfold verify_l in V.
  unfold schnorr_verify in V. unfold eddsa_verify.
  assert (Bs : bytes (toZ (sign_l f m r))).
  { apply is_bytes_toZ. unfold sign_l. 
    rewrite (schnorr_sign_with_ok ed25519 ed25519_ok sha shok _ _ _ (lbytes_32 r) (lbytes_small r) (lbytes_32 f) (lbytes_small f)).
    apply toN_is_bytes. apply bytes_app; [exact (proj1 (co_enc ed25519 ed25519_ok _))|apply red_scalar]. }
  apply (schnorr_eddsa ed25519 ed25519_ok sha shok _ _ _ Bs (proj1 (co_enc ed25519 ed25519_ok _))).
  destruct (schnorr_verify_with_checks ed25519 sha _ _ _) as [[]| | |]; [reflexivity|discriminate V..].
Qed.
End Ops.

(** Examples of good keys: 1 and -1. *)
Lemma goodE x : good_l x = negb (lz x =? 0) && pt_is_canonical (enc (mul (lz x) ebase)).
Proof. unfold good_l. rewrite pmul_base_l, ed_enc. reflexivity. Qed.
Lemma good_1 : good_l l1 = true.
Proof. rewrite goodE, l1E. change (lz (of_l 1)) with 1. rewrite emul_1. vm_compute. reflexivity. Qed.
Lemma good_m1 : good_l (lopp l1) = true.
Proof.
  rewrite goodE. assert (E : lopp l1 = of_l (-1)) by (rewrite loppE, l1E; reflexivity). rewrite E.
  assert (M : mul (lz (of_l (-1))) ebase = eneg ebase).
  { rewrite <- sp_gbase. rewrite (mul_mod (lz (of_l (-1))) (-1) gbase (dvd1 (-1))). rewrite sp_gbase. change (-1) with (- (1)).
    rewrite emul_opp, emul_1. reflexivity. }
  rewrite M. vm_compute. reflexivity.
Qed.

(** Toy crates: a "hash" that keeps the first 64 bytes, a key expansion, an AEAD with a one-byte tag. *)
Definition toysha (m : list Z) : list Z := le_bytes 64 (le_val m).
Lemma toysha_ok : sha_ok toysha.
Proof. intros m. split; [apply le_bytes_bytes|apply le_bytes_length]. Qed.
Definition toytag (k n a : list Z) : Z := (le_val k + le_val n + le_val a) mod 256.
Definition toyaead : aead_prims := {|
  hk_len := 32;
  hk_expand := fun ikm info n => le_bytes n (le_val ikm + le_val info);
  aes_enc := fun k n a m => Some (toytag k n a :: m);
  aes_dec := fun k n a c => match c with t :: m => if t =? toytag k n a then Some m else None | [] => None end
|}.
Lemma toyaead_ok : prims_ok toyaead.
Proof.
  split; cbn [toyaead hk_len hk_expand aes_enc aes_dec].
  - lia.
  - intros. apply le_bytes_length.
  - intros k n a m c E. injection E as <-. now rewrite Z.eqb_refl.
  - intros k n a m [|t c] E; [discriminate E|]. destruct (Z.eqb_spec t (toytag k n a)) as [->|]; [|discriminate E]. injection E as <-. reflexivity.
Qed.
Lemma toyaead_bytes k n a m : bytes m -> exists c, aes_enc toyaead k n a m = Some c /\ bytes c.
Proof. intros H. eexists. split; [reflexivity|]. constructor; [exact (Z.mod_pos_bound _ 256 eq_refl)|exact H]. Qed.
