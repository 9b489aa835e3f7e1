(** C37-C39, C77 and C87 for the code of point.rs: the statements about signatures and key agreement on the curve edwards25519
    itself.  The specification is EdCurve and Group ([eadd], [e0], [mul]), and the encodings of RFC 8032 ([enc], [decodes] of
    GeEnc). *)
From Coq Require Import ZArith Znumtheory String List Lia Bool ssrbool.
From Verif Require Import Base Bytes Limb ScLimbs IntModel RandModel RandProofs ScModel ScProofs FeLimbs FeModel FeProofs Primes Group Edwards Fp EdCurve
  GeConsts GeModel GeProofs GeMul GeBase GeBaseMul GeEnc GeVar EdOrder EdModel EdBytes PropsSc EdSpec EdProofs PropsEd PointModel PointProofs
  PointCurve EciesModel PropsEcies EdScalars EdSuite.
Import ListNotations.
Local Open Scope Z_scope.
Opaque ge_scalar_mult ge_scalar_mult_base ge_scalar_mult_vartime ext_set_bytes ext_write_bytes to_extended comp_add comp_sub write_cached ext_neg
  ext_double proj_double to_projective mixed_add mixed_sub.

Notation mul := (zmul edg).

(** ** C37-C39 *)
(** A valid signature of msg under the public key bytes ab: R || S with S below the order of the base point, R and A encode
    points of the curve, neither of small order, both with y below p - 217 (C31), and S B = R + (H(R || A || msg) mod l) A. *)
Definition valid_ed25519 (sha : list Z -> list Z) (ab msg sig : list Z) : Prop :=
  exists (rb : list Z) (s : Z) (R A : epoint),
    [/\ sig = rb ++ le_bytes 32 s /\ length rb = 32%nat /\ length ab = 32%nat, 0 <= s < order,
        decodes rb R /\ decodes ab A, y_of rb < p25519 - 217 /\ y_of ab < p25519 - 217 &
        mul 8 R <> e0 /\ mul 8 A <> e0 /\ mul s ebase = eadd R (mul (le_val (sha (rb ++ ab ++ msg)) mod order) A)].

Lemma co_zmul z (P : epoint) : zmul (co_group ed25519 ed25519_ok) z P = mul z P.
Proof. exact (zmul_ext (co_group ed25519 ed25519_ok) edg (fun x => x) ed_zero ed_add ed_neg z P). Qed.

Lemma valid_ed sha ab msg sig : bytes ab -> bytes sig ->
  (valid_signature ed25519 ed25519_ok sha ab msg sig <-> valid_ed25519 sha ab msg sig).
Proof.
  intros Ha Hs. unfold valid_signature, valid_ed25519, challengeZ. split.
  - intros [rb [s [R [A [[E L] H [D1 D2] Y [N1 [N2 Q]]]]]]]. exists rb, s, R, A.
    assert (Hr : bytes rb). { subst sig. exact (proj1 (proj1 (Forall_app _ _ _) Hs)). }
    apply (ed_dec rb R Hr) in D1 as [_ D1]. apply (ed_dec ab A Ha) in D2 as [L2 D2].
    rewrite co_zmul, ed_zero in N1. rewrite co_zmul, ed_zero in N2. rewrite !co_zmul, ed_base, ed_add in Q. split; auto.
  - intros [rb [s [R [A [[E [L L2]] H [D1 D2] Y [N1 [N2 Q]]]]]]]. exists rb, s, R, A.
    assert (Hr : bytes rb). { subst sig. exact (proj1 (proj1 (Forall_app _ _ _) Hs)). }
    split; [auto|exact H| |exact Y|].
    + split; [apply (ed_dec rb R Hr)|apply (ed_dec ab A Ha)]; auto.
    + rewrite !co_zmul, ed_zero, ed_base, ed_add. auto.
Qed.

(** Both verifiers accept exactly the valid signatures. *)
Theorem C38_ed25519 (sha : list Z -> list Z) (ab msg sig : list Z) : sha_ok sha ->
  Forall (fun b => 0 <= b < 256) ab -> Forall (fun b => 0 <= b < 256) sig ->
  (schnorr_verify_with_checks ed25519 sha ab msg sig = Ok tt <-> valid_ed25519 sha ab msg sig) /\
  (eddsa_verify_with_checks ed25519 sha ab msg sig = Ok tt <-> valid_ed25519 sha ab msg sig).
Proof.
  intros Hsha Ha Hs. pose proof (C38_exact ed25519 ed25519_ok sha Hsha ab msg sig Ha Hs) as H1.
  pose proof (C39_cross ed25519 ed25519_ok sha Hsha ab msg sig Ha Hs) as H2. pose proof (valid_ed sha ab msg sig Ha Hs) as H3.
  split; [rewrite H1; exact H3|rewrite H2, H1; exact H3].
Qed.
Print Assumptions C38_ed25519.

(** Signing with a nonzero private key and a nonzero nonce gives a valid signature, unless the nonce or the public key is one
    of the points with y >= p - 217. *)
Theorem C37_ed25519 (sha : list Z -> list Z) (St : Type) (Rnd : stream St) (fuel : nat) (st st' : St) (x msg sig : list Z) :
  sha_ok sha -> stream_law Rnd -> scalar32 x -> le_val x < 2 ^ 255 -> ~ (order | le_val x) -> Forall (fun b => 0 <= b < 256) msg ->
  schnorr_sign ed25519 sha St Rnd fuel st x msg = Ok (sig, st') ->
  let A := mul (le_val x) ebase in
  length sig = 64%nat /\
  (schnorr_verify ed25519 sha A msg sig = Ok tt <-> y_of (firstn 32 sig) < p25519 - 217 /\ fz (ey A) < p25519 - 217).
Proof.
  intros Hsha HR Hx Bx Dx Hm H A.
  destruct (C37_completeness ed25519 ed25519_ok sha Hsha St Rnd fuel st st' x msg sig HR Hx Bx Dx Hm H) as [L [V _]].
  split; [exact L|]. rewrite co_zmul, ed_base in V. fold A in V. rewrite V, ed_enc. unfold y_of at 2. rewrite (proj1 (enc_parts A)). reflexivity.
Qed.
Print Assumptions C37_ed25519.
Theorem C39_ed25519 (sha : list Z -> list Z) (seed msg : list Z) : sha_ok sha -> Forall (fun b => 0 <= b < 256) seed -> length seed = 32%nat ->
  let e := eddsa_of_seed ed25519 sha seed in
  let r := le_val (sha (skipn 32 (sha seed) ++ msg)) in
  ed_public ed25519 e = mul (le_val (ed_secret ed25519 e)) ebase /\ clamped (ed_secret ed25519 e) /\
  (~ (order | r) -> exists sig, eddsa_sign ed25519 sha e msg = Ok sig /\ firstn 32 sig = enc (mul r ebase) /\
     (eddsa_verify ed25519 sha (ed_public ed25519 e) msg sig = Ok tt <->
      fz (ey (mul r ebase)) < p25519 - 217 /\ fz (ey (ed_public ed25519 e)) < p25519 - 217)).
Proof.
  intros Hsha Hs L e r. destruct (C39_seed_signer ed25519 ed25519_ok sha Hsha seed Hs L) as [K [N [P [_ [F _]]]]]. fold e in K, N, P, F.
  split; [rewrite P, co_zmul, ed_base; reflexivity|]. split; [exact K|]. intros Dr.
  assert (Dr' : ~ (order | le_val (sha (ed_prefix ed25519 e ++ msg)))) by (rewrite F; exact Dr).
  destruct (C39_completeness ed25519 ed25519_ok sha Hsha e msg (proj1 K) (proj2 (proj1 (proj2 K))) N P Dr') as [sig [E [_ [V _]]]].
  destruct (C40_nonce_partial ed25519 ed25519_ok sha Hsha e msg (proj1 K)) as [sig' [E' R]]. rewrite E in E'. injection E' as <-.
  rewrite co_zmul, ed_base, ed_enc, F in R. fold r in R.
  exists sig. split; [exact E|]. split; [exact R|]. rewrite V, R, ed_enc. unfold y_of. rewrite !(fun P => proj1 (enc_parts P)). reflexivity.
Qed.
Print Assumptions C39_ed25519.

(** ** C77 *)
(** The neutral point has a second encoding, with the sign bit set; so has any point of the curve with y < 19. *)
Definition neutral_bytes : list Z := le_bytes 32 1.
Definition neutral_bytes' : list Z := le_bytes 32 (1 + 2 ^ 255).
Lemma some_inj {A} (a b : A) : Some a = Some b -> a = b.
Proof. congruence. Qed.
Lemma neutral_dec : pdec ed25519 neutral_bytes = Some e0 /\ pdec ed25519 neutral_bytes' = Some e0.
Proof.
  split; apply ed_dec; try apply le_bytes_bytes; (split; [apply le_bytes_length|]); (split; [|left; reflexivity]);
  apply fz_inj; vm_compute; reflexivity.
Qed.
(** Whatever the cipher: the ciphertext with the neutral ephemeral point that opens to m for everybody (C76) can be changed
    in its 32nd byte and still opens to m for everybody. *)
Theorem C77_refuted (X : aead_prims) (m ctx : list Z) : prims_ok X -> universal ed25519 ed25519_ok X m = Some ctx ->
  exists ctx', ctx' <> ctx /\ length ctx' = length ctx /\ skipn 32 ctx' = skipn 32 ctx /\
    forall x, scalar32 x -> le_val x < 2 ^ 255 -> ecies_decrypt ed25519 X x ctx = Ok m /\ ecies_decrypt ed25519 X x ctx' = Ok m.
Proof.
  intros okX U. pose proof (C76_universal_refuted ed25519 ed25519_ok X okX m ctx U) as H.
  unfold universal in U. destruct (aes_enc X _ _ _ _) as [c|]; [|discriminate]. apply some_inj in U.
  assert (En : penc ed25519 (pzero ed25519) = neutral_bytes). { rewrite ed_zero, ed_enc. vm_compute. reflexivity. }
  rewrite En in U. subst ctx. exists (neutral_bytes' ++ c).
  assert (L1 : length neutral_bytes = 32%nat) by apply le_bytes_length. assert (L2 : length neutral_bytes' = 32%nat) by apply le_bytes_length.
  split. { intros E. apply app_inv_tail in E. apply (f_equal le_val) in E. vm_compute in E. discriminate. }
  split; [rewrite !app_length, L1, L2; reflexivity|]. split; [rewrite !skipn_app_exact by assumption; reflexivity|].
  intros x Hx Bx. split; [exact (H x Hx Bx)|].
  apply (C77_point_bytes ed25519 X x neutral_bytes neutral_bytes' c m Hx Bx L1 L2); [|exact (H x Hx Bx)].
  destruct neutral_dec as [-> ->]. reflexivity.
Qed.
Print Assumptions C77_refuted.
(** What holds: if the ephemeral point R has 19 <= y and x <> 0, there is no other ciphertext for R and m. *)
Theorem C77_ed25519_partial (X : aead_prims) (x ctx ctx' m : list Z) (R : epoint) : prims_ok X -> scalar32 x -> le_val x < 2 ^ 255 ->
  Forall (fun b => 0 <= b < 256) ctx -> Forall (fun b => 0 <= b < 256) ctx' ->
  decodes (firstn 32 ctx) R -> decodes (firstn 32 ctx') R -> 19 <= fz (ey R) -> ex R <> f0 ->
  ecies_decrypt ed25519 X x ctx = Ok m -> ecies_decrypt ed25519 X x ctx' = Ok m -> ctx = ctx'.
Proof.
  intros okX Hx Bx Hc Hc' D D' Y NX H H'.
  assert (Len : forall c, ecies_decrypt ed25519 X x c = Ok m -> (32 <= length c)%nat).
  { intros c E. destruct (Nat.le_gt_cases 32 (length c)) as [|G]; [assumption|]. exfalso.
    apply (proj2 (C45_ecies_refuted ed25519 X okX x c Hx Bx)) in G. rewrite G in E. discriminate. }
  assert (Can : forall c, bytes c -> (32 <= length c)%nat -> decodes (firstn 32 c) R -> enc R = firstn 32 c).
  { intros c Hb L Dc. assert (B32 : bytes (firstn 32 c)) by (apply bytes_firstn; exact Hb).
    assert (L32 : length (firstn 32 c) = 32%nat) by (rewrite firstn_length; lia).
    apply decodes_canonical; try assumption. pose proof (proj1 Dc) as E. apply (f_equal fz) in E.
    unfold ycoord in E. change (fz (of_Z (le_val (firstn 32 c) mod 2 ^ 255))) with ((le_val (firstn 32 c) mod 2 ^ 255) mod prime_p) in E.
    unfold y_field. set (v := le_val (firstn 32 c) mod 2 ^ 255) in *. assert (0 <= v < 2 ^ 255) by (apply Z.mod_pos_bound; reflexivity).
    destruct (Z.lt_ge_cases v prime_p) as [|G]; [assumption|]. exfalso.
    assert (v mod prime_p = v - prime_p). { symmetry. apply Z.mod_unique_pos with 1; [|ring]. unfold prime_p in *. lia. }
    unfold prime_p in *. lia. }
  pose proof (Can ctx Hc (Len ctx H) D) as E1. pose proof (Can ctx' Hc' (Len ctx' H') D') as E2.
  rewrite <- (firstn_skipn 32 ctx), <- (firstn_skipn 32 ctx'), <- E1, <- E2. f_equal.
  apply (C77_unique ed25519 ed25519_ok X okX x (enc R) _ _ m Hx Bx (enc_length R)).
  - rewrite E1, firstn_skipn. exact H.
  - rewrite E2, firstn_skipn. exact H'.
Qed.
Print Assumptions C77_ed25519_partial.

(** ** C87: the shared point of a key agreement depends on both keys - refuted *)
(** With a clamped private key (key_pair.rs with the generator of the curve) and a public key of small order the shared point is the neutral
    element, whatever the private key; nothing on the way refuses such a key. *)
Theorem C87_small_order_refuted (x : list Z) (b : list Z) : clamped x -> b = enc tors ->
  exists P, pdec ed25519 b = Some P /\ P <> e0 /\ pt_is_canonical b = true /\ dh_exchange ed25519 x P = e0.
Proof.
  intros [Sx [Bx [k Hk]]] ->. exists tors. split; [apply ed_dec; [apply enc_bytes|]; split; [apply enc_length|apply enc_decodes]|].
  split. { intros E. assert (D : (8 | 1)). { apply tors_order. rewrite E. exact (emul_1 e0). } destruct D as [z Hz]. lia. }
  split. { vm_compute. reflexivity. }
  unfold dh_exchange. rewrite (co_mul ed25519 ed25519_ok x tors Sx (proj2 Bx)), co_zmul, Hk.
  rewrite emul_mul, mul_8_tors. exact (zmul_g0 edg k).
Qed.
Print Assumptions C87_small_order_refuted.
(** More generally the component of small order is ignored: P and P + T give the same shared point. *)
Theorem C87_torsion_ignored (x : list Z) (P T : epoint) : clamped x -> mul 8 T = e0 ->
  dh_exchange ed25519 x (eadd P T) = dh_exchange ed25519 x P.
Proof.
  intros [Sx [Bx [k Hk]]] HT. unfold dh_exchange. rewrite !(co_mul ed25519 ed25519_ok x _ Sx (proj2 Bx)), !co_zmul, Hk.
  pose proof (zmul_gadd edg (k * 8) P T) as E. change (Group.gadd edg) with eadd in E. rewrite E, (emul_mul k 8 T), HT. change e0 with (g0 edg). rewrite (zmul_g0 edg k). exact (gadd_0_r edg _).
Qed.
Print Assumptions C87_torsion_ignored.
(** For public keys of the prime-order subgroup it holds: the shared point is not neutral, and different private keys modulo
    the order give different points, as do different public keys. *)
Theorem C87_shared_partial (x x' : list Z) (y y' : Z) : scalar32 x -> scalar32 x' -> le_val x < 2 ^ 255 -> le_val x' < 2 ^ 255 ->
  ~ (order | le_val x) -> ~ (order | y) ->
  dh_exchange ed25519 x (mul y ebase) <> e0 /\
  (dh_exchange ed25519 x (mul y ebase) = dh_exchange ed25519 x' (mul y ebase) -> (order | le_val x - le_val x')) /\
  (dh_exchange ed25519 x (mul y ebase) = dh_exchange ed25519 x (mul y' ebase) -> mul y ebase = mul y' ebase).
Proof.
  intros Sx Sx' Bx Bx' Nx Ny. unfold dh_exchange.
  rewrite !(co_mul ed25519 ed25519_ok x _ Sx Bx), !(co_mul ed25519 ed25519_ok x' _ Sx' Bx'), !co_zmul, <- !emul_mul.
  assert (Inj : forall a b, mul a ebase = mul b ebase -> (order | a - b)).
  { intros a b E. apply base_order. rewrite emul_sub, E. exact (EdCurve.eadd_neg _). }
  split. { intros E. apply base_order in E. apply prime_mult in E; [tauto|exact order_prime]. }
  split; intros E; apply Inj in E.
  - replace (le_val x * y - le_val x' * y) with ((le_val x - le_val x') * y) in E by ring. apply prime_mult in E; [tauto|exact order_prime].
  - replace (le_val x * y - le_val x * y') with (le_val x * (y - y')) in E by ring. apply prime_mult in E; [|exact order_prime].
    destruct E as [E|E]; [tauto|]. apply sub_e0. rewrite <- emul_sub. now apply base_order.
Qed.
Print Assumptions C87_shared_partial.

(** *** Non-vacuity: the key 1, the nonce 1 and a made-up hash and cipher *)
Lemma base_not_small8 : mul 8 ebase <> e0.
Proof. intros E. apply base_order in E. apply Z.divide_pos_le in E; [|lia]. vm_compute in E. apply E. reflexivity. Qed.
Lemma base_lin c : mul ((1 + c) mod order) ebase = eadd ebase (mul (c mod order) ebase).
Proof.
  apply sub_e0. rewrite <- (emul_1 ebase) at 2. rewrite <- emul_add, <- emul_sub. apply base_order.
  apply Z.mod_divide; [discriminate|]. change ell with order. rewrite Zminus_mod, Zmod_mod, Zplus_mod.
  rewrite (Zplus_mod 1 (c mod order)), Zmod_mod, Z.sub_diag. reflexivity.
Qed.
Definition exA : list Z := enc ebase.
Definition exc : Z := le_val (toysha (exA ++ exA ++ [1; 2; 3])).
Example C38_ed25519_nonvacuous : sha_ok toysha /\ valid_ed25519 toysha exA [1; 2; 3] (exA ++ le_bytes 32 ((1 + exc) mod order)) /\ exc mod order <> 0.
Proof.
  split; [exact toysha_ok|]. split; [|vm_compute; discriminate].
  exists exA, ((1 + exc) mod order), ebase, ebase. split.
  - split; [reflexivity|]. split; apply enc_length.
  - apply Z.mod_pos_bound. reflexivity.
  - split; apply enc_decodes.
  - split; vm_compute; reflexivity.
  - split; [exact base_not_small8|]. split; [exact base_not_small8|]. unfold exc. exact (base_lin _).
Qed.
Example C37_ed25519_nonvacuous : stream_law estream /\ scalar32 (le_bytes 32 1) /\ ~ (order | le_val (le_bytes 32 1)) /\
  exists sig st', schnorr_sign ed25519 toysha nat estream 5 1%nat (le_bytes 32 1) [1; 2; 3] = Ok (sig, st').
Proof.
  split; [exact estream_law|]. assert (S1 : scalar32 (le_bytes 32 1)) by (split; [apply le_bytes_bytes|apply le_bytes_length]).
  split; [exact S1|]. split. { intros D. apply Z.divide_pos_le in D; [|reflexivity]. vm_compute in D. apply D. reflexivity. }
  unfold schnorr_sign.
  assert (E : exists k, scalar_pick nat estream 5 scalar_default 1%nat = (Ok (k, 2%nat)) /\ bytes k /\ length k = 32%nat /\ le_val k < 2 ^ 255).
  { eexists. split; [vm_compute; reflexivity|]. split; [|split; vm_compute; reflexivity].
    repeat (constructor; [split; vm_compute; [discriminate|reflexivity]|]). constructor. }
  destruct E as [k [E [Bk [Lk Sk]]]]. rewrite E. cbn [must bindo].
  rewrite (schnorr_sign_with_ok ed25519 ed25519_ok toysha toysha_ok k (le_bytes 32 1) [1; 2; 3] (conj Bk Lk) Sk S1 eq_refl). cbn [bindo]. eauto.
Qed.
Example C39_ed25519_nonvacuous : ~ (order | le_val (toysha (skipn 32 (toysha (repeat 7 32)) ++ [5]))).
Proof. intros D. apply Z.mod_divide in D; [|discriminate]. vm_compute in D. discriminate. Qed.
Example C77_nonvacuous : prims_ok toyaead /\ exists ctx, universal ed25519 ed25519_ok toyaead [1; 2; 3] = Some ctx.
Proof. split; [exact toyaead_ok|]. unfold universal. eexists. reflexivity. Qed.
Example C77_partial_nonvacuous : exists ctx, bytes ctx /\ decodes (firstn 32 ctx) ebase /\ 19 <= fz (ey ebase) /\ ex ebase <> f0 /\
  ecies_decrypt ed25519 toyaead (le_bytes 32 1) ctx = Ok [1; 2; 3].
Proof.
  destruct (toyaead_bytes (ecies_key ed25519 ed25519_ok toyaead 1 ebase) (ecies_nonce ed25519 ed25519_ok toyaead 1 ebase) [] [1; 2; 3]) as [c [E Bc]].
  { repeat constructor; discriminate. }
  exists (enc ebase ++ c). split; [apply bytes_app; [apply enc_bytes|exact Bc]|].
  split; [rewrite firstn_app_exact by apply enc_length; apply enc_decodes|]. split; [vm_compute; discriminate|].
  split. { intros X. apply (f_equal fz) in X. vm_compute in X. discriminate. }
  apply (C44_decrypt_exact ed25519 ed25519_ok toyaead toyaead_ok); [split; [apply le_bytes_bytes|apply le_bytes_length]|reflexivity|].
  exists (enc ebase), c, ebase. split; [reflexivity|]. split; [apply enc_length|].
  split; [apply ed_dec; [apply enc_bytes|]; split; [apply enc_length|apply enc_decodes]|].
  change (le_val (le_bytes 32 1)) with 1. exact E.
Qed.
Example C87_nonvacuous : clamped (le_bytes 32 (2 ^ 254)) /\ mul 8 tors = e0 /\ mul 4 tors <> e0.
Proof.
  split; [|split; [exact mul_8_tors|rewrite mul_4_tors; exact half_nz]].
  split; [split; [apply le_bytes_bytes|apply le_bytes_length]|]. split; [split; vm_compute; [discriminate|reflexivity]|].
  exists (2 ^ 251). vm_compute. reflexivity.
Qed.
