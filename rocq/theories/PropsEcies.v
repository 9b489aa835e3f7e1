(** C44, C45 (ECIES and AEAD part), C76, C77: Diffie-Hellman, AEAD wrappers and ECIES. *)
From Coq Require Import ZArith Znumtheory String List Bool Lia ssrbool.
From Verif Require Import Base Bytes Limb ScLimbs IntModel RandModel RandProofs ScModel ScProofs ScalarProofs.
From Verif Require Import Group EdModel EdBytes PropsSc EdSpec EdProofs ToyCurve EciesModel.
Import ListNotations.
Local Open Scope Z_scope.
Local Open Scope outcome_scope.

(** What is required of HKDF and AES-GCM: output lengths, decryption inverts encryption, and decryption accepts only what
    encryption produces (deterministic encryption, unique tag). *)
Record prims_ok (X : aead_prims) : Prop := PrimsOk {
  po_len : (1 <= hk_len X)%nat;
  po_expand : forall ikm info n, length (hk_expand X ikm info n) = n;
  po_dec_enc : forall k n a m c, aes_enc X k n a m = Some c -> aes_dec X k n a c = Some m;
  po_enc_dec : forall k n a m c, aes_dec X k n a c = Some m -> aes_enc X k n a m = Some c }.

Section Ecies.
Variables (C : curve) (ok : curve_ok C) (X : aead_prims) (okX : prims_ok X).
Notation mul := (zmul (co_group C ok)).
Notation B := (pbase C).

Lemma hkdf_None ikm info : hkdf X ikm info None = Ok (hk_expand X ikm info 32).
Proof. unfold hkdf. destruct (Nat.ltb_spec (255 * hk_len X) 32); [|reflexivity]. pose proof (po_len X okX). lia. Qed.
Lemma hkdf_44 ikm info : hkdf X ikm info (Some 44%nat) = Ok (hk_expand X ikm info 44).
Proof. unfold hkdf. destruct (Nat.ltb_spec (255 * hk_len X) 44); [|reflexivity]. pose proof (po_len X okX). lia. Qed.
Lemma derive_44 P : derive_key C X P 44 = Ok (hk_expand X (penc C P) [] 44).
Proof. unfold derive_key. rewrite hkdf_44. cbn [bindo]. rewrite (po_expand X okX). reflexivity. Qed.
Lemma aead_newE P info : aead_new C X P info = Ok (hk_expand X (penc C P) info 32).
Proof. unfold aead_new. rewrite hkdf_None. cbn [bindo]. rewrite (po_expand X okX). reflexivity. Qed.

(** ** C44 *)
(** Both sides compute the same point, for any common generator P. *)
Theorem C44_dh_agree (x y : list Z) (P : pt C) : scalar32 x -> scalar32 y -> le_val x < 2 ^ 255 -> le_val y < 2 ^ 255 ->
  dh_exchange C x (mul (le_val y) P) = dh_exchange C y (mul (le_val x) P) /\
  dh_exchange C x (mul (le_val y) P) = mul (le_val x * le_val y) P.
Proof.
  intros Hx Hy Bx By. unfold dh_exchange. rewrite !(co_mul C ok) by assumption. rewrite <- !zmul_mul. split; [f_equal; ring|reflexivity].
Qed.

(** What one side encrypts the other decrypts, and nothing else is accepted. *)
Theorem C44_dh_encrypt (x y info nonce data ct : list Z) :
  scalar32 x -> scalar32 y -> le_val x < 2 ^ 255 -> le_val y < 2 ^ 255 ->
  dh_encrypt C X (dh_exchange C x (mul (le_val y) B)) info nonce data = Ok ct <->
  dh_decrypt C X (dh_exchange C y (mul (le_val x) B)) info nonce ct = Ok data.
Proof.
  intros Hx Hy Bx By. destruct (C44_dh_agree x y B Hx Hy Bx By) as [-> _].
  unfold dh_encrypt, dh_decrypt. rewrite !hkdf_None. cbn [bindo]. unfold aes_encrypt, aes_decrypt. rewrite !(po_expand X okX). cbn [Nat.eqb negb].
  set (k := hk_expand X _ _ _). cbn [aad_of]. split.
  - destruct (aes_enc X k nonce info data) as [c|] eqn:E; [|discriminate]. intros H. injection H as <-. now rewrite (po_dec_enc X okX _ _ _ _ _ E).
  - destruct (aes_dec X k nonce info ct) as [m|] eqn:E; [|discriminate]. intros H. injection H as <-. now rewrite (po_enc_dec X okX _ _ _ _ _ E).
Qed.

(** Exact form of decryption: the AES key and nonce of the ephemeral point R and the private key x. *)
Definition ecies_buf (x : Z) (R : pt C) : list Z := hk_expand X (penc C (mul x R)) [] 44.
Definition ecies_key (x : Z) (R : pt C) : list Z := hk_expand X (penc C R) (ecies_buf x R) 32.
Definition ecies_nonce (x : Z) (R : pt C) : list Z := firstn 12 (skipn 32 (ecies_buf x R)).

Theorem C44_decrypt_exact (x ctx m : list Z) : scalar32 x -> le_val x < 2 ^ 255 ->
  (ecies_decrypt C X x ctx = Ok m <->
   exists rb c R, ctx = rb ++ c /\ length rb = 32%nat /\ pdec C rb = Some R /\
     aes_enc X (ecies_key (le_val x) R) (ecies_nonce (le_val x) R) [] m = Some c).
Proof.
  intros Hx Bx. unfold ecies_decrypt. change (32 + NONCE_SIZE)%nat with 44%nat. split.
  - destruct (Nat.ltb_spec (length ctx) 32) as [|L]; [discriminate|]. destruct (pdec C (firstn 32 ctx)) as [R|] eqn:D; [|discriminate].
    cbn [bindo]. rewrite derive_44. cbn [bindo]. rewrite (po_expand X okX). cbn [Nat.ltb Nat.leb]. rewrite aead_newE. cbn [bindo].
    rewrite (co_mul C ok) by assumption. unfold aead_open, aes_decrypt. rewrite (po_expand X okX). cbn [Nat.eqb negb aad_of].
    destruct (aes_dec X _ _ _ _) as [m'|] eqn:E; [|discriminate]. cbn [bindo copy_dst]. intros H. injection H as <-.
    exists (firstn 32 ctx), (skipn 32 ctx), R. split; [symmetry; apply firstn_skipn|]. split; [rewrite firstn_length; lia|]. split; [exact D|].
    exact (po_enc_dec X okX _ _ _ _ _ E).
  - intros [rb [c [R [-> [L [D E]]]]]]. destruct (Nat.ltb_spec (length (rb ++ c)) 32) as [H|_]; [rewrite app_length in H; lia|].
    rewrite firstn_app_exact, skipn_app_exact by exact L. rewrite D. cbn [bindo]. rewrite derive_44. cbn [bindo].
    rewrite (po_expand X okX). cbn [Nat.ltb Nat.leb]. rewrite aead_newE. cbn [bindo].
    rewrite (co_mul C ok) by assumption. unfold aead_open, aes_decrypt. rewrite (po_expand X okX). cbn [Nat.eqb negb aad_of].
    unfold ecies_key, ecies_nonce, ecies_buf in E. change NONCE_SIZE with 12%nat. now rewrite (po_dec_enc X okX _ _ _ _ _ E).
Qed.

Theorem C44_ecies_round_trip (St : Type) (Rnd : stream St) (fuel : nat) (st st' : St) (x m ctx : list Z) :
  stream_law Rnd -> scalar32 x -> le_val x < 2 ^ 255 ->
  ecies_encrypt C X St Rnd fuel st (mul (le_val x) B) m = Ok (ctx, st') -> ecies_decrypt C X x ctx = Ok m.
Proof.
  intros HR Hx Bx H. unfold ecies_encrypt in H.
  destruct (C27_setters_partial scalar_default 0 []) as [_ [_ P]]; [split; [apply bytes_repeat0|reflexivity]|lia|constructor|].
  destruct (P St Rnd fuel st HR) as [[E _]|[r [v [s' [E [_ [Hv [[n [_ [Sr _]]] Hr]]]]]]]]; [rewrite E in H; discriminate|].
  rewrite E in H. cbn [must bindo] in H. specialize (Hr eq_refl). pose proof order_255.
  unfold ecies_encrypt_with in H. rewrite (co_mul_base C ok), (co_mul C ok) in H by (assumption || lia).
  change (32 + NONCE_SIZE)%nat with 44%nat in H. rewrite derive_44 in H. cbn [bindo] in H. rewrite (po_expand X okX) in H.
  cbn [Nat.ltb Nat.leb] in H. rewrite aead_newE in H. cbn [bindo] in H.
  unfold aead_seal, aes_encrypt in H. rewrite (po_expand X okX) in H. cbn [Nat.eqb negb aad_of] in H.
  destruct (aes_enc X _ _ _ _) as [c|] eqn:EA in H; [|discriminate]. cbn [bindo copy_dst] in H. injection H as <- <-.
  apply C44_decrypt_exact; [exact Hx|exact Bx|]. exists (penc C (mul (le_val r) B)), c, (mul (le_val r) B).
  split; [reflexivity|]. split; [apply (co_enc C ok)|]. split; [apply (co_enc_dec C ok)|].
  unfold ecies_key, ecies_nonce, ecies_buf. rewrite <- zmul_mul, (Z.mul_comm (le_val x)), zmul_mul. exact EA.
Qed.

(** The first 32 bytes are the point of the number drawn from the stream, which is left just behind that draw: the next
    encryption draws a new one. *)
Theorem C44_ecies_ephemeral (St : Type) (Rnd : stream St) (fuel : nat) (st st' : St) (A : pt C) (m ctx : list Z) :
  stream_law Rnd -> ecies_encrypt C X St Rnd fuel st A m = Ok (ctx, st') ->
  exists v, random_int St Rnd fuel order st = Ok (v, st') /\ 1 <= v < order /\ firstn 32 ctx = penc C (mul v B).
Proof.
  intros HR H. unfold ecies_encrypt in H.
  destruct (C27_setters_partial scalar_default 0 []) as [_ [_ P]]; [split; [apply bytes_repeat0|reflexivity]|lia|constructor|].
  destruct (P St Rnd fuel st HR) as [[E _]|[r [v [s' [E [Ev [Hv [[n [_ [Sr _]]] Hr]]]]]]]]; [rewrite E in H; discriminate|].
  rewrite E in H. cbn [must bindo] in H. specialize (Hr eq_refl). pose proof order_255.
  unfold ecies_encrypt_with in H. rewrite (co_mul_base C ok) in H by (assumption || lia).
  change (32 + NONCE_SIZE)%nat with 44%nat in H. rewrite derive_44 in H. cbn [bindo] in H. rewrite (po_expand X okX) in H.
  cbn [Nat.ltb Nat.leb] in H. rewrite aead_newE in H. cbn [bindo] in H.
  unfold aead_seal, aes_encrypt in H. rewrite (po_expand X okX) in H. cbn [Nat.eqb negb aad_of] in H.
  destruct (aes_enc X _ _ _ _) as [c|] eqn:EA in H; [|discriminate]. cbn [bindo copy_dst] in H. injection H as <- <-.
  exists v. split; [exact Ev|]. split; [exact Hv|]. rewrite Hr. apply firstn_app_exact. apply (co_enc C ok).
Qed.

(** Encryption succeeds exactly when the cipher takes the message. *)
Theorem C44_encrypt_total (r m : list Z) (A : pt C) : scalar32 r -> le_val r < 2 ^ 255 ->
  (exists c, ecies_encrypt_with C X r A m = Ok c) \/ ecies_encrypt_with C X r A m = Err DecryptionFailed.
Proof.
  intros Hr Br. unfold ecies_encrypt_with. change (32 + NONCE_SIZE)%nat with 44%nat. rewrite derive_44. cbn [bindo]. rewrite (po_expand X okX).
  cbn [Nat.ltb Nat.leb]. rewrite aead_newE. cbn [bindo]. unfold aead_seal, aes_encrypt. rewrite (po_expand X okX). cbn [Nat.eqb negb aad_of].
  destruct (aes_enc X _ _ _ _); cbn [bindo copy_dst]; eauto.
Qed.

(** ** C45 *)
(** [decrypt] panics exactly on inputs shorter than an encoded point. *)
Theorem C45_ecies_refuted (x ctx : list Z) : scalar32 x -> le_val x < 2 ^ 255 ->
  (ecies_decrypt C X x ctx = Panic <-> (length ctx < 32)%nat).
Proof.
  intros Hx Bx. unfold ecies_decrypt. change (32 + NONCE_SIZE)%nat with 44%nat.
  destruct (Nat.ltb_spec (length ctx) 32) as [L|L]; [tauto|]. split; [|lia]. intros H. exfalso. revert H.
  destruct (pdec C (firstn 32 ctx)) as [R|]; [|discriminate]. cbn [bindo]. rewrite derive_44. cbn [bindo]. rewrite (po_expand X okX).
  cbn [Nat.ltb Nat.leb]. rewrite aead_newE. cbn [bindo]. unfold aead_open, aes_decrypt. rewrite (po_expand X okX). cbn [Nat.eqb negb aad_of].
  destruct (aes_dec X _ _ _ _); discriminate.
Qed.
(** [open] into a destination panics exactly when the ciphertext is genuine and the destination has another length than the
    message; without destination never. *)
Theorem C45_aead_open (key nonce ct : list Z) (dst aad : option (list Z)) : length key = 32%nat ->
  (aead_open X key dst nonce ct aad = Panic <->
   exists d m, dst = Some d /\ aes_enc X key nonce (aad_of aad) m = Some ct /\ length d <> length m).
Proof.
  intros L. unfold aead_open, aes_decrypt. rewrite L. cbn [Nat.eqb negb]. split.
  - destruct (aes_dec X _ _ _ _) as [m|] eqn:E; [|discriminate]. cbn [bindo]. destruct dst as [d|]; cbn [copy_dst]; [|discriminate].
    destruct (Nat.eqb_spec (length d) (length m)); [discriminate|]. intros _. exists d, m. split; [reflexivity|]. split; [|assumption].
    exact (po_enc_dec X okX _ _ _ _ _ E).
  - intros [d [m [-> [E N]]]]. rewrite (po_dec_enc X okX _ _ _ _ _ E). cbn [bindo copy_dst]. now rewrite (proj2 (Nat.eqb_neq _ _) N).
Qed.
(** Sealing then opening gives the message back; the destination receives the output. *)
Theorem C44_aead (key nonce m : list Z) (aad dst : option (list Z)) c d : aead_seal X key dst nonce m aad = Ok (c, d) ->
  aead_open X key None nonce c aad = Ok (m, None) /\ (forall d0, dst = Some d0 -> d = Some c).
Proof.
  unfold aead_seal, aead_open, aes_encrypt, aes_decrypt. destruct (negb _); [discriminate|].
  destruct (aes_enc X _ _ _ _) as [c'|] eqn:E; [|discriminate]. cbn [bindo]. intros H.
  assert (K : c' = c /\ (forall d0, dst = Some d0 -> d = Some c)).
  { destruct dst as [d0|]; cbn [copy_dst bindo] in H.
    - destruct (Nat.eqb _ _); [|discriminate]. cbn [bindo] in H. injection H as <- <-. split; [reflexivity|]. now intros.
    - injection H as <- <-. split; [reflexivity|discriminate]. }
  destruct K as [-> K]. split; [|exact K]. now rewrite (po_dec_enc X okX _ _ _ _ _ E).
Qed.

(** ** C76: a ciphertext opens only for the key it was made for - refuted *)
(** Anyone can make a ciphertext, without any key, that decrypts to the chosen message under every private key: the
    ephemeral point is the neutral element. *)
Definition universal (m : list Z) : option (list Z) :=
  match aes_enc X (ecies_key 0 (pzero C)) (ecies_nonce 0 (pzero C)) [] m with Some c => Some (penc C (pzero C) ++ c) | None => None end.
Theorem C76_universal_refuted (m ctx : list Z) : universal m = Some ctx ->
  forall x, scalar32 x -> le_val x < 2 ^ 255 -> ecies_decrypt C X x ctx = Ok m.
Proof.
  unfold universal. intros H x Hx Bx. destruct (aes_enc X _ _ _ _) as [c|] eqn:E; [|discriminate]. injection H as <-.
  apply C44_decrypt_exact; [exact Hx|exact Bx|]. exists (penc C (pzero C)), c, (pzero C).
  split; [reflexivity|]. split; [apply (co_enc C ok)|]. split; [apply (co_enc_dec C ok)|].
  revert E. unfold ecies_key, ecies_nonce, ecies_buf. change (pzero C) with (g0 (co_group C ok)). now rewrite !zmul_g0.
Qed.
(** What does hold: with an ephemeral point of the prime-order subgroup other than 0 and distinct private residues, the
    inputs of the key derivation differ. *)
Theorem C76_inputs_differ_partial (x x' r : Z) : ~ (order | x - x') -> ~ (order | r) ->
  penc C (mul x (mul r B)) <> penc C (mul x' (mul r B)).
Proof.
  intros D Dr E. apply (f_equal (pdec C)) in E. rewrite !(co_enc_dec C ok) in E. injection E as E.
  rewrite <- !zmul_mul in E. apply (base_inj C ok) in E. replace (x * r - x' * r) with ((x - x') * r) in E by ring.
  apply prime_mult in E; [tauto|exact order_prime].
Qed.

(** ** C77: changing the ciphertext changes or destroys the message - refuted at the point encoding *)
(** The encoding of the ephemeral point is not authenticated: any other string decoding to the same point can be put in its
    place.  All other changes that decrypt are encryptions under the key of the changed point ([C44_decrypt_exact]). *)
Theorem C77_point_bytes (x rb rb' c m : list Z) : scalar32 x -> le_val x < 2 ^ 255 -> length rb = 32%nat -> length rb' = 32%nat ->
  pdec C rb = pdec C rb' -> ecies_decrypt C X x (rb ++ c) = Ok m -> ecies_decrypt C X x (rb' ++ c) = Ok m.
Proof.
  intros Hx Bx L L' D. unfold ecies_decrypt. rewrite !app_length, L, L'. cbn [Nat.ltb Nat.leb Nat.add].
  now rewrite !firstn_app_exact, !skipn_app_exact, D by assumption.
Qed.
(** With the point bytes kept, no other rest decrypts to the same message. *)
Theorem C77_unique (x rb c c' m : list Z) : scalar32 x -> le_val x < 2 ^ 255 -> length rb = 32%nat ->
  ecies_decrypt C X x (rb ++ c) = Ok m -> ecies_decrypt C X x (rb ++ c') = Ok m -> c = c'.
Proof.
  intros Hx Bx L H H'. apply C44_decrypt_exact in H; [|exact Hx|exact Bx]. apply C44_decrypt_exact in H'; [|exact Hx|exact Bx].
  destruct H as [rb1 [c1 [R1 [E1 [L1 [D1 A1]]]]]], H' as [rb2 [c2 [R2 [E2 [L2 [D2 A2]]]]]].
  assert (F : forall (a b u v : list Z), length a = 32%nat -> length b = 32%nat -> a ++ u = b ++ v -> a = b /\ u = v).
  { intros a b u v La Lb E. split.
    - apply (f_equal (firstn 32)) in E. now rewrite !firstn_app_exact in E.
    - apply (f_equal (skipn 32)) in E. now rewrite !skipn_app_exact in E. }
  destruct (F _ _ _ _ L L1 E1) as [<- <-], (F _ _ _ _ L L2 E2) as [<- <-]. assert (R2 = R1) by congruence. subst. congruence.
Qed.
End Ecies.
Print Assumptions C44_dh_agree.
Print Assumptions C44_dh_encrypt.
Print Assumptions C44_decrypt_exact.
Print Assumptions C44_ecies_round_trip.
Print Assumptions C44_ecies_ephemeral.
Print Assumptions C44_encrypt_total.
Print Assumptions C44_aead.
Print Assumptions C45_ecies_refuted.
Print Assumptions C45_aead_open.
Print Assumptions C76_universal_refuted.
Print Assumptions C76_inputs_differ_partial.
Print Assumptions C77_point_bytes.
Print Assumptions C77_unique.

(** *** Non-vacuity: the toy curve and a made-up cipher (shift by key and nonce bytes, tag of three bytes). *)
Definition toyprims : aead_prims := {|
  hk_len := 32;
  hk_expand := fun ikm info n => le_bytes n (le_val ikm mod (2 ^ 250 + 7) * 31 + le_val info mod (2 ^ 240 + 13) * 17 + 5);
  aes_enc := fun k n a m => Some (map (fun b => b + le_val k + le_val n) m ++ [le_val a; le_val k; le_val n]);
  aes_dec := fun k n a c =>
    let l := (length c - 3)%nat in
    let m := map (fun b => b - le_val k - le_val n) (firstn l c) in
    if list_eq_dec Z.eq_dec c (map (fun b => b + le_val k + le_val n) m ++ [le_val a; le_val k; le_val n]) then Some m else None |}.
Lemma toyprims_ok : prims_ok toyprims.
Proof.
  split; cbn [toyprims hk_len hk_expand aes_enc aes_dec].
  - lia.
  - intros. apply le_bytes_length.
  - intros k n a m c E. injection E as <-.
    assert (M : map (fun b => b - le_val k - le_val n) (map (fun b => b + le_val k + le_val n) m) = m).
    { rewrite map_map. rewrite <- (map_id m) at 2. apply map_ext. intros. ring. }
    set (w := map (fun b => b + le_val k + le_val n) m) in *.
    assert (L : (length (w ++ [le_val a; le_val k; le_val n]) - 3)%nat = length w).
    { rewrite app_length. cbn [length]. lia. }
    rewrite L, firstn_app_exact by reflexivity. rewrite M. destruct (list_eq_dec _ _ _) as [|N]; [reflexivity|exfalso; apply N; reflexivity].
  - intros k n a m c E. destruct (list_eq_dec _ _ _) as [e|]; [|discriminate]. injection E as <-. now rewrite <- e.
Qed.
Definition estream : stream nat := Stream (fun n src => (Some (map (fun _ => Z.of_nat n mod 256) src), S n)).
Lemma estream_law : stream_law estream.
Proof.
  intros s src o s' E. cbn in E. injection E as <- <-. rewrite map_length. split; [reflexivity|]. intros _.
  apply Forall_map, Forall_forall. intros x _. apply Z.mod_pos_bound. lia.
Qed.
Definition ekey : list Z := le_bytes 32 4242.
Example C44_nonvacuous :
  exists ctx st', ecies_encrypt toyc toyprims nat estream 5 1%nat (tmk 4242) [10; 20; 30] = Ok (ctx, st') /\
    tmk 4242 = zmul (co_group toyc toy_ok) (le_val ekey) (pbase toyc) /\ stream_law estream /\
    ecies_decrypt toyc toyprims ekey ctx = Ok [10; 20; 30] /\
    ecies_decrypt toyc toyprims (le_bytes 32 4243) ctx = Err DecryptionFailed /\
    ecies_decrypt toyc toyprims ekey (firstn 31 ctx) = Panic.
Proof.
  eexists. eexists. split; [vm_compute; reflexivity|]. split; [rewrite toy_mul; apply tpt_eq; vm_compute; reflexivity|].
  split; [exact estream_law|]. split; [vm_compute; reflexivity|]. split; vm_compute; reflexivity.
Qed.
Example C44_dh_nonvacuous :
  is_ok (dh_encrypt toyc toyprims (dh_exchange toyc ekey (tmk 99)) [1] (repeat 2 12) [10; 20]) = true /\
  is_ok (aead_seal toyprims (repeat 1 32) (Some (repeat 0 5)) (repeat 2 12) [10; 20] None) = true.
Proof. split; vm_compute; reflexivity. Qed.
Example C45_nonvacuous : exists ct d,
  aead_seal toyprims (repeat 1 32) None (repeat 2 12) [10; 20] None = Ok (ct, d) /\
  aead_open toyprims (repeat 1 32) (Some [0; 0; 0]) (repeat 2 12) ct None = Panic /\
  aead_open toyprims (repeat 1 32) (Some [0; 0]) (repeat 2 12) ct None = Ok ([10; 20], Some [10; 20]).
Proof. eexists. eexists. split; [vm_compute; reflexivity|]. split; vm_compute; reflexivity. Qed.
Example C76_nonvacuous : exists ctx, universal toyc toy_ok toyprims [10; 20] = Some ctx /\
  ecies_decrypt toyc toyprims ekey ctx = Ok [10; 20] /\ ecies_decrypt toyc toyprims (le_bytes 32 777) ctx = Ok [10; 20].
Proof.
  eexists. split.
  - unfold universal, ecies_key, ecies_nonce, ecies_buf. rewrite toy_mul. vm_compute. reflexivity.
  - split; vm_compute; reflexivity.
Qed.
