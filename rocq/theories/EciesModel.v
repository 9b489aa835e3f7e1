(** dh/dh_impl.rs and encrypt/ecies/ecies_impl.rs over the point operations of EdModel.v.  HKDF (crate hkdf) and AES-256-GCM
    (crate aes-gcm) are parameters.  Error strings are dropped. *)
From Coq Require Import ZArith List Bool.
From Verif Require Import Base Bytes RandModel ScModel EdModel.
Import ListNotations.
Local Open Scope Z_scope.
Local Open Scope outcome_scope.

(** The crates: [hk_len] output size of the hash in bytes, [hk_expand ikm info n] the first n bytes of the expansion with
    no salt; [aes_enc key nonce aad msg] ([None]: message too long), [aes_dec key nonce aad ct] ([None]: bad tag). *)
Record aead_prims := AeadPrims {
  hk_len : nat;
  hk_expand : list Z -> list Z -> nat -> list Z;
  aes_enc : list Z -> list Z -> list Z -> list Z -> option (list Z);
  aes_dec : list Z -> list Z -> list Z -> list Z -> option (list Z)
}.

(** dh_impl.rs 255-269 [DhError] and ecies_impl.rs 90-99 [EciesError]. *)
Inductive dh_error := DhMarshalling | WrongKeyLength | DecryptionFailed | HkdfFailure | EcMarshalling | KeyTooShort.

(** dh_impl.rs 20 [NONCE_SIZE]. *)
Definition NONCE_SIZE : nat := 12.

Section Dh.
Variables (C : curve) (X : aead_prims).
Notation pt := (pt C).

(** dh_impl.rs 73-79 [dh_exchange]. *)
Definition dh_exchange (own_private : list Z) (remote_public : pt) : pt := pmul C own_private remote_public.

(** dh_impl.rs 81-89 [hkdf]: RFC 5869 allows at most 255 blocks. *)
Definition hkdf (ikm info : list Z) (output_size : option nat) : outcome dh_error (list Z) :=
  let size := match output_size with Some n => n | None => 32%nat end in
  if Nat.ltb (255 * hk_len X) size then Err HkdfFailure else Ok (hk_expand X ikm info size).

(** No additional data is the empty string. *)
Definition aad_of (a : option (list Z)) : list Z := match a with Some d => d | None => [] end.
(** dh_impl.rs 91-121 [aes_encrypt]; a failure is reported as [DecryptionFailed] (118). *)
Definition aes_encrypt (key nonce data : list Z) (additional_data : option (list Z)) : outcome dh_error (list Z) :=
  if negb (Nat.eqb (length key) 32) then Err WrongKeyLength else
  match aes_enc X key nonce (aad_of additional_data) data with Some c => Ok c | None => Err DecryptionFailed end.
(** dh_impl.rs 123-153 [aes_decrypt]. *)
Definition aes_decrypt (key nonce ciphertext : list Z) (additional_data : option (list Z)) : outcome dh_error (list Z) :=
  if negb (Nat.eqb (length key) 32) then Err WrongKeyLength else
  match aes_dec X key nonce (aad_of additional_data) ciphertext with Some m => Ok m | None => Err DecryptionFailed end.

(** dh_impl.rs 155-166 [encrypt]; marshalling a point does not fail (point.rs 36-41). *)
Definition dh_encrypt (pre_key : pt) (info nonce data : list Z) : outcome dh_error (list Z) :=
  let! key := hkdf (penc C pre_key) info None in aes_encrypt key nonce data (Some info).
(** dh_impl.rs 168-179 [decrypt]. *)
Definition dh_decrypt (pre_key : pt) (info nonce cipher : list Z) : outcome dh_error (list Z) :=
  let! key := hkdf (penc C pre_key) info None in aes_decrypt key nonce cipher (Some info).

(** dh_impl.rs 192-205 [AEAD::new]: the key. *)
Definition aead_new (pre : pt) (hkdf_context : list Z) : outcome dh_error (list Z) :=
  let! key := hkdf (penc C pre) hkdf_context None in
  if negb (Nat.eqb (length key) 32) then Err WrongKeyLength else Ok key.

(** [copy_from_slice] into an optional destination: panics on different lengths; the new contents of the destination. *)
Definition copy_dst (dst : option (list Z)) (out : list Z) : outcome dh_error (option (list Z)) :=
  match dst with
  | None => Ok None
  | Some d => if Nat.eqb (length d) (length out) then Ok (Some out) else Panic
  end.
(** dh_impl.rs 214-226 [seal]: result and destination afterwards. *)
Definition aead_seal (key : list Z) (dst : option (list Z)) (nonce plaintext : list Z) (additional_data : option (list Z))
  : outcome dh_error (list Z * option (list Z)) :=
  let! encrypted := aes_encrypt key nonce plaintext additional_data in
  let! d := copy_dst dst encrypted in Ok (encrypted, d).
(** dh_impl.rs 239-251 [open]. *)
Definition aead_open (key : list Z) (dst : option (list Z)) (nonce ciphertext : list Z) (additional_data : option (list Z))
  : outcome dh_error (list Z * option (list Z)) :=
  let! decrypted := aes_decrypt key nonce ciphertext additional_data in
  let! d := copy_dst dst decrypted in Ok (decrypted, d).

(** ecies_impl.rs 80-88 [derive_key]. *)
Definition derive_key (dh : pt) (len : nat) : outcome dh_error (list Z) :=
  let! key := hkdf (penc C dh) [] (Some len) in
  if Nat.ltb (length key) len then Err KeyTooShort else Ok key.

(** ecies_impl.rs 16-50 [encrypt], from the ephemeral scalar on; the slice 32..44 and the copy into 12 bytes cannot fail
    for a key of 44 bytes, otherwise they would panic. *)
Definition ecies_encrypt_with (r : list Z) (public : pt) (message : list Z) : outcome dh_error (list Z) :=
  let r_p := pmul_base C r in
  let dh := pmul C r public in
  let len := (32 + NONCE_SIZE)%nat in
  let! buf := derive_key dh len in
  if Nat.ltb (length buf) len then Panic else
  let nonce := firstn NONCE_SIZE (skipn 32 buf) in
  let! gcm := aead_new r_p buf in
  let! (c, _) := aead_seal gcm None nonce message None in
  Ok (penc C r_p ++ c).
Definition ecies_encrypt (St : Type) (R : stream St) (fuel : nat) (st : St) (public : pt) (message : list Z)
  : outcome dh_error (list Z * St) :=
  let! (r, st') := must (scalar_pick St R fuel scalar_default st) in
  let! ctx := ecies_encrypt_with r public message in Ok (ctx, st').

(** ecies_impl.rs 58-78 [decrypt]: [&ctx[..l]] panics on shorter inputs; [point_len] is 32 (curve.rs). *)
Definition ecies_decrypt (private ctx : list Z) : outcome dh_error (list Z) :=
  if Nat.ltb (length ctx) 32 then Panic else
  let! r_p := match pdec C (firstn 32 ctx) with Some P => Ok P | None => Err EcMarshalling end in
  let dh := pmul C private r_p in
  let len := (32 + NONCE_SIZE)%nat in
  let! buf := derive_key dh len in
  if Nat.ltb (length buf) len then Panic else
  let nonce := firstn NONCE_SIZE (skipn 32 buf) in
  let! gcm := aead_new r_p buf in
  let! (m, _) := aead_open gcm None nonce (skipn 32 ctx) None in
  Ok m.
End Dh.
