(** Vocabulary for the properties of the Ed25519 signature and key layers. *)
From Coq Require Import ZArith String List Bool Lia ssrbool.
From Verif Require Import Base Bytes Limb ScLimbs IntModel RandModel ScModel Group EdModel PropsSc.
Import ListNotations.
Local Open Scope Z_scope.

(** The laws of the point operations: a commutative group with a base point of order [order], multiplication by the integer
    a scalar holds (for scalars below 2^255), 32-byte encodings.  [co_small] says that the small-order check is exact,
    [co_dec_enc] that an encoding that passes the checks is the encoding of the point it decodes to. *)
Record curve_ok (C : curve) := CurveOk {
  co_assoc : forall a b c, padd C a (padd C b c) = padd C (padd C a b) c;
  co_comm : forall a b, padd C a b = padd C b a;
  co_0 : forall a, padd C (pzero C) a = a;
  co_neg : forall a, padd C a (pneg C a) = pzero C;
  co_group : agroup := AGroup (pt C) (pzero C) (padd C) (pneg C) co_assoc co_comm co_0 co_neg;
  co_mul : forall s P, scalar32 s -> le_val s < 2 ^ 255 -> pmul C s P = zmul co_group (le_val s) P;
  co_mul_base : forall s, scalar32 s -> le_val s < 2 ^ 255 -> pmul_base C s = zmul co_group (le_val s) (pbase C);
  co_order : zmul co_group order (pbase C) = pzero C;
  co_base_nz : pbase C <> pzero C;
  co_eq : forall P Q, peq C P Q = true <-> P = Q;
  co_enc : forall P, scalar32 (penc C P);
  co_enc_dec : forall P, pdec C (penc C P) = Some P;
  co_dec_len : forall b P, pdec C b = Some P -> length b = 32%nat;
  co_small : forall P, pt_small_order (penc C P) = true <-> zmul co_group 8 P = pzero C;
  co_dec_enc : forall b P, Forall (fun x => 0 <= x < 256) b -> pdec C b = Some P -> pt_is_canonical b = true ->
    pt_small_order (penc C P) = false -> penc C P = b
}.

(** A hash with 64-byte outputs. *)
Definition sha_ok (sha : list Z -> list Z) : Prop := forall m, Forall (fun x => 0 <= x < 256) (sha m) /\ length (sha m) = 64%nat.

(** RFC 8032, 5.1.5: clear the lowest three bits of the first byte, clear the highest and set the second highest bit of
    the last; as an integer. *)
Definition clamped (s : list Z) : Prop := scalar32 s /\ 2 ^ 254 <= le_val s < 2 ^ 255 /\ (8 | le_val s).

(** The y-coordinate field of a point encoding (RFC 8032, 5.1.2) and the field prime. *)
Definition y_of (b : list Z) : Z := le_val b mod 2 ^ 255.
Definition p25519 : Z := 2 ^ 255 - 19.

Section Sig.
Variables (C : curve) (ok : curve_ok C) (sha : list Z -> list Z).
Notation mul := (zmul (co_group C ok)).
Notation B := (pbase C).

(** The challenge H(R || A || m), as the little-endian integer of the digest. *)
Definition challengeZ (rb ab msg : list Z) : Z := le_val (sha (rb ++ ab ++ msg)).

(** The specification of a valid signature of msg under the public key bytes ab: 64 bytes R || S, S below the order, R and
    A decode to points, have canonical y fields (the 217 largest canonical ones excluded, see C31) and are not killed by the
    cofactor, and S B = R + H(R||A||m) A with the challenge reduced modulo the
    order (it matters when A has a small-order component). *)
Definition valid_signature (ab msg sig : list Z) : Prop :=
  exists (rb : list Z) (s : Z) (R A : pt C),
    [/\ sig = rb ++ le_bytes 32 s /\ length rb = 32%nat, 0 <= s < order,
        pdec C rb = Some R /\ pdec C ab = Some A, y_of rb < p25519 - 217 /\ y_of ab < p25519 - 217 &
        mul 8 R <> pzero C /\ mul 8 A <> pzero C /\
        mul s B = padd C R (mul (challengeZ rb ab msg mod order) A)].
End Sig.
