(** Model of the Ed25519 signature and key layers:
    - src/group/edwards25519/point.rs 276-338 (canonicality and small-order checks, on bytes),
    - src/group/edwards25519/curve.rs 70-115 (key derivation), src/util/key/key_pair.rs,
    - src/sign/schnorr/schnorr_sig.rs, src/sign/eddsa/eddsa_sig.rs.

    Scalars are the 32-byte scalars of ScModel.  Points are the elements of a record of point operations; two points that
    [Point::eq] (equality of encodings) identifies are one element.  What the operations are in the code, and that they have
    the laws collected in EdSpec, is the subject of the curve layer.  SHA-512 is a function on byte strings. *)
From Coq Require Import ZArith String List Bool.
From Verif Require Import Base Bytes Limb ScLimbs IntModel RandModel ScModel.
Import ListNotations.
Local Open Scope Z_scope.
Local Open Scope outcome_scope.

(** point.rs 322-337 [is_canonical]: subtractions on u16 wrap ([c as u16 - 1] because overflow checks are off). *)
Definition pt_is_canonical (b : list Z) : bool :=
  if negb (Nat.eqb (length b) 32) then false else
  let c := Z.lxor (Z.land (nth 31 b 0) 127) 127 in
  let c := fold_left (fun c i => Z.lor c (Z.lxor (nth i b 0) 255)) (rev (seq 1 30)) c in
  let c := u8 (Z.shiftr ((c - 1) mod 65536) 8) in
  let d := u8 (Z.shiftr ((237 - (1 - nth 0 b 0) mod 65536) mod 65536) 8) in
  1 - Z.land (Z.land c d) 1 =? 1.

(** constants.rs 3744-3775 [WEAK_KEYS]. *)
Definition WEAK_KEYS : list (list Z) :=
  [ [0; 0; 0; 0; 0; 0; 0; 0; 0; 0; 0; 0; 0; 0; 0; 0; 0; 0; 0; 0; 0; 0; 0; 0; 0; 0; 0; 0; 0; 0; 0; 0];
    [1; 0; 0; 0; 0; 0; 0; 0; 0; 0; 0; 0; 0; 0; 0; 0; 0; 0; 0; 0; 0; 0; 0; 0; 0; 0; 0; 0; 0; 0; 0; 0];
    [0x26; 0xe8; 0x95; 0x8f; 0xc2; 0xb2; 0x27; 0xb0; 0x45; 0xc3; 0xf4; 0x89; 0xf2; 0xef; 0x98;
     0xf0; 0xd5; 0xdf; 0xac; 0x05; 0xd3; 0xc6; 0x33; 0x39; 0xb1; 0x38; 0x02; 0x88; 0x6d; 0x53; 0xfc; 0x05];
    [0xc7; 0x17; 0x6a; 0x70; 0x3d; 0x4d; 0xd8; 0x4f; 0xba; 0x3c; 0x0b; 0x76; 0x0d; 0x10; 0x67;
     0x0f; 0x2a; 0x20; 0x53; 0xfa; 0x2c; 0x39; 0xcc; 0xc6; 0x4e; 0xc7; 0xfd; 0x77; 0x92; 0xac; 0x03; 0x7a];
    [0xec; 0xff; 0xff; 0xff; 0xff; 0xff; 0xff; 0xff; 0xff; 0xff; 0xff; 0xff; 0xff; 0xff; 0xff;
     0xff; 0xff; 0xff; 0xff; 0xff; 0xff; 0xff; 0xff; 0xff; 0xff; 0xff; 0xff; 0xff; 0xff; 0xff; 0xff; 0x7f] ].

(** point.rs 286-310 [has_small_order], from the encoding s of the point: c[i] for one weak key, and the final mask. *)
Definition weak_diff (s w : list Z) : Z :=
  let c := fold_left (fun c j => Z.lor c (Z.lxor (nth j s 0) (nth j w 0))) (seq 0 31) 0 in
  Z.lor c (Z.lxor (Z.land (nth 31 s 0) 127) (nth 31 w 0)).
Definition pt_small_order (s : list Z) : bool :=
  let k := fold_left (fun k w => Z.lor k ((weak_diff s w - 1) mod 65536)) WEAK_KEYS 0 in
  0 <? Z.land (Z.shiftr k 8) 1.

(** curve.rs 74-88 [new_key_and_seed_with_input]: secret (32 bytes, clamped), and the second half of the digest.  A digest
    shorter than 32 bytes would panic; SHA-512 gives 64. *)
Definition clamp (d : list Z) : list Z :=
  match d with
  | [] => []
  | b0 :: r => Z.land b0 248 :: firstn 30 r ++ [Z.lor (Z.land (nth 30 r 0) 127) 64]
  end.
Section Sha.
Variable sha512 : list Z -> list Z.
Definition new_key_and_seed_with_input (buffer : list Z) : list Z * list Z * list Z :=
  let digest := sha512 buffer in (clamp (firstn 32 digest), buffer, skipn 32 digest).
End Sha.

(** The point operations used by the layers above: point.rs 36-41 [marshal_binary], 43-52 [unmarshal_binary] (of a fresh
    point), 179-188 [add], 201-205 [neg], 207-224 [mul] with a point, [mul] with [None] (the standard base), 229-242 [eq]. *)
Record curve := Curve {
  pt : Type;
  pzero : pt;
  padd : pt -> pt -> pt;
  pneg : pt -> pt;
  pbase : pt;
  pmul : list Z -> pt -> pt;
  pmul_base : list Z -> pt;
  penc : pt -> list Z;
  pdec : list Z -> option pt;
  peq : pt -> pt -> bool
}.

(** sign/error.rs [SignatureError]; the two marshalling errors are not told apart. *)
Inductive sig_error :=
| InvalidSignatureLength | SigMarshalling | RNotCanonical | RSmallOrder | SignatureNotCanonical
| PublicKeyNotCanonical | PublicKeySmallOrder | InvalidSignature.

(** [set_bytes] has no error case (scalar.rs 175-177): an error inside would be a panic. *)
Definition must {E E' A} (o : outcome E A) : outcome E' A :=
  match o with Ok a => Ok a | Err _ => Panic | Panic => Panic | OutOfFuel => OutOfFuel end.
(** [?] on a marshalling result. *)
Definition sig_try {E A} (o : outcome E A) : outcome sig_error A :=
  match o with Ok a => Ok a | Err _ => Err SigMarshalling | Panic => Panic | OutOfFuel => OutOfFuel end.

Section Ed.
Variables (C : curve) (sha512 : list Z -> list Z).
Notation pt := (pt C).

(** point.rs 286: on the marshalled point. *)
Definition small (P : pt) : bool := pt_small_order (penc C P).
(** Unmarshal into a fresh point. *)
Definition dec (b : list Z) : outcome sig_error pt := match pdec C b with Some P => Ok P | None => Err SigMarshalling end.

(** *** schnorr_sig.rs *)
(** 128-141 [hash]. *)
Definition schnorr_hash (public r : pt) (msg : list Z) : outcome sig_error (list Z) :=
  must (scalar_set_bytes scalar_default (sha512 (penc C r ++ penc C public ++ msg))).

(** 25-47 [sign], from the nonce on. *)
Definition schnorr_sign_with (k private msg : list Z) : outcome sig_error (list Z) :=
  let r := pmul_base C k in
  let public := pmul_base C private in
  let! h := schnorr_hash public r msg in
  let xh := scalar_mul private h in
  let s := scalar_add k xh in
  let! sb := sig_try (scalar_marshal s) in
  Ok (penc C r ++ sb).
Definition schnorr_sign (St : Type) (R : stream St) (fuel : nat) (st : St) (private msg : list Z)
  : outcome sig_error (list Z * St) :=
  let! (k, st') := must (scalar_pick St R fuel scalar_default st) in
  let! sig := schnorr_sign_with k private msg in Ok (sig, st').

(** 53-110 [verify_with_checks]; the scalar's [unmarshal_binary] cannot fail after the canonicality check but is kept. *)
Definition schnorr_verify_with_checks (pubb msg sig : list Z) : outcome sig_error unit :=
  if negb (Nat.eqb (length sig) 64) then Err InvalidSignatureLength else
  let rb := firstn 32 sig in let sb := skipn 32 sig in
  let! r := dec rb in
  if negb (pt_is_canonical rb) then Err RNotCanonical else
  if small r then Err RSmallOrder else
  if negb (sc_is_canonical sb) then Err SignatureNotCanonical else
  let '(u, s) := scalar_unmarshal scalar_default sb in
  let! _ := sig_try u in
  let! public := dec pubb in
  if negb (pt_is_canonical pubb) then Err PublicKeyNotCanonical else
  if small public then Err PublicKeySmallOrder else
  let! h := schnorr_hash public r msg in
  let s_p := pmul_base C s in
  let ah := pmul C h public in
  let ras := padd C r ah in
  if negb (peq C s_p ras) then Err InvalidSignature else Ok tt.
(** 114-126 [verify]. *)
Definition schnorr_verify (public : pt) (msg sig : list Z) : outcome sig_error unit :=
  schnorr_verify_with_checks (penc C public) msg sig.

(** *** eddsa_sig.rs *)
(** 17-25 [EdDSA]. *)
Record eddsa := Eddsa { ed_secret : list Z; ed_public : pt; ed_seed : list Z; ed_prefix : list Z }.

(** 46-54 [default]. *)
Definition eddsa_default : eddsa := Eddsa scalar_default (pzero C) [] [].

(** From the 32 seed bytes: common to 32-43 [new] and 76-90 [unmarshal_binary]. *)
Definition eddsa_of_seed (seed : list Z) : eddsa :=
  let '(secret, buffer, prefix) := new_key_and_seed_with_input sha512 seed in
  Eddsa secret (pmul_base C secret) buffer prefix.
(** 32-43 [new]: the seed is 32 bytes of the stream (curve.rs 92-103, random_stream.rs 50-54); a stream error is returned. *)
Definition eddsa_new (St : Type) (R : stream St) (st : St) : outcome unit (eddsa * St) :=
  let! (seed, st') := random_bytes St R 32 st in Ok (eddsa_of_seed seed, st').
(** 76-90 [unmarshal_binary]: result and receiver afterwards. *)
Definition eddsa_unmarshal (recv : eddsa) (buff : list Z) : outcome sig_error unit * eddsa :=
  if negb (Nat.eqb (length buff) 64) then (Err SigMarshalling, recv) else
  (Ok tt, eddsa_of_seed (firstn 32 buff)).
(** 96-103 [marshal_binary]: [copy_from_slice] panics on a seed that is not 32 bytes long. *)
Definition eddsa_marshal (e : eddsa) : outcome sig_error (list Z) :=
  if negb (Nat.eqb (length (ed_seed e)) 32) then Panic else Ok (ed_seed e ++ penc C (ed_public e)).
(** 106-116 [From<Pair>]. *)
Definition eddsa_of_pair (private : list Z) (public : pt) : eddsa := Eddsa private public [] [].

(** 120-152 [sign]. *)
Definition eddsa_sign (e : eddsa) (msg : list Z) : outcome sig_error (list Z) :=
  let! r := must (scalar_set_bytes scalar_default (sha512 (ed_prefix e ++ msg))) in
  let r_point := pmul_base C r in
  let r_buff := penc C r_point in
  let a_buff := penc C (ed_public e) in
  let! h := must (scalar_set_bytes scalar_default (sha512 (r_buff ++ a_buff ++ msg))) in
  let s := scalar_add r (scalar_mul (ed_secret e) h) in
  let! s_buff := sig_try (scalar_marshal s) in
  Ok (r_buff ++ s_buff).

(** 159-212 [verify_with_checks]. *)
Definition eddsa_verify_with_checks (public_key msg sig : list Z) : outcome sig_error unit :=
  if negb (Nat.eqb (length sig) 64) then Err InvalidSignatureLength else
  let rb := firstn 32 sig in let sb := skipn 32 sig in
  if negb (sc_is_canonical sb) then Err SignatureNotCanonical else
  if negb (pt_is_canonical rb) then Err RNotCanonical else
  let! r := dec rb in
  if small r then Err RSmallOrder else
  let '(u, s) := scalar_unmarshal scalar_default sb in
  let! _ := sig_try u in
  if negb (pt_is_canonical public_key) then Err PublicKeyNotCanonical else
  let! public := dec public_key in
  if small public then Err PublicKeySmallOrder else
  let! h := must (scalar_set_bytes scalar_default (sha512 (rb ++ public_key ++ msg))) in
  let s := pmul_base C s in
  let ha := pmul C h public in
  let rha := padd C r ha in
  if negb (peq C rha s) then Err InvalidSignature else Ok tt.
(** 216-220 [verify]. *)
Definition eddsa_verify (public : pt) (msg sig : list Z) : outcome sig_error unit :=
  eddsa_verify_with_checks (penc C public) msg sig.

(** curve.rs 107-114 [new_key]: always a key. *)
Definition new_key (St : Type) (R : stream St) (st : St) : outcome unit (option (list Z) * St) :=
  let! (seed, st') := random_bytes St R 32 st in
  let '(secret, _, _) := new_key_and_seed_with_input sha512 seed in Ok (Some secret, st').
(** *** util/key/key_pair.rs 57-69 [gen]: private and public key, for any generator; fuel bounds the rejection loop of
    [pick]. *)
Definition pair_gen_with (St : Type) (R : stream St) (generator : St -> outcome unit (option (list Z) * St)) (fuel : nat) (st : St)
  : outcome unit (list Z * pt * St) :=
  let! (o, st1) := generator st in
  let! (private, st2) := match o with Some k => Ok (k, st1) | None => must (scalar_pick St R fuel scalar_default st1) end in
  Ok (private, pmul_base C private, st2).
(** With the generator of [SuiteEd25519]. *)
Definition key_pair_gen (St : Type) (R : stream St) : nat -> St -> outcome unit (list Z * pt * St) := pair_gen_with St R (new_key St R).
End Ed.
