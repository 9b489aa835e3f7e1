(** The canonicality checks and the verification of signatures when arithmetic overflow is checked.  Cargo.toml 9-10 switches the
    checks off in the dev profile of this repository; Cargo ignores the profile of a dependency, so a program that uses the crate and
    is built with its own default dev profile has them on.  Only the subtractions that can underflow are modelled differently from
    [sc_is_canonical], [pt_is_canonical], [pt_small_order] (ScModel, EdModel); the limb arithmetic does not overflow (C23_no_overflow, C28_no_overflow). *)
From Coq Require Import ZArith List Bool.
From Verif Require Import Base Bytes Limb ScLimbs IntModel RandModel ScModel EdModel.
Import ListNotations.
Local Open Scope Z_scope.
Local Open Scope outcome_scope.

(** [a - b] on u16 with overflow checks. *)
Definition sub_ck {E} (a b : Z) : outcome E Z := if a <? b then Panic else Ok (a - b).

(** scalar.rs 66-72: one step of the loop of [is_canonical]. *)
Definition canon_step_ck {E} (cn : Z * Z) (sl : Z * Z) : outcome E (Z * Z) :=
  let '(c, n) := cn in let '(s, l) := sl in
  let! d := sub_ck s l in
  let! e := sub_ck (Z.lxor s l) 1 in
  Ok (Z.lor c (Z.land (u8 (Z.shiftr d 8)) n), Z.land n (u8 (Z.shiftr e 8))).
(** scalar.rs 54-75 [is_canonical]. *)
Definition sc_is_canonical_ck {E} (sb : list Z) : outcome E bool :=
  if negb (Nat.eqb (length sb) 32) then Ok false else
  if Z.land (nth 31 sb 0) 240 =? 0 then Ok true else
  let! (c, _) := foldo canon_step_ck (0, 1) (rev (combine sb (to_bytes_le PRIME_ORDER))) in
  Ok (negb (c =? 0)).

(** point.rs 322-337 [is_canonical]: line 333 subtracts with [-], line 334 with [wrapping_sub]. *)
Definition pt_is_canonical_ck {E} (b : list Z) : outcome E bool :=
  if negb (Nat.eqb (length b) 32) then Ok false else
  let c := Z.lxor (Z.land (nth 31 b 0) 127) 127 in
  let c := fold_left (fun c i => Z.lor c (Z.lxor (nth i b 0) 255)) (rev (seq 1 30)) c in
  let! c := sub_ck c 1 in
  let c := u8 (Z.shiftr c 8) in
  let d := u8 (Z.shiftr ((237 - (1 - nth 0 b 0) mod 65536) mod 65536) 8) in
  Ok (1 - Z.land (Z.land c d) 1 =? 1).

(** point.rs 286-310 [has_small_order], from the encoding of the point: line 306 subtracts with [-]. *)
Definition pt_small_order_ck {E} (s : list Z) : outcome E bool :=
  let! k := foldo (fun k w => let! d := sub_ck (weak_diff s w) 1 in Ok (Z.lor k d)) 0 WEAK_KEYS in
  Ok (0 <? Z.land (Z.shiftr k 8) 1).

Section Verify.
Variables (C : curve) (sha512 : list Z -> list Z).
(** schnorr_sig.rs 53-110 [verify_with_checks]. *)
Definition schnorr_verify_with_checks_ck (pubb msg sig : list Z) : outcome sig_error unit :=
  if negb (Nat.eqb (length sig) 64) then Err InvalidSignatureLength else
  let rb := firstn 32 sig in let sb := skipn 32 sig in
  let! r := dec C rb in
  let! cr := pt_is_canonical_ck rb in
  if negb cr then Err RNotCanonical else
  let! wr := pt_small_order_ck (penc C r) in
  if (wr : bool) then Err RSmallOrder else
  let! cs := sc_is_canonical_ck sb in
  if negb cs then Err SignatureNotCanonical else
  let '(u, s) := scalar_unmarshal scalar_default sb in
  let! _ := sig_try u in
  let! public := dec C pubb in
  let! ca := pt_is_canonical_ck pubb in
  if negb ca then Err PublicKeyNotCanonical else
  let! wa := pt_small_order_ck (penc C public) in
  if (wa : bool) then Err PublicKeySmallOrder else
  let! h := schnorr_hash C sha512 public r msg in
  let s_p := pmul_base C s in
  let ah := pmul C h public in
  let ras := padd C r ah in
  if negb (peq C s_p ras) then Err InvalidSignature else Ok tt.
(** schnorr_sig.rs 114-126 [verify]. *)
Definition schnorr_verify_ck (public : pt C) (msg sig : list Z) : outcome sig_error unit :=
  schnorr_verify_with_checks_ck (penc C public) msg sig.
(** eddsa_sig.rs 159-212 [verify_with_checks]. *)
Definition eddsa_verify_with_checks_ck (public_key msg sig : list Z) : outcome sig_error unit :=
  if negb (Nat.eqb (length sig) 64) then Err InvalidSignatureLength else
  let rb := firstn 32 sig in let sb := skipn 32 sig in
  let! cs := sc_is_canonical_ck sb in
  if negb cs then Err SignatureNotCanonical else
  let! cr := pt_is_canonical_ck rb in
  if negb cr then Err RNotCanonical else
  let! r := dec C rb in
  let! wr := pt_small_order_ck (penc C r) in
  if (wr : bool) then Err RSmallOrder else
  let '(u, s) := scalar_unmarshal scalar_default sb in
  let! _ := sig_try u in
  let! ca := pt_is_canonical_ck public_key in
  if negb ca then Err PublicKeyNotCanonical else
  let! public := dec C public_key in
  let! wa := pt_small_order_ck (penc C public) in
  if (wa : bool) then Err PublicKeySmallOrder else
  let! h := must (scalar_set_bytes scalar_default (sha512 (rb ++ public_key ++ msg))) in
  let s := pmul_base C s in
  let ha := pmul C h public in
  let rha := padd C r ha in
  if negb (peq C rha s) then Err InvalidSignature else Ok tt.
End Verify.
