(** Model of encoding/encodings.rs 49-59: [marshal_binary] and [unmarshal_binary] of the message types, that is the derived
    [Serialize] and [Deserialize] implementations over bincode 1.3.3 (Cargo.toml 14-15) with its default options: integers of
    fixed width, little-endian; [usize] as u64; a [Vec] preceded by its length as u64; arrays and structs as the concatenation
    of their fields; [bool] as one byte 0 or 1; bytes left over after the value are ignored.  The size limit is infinite and
    reading from a slice reports the end of the input as an error, so no call panics.
    The bounds on speculative allocation inside serde's [Vec] visitor are not observable and not modelled. *)
From Coq Require Import ZArith List Bool.
From Verif Require Import Base Bytes Limb ScModel FeModel GeModel PointModel.
Import ListNotations.
Local Open Scope Z_scope.

(** encodings.rs 49-59, the bounds [Serialize] and [Deserialize]: a type's serializer and its deserializer, which returns the value and the bytes not consumed. *)
Record codec (A : Type) := Codec { c_enc : A -> list Z; c_dec : list Z -> option (A * list Z) }.
Arguments Codec {A}. Arguments c_enc {A}. Arguments c_dec {A}.

(** encodings.rs 57 (bincode's reader of a slice): [n] bytes are taken, or the input has ended. *)
Definition take (n : nat) (b : list Z) : option (list Z * list Z) :=
  if Nat.leb n (length b) then Some (firstn n b, skipn n b) else None.

(** encodings.rs 50, 57 (bincode's [FixintEncoding], [LittleEndian]): u8, u32, u64 (and usize, serde's [serialize_u64]), i32 in
    two's complement. *)
Definition cod_uint (n : nat) : codec Z :=
  Codec (fun v => le_bytes n v) (fun b : list Z => match take n b with Some (x, r) => Some (le_val x, r) | None => None end).
Definition cod_u8 : codec Z := cod_uint 1.
Definition cod_u32 : codec Z := cod_uint 4.
Definition cod_usize : codec Z := cod_uint 8.
Definition cod_i32 : codec Z :=
  Codec (fun v => le_bytes 4 v)
        (fun b : list Z => match take 4 b with Some (x, r) => Some (wrap I32 (le_val x), r) | None => None end).
(** encodings.rs 50, 57 (bincode's [serialize_bool], [deserialize_bool]). *)
Definition cod_bool : codec bool :=
  Codec (fun v : bool => [if v then 1 else 0])
        (fun b : list Z => match b with x :: r => if x =? 1 then Some (true, r) else if x =? 0 then Some (false, r) else None | [] => None end).
(** encodings.rs 50, 57 (bincode's [serialize_struct], [deserialize_tuple]): a tuple or struct is the sequence of its fields. *)
Definition cod_pair {A B} (ca : codec A) (cb : codec B) : codec (A * B) :=
  Codec (fun p => c_enc ca (fst p) ++ c_enc cb (snd p))
        (fun b : list Z => match c_dec ca b with
                  | Some (x, r) => match c_dec cb r with Some (y, r') => Some ((x, y), r') | None => None end
                  | None => None
                  end).
(** The derived implementations of the structs cited below: a struct with fields [A] is built by [g] and taken apart by [f]. *)
Definition cod_map {A B} (f : B -> A) (g : A -> B) (c : codec A) : codec B :=
  Codec (fun v => c_enc c (f v)) (fun b : list Z => match c_dec c b with Some (x, r) => Some (g x, r) | None => None end).
(** encodings.rs 57: [n] elements in a row. *)
Fixpoint dec_seq {A} (c : codec A) (n : nat) (b : list Z) : option (list A * list Z) :=
  match n with
  | O => Some ([], b)
  | S n' => match c_dec c b with
            | Some (x, r) => match dec_seq c n' r with Some (l, r') => Some (x :: l, r') | None => None end
            | None => None
            end
  end.
(** encodings.rs 50, 57 (serde's implementation for arrays): [[T; N]] is a tuple of N elements. *)
Definition cod_array {A} (c : codec A) (n : nat) : codec (list A) :=
  Codec (fun l => flat_map (c_enc c) l) (dec_seq c n).
(** encodings.rs 50, 57 (bincode's [serialize_seq], [deserialize_seq]): the length, then the elements.  Every
    element type here occupies at least one byte, so a length above the number of bytes left runs into the end of the input
    (the first test only cuts this failing run short). *)
Definition cod_vec {A} (c : codec A) : codec (list A) :=
  Codec (fun l => le_bytes 8 (Z.of_nat (length l)) ++ flat_map (c_enc c) l)
        (fun b : list Z => match c_dec cod_usize b with
                  | Some (n, r) => if Z.of_nat (length r) <? n then None else dec_seq c (Z.to_nat n) r
                  | None => None
                  end).

(** encodings.rs 49-51 [marshal_binary]: serializing into a [Vec] never fails. *)
Definition marshal {A} (c : codec A) (x : A) : outcome unit (list Z) := Ok (c_enc c x).
(** encodings.rs 53-59 [unmarshal_binary]: the result and the receiver afterwards; trailing bytes are allowed
    (bincode::deserialize). *)
Definition unmarshal {A} (c : codec A) (x : A) (data : list Z) : outcome unit unit * A :=
  match c_dec c data with Some (v, _) => (Ok tt, v) | None => (Err tt, x) end.

(** group/edwards25519/scalar.rs 23-26 [Scalar]. *)
Definition cod_scalar : codec (list Z) := cod_array cod_u8 32.
(** fe.rs 8 [FieldElement], ge.rs 75-83 [ExtendedGroupElement], point.rs 23-27 [Point]. *)
Definition cod_fe : codec (list Z) := cod_array cod_i32 10.
Definition cod_ext : codec ext :=
  cod_map (fun e => (ge_x e, (ge_y e, (ge_z e, ge_t e)))) (fun '(x, (y, (z, t))) => Ext x y z t)
    (cod_pair cod_fe (cod_pair cod_fe (cod_pair cod_fe cod_fe))).
Definition cod_point : codec point := cod_map (fun p => (p_ge p, p_vt p)) (fun '(e, v) => Pt e v) (cod_pair cod_ext cod_bool).
(** [Vec<u8>] and [Vec<POINT>], e.g. vss.rs 115, 123. *)
Definition cod_bytes : codec (list Z) := cod_vec cod_u8.
Definition cod_points : codec (list point) := cod_vec cod_point.

(** share/poly.rs 35-41 [PriShare], 372-379 [PubShare]. *)
Record w_prishare := WPriShare { wps_i : Z; wps_v : list Z }.
Definition cod_prishare : codec w_prishare :=
  cod_map (fun s => (wps_i s, wps_v s)) (fun '(i, v) => WPriShare i v) (cod_pair cod_usize cod_scalar).
Record w_pubshare := WPubShare { wpb_i : Z; wpb_v : point }.
Definition cod_pubshare : codec w_pubshare :=
  cod_map (fun s => (wpb_i s, wpb_v s)) (fun '(i, v) => WPubShare i v) (cod_pair cod_usize cod_point).

(** share/vss/pedersen/vss.rs 114-124 [Deal]. *)
Record w_deal := WDeal { wd_sid : list Z; wd_share : w_prishare; wd_t : Z; wd_commits : list point }.
Definition cod_deal : codec w_deal :=
  cod_map (fun d => (wd_sid d, (wd_share d, (wd_t d, wd_commits d)))) (fun '(s, (p, (t, c))) => WDeal s p t c)
    (cod_pair cod_bytes (cod_pair cod_prishare (cod_pair cod_usize cod_points))).
(** vss/rabin/vss.rs 136-148 [Deal]. *)
Record w_rdeal := WRDeal { wrd_sid : list Z; wrd_sec : w_prishare; wrd_rnd : w_prishare; wrd_t : Z; wrd_commits : list point }.
Definition cod_rdeal : codec w_rdeal :=
  cod_map (fun d => (wrd_sid d, (wrd_sec d, (wrd_rnd d, (wrd_t d, wrd_commits d))))) (fun '(s, (p, (q, (t, c)))) => WRDeal s p q t c)
    (cod_pair cod_bytes (cod_pair cod_prishare (cod_pair cod_prishare (cod_pair cod_usize cod_points)))).
(** vss/pedersen/vss.rs 172-183 and vss/rabin/vss.rs 197-208 [EncryptedDeal]. *)
Record w_enc := WEnc { we_dhkey : point; we_sig : list Z; we_nonce : list Z; we_cipher : list Z }.
Definition cod_enc : codec w_enc :=
  cod_map (fun e => (we_dhkey e, (we_sig e, (we_nonce e, we_cipher e)))) (fun '(k, (s, (n, c))) => WEnc k s n c)
    (cod_pair cod_point (cod_pair cod_bytes (cod_pair cod_bytes cod_bytes))).
(** vss/pedersen/vss.rs 198-208 and vss/rabin/vss.rs 229-239 [Response]. *)
Record w_resp := WResp { wr_sid : list Z; wr_index : Z; wr_status : bool; wr_sig : list Z }.
Definition cod_resp : codec w_resp :=
  cod_map (fun r => (wr_sid r, (wr_index r, (wr_status r, wr_sig r)))) (fun '(s, (i, (b, g))) => WResp s i b g)
    (cod_pair cod_bytes (cod_pair cod_u32 (cod_pair cod_bool cod_bytes))).
(** vss/pedersen/vss.rs 243-253 and vss/rabin/vss.rs 267-277 [Justification], over the type of the deal. *)
Record w_just (D : Type) := WJust { wj_sid : list Z; wj_index : Z; wj_deal : D; wj_sig : list Z }.
Arguments WJust {D}. Arguments wj_sid {D}. Arguments wj_index {D}. Arguments wj_deal {D}. Arguments wj_sig {D}.
Definition cod_just {D} (cd : codec D) : codec (w_just D) :=
  cod_map (fun j => (wj_sid j, (wj_index j, (wj_deal j, wj_sig j)))) (fun '(s, (i, (d, g))) => WJust s i d g)
    (cod_pair cod_bytes (cod_pair cod_u32 (cod_pair cd cod_bytes))).

(** share/dkg/pedersen/structs.rs 76-85 [Deal] and its own [marshal_binary] 99-107 (what the dealer signs). *)
Record w_ddeal := WDDeal { wdd_index : Z; wdd_deal : w_enc; wdd_sig : list Z }.
Definition cod_ddeal : codec w_ddeal :=
  cod_map (fun d => (wdd_index d, (wdd_deal d, wdd_sig d))) (fun '(i, (e, g)) => WDDeal i e g)
    (cod_pair cod_u32 (cod_pair cod_enc cod_bytes)).
Definition ddeal_marshal (d : w_ddeal) : outcome unit (list Z) := marshal cod_ddeal (WDDeal (wdd_index d) (wdd_deal d) []).
(** dkg/pedersen/structs.rs 109-115, 129-135 and dkg/rabin/dkg.rs 116-123, 133-139, 153-159: an index and the message of the
    verifiable secret sharing ([EncryptedDeal], [Response], [Justification]). *)
Record w_idx (M : Type) := WIdx { wi_index : Z; wi_msg : M }.
Arguments WIdx {M}. Arguments wi_index {M}. Arguments wi_msg {M}.
Definition cod_idx {M} (cm : codec M) : codec (w_idx M) :=
  cod_map (fun d => (wi_index d, wi_msg d)) (fun '(i, m) => WIdx i m) (cod_pair cod_u32 cm).
(** dkg/pedersen/structs.rs 18-28 and dkg/rabin/dkg.rs 60-66 [DistKeyShare]. *)
Record w_dks := WDks { wk_commits : list point; wk_share : w_prishare; wk_poly : list (list Z) }.
Definition cod_dks : codec w_dks :=
  cod_map (fun d => (wk_commits d, (wk_share d, wk_poly d))) (fun '(c, (s, p)) => WDks c s p)
    (cod_pair cod_points (cod_pair cod_prishare (cod_vec cod_scalar))).
Record w_rdks := WRDks { wrk_commits : list point; wrk_share : w_prishare }.
Definition cod_rdks : codec w_rdks :=
  cod_map (fun d => (wrk_commits d, wrk_share d)) (fun '(c, s) => WRDks c s) (cod_pair cod_points cod_prishare).
(** dkg/rabin/dkg.rs 173-183 [SecretCommits], 222-233 [ComplaintCommits], 263-275 [ReconstructCommits]. *)
Record w_sc := WSc { wsc_index : Z; wsc_commits : list point; wsc_sid : list Z; wsc_sig : list Z }.
Definition cod_sc : codec w_sc :=
  cod_map (fun s => (wsc_index s, (wsc_commits s, (wsc_sid s, wsc_sig s)))) (fun '(i, (c, (s, g))) => WSc i c s g)
    (cod_pair cod_u32 (cod_pair cod_points (cod_pair cod_bytes cod_bytes))).
Record w_cc := WCc { wcc_index : Z; wcc_dealer : Z; wcc_deal : w_rdeal; wcc_sig : list Z }.
Definition cod_cc : codec w_cc :=
  cod_map (fun s => (wcc_index s, (wcc_dealer s, (wcc_deal s, wcc_sig s)))) (fun '(i, (j, (d, g))) => WCc i j d g)
    (cod_pair cod_u32 (cod_pair cod_u32 (cod_pair cod_rdeal cod_bytes))).
Record w_rc := WRc { wrc_sid : list Z; wrc_index : Z; wrc_dealer : Z; wrc_share : w_prishare; wrc_sig : list Z }.
Definition cod_rc : codec w_rc :=
  cod_map (fun s => (wrc_sid s, (wrc_index s, (wrc_dealer s, (wrc_share s, wrc_sig s))))) (fun '(x, (i, (j, (d, g)))) => WRc x i j d g)
    (cod_pair cod_bytes (cod_pair cod_u32 (cod_pair cod_u32 (cod_pair cod_prishare cod_bytes)))).
(** sign/dss/dss_sig.rs 140-145 [PartialSig], util/key/key_pair.rs 21-26 [Pair], sign/eddsa/eddsa_sig.rs 17-25 [EdDSA]. *)
Record w_psig := WPsig { wp_partial : w_prishare; wp_sid : list Z; wp_sig : list Z }.
Definition cod_psig : codec w_psig :=
  cod_map (fun s => (wp_partial s, (wp_sid s, wp_sig s))) (fun '(p, (s, g)) => WPsig p s g)
    (cod_pair cod_prishare (cod_pair cod_bytes cod_bytes)).
Record w_keypair := WKeyPair { wkp_pub : point; wkp_priv : list Z }.
Definition cod_keypair : codec w_keypair :=
  cod_map (fun k => (wkp_pub k, wkp_priv k)) (fun '(p, s) => WKeyPair p s) (cod_pair cod_point cod_scalar).
Record w_eddsa := WEddsa { wed_secret : list Z; wed_public : point; wed_seed : list Z; wed_prefix : list Z }.
Definition cod_eddsa : codec w_eddsa :=
  cod_map (fun k => (wed_secret k, (wed_public k, (wed_seed k, wed_prefix k)))) (fun '(s, (p, (e, x))) => WEddsa s p e x)
    (cod_pair cod_scalar (cod_pair cod_point (cod_pair cod_bytes cod_bytes))).
