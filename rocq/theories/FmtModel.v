(** Model of the text forms: [Display], [Debug] and the hexadecimal forms of the group elements, shares, messages and protocol
    states.  core::fmt: [{:?}] without [#] writes a struct as [Name { field: value, .. }], a [Vec] as [[a, b]], a [HashMap] as
    [{k: v, ..}] in iteration order, an [Option] as [Some(v)] or [None]; writing to a string never fails.
    The values are those of WireModel.v and StateModel.v. *)
From Coq Require Import ZArith List Bool String Ascii DecimalString.
From Verif Require Import Base Bytes Limb ScModel FeModel GeModel PointModel IntModel WireModel StateModel.
Import ListNotations.
Local Open Scope Z_scope.
Local Open Scope string_scope.

(** ** core::fmt and the crate hex *)

(** [Display] (and [Debug]) of integers and [bool], e.g. share/poly.rs 51, vss.rs 214. *)
Definition dec (v : Z) : string := NilZero.string_of_int (Z.to_int v).
Definition fbool (b : bool) : string := if b then "true" else "false".
(** [Vec<String>::join], e.g. vss.rs 75. *)
Definition join (sep : string) (l : list string) : string := String.concat sep l.
(** [hex::encode] and [hex::encode_upper] (Cargo.toml 20), e.g. scalar.rs 116, 124. *)
Definition hex_digit (upper : bool) (d : Z) : ascii :=
  ascii_of_N (Z.to_N (if d <? 10 then 48 + d else (if upper then 55 else 87) + d)%Z).
Fixpoint hex_of (upper : bool) (l : list Z) : string :=
  match l with
  | [] => ""
  | b :: r => String (hex_digit upper (b / 16)%Z) (String (hex_digit upper (b mod 16)%Z) (hex_of upper r))
  end.
Definition hex (l : list Z) : string := hex_of false l.

(** [Formatter::debug_struct] and the derived [Debug] of structs, e.g. poly.rs 45. *)
Definition dstruct (name : string) (fields : list (string * string)) : string :=
  match fields with
  | [] => name
  | _ => name ++ " { " ++ join ", " (map (fun f => fst f ++ ": " ++ snd f) fields) ++ " }"
  end.
(** [Debug] of [Vec] and arrays, [HashMap], [Option], e.g. through vss.rs 54, 60, 494. *)
Definition dlist {A} (f : A -> string) (l : list A) : string := "[" ++ join ", " (map f l) ++ "]".
Definition dmap {A} (f : A -> string) (m : list (Z * A)) : string := "{" ++ join ", " (map (fun e => dec (fst e) ++ ": " ++ f (snd e)) m) ++ "}".
Definition dopt {A} (f : A -> string) (o : option A) : string := match o with Some a => "Some(" ++ f a ++ ")" | None => "None" end.
Definition dbytes (l : list Z) : string := dlist dec l.
(** The loops over a map in [Display], e.g. vss.rs 808-813. *)
Definition entries {A} (f : A -> string) (m : list (Z * A)) : string := join ", " (map (fun e => "(" ++ dec (fst e) ++ ", " ++ f (snd e) ++ ")") m).

(** ** Numbers and group elements *)

(** integer.rs 304-318 [LowerHex], [UpperHex] for [Int] ([alt] is [f.alternate()]); [to_bytes_be().1] is the magnitude, one zero
    byte for 0.  integer.rs 204-209 [Display] is the alternate lower form. *)
Definition int_hex (upper alt : bool) (i : Int) : string :=
  (if alt then if upper then "0X" else "0x" else "") ++ hex_of upper (to_bytes_be (iv i)).
(** scalar.rs 112-126 [LowerHex], [UpperHex], 85-89 [Display], 23-26 [Debug]. *)
Definition scalar_hex (upper alt : bool) (v : list Z) : string := (if alt then if upper then "0X" else "0x" else "") ++ hex_of upper v.
Definition scalar_display (v : list Z) : string := "Ed25519Scalar(" ++ scalar_hex false true v ++ ")".
Definition scalar_debug (v : list Z) : string := dstruct "Scalar" [("v", dbytes v)].
(** point.rs 256-276 [LowerHex], [UpperHex], 250-254 [Display], 23-27 and ge.rs 75-83 [Debug]. *)
Definition point_hex (upper alt : bool) (p : point) : string := (if alt then if upper then "0X" else "0x" else "") ++ hex_of upper (ext_write_bytes (p_ge p)).
Definition point_display (p : point) : string := "Ed25519Point(" ++ point_hex false true p ++ ")".
Definition ext_debug (e : ext) : string :=
  dstruct "ExtendedGroupElement" [("x", dbytes (ge_x e)); ("y", dbytes (ge_y e)); ("z", dbytes (ge_z e)); ("t", dbytes (ge_t e))].
Definition point_debug (p : point) : string := dstruct "Point" [("ge", ext_debug (p_ge p)); ("var_time", fbool (p_vt p))].
Definition points_display (sep : string) (l : list point) : string := join sep (map point_display l).
(** curve.rs 21-22, 28-32 and suite.rs 25-30, 87-91. *)
Definition suite_display : string := "Ed25519".
Definition suite_debug : string := dstruct "SuiteEd25519" [("curve", dstruct "Curve" [])].

(** ** Shares and polynomials *)

(** poly.rs 43-53, 74-84, 361-369, 371-385, 397-428. *)
Definition prishare_debug (s : w_prishare) : string := dstruct "PriShare" [("i", dec (wps_i s))].
Definition prishare_display (s : w_prishare) : string := "PriShare( index: " ++ dec (wps_i s) ++ " )".
Definition pripoly_debug (_ : list (list Z)) : string := dstruct "PriPoly" [("g", suite_debug)].
Definition pripoly_display (_ : list (list Z)) : string := "PriPoly( group: " ++ suite_display ++ " )".
Definition pripoly_string (coeffs : list (list Z)) : string := "[ " ++ join ", " (map scalar_display coeffs) ++ " ]".
Definition pubshare_debug (s : w_pubshare) : string := dstruct "PubShare" [("i", dec (wpb_i s)); ("v", point_debug (wpb_v s))].
Definition pubshare_display (s : w_pubshare) : string := "PubShare( index: " ++ dec (wpb_i s) ++ ", value: " ++ point_display (wpb_v s) ++ " )".
Definition pubpoly_debug (p : s_pubpoly) : string :=
  dstruct "PubPoly" [("g", suite_debug); ("b", dopt point_debug (spp_b p)); ("commits", dlist point_debug (spp_commits p))].
Definition pubpoly_display (p : s_pubpoly) : string :=
  "PubPoly( group: " ++ suite_display ++ "," ++ " base_point:" ++ (match spp_b p with Some b => " Some(" ++ point_display b ++ ")," | None => " None," end) ++
  " commits: [" ++ points_display ", " (spp_commits p) ++ "] )".

(** ** Verifiable secret sharing *)

(** vss/pedersen/vss.rs 126-150 [Deal]. *)
Definition deal_debug (d : w_deal) : string :=
  dstruct "Deal" [("session_id", dbytes (wd_sid d)); ("t", dec (wd_t d)); ("commitments", dlist point_debug (wd_commits d))].
Definition deal_display (d : w_deal) : string :=
  "Deal( session_id: 0x" ++ hex (wd_sid d) ++ ", threshold: " ++ dec (wd_t d) ++ ",)" ++ " commitments: [" ++ points_display "," (wd_commits d) ++ "] )".
(** vss/rabin/vss.rs 150-175 [Deal]. *)
Definition rdeal_debug (d : w_rdeal) : string :=
  dstruct "Deal" [("session_id", dbytes (wrd_sid d)); ("t", dec (wrd_t d)); ("commitments", dlist point_debug (wrd_commits d))].
Definition rdeal_display (d : w_rdeal) : string :=
  "Deal( session_id: " ++ dbytes (wrd_sid d) ++ ", threshold: " ++ dec (wrd_t d) ++ "," ++ " commitments: [" ++ points_display "," (wrd_commits d) ++ "] )".
(** vss/pedersen/vss.rs 172-194 and vss/rabin/vss.rs 197-219 [EncryptedDeal]. *)
Definition enc_debug (e : w_enc) : string :=
  dstruct "EncryptedDeal" [("dhkey", point_debug (we_dhkey e)); ("signature", dbytes (we_sig e)); ("nonce", dbytes (we_nonce e)); ("cipher", dbytes (we_cipher e))].
Definition enc_display (e : w_enc) : string :=
  "EncyptedDeal( dh_key: " ++ point_display (we_dhkey e) ++ ", signature: 0x" ++ hex (we_sig e) ++ ", nonce: 0x" ++ hex (we_nonce e) ++ ", cipher: 0x" ++ hex (we_cipher e) ++ " )".
(** vss/pedersen/vss.rs 197-219 and vss/rabin/vss.rs 228-250 [Response]; the field is called [status] in the one, [approved] in the other. *)
Definition resp_debug (field : string) (r : w_resp) : string :=
  dstruct "Response" [("session_id", dbytes (wr_sid r)); ("index", dec (wr_index r)); (field, fbool (wr_status r)); ("signature", dbytes (wr_sig r))].
Definition resp_display (field : string) (r : w_resp) : string :=
  "Response( session_id: 0x" ++ hex (wr_sid r) ++ ", index: " ++ dec (wr_index r) ++ ", " ++ field ++ ": " ++ fbool (wr_status r) ++ ", signature: 0x" ++ hex (wr_sig r) ++ " )".
(** vss/pedersen/vss.rs 243-263 and vss/rabin/vss.rs 267-287 [Justification]. *)
Definition just_debug {D} (fd : D -> string) (j : w_just D) : string :=
  dstruct "Justification" [("session_id", dbytes (wj_sid j)); ("index", dec (wj_index j)); ("deal", fd (wj_deal j)); ("signature", dbytes (wj_sig j))].
Definition just_display {D} (fd : D -> string) (j : w_just D) : string :=
  "Justification( session_id: 0x" ++ hex (wj_sid j) ++ ", index: " ++ dec (wj_index j) ++ ", deal: " ++ fd (wj_deal j) ++ ", signature: 0x" ++ hex (wj_sig j) ++ " )".

(** vss/pedersen/vss.rs 766-830 [Aggregator]. *)
Definition agg_debug (a : s_agg) : string :=
  dstruct "Aggregator" [("suite", suite_debug); ("dealer", point_debug (sa_dealer a)); ("verifiers", dlist point_debug (sa_verifiers a));
    ("commits", dlist point_debug (sa_commits a)); ("responses", dmap (resp_debug "status") (sa_responses a)); ("sid", dbytes (sa_sid a));
    ("deal", dopt deal_debug (sa_deal a)); ("t", dec (sa_t a)); ("bad_dealer", fbool (sa_bad a)); ("timeout", fbool (sa_timeout a))].
Definition agg_display (a : s_agg) : string :=
  "Aggregator ( suite: " ++ suite_display ++ ",  dealer: " ++ point_display (sa_dealer a) ++ "," ++ " verifiers: [" ++ points_display "," (sa_verifiers a) ++ "]," ++
  " commits: [" ++ points_display "," (sa_commits a) ++ "]," ++ " responses: [" ++ entries (resp_display "status") (sa_responses a) ++ "]," ++
  " session_id: 0x" ++ hex (sa_sid a) ++ "," ++ " deal: " ++ dopt deal_display (sa_deal a) ++ "," ++
  " threshold: " ++ dec (sa_t a) ++ ", bad_dealer: " ++ fbool (sa_bad a) ++ ", timeout: " ++ fbool (sa_timeout a) ++ " )".
(** vss/pedersen/vss.rs 50-95 [Dealer]. *)
Definition dealer_debug (d : s_dealer) : string :=
  dstruct "Dealer" [("suite", suite_debug); ("pubb", point_debug (sd_pub d)); ("verifiers", dlist point_debug (sd_verifiers d)); ("hkdf_context", dbytes (sd_hkdf d));
    ("t", dec (sd_t d)); ("session_id", dbytes (sd_sid d)); ("deals", dlist deal_debug (sd_deals d)); ("aggregator", agg_debug (sd_agg d))].
Definition dealer_display (d : s_dealer) : string :=
  "Dealer( public_key: " ++ point_display (sd_pub d) ++ "," ++ " verifiers: [" ++ points_display "," (sd_verifiers d) ++ "]," ++
  " hkdf_context: 0x" ++ hex (sd_hkdf d) ++ ", threshold: " ++ dec (sd_t d) ++ ", session_id: 0x" ++ hex (sd_sid d) ++ "," ++
  " deals: [" ++ join "," (map deal_display (sd_deals d)) ++ "]," ++ " aggregator: " ++ agg_display (sd_agg d) ++ " )".
(** vss/pedersen/vss.rs 485-525 [Verifier]. *)
Definition verifier_debug (v : s_verifier) : string :=
  dstruct "Verifier" [("suite", suite_debug); ("pubb", point_debug (sv_pub v)); ("dealer", point_debug (sv_dealer v)); ("index", dec (sv_index v));
    ("verifiers", dlist point_debug (sv_verifiers v)); ("hkdf_context", dbytes (sv_hkdf v)); ("aggregator", dopt agg_debug (sv_agg v))].
Definition verifier_display (v : s_verifier) : string :=
  "Verifier( suite: " ++ suite_display ++ ", pubb: " ++ point_display (sv_pub v) ++ ", dealer: " ++ point_display (sv_dealer v) ++ ", index: " ++ dec (sv_index v) ++ "," ++
  " verifiers: [" ++ points_display "," (sv_verifiers v) ++ "]," ++ " hkdf_context: 0x" ++ hex (sv_hkdf v) ++ "," ++ " aggregator: " ++ dopt agg_display (sv_agg v) ++ " )".

(** vss/rabin/vss.rs 769-827 [Aggregator], 72-117 [Dealer], 517-557 [Verifier]. *)
Definition ragg_debug (a : s_ragg) : string :=
  dstruct "Aggregator" [("suite", suite_debug); ("dealer", point_debug (sra_dealer a)); ("verifiers", dlist point_debug (sra_verifiers a));
    ("commits", dlist point_debug (sra_commits a)); ("responses", dmap (resp_debug "approved") (sra_responses a)); ("sid", dbytes (sra_sid a));
    ("deal", dopt rdeal_debug (sra_deal a)); ("t", dec (sra_t a)); ("bad_dealer", fbool (sra_bad a))].
Definition ragg_display (a : s_ragg) : string :=
  "Aggregator ( suite: " ++ suite_display ++ ",  dealer: " ++ point_display (sra_dealer a) ++ "," ++ " verifiers: [" ++ points_display "," (sra_verifiers a) ++ "]," ++
  " commits: [" ++ points_display "," (sra_commits a) ++ "]," ++ " responses: [" ++ entries (resp_display "approved") (sra_responses a) ++ "]," ++
  " session_id: 0x" ++ hex (sra_sid a) ++ "," ++ " deal: " ++ dopt rdeal_display (sra_deal a) ++ "," ++
  " threshold: " ++ dec (sra_t a) ++ ", bad_dealer: " ++ fbool (sra_bad a) ++ " )".
Definition rdealer_debug (d : s_rdealer) : string :=
  dstruct "Dealer" [("suite", suite_debug); ("pubb", point_debug (srd_pub d)); ("verifiers", dlist point_debug (srd_verifiers d)); ("hkdf_context", dbytes (srd_hkdf d));
    ("t", dec (srd_t d)); ("session_id", dbytes (srd_sid d)); ("deals", dlist rdeal_debug (srd_deals d)); ("aggregator", ragg_debug (srd_agg d))].
Definition rdealer_display (d : s_rdealer) : string :=
  "Dealer( public_key: " ++ point_display (srd_pub d) ++ "," ++ " verifiers: [" ++ points_display "," (srd_verifiers d) ++ "]," ++
  " hkdf_context: 0x" ++ hex (srd_hkdf d) ++ ", threshold: " ++ dec (srd_t d) ++ ", session_id: 0x" ++ hex (srd_sid d) ++ "," ++
  " deals: [" ++ join "," (map rdeal_display (srd_deals d)) ++ "]," ++ " aggregator: " ++ ragg_display (srd_agg d) ++ " )".
Definition rverifier_debug (v : s_rverifier) : string :=
  dstruct "Verifier" [("suite", suite_debug); ("pubb", point_debug (srv_pub v)); ("dealer", point_debug (srv_dealer v)); ("index", dec (srv_index v));
    ("verifiers", dlist point_debug (srv_verifiers v)); ("hkdf_context", dbytes (srv_hkdf v)); ("aggregator", dopt ragg_debug (srv_agg v))].
Definition rverifier_display (v : s_rverifier) : string :=
  "Verifier( suite: " ++ suite_display ++ ", pubb: " ++ point_display (srv_pub v) ++ ", dealer: " ++ point_display (srv_dealer v) ++ ", index: " ++ dec (srv_index v) ++ "," ++
  " verifiers: [" ++ points_display "," (srv_verifiers v) ++ "]," ++ " hkdf_context: 0x" ++ hex (srv_hkdf v) ++ "," ++ " aggregator: " ++ dopt ragg_display (srv_agg v) ++ " )".

(** ** Key generation *)

(** dkg/pedersen/structs.rs 30-51 and dkg/rabin/dkg.rs 68-90 [DistKeyShare]. *)
Definition shares_debug (commits : list point) : string := dstruct "DistKeyShare" [("commits", dlist point_debug commits)].
Definition shares_display (commits : list point) : string := "DistKeyShare(" ++ " commits: [" ++ points_display "," commits ++ "] )".
Definition dks_debug (d : w_dks) : string := shares_debug (wk_commits d).
Definition dks_display (d : w_dks) : string := shares_display (wk_commits d).
Definition rdks_debug (d : w_rdks) : string := shares_debug (wrk_commits d).
Definition rdks_display (d : w_rdks) : string := shares_display (wrk_commits d).
(** dkg/pedersen/structs.rs 75-97 [Deal]. *)
Definition ddeal_debug (d : w_ddeal) : string :=
  dstruct "Deal" [("index", dec (wdd_index d)); ("deal", enc_debug (wdd_deal d)); ("signature", dbytes (wdd_sig d))].
Definition ddeal_display (d : w_ddeal) : string :=
  "Deal( index: " ++ dec (wdd_index d) ++ ", deal: " ++ enc_display (wdd_deal d) ++ ", signature: 0x" ++ hex (wdd_sig d) ++ " )".
(** dkg/pedersen/structs.rs 109-147 and dkg/rabin/dkg.rs 115-169: [Response], [Justification], Rabin's [Deal]; [name] and [field] are the names of the struct and of the inner message. *)
Definition idx_debug {M} (name field : string) (f : M -> string) (d : w_idx M) : string := dstruct name [("index", dec (wi_index d)); (field, f (wi_msg d))].
Definition idx_display {M} (name field : string) (f : M -> string) (d : w_idx M) : string :=
  name ++ "( index: " ++ dec (wi_index d) ++ ", " ++ field ++ ": " ++ f (wi_msg d) ++ " )".
(** dkg/rabin/dkg.rs 172-205 [SecretCommits], 222-247 [ComplaintCommits], 277-300 [ReconstructCommits]. *)
Definition sc_debug (s : w_sc) : string :=
  dstruct "SecretCommits" [("index", dec (wsc_index s)); ("commitments", dlist point_debug (wsc_commits s)); ("session_id", dbytes (wsc_sid s)); ("signature", dbytes (wsc_sig s))].
Definition sc_display (s : w_sc) : string :=
  "SecretCommits( index: " ++ dec (wsc_index s) ++ "," ++ " commitments: [" ++ points_display "," (wsc_commits s) ++ "]," ++
  " session_id: 0x" ++ hex (wsc_sid s) ++ ", signature: 0x" ++ hex (wsc_sig s) ++ " )".
Definition cc_debug (s : w_cc) : string :=
  dstruct "ComplaintCommits" [("index", dec (wcc_index s)); ("dealer_index", dec (wcc_dealer s)); ("deal", rdeal_debug (wcc_deal s)); ("signature", dbytes (wcc_sig s))].
Definition cc_display (s : w_cc) : string :=
  "ComplaintCommits( index: " ++ dec (wcc_index s) ++ ", dealer_index: " ++ dec (wcc_dealer s) ++ ", deal: " ++ rdeal_display (wcc_deal s) ++ ", signature: 0x" ++ hex (wcc_sig s) ++ " )".
Definition rc_debug (s : w_rc) : string :=
  dstruct "ReconstructCommits" [("session_id", dbytes (wrc_sid s)); ("index", dec (wrc_index s)); ("dealer_index", dec (wrc_dealer s)); ("signature", dbytes (wrc_sig s))].
Definition rc_display (s : w_rc) : string :=
  "ReconstructCommits( session_id: 0x" ++ hex (wrc_sid s) ++ ", index: " ++ dec (wrc_index s) ++ ", dealer_index: " ++ dec (wrc_dealer s) ++ ", signature: 0x" ++ hex (wrc_sig s) ++ " )".

(** dkg/pedersen/dkg.rs 100-166 [Config]. *)
Definition config_debug {R} (c : s_config R) : string :=
  dstruct "Config" [("suite", suite_debug); ("old_nodes", dlist point_debug (sc_old c)); ("public_coeffs", dopt (dlist point_debug) (sc_coeffs c));
    ("new_nodes", dlist point_debug (sc_new c)); ("share", dopt dks_debug (sc_share c)); ("threshold", dec (sc_t c)); ("old_threshold", dec (sc_old_t c));
    ("reader", fbool (match sc_reader c with Some _ => true | None => false end)); ("user_reader_only", fbool (sc_reader_only c))].
Definition config_display {R} (c : s_config R) : string :=
  "Config( suite: " ++ suite_display ++ "," ++ " old_nodes: [" ++ points_display "," (sc_old c) ++ "]," ++
  (match sc_coeffs c with Some p => "Some([" ++ points_display "," p ++ "])," | None => "None," end) ++
  " new_nodes: [" ++ points_display "," (sc_new c) ++ "]," ++ " share: " ++ dopt dks_display (sc_share c) ++ "," ++
  "threshold: " ++ dec (sc_t c) ++ ", old_threshold: " ++ dec (sc_old_t c) ++ ", reader: " ++ fbool (match sc_reader c with Some _ => true | None => false end) ++
  ", user_reader_only: " ++ fbool (sc_reader_only c) ++ " )".
(** dkg/pedersen/dkg.rs 208-276 [DistKeyGenerator]; the format string has a line break and twelve blanks before [dealer]. *)
Definition dkg_debug {R} (g : s_dkg R) : string :=
  dstruct "DistKeyGenerator" [("c", config_debug (sg_c g)); ("suite", suite_debug); ("pubb", point_debug (sg_pub g)); ("dpub", pubpoly_debug (sg_dpub g));
    ("dealer", dealer_debug (sg_dealer g)); ("verifiers", dmap verifier_debug (sg_verifiers g)); ("old_aggregators", dmap agg_debug (sg_old_aggs g));
    ("oidx", dec (sg_oidx g)); ("nidx", dec (sg_nidx g)); ("old_t", dec (sg_old_t g)); ("new_t", dec (sg_new_t g));
    ("is_resharing", fbool (sg_resharing g)); ("can_issue", fbool (sg_can_issue g)); ("can_receive", fbool (sg_can_receive g));
    ("new_present", fbool (sg_new_present g)); ("old_present", fbool (sg_old_present g)); ("processed", fbool (sg_processed g)); ("timeout", fbool (sg_timeout g))].
Definition dkg_display {R} (g : s_dkg R) : string :=
  "DistKeyGenerator( config: " ++ config_display (sg_c g) ++ ", suite: " ++ suite_display ++ ", public_key: " ++ point_display (sg_pub g) ++
  ", distributed_public_key: " ++ pubpoly_display (sg_dpub g) ++ "," ++ String (ascii_of_nat 10) "            dealer: " ++ dealer_display (sg_dealer g) ++ "," ++
  " verifiers: [" ++ entries verifier_display (sg_verifiers g) ++ "]," ++ " old_aggregators: [" ++ entries agg_display (sg_old_aggs g) ++ "]," ++
  " old_index: " ++ dec (sg_oidx g) ++ ", new_index: " ++ dec (sg_nidx g) ++ ", old_threshold: " ++ dec (sg_old_t g) ++ ", new_threshold: " ++ dec (sg_new_t g) ++
  ", is_resharing: " ++ fbool (sg_resharing g) ++ ", can_issue: " ++ fbool (sg_can_issue g) ++ ", can_receive: " ++ fbool (sg_can_receive g) ++
  ", new_present: " ++ fbool (sg_new_present g) ++ ", old_present: " ++ fbool (sg_old_present g) ++ ", processed: " ++ fbool (sg_processed g) ++
  ", timeout: " ++ fbool (sg_timeout g) ++ " )".
(** dkg/rabin/dkg.rs 341-418 [DistKeyGenerator]. *)
Definition rdkg_debug (g : s_rdkg) : string :=
  dstruct "DistKeyGenerator" [("suite", suite_debug); ("index", dec (srg_index g)); ("pubb", point_debug (srg_pub g)); ("participants", dlist point_debug (srg_participants g));
    ("t", dec (srg_t g)); ("dealer", rdealer_debug (srg_dealer g)); ("verifiers", dmap rverifier_debug (srg_verifiers g)); ("commitments", dmap pubpoly_debug (srg_commitments g));
    ("pending_reconstruct", dmap (dlist rc_debug) (srg_pending g)); ("reconstructed", dmap fbool (srg_reconstructed g))].
Definition rdkg_display (g : s_rdkg) : string :=
  "DistKeyGenerator( suite: " ++ suite_display ++ ", index: " ++ dec (srg_index g) ++ ", public: " ++ point_display (srg_pub g) ++ "," ++
  " participants: [" ++ points_display "," (srg_participants g) ++ "]," ++ " threshold: " ++ dec (srg_t g) ++ ", dealer: " ++ rdealer_display (srg_dealer g) ++ "," ++
  " verifiers: [" ++ entries rverifier_display (srg_verifiers g) ++ "]," ++ " commitments: [" ++ entries pubpoly_display (srg_commitments g) ++ "]," ++
  " pending_reconstruct: [" ++ entries (fun l => "[" ++ join ", " (map rc_display l) ++ "]") (srg_pending g) ++ "]," ++
  " reconstructed: [" ++ entries fbool (srg_reconstructed g) ++ "] )".

(** ** Signatures and keys *)

(** sign/dss/dss_sig.rs 63-136 [DSS], 140-145 [PartialSig]. *)
Definition dss_debug {K} (s : s_dss K) : string :=
  dstruct "DSS" [("suite", suite_debug); ("public", point_debug (ss_public s)); ("index", dec (ss_index s)); ("participants", dlist point_debug (ss_participants s)); ("t", dec (ss_t s));
    ("long_poly", pubpoly_debug (ss_long_poly s)); ("random_poly", pubpoly_debug (ss_random_poly s)); ("msg", dbytes (ss_msg s)); ("partials", dlist (dopt prishare_debug) (ss_partials s));
    ("partials_idx", dmap fbool (ss_partials_idx s)); ("signed", fbool (ss_signed s)); ("session_id", dbytes (ss_sid s))].
Definition dss_display {K} (s : s_dss K) : string :=
  "DSS( suite: " ++ suite_display ++ ", public_key: " ++ point_display (ss_public s) ++ ", index: " ++ dec (ss_index s) ++ "," ++
  " participants: [" ++ points_display "," (ss_participants s) ++ "]," ++ "threshold: " ++ dec (ss_t s) ++ ", long_polynomial: " ++ pubpoly_display (ss_long_poly s) ++
  ", random_polynomial: " ++ pubpoly_display (ss_random_poly s) ++ ", message: 0x" ++ hex (ss_msg s) ++ "," ++
  " partials: [" ++ join "," (map (dopt prishare_display) (ss_partials s)) ++ "]," ++ " partials_indexes: [" ++ entries fbool (ss_partials_idx s) ++ "]," ++
  "signed: " ++ fbool (ss_signed s) ++ ", session_id: 0x" ++ hex (ss_sid s) ++ " )".
Definition psig_debug (s : w_psig) : string :=
  dstruct "PartialSig" [("partial", prishare_debug (wp_partial s)); ("session_id", dbytes (wp_sid s)); ("signature", dbytes (wp_sig s))].
(** util/key/key_pair.rs 28-40 [Pair]; sign/eddsa/eddsa_sig.rs 17-25 [EdDSA]. *)
Definition keypair_debug (k : w_keypair) : string := dstruct "Pair" [("public", point_debug (wkp_pub k))].
Definition keypair_display (k : w_keypair) : string := "Pair( public_key: " ++ point_display (wkp_pub k) ++ " )".
Definition eddsa_debug (k : w_eddsa) : string :=
  dstruct "EdDSA" [("secret", scalar_debug (wed_secret k)); ("public", point_debug (wed_public k)); ("seed", dbytes (wed_seed k)); ("prefix", dbytes (wed_prefix k))].
