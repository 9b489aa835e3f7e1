(** Model of the derived [Serialize] and [Deserialize] of the protocol states: what a node writes when it saves a dealer, a
    verifier, a key generator or a signing session, and reads back.  bincode 1.3.3 as in WireModel.v; further an [Option] is one
    byte 0 or 1 and the value, a [HashMap] its length as u64 and its entries in iteration order, a unit struct nothing at all
    (group/edwards25519/suite.rs 25-30 and curve.rs 21-22: [SuiteEd25519] has one field, an empty struct, so the fields [suite]
    and [g] below take no bytes and are left out).
    A [HashMap] is the list of its entries in iteration order.  Reading inserts the entries one after the other, the last one
    with a key wins; the order in which the map read iterates is unspecified in the code, here it is the order of insertion. *)
From Coq Require Import ZArith List Bool.
From Verif Require Import Base Bytes Limb ScModel FeModel GeModel PointModel WireModel.
Import ListNotations.
Local Open Scope Z_scope.

(** encodings.rs 50, 57 (bincode's [serialize_none], [serialize_some], [deserialize_option]). *)
Definition cod_option {A} (c : codec A) : codec (option A) :=
  Codec (fun v : option A => match v with Some x => 1 :: c_enc c x | None => [0] end)
        (fun b : list Z => match b with
                  | x :: r => if x =? 0 then Some (None, r) else
                              if x =? 1 then match c_dec c r with Some (v, r') => Some (Some v, r') | None => None end else None
                  | [] => None
                  end).
(** std [HashMap::insert] on the entries; the keys here are u32 and usize. *)
Fixpoint put {V} (m : list (Z * V)) (k : Z) (v : V) : list (Z * V) :=
  match m with
  | [] => [(k, v)]
  | (k', v') :: r => if k' =? k then (k', v) :: r else (k', v') :: put r k v
  end.
(** encodings.rs 50, 57 (bincode's [serialize_map], [deserialize_map] and serde's visitor for [HashMap]). *)
Definition cod_hashmap {V} (ck : codec Z) (cv : codec V) : codec (list (Z * V)) :=
  Codec (c_enc (cod_vec (cod_pair ck cv)))
        (fun b : list Z => match c_dec (cod_vec (cod_pair ck cv)) b with
                  | Some (l, r) => Some (fold_left (fun m e => put m (fst e) (snd e)) l [], r)
                  | None => None
                  end).

(** share/poly.rs 65-72 [PriPoly] (its coefficients) and 397-406 [PubPoly]. *)
Definition cod_pripoly : codec (list (list Z)) := cod_vec cod_scalar.
Record s_pubpoly := SPubPoly { spp_b : option point; spp_commits : list point }.
Definition cod_pubpoly : codec s_pubpoly :=
  cod_map (fun p => (spp_b p, spp_commits p)) (fun '(b, c) => SPubPoly b c) (cod_pair (cod_option cod_point) cod_points).

(** vss/pedersen/vss.rs 766-779 [Aggregator], 29-48 [Dealer], 473-483 [Verifier]. *)
Record s_agg := SAgg {
  sa_dealer : point; sa_verifiers : list point; sa_commits : list point; sa_responses : list (Z * w_resp);
  sa_sid : list Z; sa_deal : option w_deal; sa_t : Z; sa_bad : bool; sa_timeout : bool }.
Definition cod_agg : codec s_agg :=
  cod_map (fun a => (sa_dealer a, (sa_verifiers a, (sa_commits a, (sa_responses a, (sa_sid a, (sa_deal a, (sa_t a, (sa_bad a, sa_timeout a)))))))))
    (fun '(d, (v, (c, (r, (s, (l, (t, (b, o)))))))) => SAgg d v c r s l t b o)
    (cod_pair cod_point (cod_pair cod_points (cod_pair cod_points (cod_pair (cod_hashmap cod_u32 cod_resp)
      (cod_pair cod_bytes (cod_pair (cod_option cod_deal) (cod_pair cod_usize (cod_pair cod_bool cod_bool)))))))).
Record s_dealer := SDealer {
  sd_long : list Z; sd_pub : point; sd_secret : list Z; sd_scommits : list point; sd_poly : list (list Z);
  sd_verifiers : list point; sd_hkdf : list Z; sd_t : Z; sd_sid : list Z; sd_deals : list w_deal; sd_agg : s_agg }.
Definition cod_dealer : codec s_dealer :=
  cod_map (fun d => (sd_long d, (sd_pub d, (sd_secret d, (sd_scommits d, (sd_poly d, (sd_verifiers d, (sd_hkdf d, (sd_t d, (sd_sid d, (sd_deals d, sd_agg d)))))))))))
    (fun '(l, (p, (s, (c, (y, (v, (h, (t, (i, (d, a)))))))))) => SDealer l p s c y v h t i d a)
    (cod_pair cod_scalar (cod_pair cod_point (cod_pair cod_scalar (cod_pair cod_points (cod_pair cod_pripoly (cod_pair cod_points
      (cod_pair cod_bytes (cod_pair cod_usize (cod_pair cod_bytes (cod_pair (cod_vec cod_deal) cod_agg)))))))))).
Record s_verifier := SVerifier {
  sv_long : list Z; sv_pub : point; sv_dealer : point; sv_index : Z; sv_verifiers : list point; sv_hkdf : list Z; sv_agg : option s_agg }.
Definition cod_verifier : codec s_verifier :=
  cod_map (fun v => (sv_long v, (sv_pub v, (sv_dealer v, (sv_index v, (sv_verifiers v, (sv_hkdf v, sv_agg v)))))))
    (fun '(l, (p, (d, (i, (v, (h, a)))))) => SVerifier l p d i v h a)
    (cod_pair cod_scalar (cod_pair cod_point (cod_pair cod_point (cod_pair cod_usize (cod_pair cod_points (cod_pair cod_bytes (cod_option cod_agg))))))).

(** vss/rabin/vss.rs 769-781 [Aggregator], 52-70 [Dealer], 505-515 [Verifier]. *)
Record s_ragg := SRAgg {
  sra_dealer : point; sra_verifiers : list point; sra_commits : list point; sra_responses : list (Z * w_resp);
  sra_sid : list Z; sra_deal : option w_rdeal; sra_t : Z; sra_bad : bool }.
Definition cod_ragg : codec s_ragg :=
  cod_map (fun a => (sra_dealer a, (sra_verifiers a, (sra_commits a, (sra_responses a, (sra_sid a, (sra_deal a, (sra_t a, sra_bad a))))))))
    (fun '(d, (v, (c, (r, (s, (l, (t, b))))))) => SRAgg d v c r s l t b)
    (cod_pair cod_point (cod_pair cod_points (cod_pair cod_points (cod_pair (cod_hashmap cod_u32 cod_resp)
      (cod_pair cod_bytes (cod_pair (cod_option cod_rdeal) (cod_pair cod_usize cod_bool))))))).
Record s_rdealer := SRDealer {
  srd_long : list Z; srd_pub : point; srd_secret : list Z; srd_scommits : list point;
  srd_verifiers : list point; srd_hkdf : list Z; srd_t : Z; srd_sid : list Z; srd_deals : list w_rdeal; srd_agg : s_ragg }.
Definition cod_rdealer : codec s_rdealer :=
  cod_map (fun d => (srd_long d, (srd_pub d, (srd_secret d, (srd_scommits d, (srd_verifiers d, (srd_hkdf d, (srd_t d, (srd_sid d, (srd_deals d, srd_agg d))))))))))
    (fun '(l, (p, (s, (c, (v, (h, (t, (i, (d, a))))))))) => SRDealer l p s c v h t i d a)
    (cod_pair cod_scalar (cod_pair cod_point (cod_pair cod_scalar (cod_pair cod_points (cod_pair cod_points
      (cod_pair cod_bytes (cod_pair cod_usize (cod_pair cod_bytes (cod_pair (cod_vec cod_rdeal) cod_ragg))))))))).
Record s_rverifier := SRVerifier {
  srv_long : list Z; srv_pub : point; srv_dealer : point; srv_index : Z; srv_verifiers : list point; srv_hkdf : list Z; srv_agg : option s_ragg }.
Definition cod_rverifier : codec s_rverifier :=
  cod_map (fun v => (srv_long v, (srv_pub v, (srv_dealer v, (srv_index v, (srv_verifiers v, (srv_hkdf v, srv_agg v)))))))
    (fun '(l, (p, (d, (i, (v, (h, a)))))) => SRVerifier l p d i v h a)
    (cod_pair cod_scalar (cod_pair cod_point (cod_pair cod_point (cod_pair cod_usize (cod_pair cod_points (cod_pair cod_bytes (cod_option cod_ragg))))))).

(** dkg/pedersen/dkg.rs 41-98 [Config] and 168-206 [DistKeyGenerator], over the type of the user's entropy source. *)
Record s_config (R : Type) := SConfig {
  sc_long : list Z; sc_old : list point; sc_coeffs : option (list point); sc_new : list point; sc_share : option w_dks;
  sc_t : Z; sc_old_t : Z; sc_reader : option R; sc_reader_only : bool }.
Arguments SConfig {R}. Arguments sc_long {R}. Arguments sc_old {R}. Arguments sc_coeffs {R}. Arguments sc_new {R}. Arguments sc_share {R}.
Arguments sc_t {R}. Arguments sc_old_t {R}. Arguments sc_reader {R}. Arguments sc_reader_only {R}.
Definition cod_config {R} (cr : codec R) : codec (s_config R) :=
  cod_map (fun c => (sc_long c, (sc_old c, (sc_coeffs c, (sc_new c, (sc_share c, (sc_t c, (sc_old_t c, (sc_reader c, sc_reader_only c)))))))))
    (fun '(l, (o, (p, (n, (s, (t, (u, (r, b)))))))) => SConfig l o p n s t u r b)
    (cod_pair cod_scalar (cod_pair cod_points (cod_pair (cod_option cod_points) (cod_pair cod_points (cod_pair (cod_option cod_dks)
      (cod_pair cod_usize (cod_pair cod_usize (cod_pair (cod_option cr) cod_bool)))))))).
Record s_dkg (R : Type) := SDkg {
  sg_c : s_config R; sg_long : list Z; sg_pub : point; sg_dpub : s_pubpoly; sg_dealer : s_dealer;
  sg_verifiers : list (Z * s_verifier); sg_old_aggs : list (Z * s_agg);
  sg_oidx : Z; sg_nidx : Z; sg_old_t : Z; sg_new_t : Z;
  sg_resharing : bool; sg_can_issue : bool; sg_can_receive : bool; sg_new_present : bool; sg_old_present : bool; sg_processed : bool; sg_timeout : bool }.
Arguments SDkg {R}. Arguments sg_c {R}. Arguments sg_long {R}. Arguments sg_pub {R}. Arguments sg_dpub {R}. Arguments sg_dealer {R}.
Arguments sg_verifiers {R}. Arguments sg_old_aggs {R}. Arguments sg_oidx {R}. Arguments sg_nidx {R}. Arguments sg_old_t {R}. Arguments sg_new_t {R}.
Arguments sg_resharing {R}. Arguments sg_can_issue {R}. Arguments sg_can_receive {R}. Arguments sg_new_present {R}. Arguments sg_old_present {R}.
Arguments sg_processed {R}. Arguments sg_timeout {R}.
Definition cod_dkg {R} (cr : codec R) : codec (s_dkg R) :=
  cod_map
    (fun g => (sg_c g, (sg_long g, (sg_pub g, (sg_dpub g, (sg_dealer g, (sg_verifiers g, (sg_old_aggs g, (sg_oidx g, (sg_nidx g, (sg_old_t g, (sg_new_t g,
       (sg_resharing g, (sg_can_issue g, (sg_can_receive g, (sg_new_present g, (sg_old_present g, (sg_processed g, sg_timeout g))))))))))))))))))
    (fun '(c, (l, (p, (q, (d, (v, (a, (i, (j, (t, (u, (x1, (x2, (x3, (x4, (x5, (x6, x7))))))))))))))))) => SDkg c l p q d v a i j t u x1 x2 x3 x4 x5 x6 x7)
    (cod_pair (cod_config cr) (cod_pair cod_scalar (cod_pair cod_point (cod_pair cod_pubpoly (cod_pair cod_dealer
      (cod_pair (cod_hashmap cod_u32 cod_verifier) (cod_pair (cod_hashmap cod_u32 cod_agg)
      (cod_pair cod_usize (cod_pair cod_usize (cod_pair cod_usize (cod_pair cod_usize
      (cod_pair cod_bool (cod_pair cod_bool (cod_pair cod_bool (cod_pair cod_bool (cod_pair cod_bool (cod_pair cod_bool cod_bool))))))))))))))))).

(** dkg/rabin/dkg.rs 316-339 [DistKeyGenerator]. *)
Record s_rdkg := SRDkg {
  srg_index : Z; srg_long : list Z; srg_pub : point; srg_participants : list point; srg_t : Z; srg_dealer : s_rdealer;
  srg_verifiers : list (Z * s_rverifier); srg_commitments : list (Z * s_pubpoly); srg_pending : list (Z * list w_rc); srg_reconstructed : list (Z * bool) }.
Definition cod_rdkg : codec s_rdkg :=
  cod_map
    (fun g => (srg_index g, (srg_long g, (srg_pub g, (srg_participants g, (srg_t g, (srg_dealer g, (srg_verifiers g, (srg_commitments g, (srg_pending g, srg_reconstructed g))))))))))
    (fun '(i, (l, (p, (q, (t, (d, (v, (c, (r, b))))))))) => SRDkg i l p q t d v c r b)
    (cod_pair cod_u32 (cod_pair cod_scalar (cod_pair cod_point (cod_pair cod_points (cod_pair cod_usize (cod_pair cod_rdealer
      (cod_pair (cod_hashmap cod_u32 cod_rverifier) (cod_pair (cod_hashmap cod_u32 cod_pubpoly) (cod_pair (cod_hashmap cod_u32 (cod_vec cod_rc)) (cod_hashmap cod_u32 cod_bool)))))))))).

(** sign/dss/dss_sig.rs 43-61 [DSS], over the type of the distributed key shares. *)
Record s_dss (K : Type) := SDss {
  ss_secret : list Z; ss_public : point; ss_index : Z; ss_participants : list point; ss_t : Z; ss_long : K; ss_random : K;
  ss_long_poly : s_pubpoly; ss_random_poly : s_pubpoly; ss_msg : list Z; ss_partials : list (option w_prishare);
  ss_partials_idx : list (Z * bool); ss_signed : bool; ss_sid : list Z }.
Arguments SDss {K}. Arguments ss_secret {K}. Arguments ss_public {K}. Arguments ss_index {K}. Arguments ss_participants {K}. Arguments ss_t {K}.
Arguments ss_long {K}. Arguments ss_random {K}. Arguments ss_long_poly {K}. Arguments ss_random_poly {K}. Arguments ss_msg {K}. Arguments ss_partials {K}.
Arguments ss_partials_idx {K}. Arguments ss_signed {K}. Arguments ss_sid {K}.
Definition cod_dss {K} (ck : codec K) : codec (s_dss K) :=
  cod_map
    (fun s => (ss_secret s, (ss_public s, (ss_index s, (ss_participants s, (ss_t s, (ss_long s, (ss_random s, (ss_long_poly s, (ss_random_poly s,
       (ss_msg s, (ss_partials s, (ss_partials_idx s, (ss_signed s, ss_sid s))))))))))))))
    (fun '(x, (p, (i, (q, (t, (l, (r, (lp, (rp, (m, (ps, (px, (b, s))))))))))))) => SDss x p i q t l r lp rp m ps px b s)
    (cod_pair cod_scalar (cod_pair cod_point (cod_pair cod_usize (cod_pair cod_points (cod_pair cod_usize (cod_pair ck (cod_pair ck
      (cod_pair cod_pubpoly (cod_pair cod_pubpoly (cod_pair cod_bytes (cod_pair (cod_vec (cod_option cod_prishare))
      (cod_pair (cod_hashmap cod_usize cod_bool) (cod_pair cod_bool cod_bytes))))))))))))).
