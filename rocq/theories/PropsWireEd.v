(** C93: the deals of the protocol layers in the wire format, and C86 with it. *)
From Coq Require Import ZArith.
From mathcomp Require Import all_ssreflect all_algebra.
From mathcomp Require Import zify.
From Verif Require Import Base Bytes RandModel ScModel Primes Group EdCurve EdModel PropsSc EdSpec PointModel PointCurve EciesModel PropsEcies EdScalars EdSuite.
From Verif Require Import PolyModel PolySpec PolyProofs PolyProps Suite SuiteProofs SuiteEd VssModel VssProofs DkgModel DkgSpec DkgProofs PropsDkg
  RvssModel RvssProofs RdkgModel RdkgSpec RdkgProofs PropsRdkg DssModel DssSpec DssProofs PropsDss PropsSuiteEd WireModel WireProofs EdWire.

Set Implicit Arguments.
Unset Strict Implicit.
Unset Printing Implicit Defensive.

Import GRing.Theory.
Local Open Scope ring_scope.

Opaque ladd lopp lmul linv l0 l1 gadd gopp gnull gbase gscale of_l sub_code sub_decode enc_l senc_l sign_l verify_l seal_l open_l derive_l good_l chal_l.
Opaque deal_bytes deal_unbytes rdeal_bytes rdeal_unbytes ddeal_bytes.

(** Deals whose numbers are [usize] values and whose strings are byte strings with a length that is one. *)
Definition fits (d : deal Gl) : bool := deal_fits (d_sid d) (ps_i (d_share d)) (d_t d) (d_commits d).
Definition rfits (d : rdeal Gl) : bool := rdeal_fits (rd_sid d) (ps_i (rd_sec d)) (ps_i (rd_rnd d)) (rd_t d) (rd_commits d).

(** vss/pedersen/vss.rs 152-166 through encodings.rs 49-59.  Deals that do not fit do not exist in the code; they are passed
    behind a mark that is not a byte. *)
Definition wdeal_enc (d : deal Gl) : bytestr :=
  if fits d then deal_bytes (d_sid d) (ps_i (d_share d)) (ps_v (d_share d)) (d_t d) (d_commits d) else 256%N :: xdeal_enc d.
Definition wdeal_dec (b : bytestr) : option (deal Gl) :=
  if head 0%N b == 256%N then xdeal_dec (behead b) else
  if deal_unbytes b is Some (sid, (i, v), t, cs) then Some (@Deal Fl Gl sid (PriShare i (v : Fl)) t cs) else None.
(** vss/rabin/vss.rs 177-191 likewise. *)
Definition wrdeal_enc (d : rdeal Gl) : bytestr :=
  if rfits d then rdeal_bytes (rd_sid d) (ps_i (rd_sec d)) (ps_v (rd_sec d)) (ps_i (rd_rnd d)) (ps_v (rd_rnd d)) (rd_t d) (rd_commits d)
  else 256%N :: xrdeal_enc d.
Definition wrdeal_dec (b : bytestr) : option (rdeal Gl) :=
  if head 0%N b == 256%N then xrdeal_dec (behead b) else
  if rdeal_unbytes b is Some (sid, (i, v), (j, w), t, cs) then Some (@RDeal Fl Gl sid (PriShare i (v : Fl)) (PriShare j (w : Fl)) t cs) else None.
(** dkg/pedersen/structs.rs 99-107. *)
Definition wddeal_enc (index : nat) (e : enc_deal Gl) : bytestr := ddeal_bytes index (e_dhkey e) (e_sig e) (e_nonce e) (e_cipher e).


Lemma head_byte (b : bytestr) : match b with [::] => False | c :: _ => lt c 256%N end -> (head 0%N b == 256%N) = false.
Proof.
case: b => [[]|c b Hc]; have H : (c < 256)%N by apply/ltP.
by rewrite -[head _ _]/c; apply: ltn_eqF.
Qed.

(** ** C93: a deal survives the wire *)

(** What is decrypted is decoded to the deal that was encoded, and for deals of the code's types the bytes are those of bincode. *)
Theorem C93_deals (d : deal Gl) : wdeal_dec (wdeal_enc d) = Some d /\ (fits d -> toZ (wdeal_enc d) = c_enc cod_deal (wire_deal (d_sid d) (ps_i (d_share d)) (ps_v (d_share d)) (d_t d) (d_commits d))).
Proof.
rewrite /wdeal_dec /wdeal_enc; case E: (fits d); last by split=> //; rewrite -[head _ _]/256%N eqxx; exact (xserial d).
split.
- rewrite (@head_byte (deal_bytes _ _ _ _ _) (deal_head _ _ _ _ _ E)) (deal_unbytesK _ _ _ _ _ E); by case: d E => sid [i v] t cs.
- Transparent deal_bytes. move=> _; exact (toZ_toN _ (ok_bytes _ _ deal_ok _ (deal_wf _ _ _ _ _ E))).
Qed.
Opaque deal_bytes.
Theorem C93_rabin_deals (d : rdeal Gl) : wrdeal_dec (wrdeal_enc d) = Some d /\ (rfits d -> toZ (wrdeal_enc d) =
     c_enc cod_rdeal (wire_rdeal (rd_sid d) (ps_i (rd_sec d)) (ps_v (rd_sec d)) (ps_i (rd_rnd d)) (ps_v (rd_rnd d)) (rd_t d) (rd_commits d))).
Proof.
rewrite /wrdeal_dec /wrdeal_enc; case E: (rfits d); last by split=> //; rewrite -[head _ _]/256%N eqxx; exact (xrserial d).
split.
- rewrite (@head_byte (rdeal_bytes _ _ _ _ _ _ _) (rdeal_head _ _ _ _ _ _ _ E)) (rdeal_unbytesK _ _ _ _ _ _ _ E); by case: d E => sid [i v] [j w] t cs.
- Transparent rdeal_bytes. move=> _; exact (toZ_toN _ (ok_bytes _ _ rdeal_ok _ (rdeal_wf _ _ _ _ _ _ _ E))).
Qed.
Opaque rdeal_bytes.
(** The limbs in which the dealer holds the commitments do not matter: any limbs of the same points decode to the same deal. *)
Theorem C93_any_limbs (d : deal Gl) (ps : seq point) : fits d -> limbs ps (d_commits d) ->
  wdeal_dec (toN (c_enc cod_deal (WDeal (toZ (d_sid d)) (wire_share (ps_i (d_share d)) (ps_v (d_share d))) (Z.of_nat (d_t d)) ps))) = Some d.
Proof.
move=> E L; rewrite /wdeal_dec (deal_unbytes_any _ _ (ps_v (d_share d)) _ _ _ E L) head_byte; first by case: d E L => sid [i v] t cs.
refine (toN_head cod_deal wf_deal deal_ok _ _).
have [h1 [h2 [h3 _]]] := deal_wf _ _ (ps_v (d_share d)) _ _ E; do 3![split=> //].
by refine (limbs_wf _ _ _ L); move: E; rewrite /fits /deal_fits => /andP[].
Qed.
Theorem C93_rabin_any_limbs (d : rdeal Gl) (ps : seq point) : rfits d -> limbs ps (rd_commits d) ->
  wrdeal_dec (toN (c_enc cod_rdeal (WRDeal (toZ (rd_sid d)) (wire_share (ps_i (rd_sec d)) (ps_v (rd_sec d)))
    (wire_share (ps_i (rd_rnd d)) (ps_v (rd_rnd d))) (Z.of_nat (rd_t d)) ps))) = Some d.
Proof.
move=> E L; rewrite /wrdeal_dec (rdeal_unbytes_any _ _ (ps_v (rd_sec d)) _ (ps_v (rd_rnd d)) _ _ _ E L) head_byte; first by case: d E L => sid [i v] [j w] t cs.
refine (toN_head cod_rdeal wf_rdeal rdeal_ok _ _).
have [h1 [h2 [h3 [h4 _]]]] := rdeal_wf _ _ (ps_v (rd_sec d)) _ (ps_v (rd_rnd d)) _ _ E; do 4![split=> //].
by refine (limbs_wf _ _ _ L); move: E; rewrite /rfits /rdeal_fits => /andP[].
Qed.
Print Assumptions C93_deals.
Print Assumptions C93_rabin_deals.
Print Assumptions C93_any_limbs.
Print Assumptions C93_rabin_any_limbs.

(** The deals of a dealer are of the code's types: with a hash whose output is a byte string, for fewer than 2^64 verifiers. *)
Section Ed.
Variables (sha : list Z -> list Z) (X : aead_prims) (hash : bytestr -> bytestr).
Variables (St : Type) (Rs : stream St) (fuel : nat) (xof : list Z -> St).
Notation S := (ed_suite sha X hash Rs fuel xof).
Hypothesis hash_bytes : forall b, fit_bytes (hash b).

Lemma fitsI sid sh t (cs : seq Gl) : fit_bytes sid -> small (ps_i sh) -> small t -> small (size cs) -> fits (Deal sid sh t cs).
Proof. by rewrite /fits /deal_fits /= -[length cs]/(size cs) => -> -> -> ->. Qed.
Lemma rfitsI sid sh rh t (cs : seq Gl) : fit_bytes sid -> small (ps_i sh) -> small (ps_i rh) -> small t -> small (size cs) -> rfits (RDeal sid sh rh t cs).
Proof. by rewrite /rfits /rdeal_fits /= -[length cs]/(size cs) => -> -> -> -> ->. Qed.
Lemma small_le (n m : nat) : (n <= m)%N -> small m -> small n.
Proof. by rewrite /small => /leP h /Z.ltb_lt h2; apply/Z.ltb_lt; lia. Qed.
Lemma session_fits D vs cs t : fit_bytes (session_id S D vs cs t). Proof. exact: hash_bytes. Qed.
Theorem C93_dealer_fits (x s : Fl) (vs : seq Gl) (t : nat) (picks : nat -> Fl) D i d :
  small (size vs) -> new_dealer S x s vs t picks = Ok D -> plaintext_deal D i = Ok d -> fits d.
Proof.
move=> sv /new_dealerP[t2 tn ->]; set sid := session_id _ _ _ _ _; have sf : fit_bytes sid := session_fits _ _ _ _; move: sid sf => sid sf; rewrite /plaintext_deal /= size_map size_iota; case: leqP => // li.
rewrite -map_comp (nth_map 0%N) ?size_iota // nth_iota // add0n /= => -[<-].
refine (fitsI _ _ _ _).
exact sf.
exact (small_le (ltnW li) sv).
exact (small_le tn sv).
have -> : forall c l, size (c :: [seq a *: su_base S | a <- mkseq l (t - 1)]) = t by move=> c l; rewrite /= size_map size_mkseq; lia.
exact (small_le tn sv).
Qed.
Theorem C93_rabin_dealer_fits (x s : Fl) (vs : seq Gl) (t : nat) (fp gp : nat -> Fl) D i d :
  small (size vs) -> new_rdealer S x s vs t fp gp = Ok D -> rplaintext_deal D i = Ok d -> rfits d.
Proof.
move=> sv /new_rdealerP[t2 tn ->]; set sid := session_id _ _ _ _ _; have sf : fit_bytes sid := session_fits _ _ _ _; move: sid sf => sid sf; rewrite /rplaintext_deal /= size_map size_iota; case: leqP => // li.
rewrite -map_comp (nth_map 0%N) ?size_iota // nth_iota // add0n /= => -[<-].
have e c : size (c :: mkseq (fun k => gp k.+1) (t - 1)) = t by rewrite /= size_mkseq; lia.
have e' : size (s :: mkseq fp (t - 1)) = t by rewrite /= size_mkseq; lia.
have si := small_le (ltnW li) sv.
refine (rfitsI _ _ _ _ _); [exact sf|exact si|exact si|exact (small_le tn sv)|].
rewrite /rcommits size_map size_zip e e' minnn; exact (small_le tn sv).
Qed.

(** ** C86 with the wire format: nothing about the serialization is left open *)
Hypothesis crates : crates_ok sha X.
Lemma wserial d : wdeal_dec (wdeal_enc d) = Some d. Proof. exact (C93_deals d).1. Qed.
Lemma wrserial d : wrdeal_dec (wrdeal_enc d) = Some d. Proof. exact (C93_rabin_deals d).1. Qed.
Notation signs := (fun (ps : seq Gl) (t : nat) (x : nat -> Fl) (secl secr : nat -> Fl) (long random : nat -> dks Gl) =>
  forall (msg : bytestr) (k : nat -> Fl) (i : nat) (K : seq nat) (ord : hash_order Fl),
  let n := size ps in
  let a := \sum_(j <- iota 0 n) secl j in let r := \sum_(j <- iota 0 n) secr j in
  su_good S a -> su_good S r -> (n < Z.to_nat PropsSc.order)%N -> (forall j, su_good S (k j)) -> (forall k s, perm_eq (ord k s) s) ->
  uniq (i :: K) -> (t <= size (i :: K))%N -> (forall j, j \in i :: K -> (j < n)%N) ->
  exists (d : nat -> dss Gl) (part : nat -> partial_sig Fl) (sig : bytestr),
    [/\ (forall j, j \in i :: K -> new_dss S (x j) ps (long j) (random j) msg t = Ok (d j) /\ (dss_partial_sig S (chal_l sha) (d j) (k j)).2 = Ok (part j)),
        dss_signature S ord (dss_run S (chal_l sha) (d i) (DSign (k i) :: [seq DReceive (part j) | j <- K])) = Ok sig &
        eddsa_verify ed25519 sha (sp (a *: (gbase : Gl))) (toZ msg) (toZ sig) = Ok tt]).
Theorem C93_dkg_then_sign (ps : seq Gl) (T : nat) (x secl secr : nat -> Fl) (long random : nat -> dks Gl) :
  dkg_result S wdeal_enc wdeal_dec wddeal_enc ps T x secl long -> dkg_result S wdeal_enc wdeal_dec wddeal_enc ps T x secr random ->
  signs ps (eff_threshold T (size ps)) x secl secr long random.
Proof.
move=> h1 h2 msg k i K ord n a r.
exact (@C86_dkg_then_sign sha X hash St Rs fuel xof crates wdeal_enc wdeal_dec wddeal_enc wserial ps T x secl secr long random msg k i K ord h1 h2).
Qed.
Theorem C93_rabin_then_sign (ps : seq Gl) (t : nat) (x secl secr : nat -> Fl) (long random : nat -> dks Gl) :
  rdkg_result S wrdeal_enc wrdeal_dec ps t x secl long -> rdkg_result S wrdeal_enc wrdeal_dec ps t x secr random ->
  signs ps t x secl secr long random.
Proof.
move=> h1 h2 msg k i K ord n a r.
exact (@C86_rabin_then_sign sha X hash St Rs fuel xof crates wrdeal_enc wrdeal_dec wrserial ps t x secl secr long random msg k i K ord h1 h2).
Qed.
Theorem C93_runs (ps : seq Gl) (T : nat) (x sec : nat -> Fl) (picks : nat -> nat -> Fl) (co : coins Fl) (acts : seq act) :
  uniq ps -> (forall i, (i < size ps)%N -> nth 0 ps i = x i *: su_base S /\ su_good S (x i)) ->
  (2 <= eff_threshold T (size ps) <= size ps)%N -> coins_ok S co -> schedule (size ps) [::] acts -> complete (size ps) acts ->
  exists got, dkg_result S wdeal_enc wdeal_dec wddeal_enc ps T x sec got /\ forall i, (i < size ps)%N ->
    got i = let f := joint_poly (eff_threshold T (size ps)) sec picks (iota 0 (size ps)) in
            Dks [seq c *: su_base S | c <- f] (PriShare i (share_value f i)).
Proof. exact (@C86_runs sha X hash St Rs fuel xof crates wdeal_enc wdeal_dec wddeal_enc wserial ps T x sec picks co acts). Qed.
Theorem C93_rabin_runs (ps : seq Gl) (t : nat) (x sec : nat -> Fl) (fp gp : nat -> nat -> Fl) (co : coins Fl) (acts : seq ract) :
  uniq ps -> (forall i, (i < size ps)%N -> nth 0 ps i = x i *: su_base S /\ su_good S (x i)) ->
  (0 < size ps)%N -> (2 <= t <= size ps)%N -> coins_ok S co -> rschedule (size ps) [::] acts -> rcomplete (size ps) acts ->
  exists got, rdkg_result S wrdeal_enc wrdeal_dec ps t x sec got /\ forall i, (i < size ps)%N ->
    got i = let f := joint_poly t sec fp (iota 0 (size ps)) in Dks [seq c *: su_base S | c <- f] (PriShare i (share_value f i)).
Proof. exact (@C86_rabin_runs sha X hash St Rs fuel xof crates wrdeal_enc wrdeal_dec wrserial ps t x sec fp gp co acts). Qed.
End Ed.
Print Assumptions C93_dealer_fits.
Print Assumptions C93_rabin_dealer_fits.
Print Assumptions C93_dkg_then_sign.
Print Assumptions C93_rabin_then_sign.
Print Assumptions C93_runs.
Print Assumptions C93_rabin_runs.

Lemma enc_deal_eq (e f : enc_deal Gl) : e_dhkey e = e_dhkey f -> e_sig e = e_sig f -> e_nonce e = e_nonce f -> e_cipher e = e_cipher f -> e = f.
Proof. by case: e f => [dh s n c] [dh' s' n' c'] /= -> -> -> ->. Qed.
(** What a participant of the Pedersen DKG signs determines the sender's index and every field of the encrypted deal. *)
Theorem C93_signed_bytes (i j : nat) (e f : enc_deal Gl) :
  ddeal_fits i (e_sig e) (e_nonce e) (e_cipher e) -> ddeal_fits j (e_sig f) (e_nonce f) (e_cipher f) ->
  wddeal_enc i e = wddeal_enc j f -> i = j /\ e = f.
Proof.
move=> h1 h2 E; have [E1 [E2 [E3 [E4 E5]]]] := ddeal_bytes_inj _ _ _ _ _ _ _ _ _ _ h1 h2 E.
split; [exact E1|exact (enc_deal_eq E2 E3 E4 E5)].
Qed.
Print Assumptions C93_signed_bytes.

(** *** Examples *)
Definition exd : deal Gl := Deal [:: 3; 255]%N (PriShare 1 1) 2 [:: (gbase : Gl); - (gbase : Gl)].
Definition exrd : rdeal Gl := RDeal [:: 3; 255]%N (PriShare 1 1) (PriShare 1 (-1)) 2 [:: (gbase : Gl); - (gbase : Gl)].
Example C93_fits : fits exd /\ rfits exrd /\ ~~ fits (Deal [:: 256]%N (PriShare 1 1) 2 [::]).
Proof. split; [exact isT|split; [exact isT|exact isT]]. Qed.
Example C93_limbs_nonvacuous : limbs (wire_points (d_commits exd)) (d_commits exd).
Proof. exact (limbs_rep _). Qed.
(** The premises of the runs are those of [C86_nonvacuous] and [C86_rabin_nonvacuous]; the hash there keeps byte strings, this
    one makes them. *)
Example C93_dealer_nonvacuous : (forall b : bytestr, fit_bytes ((fun b => [:: size b %% 256]) b)%N) /\ small (size xkeys) /\
  exists D d, new_dealer (ed_suite toysha toyaead (fun b => [:: size b %% 256])%N estream 1 (fun b => size b)) 1 1 xkeys 2 (fun _ => 1) = Ok D /\
    plaintext_deal D 1 = Ok d.
Proof.
split; [|split; [exact isT|]].
- by move=> b; rewrite /fit_bytes /is_bytes /= andbT; apply/PeanoNat.Nat.ltb_lt/ltP/ltn_pmod.
- by eexists; eexists; split; [exact (erefl _)|exact (erefl _)].
Qed.
Example C93_signed_nonvacuous : ddeal_fits 3 [:: 1]%N [:: 0; 0]%N [:: 7; 255]%N. Proof. exact isT. Qed.
