(** C116: the encrypted deals of a dealer over the code's group, encodings and signatures. *)
From Coq Require Import ZArith.
From mathcomp Require Import all_ssreflect all_algebra.
From mathcomp Require Import zify.
From Verif Require Import Base Bytes RandModel ScModel Primes Group EdCurve EdModel PropsSc EdSpec PointModel PointCurve EciesModel PropsEcies EdScalars EdSuite.
From Verif Require Import PolyModel PolySpec PolyProofs PolyProps Suite SuiteProofs SuiteEd VssModel VssProofs DkgModel DkgSpec DkgProofs PropsDkg
  RvssModel RvssProofs RdkgModel RdkgSpec RdkgProofs PropsRdkg DssModel DssSpec DssProofs PropsDss PropsSuiteEd WireModel WireProofs EdWire PropsWireEd EdLen.

Set Implicit Arguments.
Unset Strict Implicit.
Unset Printing Implicit Defensive.

Import GRing.Theory.
Local Open Scope ring_scope.

Opaque ladd lopp lmul linv l0 l1 gadd gopp gnull gbase gscale of_l sub_code sub_decode enc_l senc_l sign_l verify_l seal_l open_l derive_l good_l chal_l.
Opaque deal_bytes deal_unbytes rdeal_bytes rdeal_unbytes ddeal_bytes.

Section Ed.
Variables (sha : list Z -> list Z) (X : aead_prims) (hash : bytestr -> bytestr).
Variables (St : Type) (Rs : stream St) (fuel : nat) (xof : list Z -> St).
Notation S := (ed_suite sha X hash Rs fuel xof).
Hypothesis crates : crates_ok sha X.
Hypothesis hash_bytes : forall b, fit_bytes (hash b).
Variables (h tag : nat).
Hypothesis hash_len : forall b, size (hash b) = h.
Hypothesis tag_len : forall k n a m c, aes_enc X k n a m = Some c -> length c = (length m + tag)%coq_nat.

Lemma cipher_len P ctx nonce plain : is_bytes plain -> size (su_seal S P ctx nonce plain) = (size plain + tag)%N.
Proof. case: crates => _ okX tot b; exact (@seal_l_len X okX tot tag tag_len P ctx nonce plain b). Qed.
Lemma signature_len x m k : size (su_sign S x m k) = 64%N.
Proof. case: crates => shok _ _; exact (@sign_l_len sha shok x m k). Qed.
Lemma wdeal_len d : fits d -> is_bytes (wdeal_enc d) /\ size (wdeal_enc d) = (64 + size (d_sid d) + 161 * size (d_commits d))%N.
Proof. rewrite /wdeal_enc => f; rewrite f; exact (@deal_bytes_len _ _ _ _ _ f). Qed.
Lemma wrdeal_len d : rfits d -> is_bytes (wrdeal_enc d) /\ size (wrdeal_enc d) = (104 + size (rd_sid d) + 161 * size (rd_commits d))%N.
Proof. rewrite /wrdeal_enc => f; rewrite f; exact (@rdeal_bytes_len _ _ _ _ _ _ _ f). Qed.

Lemma dealer_deal (x s : Fl) (vs : seq Gl) (t : nat) (picks : nat -> Fl) D i d :
  new_dealer S x s vs t picks = Ok D -> nth None (map Some (dl_deals D)) i = Some d ->
  [/\ plaintext_deal D i = Ok d, size (d_sid d) = h & size (d_commits d) = t].
Proof.
move=> /new_dealerP[t2 tn ->]; set sid := session_id _ _ _ _ _; have sf : size sid = h := hash_len _; move: sid sf => sid sf; rewrite /plaintext_deal /= size_map size_iota.
case: (ltnP i (size vs)) => li; last by rewrite nth_default // !size_map size_iota.
rewrite -!map_comp !(nth_map 0%N) ?size_iota // nth_iota // add0n /= => -[<-]; split=> //=.
by rewrite !size_map ?size_iota; lia.
Qed.
Theorem C116_dealer (x s : Fl) (vs : seq Gl) (t : nat) (picks : nat -> Fl) D i e k ed :
  small (size vs) -> new_dealer S x s vs t picks = Ok D -> encrypted_deal S wdeal_enc D i e k = Ok ed ->
  [/\ size (e_sig ed) = 64%N, size (e_nonce ed) = 12%N & size (e_cipher ed) = (64 + h + 161 * t + tag)%N].
Proof.
move=> sv nD; rewrite /encrypted_deal; case: (find_pub _ i) => // vp.
case E: (nth None _ i) => [d|] //= -[<-] /=.
have [pd sd cd] := dealer_deal nD E.
have [b l] := wdeal_len (@C93_dealer_fits sha X hash St Rs fuel xof hash_bytes _ _ _ _ _ _ _ _ sv nD pd).
split; [exact: signature_len|by []|].
by rewrite cipher_len // l sd cd.
Qed.
Lemma rdealer_deal (x s : Fl) (vs : seq Gl) (t : nat) (fp gp : nat -> Fl) D i d :
  new_rdealer S x s vs t fp gp = Ok D -> nth None (map Some (rl_deals D)) i = Some d ->
  [/\ rplaintext_deal D i = Ok d, size (rd_sid d) = h & size (rd_commits d) = t].
Proof.
move=> /new_rdealerP[t2 tn ->]; set sid := session_id _ _ _ _ _; have sf : size sid = h := hash_len _; move: sid sf => sid sf; rewrite /rplaintext_deal /= size_map size_iota.
case: (ltnP i (size vs)) => li; last by rewrite nth_default // !size_map size_iota.
rewrite -!map_comp !(nth_map 0%N) ?size_iota // nth_iota // add0n /= => -[<-]; split=> //=.
by rewrite size_map size_zip !size_mkseq minnn; lia.
Qed.
Theorem C116_rabin_dealer (x s : Fl) (vs : seq Gl) (t : nat) (fp gp : nat -> Fl) D i e k ed :
  small (size vs) -> new_rdealer S x s vs t fp gp = Ok D -> rencrypted_deal S wrdeal_enc D i e k = Ok ed ->
  [/\ size (e_sig ed) = 64%N, size (e_nonce ed) = 12%N & size (e_cipher ed) = (104 + h + 161 * t + tag)%N].
Proof.
move=> sv nD; rewrite /rencrypted_deal; case: (find_pub _ i) => // vp.
case E: (nth None _ i) => [d|] //= -[<-] /=.
have [pd sd cd] := rdealer_deal nD E.
have [b l] := wrdeal_len (@C93_rabin_dealer_fits sha X hash St Rs fuel xof hash_bytes _ _ _ _ _ _ _ _ _ sv nD pd).
split; [exact: signature_len|by []|].
by rewrite cipher_len // l sd cd.
Qed.
End Ed.
Print Assumptions C116_dealer.
Print Assumptions C116_rabin_dealer.

(** *** Example: with the crates of [C93_dealer_nonvacuous] the ciphertext has 64 + 1 + 161 * 2 + 1 bytes. *)
Example C116_dealer_nonvacuous : let hash := (fun b : bytestr => [:: size b %% 256])%N in
  [/\ crates_ok toysha toyaead, (forall b : bytestr, fit_bytes (hash b) /\ size (hash b) = 1%N),
      (forall k n a m c, aes_enc toyaead k n a m = Some c -> length c = (length m + 1)%coq_nat) &
      exists D ed, new_dealer (ed_suite toysha toyaead hash estream 1 (fun b => size b)) 1 1 xkeys 2 (fun _ => 1) = Ok D /\
        encrypted_deal (ed_suite toysha toyaead hash estream 1 (fun b => size b)) wdeal_enc D 1 1 1 = Ok ed].
Proof.
move=> hash; split; first exact xcrates.
- by move=> b; split; first exact (C93_dealer_nonvacuous.1 b).
- by move=> k n a m c [<-] /=; lia.
- have [_ [_ [D [d [E _]]]]] := C93_dealer_nonvacuous; exists D; rewrite E; move: E => /new_dealerP[_ _ ->].
  by eexists; split; [exact (erefl _)|exact (erefl _)].
Qed.
