(** The refutations of C65, C72 and C73 as closed statements: the general theorems ([C65_duplicates_refuted],
    [C72_rabin_forged_justification_refuted], [C73_query_refuted], [C73_nonce_refuted]) with their witnesses. *)
From mathcomp Require Import all_ssreflect all_algebra.
From mathcomp Require Import zify.
From Coq Require Import String.
From Verif Require Import Base PolyModel PolySpec PolyProofs PolyProps PropsPoly Suite SuiteProofs VssModel VssProofs PropsVss
  RvssModel RvssSpec RvssProofs PropsRvss DkgModel DkgSpec DkgProofs Toy PropsDkg.

Set Implicit Arguments.
Unset Strict Implicit.
Unset Printing Implicit Defensive.

Import GRing.Theory.
Local Open Scope ring_scope.

(** Full statement of C72: an unsigned justification changes nothing.  After one complaint, an unsigned justification blocks the
    certification of an honest deal for ever. *)
Theorem C72_rabin_witness_refuted :
  exists (v0 : rverifier G7) (evs : seq (revent G7)) (d : rdeal G7),
  new_rverifier toy (2%:R : F7) (rv_dealer v0) keys7 = Ok v0 /\
  forall evs', exists2 a, rv_agg (rvrun toy rdeal_dec7
      (rverifier_process_justification toy (rvrun toy rdeal_dec7 v0 evs) (RJustification [::] 0 d [::])).1 evs') = Some a &
    rdeal_certified a = false.
Proof.
have [a [N aE st _ _]] := C56_nonvacuous.
have [d H] := C72_rabin_forged_justification_refuted N aE st.
by exists (rver7 2%:R 1), [:: REvDeal (re7 2%:R (rd7 [:: 1; 1] 1 3%:R 0)) 1; REvResponse G7 (resp7 sid7 0 false)], d; split=> // evs'; exact: H.
Qed.
Print Assumptions C72_rabin_witness_refuted.

(** Full statement of C73: no call panics.  A fresh verifier panics on its three queries, and on an honest dealer's deal whose
    nonce has been shortened. *)
Theorem C73_witness_refuted :
  exists (v : rverifier G7) (e : enc_deal G7) (d : rdeal G7),
  [/\ new_rverifier toy (2%:R : F7) (rv_dealer v) keys7 = Ok v, rdecrypt_deal toy rdeal_dec7 v e = Ok d,
      [/\ is_panic (rverifier_session_id v), is_panic (rverifier_deal_certified v) & is_panic (rverifier_enough_approvals v)] &
      forall k, is_panic (rprocess_encrypted_deal toy rdeal_dec7 v (EncDeal (e_dhkey e) (e_sig e) [:: 1%N] (e_cipher e)) k).2].
Proof.
pose d := rd7 [:: 1; 1] 1 3%:R 0.
have D : rdecrypt_deal toy rdeal_dec7 (rver7 2%:R 1) (re7 2%:R d) = Ok d by apply: (rcraft_decrypts toy_ok rdeal_dec_enc7).
have N : new_rverifier toy (2%:R : F7) (rv_dealer (rver7 2%:R 1)) keys7 = Ok (rver7 2%:R 1) by exact: rver7_new.
exists (rver7 2%:R 1), (re7 2%:R d), d; split; [exact: N|exact: D|exact: (C73_query_refuted N)|].
by move=> k; apply: (C73_nonce_refuted k D).
Qed.
Print Assumptions C73_witness_refuted.

(** Full statement of C65: a list with a repeated key is refused or handled.  It is accepted, and making one's deals panics. *)
Theorem C65_witness_refuted deal_enc deal_dec ddeal_enc :
  exists (ps : seq V) (g : dkg V), [/\ ~~ uniq ps, new_dist_key_generator ktoy (K1 : K) ps 0 (K2 : K) (fun _ => K1 : K) = Ok g &
    is_panic (ddeals ktoy deal_enc deal_dec ddeal_enc g (fun _ => (K2 : K, K1 : K)) (fun _ => K1 : K) (K1 : K) (K1 : K)).2].
Proof.
have [u i t] := C65_nonvacuous.
have [//|g G [_ H]] := @C65_duplicates_refuted K V ktoy deal_enc deal_dec ddeal_enc (K1 : K) _ 0 (K2 : K) (fun _ => K1 : K) ktoy_ok u _ i t.
by exists [:: K1 : V; K2 : V; K2 : V], g; split=> //; apply: H.
Qed.
Print Assumptions C65_witness_refuted.
