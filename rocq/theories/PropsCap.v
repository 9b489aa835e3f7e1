(** C118: the argument n of the recovery functions. *)
From Coq Require Import ZArith NArith.
From mathcomp Require Import all_ssreflect all_algebra.
From Verif Require Import Base PolyModel PolySpec PolyProofs PolyProps PropsPoly Suite VssModel RvssModel PolyCap.

Set Implicit Arguments.
Unset Strict Implicit.
Unset Printing Implicit Defensive.
Import GRing.Theory.
Local Open Scope ring_scope.

(** Room for n references can be asked for. *)
Definition reservable (n : N) : Prop := (n < 1152921504606846976)%num.

Lemma cap_fits E n : reservable n -> with_capacity (E := E) 8 n = Ok tt.
Proof. by move=> r; rewrite /with_capacity (proj2 (N.leb_le _ _)) //; unfold reservable in r; Lia.lia. Qed.
Lemma cap_over E n : ~ reservable n -> with_capacity (E := E) 8 n = Panic.
Proof.
move=> r; rewrite /with_capacity; have -> // : N.leb (8 * n) 9223372036854775807 = false.
by apply/N.leb_gt; unfold reservable in r; Lia.lia.
Qed.

(** The result does not depend on n, however it relates to the number of shares, unless n is 2^60 or more. *)
Theorem C118_irrelevant_partial (F : fieldType) (G : lmodType F) (b : G) (ord : hash_order F)
    (ss : seq (option (pri_share F))) (us : seq (option (pub_share G))) (ds : seq (deal G)) (rs : seq (rdeal G)) (t : nat) (n n' : N) :
  reservable n -> reservable n' ->
  [/\ recover_secret_n ord ss t n = recover_secret_n ord ss t n',
      recover_pri_poly_n ord ss t n = recover_pri_poly_n ord ss t n',
      recover_commit_n ord us t n = recover_commit_n ord us t n',
      recover_pub_poly_n b ord us t n = recover_pub_poly_n b ord us t n' &
      vss_recover_secret_n ord ds n t = vss_recover_secret_n ord ds n' t /\
      rvss_recover_secret_n ord rs n t = rvss_recover_secret_n ord rs n' t].
Proof.
move=> r r'; rewrite /vss_recover_secret_n /rvss_recover_secret_n.
have e s : recover_secret_n ord s t n = recover_secret_n ord s t n' by rewrite /recover_secret_n !cap_fits.
split.
- exact: e.
- by rewrite /recover_pri_poly_n !cap_fits.
- by rewrite /recover_commit_n !cap_fits.
- by rewrite /recover_pub_poly_n !cap_fits.
- by split; case: foldo => //= s; rewrite e.
Qed.
Print Assumptions C118_irrelevant_partial.

(** With genuine shares of t participants the secret comes out for every such n. *)
Theorem C118_secret (F : fieldType) (p : nat) (ord : hash_order F) (f : seq F) (shares : seq (option (pri_share F))) (t : nat) (n : N) :
  p \in [char F] -> (forall k s, perm_eq (ord k s) s) -> size f = t ->
  (forall s, List.In (Some s) shares -> ps_v s = share_value f (ps_i s) /\ ((ps_i s).+1 < p)%N) ->
  distinct_at_least [seq ps_i s | s <- pmap id shares] t -> reservable n ->
  recover_secret_n ord shares t n = Ok f`_0.
Proof. by move=> ch po sf g d r; rewrite /recover_secret_n cap_fits //=; exact: (C01_recover_secret ch po sf g d). Qed.
Print Assumptions C118_secret.

(** The shares of a polynomial are the same list for every size of an element, as far as room can be asked for. *)
Theorem C118_shares (F : fieldType) (sz : N) (f : seq F) (n : N) :
  (sz * n < 9223372036854775808)%num ->
  pri_shares_n sz f n = Ok [seq Some (PriShare i (share_value f i)) | i <- iota 0 (N.to_nat n)].
Proof.
move=> r; rewrite /pri_shares_n /with_capacity (proj2 (N.leb_le _ _)) /= ?C01_shares_are_genuine //; Lia.lia.
Qed.
Print Assumptions C118_shares.

(** The full statement, for every n and n', is false: from 2^60 on the call panics, whatever the shares. *)
Theorem C118_panics (F : fieldType) (G : lmodType F) (b : G) (ord : hash_order F)
    (ss : seq (option (pri_share F))) (us : seq (option (pub_share G))) (t : nat) (n : N) :
  ~ reservable n ->
  [/\ recover_secret_n ord ss t n = Panic, recover_pri_poly_n ord ss t n = Panic,
      recover_commit_n ord us t n = Panic & recover_pub_poly_n b ord us t n = Panic].
Proof.
by move=> r; split; rewrite /recover_secret_n /recover_pri_poly_n /recover_commit_n /recover_pub_poly_n cap_over.
Qed.
Print Assumptions C118_panics.

Definition ex_big : N := 1152921504606846976.
Theorem C118_irrelevant_refuted :
  exists (ord : hash_order F7) (ss : seq (option (pri_share F7))) (t : nat) (n n' : N),
    recover_secret_n ord ss t n = Ok 3%:R /\ recover_secret_n ord ss t n' = Panic.
Proof.
exists (fun k s => if odd k then rev s else s), ex_shares, 2%N, 4%num, ex_big; split.
- by rewrite /recover_secret_n cap_fits; [case: C01_nonvacuous|].
- by rewrite /recover_secret_n cap_over.
Qed.
Print Assumptions C118_irrelevant_refuted.

(** *** Examples: n smaller than the number of shares, and much larger. *)
Example C118_nonvacuous :
  [/\ reservable 0, reservable 1000000000000, ~ reservable ex_big, (40 * 3 < 9223372036854775808)%num &
      recover_secret_n (fun k s => if odd k then rev s else s) ex_shares 2 0 = Ok 3%:R].
Proof.
split; [by []|by []|by []|by []|].
by rewrite /recover_secret_n cap_fits; [case: C01_nonvacuous|].
Qed.
