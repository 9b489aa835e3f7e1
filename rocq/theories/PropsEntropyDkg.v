(** Property C97 continued: how much of a key generator the entropy options determine
    (src/share/dkg/pedersen/dkg.rs 334-357, src/share/vss/pedersen/vss.rs 299). *)
From mathcomp Require Import all_ssreflect all_algebra.
From Verif Require Import Base Lagrange PolyModel PolySpec Suite VssModel VssSpec VssProofs Toy.
From Verif Require Import DkgModel DkgSpec DkgProofs PropsDkg.

Set Implicit Arguments.
Unset Strict Implicit.
Unset Printing Implicit Defensive.

Import GRing.Theory.
Local Open Scope ring_scope.
Local Open Scope outcome_scope.

Section Q.
Variables (F : fieldType) (G : lmodType F) (S : suite G).

(** The dealer of a fresh key generation is determined by the secret coefficient and the further coefficients. *)
Lemma fresh_commits (c : config G) secret picks g : c_share c = None -> c_coeffs c = None -> (c_long c *: su_base S) \in c_new c ->
  new_dist_key_handler S c secret picks = Ok g ->
  dl_commits (g_dealer g) = [seq k *: su_base S | k <- secret :: mkseq picks ((if c_t c != 0%N then c_t c else minimum_t (size (c_new c))) - 1)].
Proof.
move=> hs hc own; rewrite /new_dist_key_handler hs hc /= /pmul.
case: ifP => // _; set t := (if _ then _ else _).
have -> : dfind_pub (c_new c) (c_long c *: su_base S) = (seq.index (c_long c *: su_base S) (c_new c), true) by rewrite /dfind_pub index_mem own.
case: (dfind_pub (c_old c) _) => oi op; rewrite andbF /=.
rewrite /new_dealer; case: ifP => //= _.
case: (init_verifiers _ _) => //= [vs|e] [<-] //=.
Qed.

(** The commitments in the deals are equal exactly when the secret coefficient and all further coefficients are.  The entropy
    options only reach the first; the others are drawn from the system. *)
Theorem C97_deals (c : config G) (secret secret' : F) (picks picks' : nat -> F) (g g' : dkg G) :
  su_base S != 0 -> c_share c = None -> c_coeffs c = None -> (c_long c *: su_base S) \in c_new c ->
  new_dist_key_handler S c secret picks = Ok g -> new_dist_key_handler S c secret' picks' = Ok g' ->
  dl_commits (g_dealer g) = dl_commits (g_dealer g') <->
  (secret = secret' /\ forall k, (k < (if c_t c != 0%N then c_t c else minimum_t (size (c_new c))) - 1)%N -> picks k = picks' k).
Proof.
move=> B0 hs hc own h h'; rewrite (fresh_commits hs hc own h) (fresh_commits hs hc own h').
have inj : injective (fun k : F => k *: su_base S).
  by move=> a b /eqP; rewrite -subr_eq0 -scalerBl scaler_eq0 (negbTE B0) orbF subr_eq0 => /eqP.
set n := (_ - 1)%N; split.
- move=> e; have := inj_map inj e => -[-> e']; split=> // k lt.
  by have := congr1 (fun l => nth 0 l k) e'; rewrite !nth_mkseq.
- by case=> -> e; congr ([seq _ | _ <- _ :: _]); apply/eq_in_map => k; rewrite mem_iota add0n => /andP[_ /e].
Qed.
End Q.
Print Assumptions C97_deals.
Lemma ok_ex E A (m : outcome E A) : is_ok m -> exists g, m = Ok g. Proof. by case: m => // g _; exists g. Qed.

(** Full statement ("only the user-specified entropy source will be used [...] allowing reproducibility"): with
    [user_reader_only] two runs on the same configuration and user source make the same deals.  False: the other coefficients
    come from the system. *)
Theorem C97_reproducible_refuted : exists (c : config V) (secret : K) (picks picks' : nat -> K) (g g' : dkg V),
  [/\ new_dist_key_handler ktoy c secret picks = Ok g, new_dist_key_handler ktoy c secret picks' = Ok g' &
      dl_commits (g_dealer g) <> dl_commits (g_dealer g')].
Proof.
have [g h] : exists g, new_dist_key_handler ktoy (Config (K1 : K) [::] None kkeys None 3 0) (K5 : K) (fun _ => K3 : K) = Ok g.
  by apply: ok_ex; vm_cast_no_check (erefl true).
have [g' h'] : exists g, new_dist_key_handler ktoy (Config (K1 : K) [::] None kkeys None 3 0) (K5 : K) (fun _ => K4 : K) = Ok g.
  by apply: ok_ex; vm_cast_no_check (erefl true).
have B0 : su_base ktoy != 0 by vm_cast_no_check (erefl true).
have own : (c_long (Config (K1 : K) [::] None kkeys None 3 0) *: su_base ktoy) \in c_new (Config (K1 : K) [::] None kkeys None 3 0) by vm_cast_no_check (erefl true).
exists (Config (K1 : K) [::] None kkeys None 3 0), (K5 : K), (fun _ => K3 : K), (fun _ => K4 : K), g, g'; split=> //.
move=> e; have [_ a] := (@C97_deals _ _ ktoy (Config (K1 : K) [::] None kkeys None 3 0) _ _ _ _ _ _ B0 (erefl None) (erefl None) own h h').1 e.
have /eqP e0 := a 0%N (erefl true).
have ne : ((K3 : K) == K4) = false by vm_cast_no_check (erefl false).
by rewrite ne in e0.
Qed.
Print Assumptions C97_reproducible_refuted.
