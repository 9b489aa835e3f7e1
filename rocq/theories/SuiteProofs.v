(** Injectivity of the encodings that go into hashed transcripts, and a concrete suite for the examples. *)
From mathcomp Require Import all_ssreflect all_algebra.
From mathcomp Require Import zify.
From Coq Require Import String.
From Verif Require Import Base PolyModel PropsPoly Suite.

Set Implicit Arguments.
Unset Strict Implicit.
Unset Printing Implicit Defensive.

Import GRing.Theory.
Local Open Scope ring_scope.

Lemma u32le_size n : size (u32le n) = 4%N. Proof. by []. Qed.

Lemma u32le_inj m n : (m < 256 ^ 4)%N -> (n < 256 ^ 4)%N -> u32le m = u32le n -> m = n.
Proof.
have D k x : (x < 256 ^ k.+1)%N -> (x = (x %/ 256) * 256 + x %% 256)%N /\ (x %/ 256 < 256 ^ k)%N.
  by move=> h; rewrite -divn_eq ltn_divLR // -expnSr.
rewrite /u32le => hm hn [e0 e1 e2 e3].
have [m0 m1] := @D 3%N _ hm; have [m2 m3] := @D 2%N _ m1; have [m4 m5] := @D 1%N _ m3; have [m6 m7] := @D 0%N _ m5.
have [n0 n1] := @D 3%N _ hn; have [n2 n3] := @D 2%N _ n1; have [n4 n5] := @D 1%N _ n3; have [n6 n7] := @D 0%N _ n5.
move: m7 n7; rewrite expn0 !ltnS !leqn0 => /eqP m7 /eqP n7.
by rewrite m0 n0 m2 n2 m4 n4 m6 n6 m7 n7 e0 e1 e2 e3.
Qed.

Lemma cat_inj (T : eqType) (a b c d : seq T) : size a = size b -> a ++ c = b ++ d -> a = b /\ c = d.
Proof. by move=> s /eqP; rewrite eqseq_cat // => /andP[/eqP -> /eqP ->]. Qed.

Lemma cat_inj_r (T : eqType) (a b c d : seq T) : size c = size d -> a ++ c = b ++ d -> a = b /\ c = d.
Proof.
move=> s e; apply: cat_inj => //; have := f_equal size e; rewrite !size_cat s => /eqP.
by rewrite eqn_add2r => /eqP.
Qed.

Section Enc.
Variables (F : fieldType) (G : lmodType F) (S : suite G).
Hypothesis okS : suite_ok S.

Lemma enc_inj_cat (P Q : G) l m : su_enc S P ++ l = su_enc S Q ++ m -> P = Q /\ l = m.
Proof.
case: (su_enc_size okS) => n [_ sz] e; have [e1 ->] := cat_inj (etrans (sz P) (esym (sz Q))) e.
by rewrite (su_enc_inj okS e1).
Qed.

Lemma flat_size (Ps : seq G) n : (forall P, size (su_enc S P) = n) -> size (flatten (map (su_enc S) Ps)) = (size Ps * n)%N.
Proof. by move=> sz; elim: Ps => //= P Ps IH; rewrite size_cat sz IH mulSn. Qed.

Lemma flat_inj (Ps Qs : seq G) : flatten (map (su_enc S) Ps) = flatten (map (su_enc S) Qs) -> Ps = Qs.
Proof.
case: (su_enc_size okS) => n [n0 sz].
elim: Ps Qs => [|P Ps IH] [|Q Qs] //=.
- by move/(f_equal size); rewrite size_cat sz /= => e; move: n0; lia.
- by move/(f_equal size); rewrite size_cat sz /= => e; move: n0; lia.
- by case/enc_inj_cat=> -> /IH ->.
Qed.

Lemma flat_inj_cat (Ps Qs : seq G) l m : size Ps = size Qs ->
  flatten (map (su_enc S) Ps) ++ l = flatten (map (su_enc S) Qs) ++ m -> Ps = Qs /\ l = m.
Proof.
case: (su_enc_size okS) => n [n0 sz] s e.
have [e1 ->] := cat_inj (etrans (flat_size Ps sz) (esym (etrans (flat_size Qs sz) (congr1 (muln^~ n) (esym s))))) e.
by rewrite (flat_inj e1).
Qed.
End Enc.

(** ** A concrete suite over F_7: points are their own encodings, the hash is the identity, a signature is the signer's
    public key followed by the message, a ciphertext is the plaintext behind its parameters.  Only used to show that the
    hypotheses can be met and to exhibit counterexamples. *)
Definition enc7 (P : F7) : bytestr := [:: nat_of_ord P].

Definition prefix7 (pre : G7) (ctx nonce : bytestr) : bytestr := enc7 pre ++ ctx ++ nonce.

Definition toy : suite G7 := @Suite F7 G7 (1 : F7) enc7 enc7 (fun m => m)
  (fun x m k => enc7 x ++ m)
  (fun P m s => s == enc7 P ++ m)
  (fun pre ctx nonce pt => prefix7 pre ctx nonce ++ pt)
  (fun pre ctx nonce c => let q := prefix7 pre ctx nonce in if take (size q) c == q then Some (drop (size q) c) else None)
  (fun _ => 3%:R) (fun x => x != 0).

Lemma toy_ok : suite_ok toy.
Proof.
split.
- by [].
- by move=> P Q /= [e]; apply: val_inj.
- by exists 1%N.
- move=> x m k _ _; have e : (x *: (su_base toy : G7)) = x by exact: mulr1.
  by rewrite e; exact: eqxx.
- by move=> pre ctx nonce pt /=; rewrite take_size_cat // eqxx drop_size_cat.
Qed.
