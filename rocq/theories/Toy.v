(** A seven-element field that computes fast, and a suite over it, for examples and counterexamples evaluated by the
    kernel.  Nothing of the modelled code is in this file. *)
From mathcomp Require Import all_ssreflect all_algebra.
From Verif Require Import Base PolyModel Suite VssModel.

Set Implicit Arguments.
Unset Strict Implicit.
Unset Printing Implicit Defensive.

Import GRing.Theory.
Local Open Scope ring_scope.

Inductive k7 := K0 | K1 | K2 | K3 | K4 | K5 | K6.
Definition k7_val (a : k7) : nat := match a with K0 => 0 | K1 => 1 | K2 => 2 | K3 => 3 | K4 => 4 | K5 => 5 | K6 => 6 end.
Definition k7_of (n : nat) : k7 := match n with 0 => K0 | 1 => K1 | 2 => K2 | 3 => K3 | 4 => K4 | 5 => K5 | _ => K6 end.
Lemma k7_valK : cancel k7_val k7_of. Proof. by case. Qed.
Definition k7_eqMixin := CanEqMixin k7_valK.
Canonical k7_eqType := Eval hnf in EqType k7 k7_eqMixin.
Definition k7_choiceMixin := CanChoiceMixin k7_valK.
Canonical k7_choiceType := Eval hnf in ChoiceType k7 k7_choiceMixin.

Definition k7_red (n : nat) : k7 := k7_of (if (n < 7)%N then n else n - 7)%N.
Definition k7_add (a b : k7) : k7 := k7_red (k7_val a + k7_val b).
Definition k7_opp (a : k7) : k7 := k7_red (7 - k7_val a).
Definition k7_mul (a b : k7) : k7 := k7_of ((k7_val a * k7_val b) %% 7).
Definition k7_inv (a : k7) : k7 := match a with K0 => K0 | K1 => K1 | K2 => K4 | K3 => K5 | K4 => K2 | K5 => K3 | K6 => K6 end.

Lemma k7_addA : associative k7_add. Proof. by do 3 case. Qed.
Lemma k7_addC : commutative k7_add. Proof. by do 2 case. Qed.
Lemma k7_add0 : left_id K0 k7_add. Proof. by case. Qed.
Lemma k7_addN : left_inverse K0 k7_opp k7_add. Proof. by case. Qed.
Definition k7_zmodMixin := ZmodMixin k7_addA k7_addC k7_add0 k7_addN.
Canonical k7_zmodType := Eval hnf in ZmodType k7 k7_zmodMixin.
Lemma k7_mulA : associative k7_mul. Proof. by do 3 case. Qed.
Lemma k7_mulC : commutative k7_mul. Proof. by do 2 case. Qed.
Lemma k7_mul1 : left_id K1 k7_mul. Proof. by case. Qed.
Lemma k7_mulD : left_distributive k7_mul +%R. Proof. by do 3 case. Qed.
Lemma k7_10 : K1 != 0. Proof. by []. Qed.
Definition k7_ringMixin := ComRingMixin k7_mulA k7_mulC k7_mul1 k7_mulD k7_10.
Canonical k7_ringType := Eval hnf in RingType k7 k7_ringMixin.
Canonical k7_comRingType := Eval hnf in ComRingType k7 k7_mulC.
Lemma k7_mulV (a : k7) : a != 0 -> k7_inv a * a = 1. Proof. by case: a. Qed.
Lemma k7_inv0 : k7_inv 0 = 0. Proof. by []. Qed.
Definition k7_unitRingMixin := FieldUnitMixin k7_mulV k7_inv0.
Canonical k7_unitRingType := Eval hnf in UnitRingType k7 k7_unitRingMixin.
Canonical k7_comUnitRingType := Eval hnf in [comUnitRingType of k7].
Lemma k7_field : GRing.Field.mixin_of [unitRingType of k7]. Proof. by move=> a; case: a. Qed.
Canonical k7_idomainType := Eval hnf in IdomainType k7 (FieldIdomainMixin k7_field).
Canonical k7_fieldType := Eval hnf in FieldType k7 k7_field.

Definition K : fieldType := [fieldType of k7].
Definition V : lmodType K := [lmodType K of K^o].

Lemma charK : 7%N \in [char K]. Proof. by []. Qed.

(** The suite: points are their own encodings, the hash is the identity, a signature is the signer's public key followed
    by the message, a ciphertext is the plaintext behind its parameters. *)
Definition k_enc (P : k7) : bytestr := [:: k7_val P].
Definition k_prefix (pre : V) (ctx nonce : bytestr) : bytestr := k_enc pre ++ ctx ++ nonce.
Definition ktoy : suite V := @Suite K V (K1 : V) k_enc k_enc (fun m => m)
  (fun x m k => k_enc x ++ m)
  (fun P m s => s == k_enc P ++ m)
  (fun pre ctx nonce pt => k_prefix pre ctx nonce ++ pt)
  (fun pre ctx nonce c => let q := k_prefix pre ctx nonce in if take (size q) c == q then Some (drop (size q) c) else None)
  (fun _ => K1 : V) (fun x => x != 0).

Lemma ktoy_ok : suite_ok ktoy.
Proof.
split.
- by [].
- by case=> [] [] //=.
- by exists 1%N.
- move=> x m k _ _; have e : (x *: (su_base ktoy : V)) = x by exact: mulr1.
  by rewrite e; exact: eqxx.
- by move=> pre ctx nonce pt /=; rewrite take_size_cat // eqxx drop_size_cat.
Qed.

(** A serialisation of deals (length in front). *)
Definition kdeal_enc (d : deal V) : bytestr :=
  size (d_sid d) :: d_sid d ++ [:: ps_i (d_share d); k7_val (ps_v (d_share d)); d_t d] ++ map k7_val (d_commits d).
Definition kdeal_dec (b : bytestr) : option (deal V) :=
  if b is n :: b' then
    if drop n b' is i :: x :: t :: cs
    then Some (@Deal K V (take n b') (@PriShare K i (k7_of x)) t (map k7_of cs)) else None
  else None.
Lemma kdeal_dec_enc d : kdeal_dec (kdeal_enc d) = Some d.
Proof.
case: d => sid [i x] t cs; rewrite /kdeal_dec /kdeal_enc /= drop_size_cat // take_size_cat //=.
by rewrite k7_valK -map_comp (@eq_map _ _ _ id) ?map_id //; exact: k7_valK.
Qed.
(** ... and of encrypted deals, for the DKG's signatures. *)
Definition kddeal_enc (i : nat) (e : enc_deal V) : bytestr := i :: k7_val (e_dhkey e) :: e_cipher e.
