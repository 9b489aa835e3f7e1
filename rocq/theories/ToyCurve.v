(** A concrete instance of the point interface, used only for the examples: integers modulo the group order with made-up
    encodings.  It shows that the laws of [curve_ok] are consistent, and computes quickly. *)
From Coq Require Import ZArith Znumtheory String List Bool Lia ssrbool Eqdep_dec.
From Verif Require Import Base Bytes Limb ScLimbs IntModel RandModel RandProofs ScModel ScProofs ScalarProofs Primes.
From Verif Require Import Group EdModel EdBytes PropsSc EdSpec EdProofs.
Import ListNotations.
Local Open Scope Z_scope.

Definition inr (z : Z) : bool := (0 <=? z) && (z <? order).
Record tpt := Tpt { tz : Z; tpf : inr tz = true }.
Lemma tpt_eq P Q : tz P = tz Q -> P = Q.
Proof. destruct P as [z p], Q as [w q]. cbn. intros ->. f_equal. apply (UIP_dec bool_dec). Qed.
Lemma inr_mod z : inr (z mod order) = true.
Proof. unfold inr. pose proof (Z.mod_pos_bound z order eq_refl). apply andb_true_iff. rewrite Z.leb_le, Z.ltb_lt. lia. Qed.
Lemma tz_range P : 0 <= tz P < order.
Proof. pose proof (tpf P) as H. unfold inr in H. apply andb_true_iff in H. rewrite Z.leb_le, Z.ltb_lt in H. lia. Qed.
Definition tmk (z : Z) : tpt := Tpt (z mod order) (inr_mod z).
Definition tenc (P : tpt) : list Z := if tz P =? 0 then le_bytes 32 1 else le_bytes 32 (2 ^ 254 + tz P).
Definition tdec (b : list Z) : option tpt :=
  if negb (Nat.eqb (length b) 32) then None else
  let y := le_val b in
  if y =? 1 then Some (tmk 0) else if (2 ^ 254 <? y) && (y <? 2 ^ 254 + order) then Some (tmk (y - 2 ^ 254)) else None.
Definition toyc : curve := {|
  pt := tpt; pzero := tmk 0; padd := fun P Q => tmk (tz P + tz Q); pneg := fun P => tmk (- tz P); pbase := tmk 1;
  pmul := fun s P => tmk (le_val s * tz P); pmul_base := fun s => tmk (le_val s);
  penc := tenc; pdec := tdec; peq := fun P Q => tz P =? tz Q |}.

Lemma tassoc a b c : padd toyc a (padd toyc b c) = padd toyc (padd toyc a b) c.
Proof. apply tpt_eq. cbn [padd toyc tmk tz]. rewrite Zplus_mod_idemp_r, Zplus_mod_idemp_l. f_equal. ring. Qed.
Lemma tcomm a b : padd toyc a b = padd toyc b a.
Proof. apply tpt_eq. cbn [padd toyc tmk tz]. f_equal. ring. Qed.
Lemma tz0 a : padd toyc (pzero toyc) a = a.
Proof. apply tpt_eq. cbn [padd pzero toyc tmk tz]. apply Z.mod_small. apply tz_range. Qed.
Lemma tneg a : padd toyc a (pneg toyc a) = pzero toyc.
Proof. apply tpt_eq. cbn [padd pneg pzero toyc tmk tz]. rewrite Zplus_mod_idemp_r. f_equal. ring. Qed.
Definition tgroup : agroup := AGroup tpt (pzero toyc) (padd toyc) (pneg toyc) tassoc tcomm tz0 tneg.

Lemma tnmul n P : tz (nmul tgroup n P) = (Z.of_nat n * tz P) mod order.
Proof.
  induction n as [|n IH]; [reflexivity|]. cbn [nmul gadd tgroup padd toyc tmk tz]. rewrite IH, Zplus_mod_idemp_r. f_equal.
  rewrite Nat2Z.inj_succ. ring.
Qed.
Lemma tzmul z P : zmul tgroup z P = tmk (z * tz P).
Proof.
  apply tpt_eq. destruct z as [|p|p].
  - reflexivity.
  - cbn [zmul]. rewrite tnmul, positive_nat_Z. reflexivity.
  - cbn [zmul gneg tgroup pneg toyc tmk tz]. rewrite tnmul, positive_nat_Z.
    rewrite <- Z.sub_0_l, Zminus_mod_idemp_r. f_equal. change (Z.neg p) with (- Z.pos p). ring.
Qed.
Lemma tenc_y P : y_of (tenc P) = if tz P =? 0 then 1 else 2 ^ 254 + tz P.
Proof.
  pose proof (tz_range P). unfold y_of, tenc. destruct (tz P =? 0); [reflexivity|].
  assert (order < 2 ^ 253) by reflexivity. assert (2 ^ 255 < 256 ^ Z.of_nat 32) by reflexivity.
  rewrite le_val_le_bytes_small by lia. apply Z.mod_small. lia.
Qed.
Lemma tenc_ok P : scalar32 (tenc P).
Proof. unfold tenc. destruct (tz P =? 0); (split; [apply le_bytes_bytes|apply le_bytes_length]). Qed.
Lemma tenc_small P : pt_small_order (tenc P) = true <-> tz P = 0.
Proof.
  destruct (tenc_ok P) as [B L]. rewrite (pt_small_order_ok _ B L). change (y_field (tenc P)) with (y_of (tenc P)). rewrite tenc_y.
  assert (E : map le_val WEAK_KEYS = [0; 1; 2707385501144840649318225287225658788936804267575313519463743609750303402022;
    55188659117513257062467267217118295137698188065244968500265048394206261417927; 57896044618658097711785492504343953926634992332820282019728792003956564819948]) by (vm_compute; reflexivity).
  rewrite E. clear E. cbn [In]. pose proof (tz_range P) as R. unfold order in R.
  destruct (Z.eqb_spec (tz P) 0) as [e|n]; [rewrite e; intuition|].
  split; [|lia]. intros H. exfalso. revert H R. set (z := tz P). intros H R. change (2 ^ 254) with 28948022309329048855892746252171976963317496166410141009864396001978282409984 in H. lia.
Qed.

Lemma toy_ok : curve_ok toyc.
Proof.
  refine (CurveOk toyc tassoc tcomm tz0 tneg _ _ _ _ _ _ _ _ _ _); change (AGroup _ _ _ _ _ _ _ _) with tgroup.
  - intros s P _ _. symmetry. apply tzmul.
  - intros s _ _. rewrite tzmul. apply tpt_eq. cbn [pbase pmul_base toyc tmk tz]. rewrite Zmult_mod_idemp_r. f_equal. ring.
  - rewrite tzmul. apply tpt_eq. reflexivity.
  - intros E. apply (f_equal tz) in E. discriminate.
  - intros P Q. cbn [peq toyc]. rewrite Z.eqb_eq. split; [apply tpt_eq|now intros ->].
  - exact tenc_ok.
  - intros P. cbn [pdec toyc]. unfold tdec. destruct (tenc_ok P) as [_ L]. cbn [penc toyc]. rewrite L. cbn [Nat.eqb negb].
    unfold tenc. pose proof (tz_range P). destruct (Z.eqb_spec (tz P) 0) as [e|n].
    + change (le_val (le_bytes 32 1) =? 1) with true. cbv iota. apply (f_equal Some). apply tpt_eq. now rewrite e.
    + assert (order < 2 ^ 253) by reflexivity. assert (2 ^ 255 < 256 ^ Z.of_nat 32) by reflexivity.
      rewrite le_val_le_bytes_small by lia. cbn zeta. rewrite (proj2 (Z.eqb_neq _ _)) by lia.
      rewrite (proj2 (Z.ltb_lt _ _)), (proj2 (Z.ltb_lt _ _)) by lia. cbn [andb]. apply (f_equal Some). apply tpt_eq. cbn [tmk tz].
      replace (2 ^ 254 + tz P - 2 ^ 254) with (tz P) by ring. apply Z.mod_small. lia.
  - intros b P. cbn [pdec toyc]. unfold tdec. destruct (Nat.eqb_spec (length b) 32); [auto|discriminate].
  - intros P. cbn [penc toyc]. rewrite tenc_small, tzmul. pose proof (tz_range P) as R. split.
    + intros ->. reflexivity.
    + intros E. apply (f_equal tz) in E. cbn [pzero toyc tmk tz] in E. rewrite Zmod_0_l in E. apply Z.mod_divide in E; [|discriminate].
      apply Gauss in E; [|apply prime_rel_prime; [exact order_prime|]].
      * destruct E as [q D]. assert (q = 0 \/ q >= 1 \/ q <= -1) by lia. pose proof order_pos. nia.
      * intros D. apply Z.divide_pos_le in D; [|lia]. unfold order in D. lia.
  - intros b P Hb D _ S. cbn [pdec toyc] in D. unfold tdec in D. destruct (Nat.eqb_spec (length b) 32) as [L|]; [|discriminate].
    cbn [negb] in D. cbn [penc toyc] in S |- *. destruct (Z.eqb_spec (le_val b) 1) as [e|n].
    + injection D as <-. assert (X : pt_small_order (tenc (tmk 0)) = true) by now apply tenc_small. congruence.
    + destruct (_ && _) eqn:E; [|discriminate]. apply andb_true_iff in E. rewrite !Z.ltb_lt in E. injection D as <-.
      unfold tenc. cbn [tmk tz]. rewrite Z.mod_small by lia. rewrite (proj2 (Z.eqb_neq _ _)) by lia.
      change (Z.pow_pos 2 254) with (2 ^ 254). replace (2 ^ 254 + (le_val b - 2 ^ 254)) with (le_val b) by ring. rewrite <- L. apply le_bytes_le_val. exact Hb.
Qed.

Lemma toy_mul z P : zmul (co_group toyc toy_ok) z P = tmk (z * tz P).
Proof. rewrite <- tzmul. destruct z; reflexivity. Qed.

(** A made-up hash: an affine function of a residue of the input, as 64 bytes. *)
Definition toysha (m : list Z) : list Z := le_bytes 64 (le_val m mod (2 ^ 450 + 57) * 1234567891 + 10 ^ 130 + 7).
Lemma toysha_ok : sha_ok toysha.
Proof. intros m. split; [apply le_bytes_bytes|apply le_bytes_length]. Qed.
