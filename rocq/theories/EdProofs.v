(** Proofs about the signature and key layers. *)
From Coq Require Import ZArith Znumtheory String List Bool Lia ssrbool.
From Verif Require Import Base Bytes Limb ScLimbs IntModel RandModel RandProofs ScModel ScProofs ScalarProofs Primes Group EdModel EdBytes PropsSc EdSpec.
Import ListNotations.
Local Open Scope Z_scope.

Lemma order_ell : order = ell. Proof. reflexivity. Qed.
Lemma order_prime : prime order.
Proof. exact prime_order. Qed.
Lemma order_pos : 0 < order. Proof. reflexivity. Qed.
Lemma order_255 : order < 2 ^ 255. Proof. reflexivity. Qed.

Lemma bytes_spec b : Forall (fun x => 0 <= x < 256) b <-> bytes b.
Proof. reflexivity. Qed.
Lemma scalar32_wf a : scalar32 a <-> wf a.
Proof. reflexivity. Qed.

(** [red x]: the reduced 32-byte scalar of x. *)
Definition red (x : Z) : list Z := le_bytes 32 (x mod order).
Lemma red_scalar x : scalar32 (red x). Proof. apply wf_le_bytes. Qed.
Lemma red_val x : le_val (red x) = x mod order. Proof. apply le_val_mod. Qed.
Lemma red_bound x : 0 <= le_val (red x) < order.
Proof. rewrite red_val. apply Z.mod_pos_bound. exact order_pos. Qed.
Lemma red_255 x : le_val (red x) < 2 ^ 255.
Proof. pose proof (red_bound x). pose proof order_255. lia. Qed.

Lemma set_bytes_red b : bytes b -> scalar_set_bytes scalar_default b = Ok (red (le_val b)).
Proof.
  intros Hb.
  destruct (C27_setters_partial scalar_default 0 b) as [_ [[r [x [E [_ [_ H]]]]] _]]; [apply wf_repeat0 || (split; [apply bytes_repeat0|reflexivity])|lia|exact Hb|].
  rewrite E. f_equal. apply (encodes_unique r _ (le_val b)); [now apply H|]. apply encodes_mod. reflexivity.
Qed.

Lemma add_red a b : scalar32 a -> scalar32 b -> scalar_add a b = red (le_val a + le_val b).
Proof. intros [Ba La] [Bb Lb]. apply sc_add_ok; assumption. Qed.
Lemma mul_red a b : scalar32 a -> scalar32 b -> scalar_mul a b = red (le_val a * le_val b).
Proof. intros [Ba La] [Bb Lb]. apply sc_mul_ok; assumption. Qed.
Lemma marshal_red v : scalar32 v -> scalar_marshal v = Ok (red (le_val v)).
Proof. apply scalar_marshal_ok. Qed.
Lemma red_red x : red (le_val (red x)) = red x.
Proof. unfold red at 1. rewrite red_val. rewrite Z.mod_mod by discriminate. reflexivity. Qed.
Lemma red_eq x y : x mod order = y mod order -> red x = red y.
Proof. unfold red. now intros ->. Qed.

Lemma firstn_app_exact {A} (a b : list A) n : length a = n -> firstn n (a ++ b) = a.
Proof. intros <-. rewrite firstn_app, Nat.sub_diag, firstn_all, firstn_O. apply app_nil_r. Qed.
Lemma skipn_app_exact {A} (a b : list A) n : length a = n -> skipn n (a ++ b) = b.
Proof. intros <-. rewrite skipn_app, Nat.sub_diag, skipn_all. reflexivity. Qed.

Section Ed.
Variables (C : curve) (ok : curve_ok C) (sha : list Z -> list Z) (shok : sha_ok sha).
Notation X := (co_group C ok).
Notation mul := (zmul X).
Notation B := (pbase C).

Lemma base_mod z : mul (z mod order) B = mul z B.
Proof. apply (zmul_mod X order z B); [discriminate|]. apply co_order. Qed.
Lemma base_cong y z : (order | y - z) -> mul y B = mul z B.
Proof. apply (zmul_cong X order); [discriminate|]. apply co_order. Qed.
Lemma base_zero z : mul z B = pzero C -> (order | z).
Proof.
  intros E. destruct (Zdivide_dec order z) as [D|D]; [exact D|exfalso].
  assert (G1 : Z.gcd order z = 1) by (apply Zgcd_1_rel_prime; apply prime_rel_prime; [exact order_prime|exact D]).
  apply (co_base_nz C ok). rewrite <- (zmul_1 X B). rewrite <- G1. apply (zmul_gcd X); [apply co_order|exact E].
Qed.
Lemma base_inj y z : mul y B = mul z B -> (order | y - z).
Proof.
  intros E. apply base_zero. rewrite zmul_sub, E. apply (gadd_neg_r X).
Qed.
Lemma base_inj_small y z : 0 <= y < order -> 0 <= z < order -> mul y B = mul z B -> y = z.
Proof. intros Hy Hz E. apply base_inj in E. destruct E as [k E]. assert (k = 0) by nia. nia. Qed.

(** Multiples of the base that are not zero are not of small order. *)
Lemma base_not_small z : ~ (order | z) -> mul 8 (mul z B) <> pzero C.
Proof.
  intros D E. rewrite <- zmul_mul in E. apply base_zero in E. apply prime_mult in E; [|exact order_prime].
  destruct E as [E|E]; [|contradiction]. apply Z.divide_pos_le in E; [|lia]. revert E. unfold order. lia.
Qed.

Lemma smallE P : small C P = pt_small_order (penc C P).
Proof. reflexivity. Qed.
Lemma small_spec P : small C P = true <-> mul 8 P = pzero C.
Proof. rewrite smallE. apply (co_small C ok). Qed.
Lemma small_false P : small C P = false <-> mul 8 P <> pzero C.
Proof.
  destruct (small C P) eqn:E; [apply small_spec in E; split; [discriminate|contradiction]|].
  split; [|reflexivity]. intros _ H. apply small_spec in H. congruence.
Qed.

Lemma mul_base_red z : pmul_base C (red z) = mul z B.
Proof. rewrite (co_mul_base C ok) by (apply red_scalar || apply red_255). rewrite red_val. apply base_mod. Qed.

Lemma hash_red A R msg : schnorr_hash C sha A R msg = Ok (red (challengeZ sha (penc C R) (penc C A) msg)).
Proof. unfold schnorr_hash. rewrite set_bytes_red by apply shok. reflexivity. Qed.

(** *** Signing *)
Lemma schnorr_sign_with_ok k x msg : scalar32 k -> le_val k < 2 ^ 255 -> scalar32 x -> le_val x < 2 ^ 255 ->
  schnorr_sign_with C sha k x msg =
  Ok (penc C (mul (le_val k) B) ++
      red (le_val k + le_val x * challengeZ sha (penc C (mul (le_val k) B)) (penc C (mul (le_val x) B)) msg)).
Proof.
  intros Hk Bk Hx Bx. unfold schnorr_sign_with. rewrite !(co_mul_base C ok) by assumption. rewrite hash_red. cbn [bindo].
  set (c := challengeZ _ _ _ _). rewrite mul_red by (assumption || apply red_scalar). rewrite add_red by (assumption || apply red_scalar).
  rewrite marshal_red by apply red_scalar. cbn [sig_try bindo]. rewrite red_red, !red_val. do 2 f_equal. apply red_eq.
  rewrite Zplus_mod_idemp_r, <- (Zplus_mod_idemp_r (le_val x * (c mod order))), Zmult_mod_idemp_r, Zplus_mod_idemp_r. reflexivity.
Qed.

Lemma eddsa_sign_ok e msg : scalar32 (ed_secret C e) ->
  let r := le_val (sha (ed_prefix C e ++ msg)) in
  eddsa_sign C sha e msg =
  Ok (penc C (mul r B) ++ red (r + le_val (ed_secret C e) * challengeZ sha (penc C (mul r B)) (penc C (ed_public C e)) msg)).
Proof.
  intros Hx r. unfold eddsa_sign. rewrite set_bytes_red by apply shok. cbn [must bindo]. fold r. rewrite mul_base_red.
  rewrite set_bytes_red by apply shok. cbn [must bindo]. fold (challengeZ sha (penc C (mul r B)) (penc C (ed_public C e)) msg).
  set (c := challengeZ _ _ _ _). rewrite mul_red by (assumption || apply red_scalar). rewrite add_red by apply red_scalar.
  rewrite marshal_red by apply red_scalar. cbn [sig_try bindo]. rewrite red_red, !red_val. do 2 f_equal. apply red_eq.
  rewrite <- Zplus_mod, <- (Zplus_mod_idemp_r (le_val (ed_secret C e) * (c mod order))), Zmult_mod_idemp_r, Zplus_mod_idemp_r. reflexivity.
Qed.

(** *** Verification *)
Lemma dec_ok b P : dec C b = Ok P <-> pdec C b = Some P.
Proof. unfold dec. destruct (pdec C b); split; congruence. Qed.

Lemma y_of_field b : y_of b = y_field b. Proof. reflexivity. Qed.
Lemma canon_spec b : bytes b -> length b = 32%nat -> (pt_is_canonical b = true <-> y_of b < p25519 - 217).
Proof. intros Hb L. rewrite (pt_is_canonical_ok b Hb). unfold p25519. change (y_of b) with (y_field b). split; [intros [_ H]|intros H; split; [exact L|]]; lia. Qed.

Lemma sc_canon b : bytes b -> length b = 32%nat -> (sc_is_canonical b = true <-> le_val b < order).
Proof. intros Hb L. rewrite (C25_canonical b Hb). tauto. Qed.

Lemma sb_le_bytes b : bytes b -> length b = 32%nat -> b = le_bytes 32 (le_val b).
Proof. intros Hb L. rewrite <- L. symmetry. now apply le_bytes_le_val. Qed.

(** The checks of both verifiers, and the equation. *)
Definition checks (ab sig : list Z) (R A : pt C) : Prop :=
  let rb := firstn 32 sig in let sb := skipn 32 sig in
  [/\ length sig = 64%nat, pdec C rb = Some R /\ pdec C ab = Some A,
      pt_is_canonical rb = true /\ pt_is_canonical ab = true, sc_is_canonical sb = true &
      small C R = false /\ small C A = false].
Definition equation (c : Z) (sig : list Z) (R A : pt C) : Prop :=
  peq C (pmul_base C (skipn 32 sig)) (padd C R (pmul C (red c) A)) = true.

Ltac dcase x := let E := fresh "E" in destruct x eqn:E; cbn [negb bindo sig_try must fst snd] in *; try (split; [discriminate|intros [? [? [[] ?]]]; intuition congruence]).

Lemma unmarshal_ok sb : length sb = 32%nat -> scalar_unmarshal scalar_default sb = (Ok tt, sb).
Proof. intros L. unfold scalar_unmarshal. now rewrite L. Qed.

Lemma dec_cases b : (exists P, dec C b = Ok P /\ pdec C b = Some P) \/ (dec C b = Err SigMarshalling /\ pdec C b = None).
Proof. unfold dec. destruct (pdec C b); [left; eauto|right; auto]. Qed.

Lemma schnorr_verify_checks ab msg sig : bytes sig ->
  schnorr_verify_with_checks C sha ab msg sig = Ok tt <->
  exists R A, checks ab sig R A /\ equation (challengeZ sha (penc C R) (penc C A) msg) sig R A.
Proof.
  intros Hs. unfold schnorr_verify_with_checks, checks, equation.
  destruct (Nat.eqb_spec (length sig) 64) as [L|L]; cbn [negb]; [|split; [discriminate|intros [? [? [[] _]]]; congruence]].
  assert (Ls : length (skipn 32 sig) = 32%nat) by (rewrite skipn_length; lia).
  destruct (dec_cases (firstn 32 sig)) as [[R [-> ER]]|[-> ER]]; cbn [bindo]; [|split; [discriminate|intros [R [A [[_ [] _ _ _] _]]]; congruence]].
  destruct (pt_is_canonical (firstn 32 sig)) eqn:E1; cbn [negb]; [|split; [discriminate|intros [R' [A [[_ _ [] _ _] _]]]; congruence]].
  destruct (small C R) eqn:E2; [split; [discriminate|intros [R' [A [[_ [] _ _ []] _]]]; congruence]|].
  destruct (sc_is_canonical (skipn 32 sig)) eqn:E3; cbn [negb]; [|split; [discriminate|intros [R' [A [[] _]]]; congruence]].
  rewrite unmarshal_ok by exact Ls. cbn [sig_try bindo].
  destruct (dec_cases ab) as [[A [-> EA]]|[-> EA]]; cbn [bindo]; [|split; [discriminate|intros [R' [A [[_ [] _ _ _] _]]]; congruence]].
  destruct (pt_is_canonical ab) eqn:E4; cbn [negb]; [|split; [discriminate|intros [R' [A' [[_ _ [] _ _] _]]]; congruence]].
  destruct (small C A) eqn:E5; [split; [discriminate|intros [R' [A' [[_ [] _ _ []] _]]]; congruence]|].
  rewrite hash_red. cbn [bindo].
  destruct (peq C _ _) eqn:E6; cbn [negb].
  - split; [intros _|reflexivity]. exists R, A. split; [split; auto|exact E6].
  - split; [discriminate|]. intros [R' [A' [[_ [H1 H2] _ _ _] H3]]].
    assert (R' = R) by congruence. assert (A' = A) by congruence. subst. congruence.
Qed.

Lemma peq_sym P Q : peq C P Q = peq C Q P.
Proof.
  destruct (peq C P Q) eqn:E1, (peq C Q P) eqn:E2; try reflexivity.
  - apply (co_eq C ok) in E1. symmetry in E1. apply (co_eq C ok) in E1. congruence.
  - apply (co_eq C ok) in E2. symmetry in E2. apply (co_eq C ok) in E2. congruence.
Qed.

Lemma eddsa_verify_checks ab msg sig : bytes sig ->
  eddsa_verify_with_checks C sha ab msg sig = Ok tt <->
  exists R A, checks ab sig R A /\ equation (challengeZ sha (firstn 32 sig) ab msg) sig R A.
Proof.
  intros Hs. unfold eddsa_verify_with_checks, checks, equation.
  destruct (Nat.eqb_spec (length sig) 64) as [L|L]; cbn [negb]; [|split; [discriminate|intros [? [? [[] _]]]; congruence]].
  assert (Ls : length (skipn 32 sig) = 32%nat) by (rewrite skipn_length; lia).
  destruct (sc_is_canonical (skipn 32 sig)) eqn:E3; cbn [negb]; [|split; [discriminate|intros [R' [A [[] _]]]; congruence]].
  destruct (pt_is_canonical (firstn 32 sig)) eqn:E1; cbn [negb]; [|split; [discriminate|intros [R' [A [[_ _ [] _ _] _]]]; congruence]].
  destruct (dec_cases (firstn 32 sig)) as [[R [-> ER]]|[-> ER]]; cbn [bindo]; [|split; [discriminate|intros [R [A [[_ [] _ _ _] _]]]; congruence]].
  destruct (small C R) eqn:E2; [split; [discriminate|intros [R' [A [[_ [] _ _ []] _]]]; congruence]|].
  rewrite unmarshal_ok by exact Ls. cbn [sig_try bindo].
  destruct (pt_is_canonical ab) eqn:E4; cbn [negb]; [|split; [discriminate|intros [R' [A' [[_ _ [] _ _] _]]]; congruence]].
  destruct (dec_cases ab) as [[A [-> EA]]|[-> EA]]; cbn [bindo]; [|split; [discriminate|intros [R' [A [[_ [] _ _ _] _]]]; congruence]].
  destruct (small C A) eqn:E5; [split; [discriminate|intros [R' [A' [[_ [] _ _ []] _]]]; congruence]|].
  rewrite set_bytes_red by apply shok. cbn [must bindo]. rewrite peq_sym.
  fold (challengeZ sha (firstn 32 sig) ab msg). 
  destruct (peq C _ _) eqn:E6; cbn [negb].
  - split; [intros _|reflexivity]. exists R, A. split; [split; auto|exact E6].
  - split; [discriminate|]. intros [R' [A' [[_ [H1 H2] _ _ _] H3]]].
    assert (R' = R) by congruence. assert (A' = A) by congruence. subst. congruence.
Qed.

Lemma checks_enc ab sig R A : bytes sig -> bytes ab -> checks ab sig R A -> penc C R = firstn 32 sig /\ penc C A = ab.
Proof.
  intros Hs Ha [_ [H1 H2] [H3 H4] _ [H5 H6]]. rewrite smallE in H5, H6. split.
  - exact (co_dec_enc C ok _ R (bytes_firstn 32 sig Hs) H1 H3 H5).
  - exact (co_dec_enc C ok _ A Ha H2 H4 H6).
Qed.

(** Both verifiers accept exactly the valid signatures. *)
Lemma checks_valid ab msg sig : bytes sig -> bytes ab ->
  (exists R A, checks ab sig R A /\ equation (challengeZ sha (firstn 32 sig) ab msg) sig R A) <-> valid_signature C ok sha ab msg sig.
Proof.
  intros Hs Ha. split.
  - intros [R [A [[L [D1 D2] [C1 C2] Cs [S1 S2]] E]]].
    assert (Ls : length (skipn 32 sig) = 32%nat) by (rewrite skipn_length; lia).
    assert (Lr : length (firstn 32 sig) = 32%nat) by (rewrite firstn_length; lia).
    pose proof (bytes_skipn 32 sig Hs) as Bs. pose proof (le_val_bound _ Bs) as Vs. apply sc_canon in Cs; [|assumption|assumption].
    exists (firstn 32 sig), (le_val (skipn 32 sig)), R, A. split.
    + split; [|exact Lr]. rewrite <- sb_le_bytes by assumption. symmetry. apply firstn_skipn.
    + lia.
    + split; assumption.
    + split.
      * exact (proj1 (canon_spec _ (bytes_firstn 32 sig Hs) Lr) C1).
      * exact (proj1 (canon_spec ab Ha (co_dec_len C ok _ _ D2)) C2).
    + split; [apply small_false; exact S1|]. split; [apply small_false; exact S2|].
      apply (co_eq C ok) in E. rewrite (co_mul_base C ok) in E; [|split; assumption|pose proof order_255; lia].
      rewrite (co_mul C ok) in E by (apply red_scalar || apply red_255). now rewrite red_val in E.
  - intros [rb [s [R [A [[-> Lr] Hsr [D1 D2] [C1 C2] [S1 [S2 E]]]]]]]. exists R, A. unfold checks, equation.
    rewrite firstn_app_exact, skipn_app_exact by assumption.
    apply Forall_app in Hs. destruct Hs as [Hr Hs]. pose proof (co_dec_len C ok _ _ D2) as La.
    assert (Vs : le_val (le_bytes 32 s) = s). { apply le_val_le_bytes_small. pose proof order_255. assert (2 ^ 255 < 256 ^ Z.of_nat 32) by reflexivity. lia. }
    split; [split|].
    + rewrite app_length, Lr, le_bytes_length. reflexivity.
    + split; assumption.
    + split; [exact (proj2 (canon_spec rb Hr Lr) C1)|exact (proj2 (canon_spec ab Ha La) C2)].
    + apply sc_canon; [apply le_bytes_bytes|apply le_bytes_length|]. rewrite Vs. lia.
    + split; apply small_false; [exact S1|exact S2].
    + apply (co_eq C ok). rewrite (co_mul_base C ok); [|apply wf_le_bytes|rewrite Vs; pose proof order_255; lia].
      rewrite Vs, (co_mul C ok) by (apply red_scalar || apply red_255). now rewrite red_val.
Qed.

Lemma schnorr_eddsa ab msg sig : bytes sig -> bytes ab ->
  schnorr_verify_with_checks C sha ab msg sig = Ok tt <-> eddsa_verify_with_checks C sha ab msg sig = Ok tt.
Proof.
  intros Hs Ha. rewrite schnorr_verify_checks, eddsa_verify_checks by assumption.
  split; intros [R [A [H1 H2]]]; exists R, A; (split; [exact H1|]); destruct (checks_enc ab sig R A Hs Ha H1) as [E1 E2].
  - now rewrite E1, E2 in H2.
  - now rewrite E1, E2.
Qed.
End Ed.
