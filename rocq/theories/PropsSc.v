(** Properties C23-C27, C70: scalars of edwards25519. *)
From Coq Require Import ZArith Znumtheory String List Lia Bool.
From Verif Require Import Base Bytes Limb ScLimbs IntModel IntProofs RandModel RandProofs PropsRand ScModel ScProofs ScalarProofs.
Import ListNotations.
Local Open Scope Z_scope.

(** ** Specification *)

(** The order of the base point (RFC 8032, 5.1). *)
Definition order : Z := 2 ^ 252 + 27742317777372353535851937790883648493.

(** 32 bytes, and the little-endian integer they hold ([le_val] of Bytes.v: b0 + 256 b1 + ...). *)
Definition scalar32 (a : list Z) : Prop := Forall (fun b => 0 <= b < 256) a /\ length a = 32%nat.

(** r is the reduced 32-byte encoding of the residue class of x. *)
Definition encodes (r : list Z) (x : Z) : Prop := scalar32 r /\ 0 <= le_val r < order /\ (order | le_val r - x).

Theorem encodes_unique r1 r2 x : encodes r1 x -> encodes r2 x -> r1 = r2.
Proof.
  intros [[B1 L1] [R1 [k1 D1]]] [[B2 L2] [R2 [k2 D2]]]. apply le_val_inj; try assumption; [lia|].
  assert (k1 = k2) by (unfold order in *; nia). subst. lia.
Qed.

Lemma encodes_mod x y : x mod ell = y mod ell -> encodes (le_bytes 32 (x mod ell)) y.
Proof.
  intros E. split; [apply wf_le_bytes|]. rewrite le_val_mod. split; [apply Z.mod_pos_bound; reflexivity|].
  change order with ell. exists (- (y / ell)). rewrite E. pose proof (Z.div_mod y ell ltac:(discriminate)). lia.
Qed.

Lemma example_scalar : scalar32 (repeat 255 32).
Proof. split; [|reflexivity]. apply Forall_forall. intros x Hx. apply repeat_spec in Hx. lia. Qed.

(** ** C23 *)

Theorem C23_arithmetic (a b c : list Z) : scalar32 a -> scalar32 b -> scalar32 c ->
  encodes (scalar_add a b) (le_val a + le_val b) /\
  encodes (scalar_sub a b) (le_val a - le_val b) /\
  encodes (scalar_mul a b) (le_val a * le_val b) /\
  encodes (scalar_neg a) (- le_val a) /\
  encodes (sc_mul_add a b c) (le_val a * le_val b + le_val c).
Proof.
  intros [Ba La] [Bb Lb] [Bc Lc]. unfold scalar_add, scalar_sub, scalar_mul, scalar_neg.
  rewrite sc_add_ok, sc_sub_ok, sc_mul_ok, sc_mul_add_ok by assumption.
  rewrite sc_sub_ok by (try assumption; try apply bytes_repeat0; reflexivity).
  split; [|split; [|split; [|split]]]; apply encodes_mod; reflexivity.
Qed.
Print Assumptions C23_arithmetic.

(** Every intermediate 64-bit result of the four limb programs is exact: nothing wraps. *)
Theorem C23_no_overflow (a b c : list Z) : scalar32 a -> scalar32 b -> scalar32 c ->
  safe_run (load_arg "a" a (load_arg "b" b (load_arg "c" c (fun _ => 0)))) sc_mul_add_prog /\
  safe_run (load_arg "a" a (load_arg "c" c (fun _ => 0))) sc_add_prog /\
  safe_run (load_arg "a" a (load_arg "c" c (fun _ => 0))) sc_sub_prog /\
  safe_run (load_arg "a" a (load_arg "b" b (fun _ => 0))) sc_mul_prog.
Proof.
  intros [Ba La] [Bb Lb] [Bc Lc].
  split; [|split; [|split]].
  - apply (run_safe_mul_add _ a b c); try assumption; repeat (rewrite load_arg_other by (try tok; discriminate)); apply load_arg_limbs; tok.
  - apply (run_safe_add _ a c); try assumption; repeat (rewrite load_arg_other by (try tok; discriminate)); apply load_arg_limbs; tok.
  - apply (run_safe_sub _ a c); try assumption; repeat (rewrite load_arg_other by (try tok; discriminate)); apply load_arg_limbs; tok.
  - apply (run_safe_mul _ a b); try assumption; repeat (rewrite load_arg_other by (try tok; discriminate)); apply load_arg_limbs; tok.
Qed.
Print Assumptions C23_no_overflow.

(** Two unreduced operands. *)
Example C23_nonvacuous :
  scalar32 (repeat 255 32) /\ le_val (scalar_mul (repeat 255 32) (repeat 255 32)) = (2 ^ 256 - 1) * (2 ^ 256 - 1) mod order /\
  le_val (scalar_neg (1 :: repeat 0 31)) = order - 1.
Proof. split; [exact example_scalar|]. vm_compute. auto. Qed.

(** ** C24 *)

Theorem C24_inverse (a b : list Z) : scalar32 a -> scalar32 b ->
  exists i d, scalar_inv a = Ok i /\ scalar_div b a = Ok d /\ scalar32 i /\ 0 <= le_val i < order /\ scalar32 d /\ 0 <= le_val d < order /\
   (~ (order | le_val a) -> (order | le_val i * le_val a - 1) /\ (order | le_val d * le_val a - le_val b)) /\
   ((order | le_val a) -> le_val i = 0 /\ le_val d = 0).
Proof.
  intros [Ba La] [Bb Lb]. assert (Wa : wf a) by (split; assumption). unfold scalar_div. rewrite scalar_inv_pow by assumption. cbn [bindo].
  do 2 eexists. split; [reflexivity|]. split; [reflexivity|].
  pose proof (wf_le_bytes (le_val a ^ (ell - 2) mod ell)) as [W1 W2]. rewrite sc_mul_ok by assumption.
  rewrite !le_val_mod. change order with ell.
  split; [apply wf_le_bytes|]. split; [apply Z.mod_pos_bound; reflexivity|]. split; [apply wf_le_bytes|]. split; [apply Z.mod_pos_bound; reflexivity|].
  split.
  - intros Hn. assert (Hm : le_val a mod ell <> 0) by (intros E; apply Hn; apply Z.mod_divide; [discriminate|exact E]).
    pose proof (pow_inverse (le_val a) Hm) as Hi. set (x := le_val a ^ (ell - 2) mod ell) in *.
    assert (G : (ell | x * le_val a - 1)).
    { apply Z.mod_divide; [discriminate|]. rewrite Zminus_mod. rewrite (Z.mul_comm x), Hi. reflexivity. }
    split; [exact G|]. destruct G as [k Hk].
    pose proof (Z.div_mod (le_val b * x) ell ltac:(discriminate)) as Hd.
    exists (le_val b * k - (le_val b * x / ell) * le_val a).
    replace ((le_val b * x) mod ell) with (le_val b * x - ell * (le_val b * x / ell)) by lia.
    replace ((le_val b * x - ell * (le_val b * x / ell)) * le_val a - le_val b) with (le_val b * (x * le_val a - 1) - ell * (le_val b * x / ell) * le_val a) by ring.
    rewrite Hk. ring.
  - intros Hd. assert (E : le_val a ^ (ell - 2) mod ell = 0).
    { rewrite <- Primes.pow_mod by reflexivity. apply Z.mod_divide in Hd; [|discriminate]. rewrite Hd.
      rewrite Z.pow_0_l by reflexivity. reflexivity. }
    rewrite E. rewrite Z.mul_0_r. split; reflexivity.
Qed.
Print Assumptions C24_inverse.

Example C24_nonvacuous : scalar32 (3 :: repeat 0 31) /\ ~ (order | le_val (3 :: repeat 0 31)) /\
  exists i, scalar_inv (3 :: repeat 0 31) = Ok i /\ (order | le_val i * 3 - 1).
Proof.
  assert (H1 : scalar32 (3 :: repeat 0 31)) by (split; [|reflexivity]; repeat (constructor; [lia|]); constructor).
  assert (H2 : ~ (order | le_val (3 :: repeat 0 31))).
  { intros H. apply Z.mod_divide in H; [|discriminate]. vm_compute in H. discriminate H. }
  split; [exact H1|]. split; [exact H2|]. destruct (C24_inverse _ _ H1 H1) as [i [d [E [_ [_ [_ [_ [_ [H _]]]]]]]]].
  exists i. split; [exact E|]. exact (proj1 (H H2)).
Qed.

(** ** C25 *)

Theorem C25_canonical (sb : list Z) : Forall (fun b => 0 <= b < 256) sb ->
  (sc_is_canonical sb = true <-> length sb = 32%nat /\ le_val sb < order).
Proof. intros H. exact (sc_is_canonical_ok sb H). Qed.
Print Assumptions C25_canonical.

(** l - 1 is accepted, l and l + 1 are not, 2^252 + ... with a larger low part neither. *)
Example C25_nonvacuous :
  sc_is_canonical (le_bytes 32 (order - 1)) = true /\ sc_is_canonical (le_bytes 32 order) = false /\
  sc_is_canonical (le_bytes 32 (order + 1)) = false /\ sc_is_canonical (le_bytes 31 5) = false.
Proof. vm_compute. auto. Qed.

(** ** C26 *)

Theorem C26_marshal (v : list Z) : scalar32 v -> exists e, scalar_marshal v = Ok e /\ encodes e (le_val v).
Proof. intros H. eexists. split; [now apply scalar_marshal_ok|]. apply encodes_mod. reflexivity. Qed.
Print Assumptions C26_marshal.

(** Decoding accepts exactly the 32-byte strings and stores them as they are; a rejected input changes nothing. *)
Theorem C26_unmarshal (recv data : list Z) :
  (fst (scalar_unmarshal recv data) = Ok tt <-> length data = 32%nat) /\
  (length data = 32%nat -> snd (scalar_unmarshal recv data) = data) /\
  (length data <> 32%nat -> fst (scalar_unmarshal recv data) = Err WrongSize /\ snd (scalar_unmarshal recv data) = recv).
Proof.
  unfold scalar_unmarshal. destruct (Nat.eqb_spec (length data) 32) as [E|E]; cbn [negb fst snd];
    repeat split; try congruence; try tauto.
Qed.
Print Assumptions C26_unmarshal.

(** Round trips: decode after encode is congruent; encode after decode gives back exactly the canonical strings. *)
Theorem C26_round_trips (v b recv : list Z) : scalar32 v -> scalar32 b ->
  (forall e, scalar_marshal v = Ok e ->
     fst (scalar_unmarshal recv e) = Ok tt /\ (order | le_val (snd (scalar_unmarshal recv e)) - le_val v)) /\
  (scalar_marshal (snd (scalar_unmarshal recv b)) = Ok b <-> le_val b < order).
Proof.
  intros Hv Hb. split.
  - intros e He. destruct (C26_marshal v Hv) as [e' [He' [[Be Le] [Re De]]]]. rewrite He in He'. injection He' as <-.
    unfold scalar_unmarshal. rewrite Le. cbn [Nat.eqb negb fst snd]. split; [reflexivity|exact De].
  - unfold scalar_unmarshal. destruct Hb as [Bb Lb]. rewrite Lb. cbn [Nat.eqb negb snd].
    rewrite scalar_marshal_ok by (split; assumption). split.
    + intros E0. assert (E : le_bytes 32 (le_val b mod ell) = b) by congruence. apply (f_equal le_val) in E. rewrite le_val_mod in E. change order with ell. rewrite <- E.
      apply Z.mod_pos_bound. reflexivity.
    + intros H. apply (f_equal (@Ok int_error (list Z))). pose proof (le_val_bound b Bb) as B. rewrite Z.mod_small by (change ell with order; lia).
      rewrite <- Lb. now apply le_bytes_le_val.
Qed.
Print Assumptions C26_round_trips.

Example C26_nonvacuous :
  scalar_marshal (repeat 255 32) = Ok (le_bytes 32 ((2 ^ 256 - 1) mod order)) /\
  scalar_marshal (5 :: repeat 0 31) = Ok (5 :: repeat 0 31) /\ fst (scalar_unmarshal (repeat 0 32) (repeat 1 31)) = Err WrongSize.
Proof. vm_compute. auto. Qed.

(** ** C27 *)

(** What the setters store in an arbitrary receiver: the minimal-length encoding of the residue, followed by the
    receiver's own remaining bytes.  [setter r x]: r is that mixture for the residue x of the argument. *)
Definition residue_of (x a : Z) : Prop := 0 <= x < order /\ (order | x - a).
Definition setter (recv r : list Z) (x : Z) : Prop :=
  exists n, (n <= 32)%nat /\ scalar32 r /\ le_val (firstn n r) = x /\ skipn n r = skipn n recv /\
    (forall m, (m < n)%nat -> (1 <= m)%nat -> 256 ^ Z.of_nat m <= x).

Lemma set_int_setter recv x bo : scalar32 recv -> 0 <= x < ell ->
  exists r, set_int recv (mkInt x ell bo) = Ok r /\ setter recv r x.
Proof.
  intros [Br Lr] Hx. rewrite set_int_ok by (try assumption; discriminate). eexists. split; [reflexivity|].
  assert (N : (nbytes x <= 32)%nat). { apply nbytes_le_iff; [lia|]. rewrite Z.abs_eq by lia. pose proof ell_256. lia. }
  exists (nbytes x). split; [exact N|]. pose proof (to_bytes_le_length x) as Ll. repeat split.
  - apply bytes_app; [apply to_bytes_le_bytes|now apply bytes_skipn].
  - rewrite app_length, skipn_length, Ll. lia.
  - rewrite firstn_app, Ll, Nat.sub_diag, firstn_O, app_nil_r, firstn_all2 by lia. rewrite to_bytes_le_val. apply Z.abs_eq. lia.
  - rewrite skipn_app, Ll, Nat.sub_diag, skipn_O, skipn_all2 by lia. reflexivity.
  - intros m Hm H1. destruct (Z.lt_ge_cases x (256 ^ Z.of_nat m)) as [Hlt|]; [exfalso|lia].
    assert (nbytes x <= m)%nat; [|lia]. apply nbytes_le_iff; [lia|]. rewrite Z.abs_eq; lia.
Qed.

(** The value stored is the residue exactly when the receiver's untouched bytes are zero, e.g. for a fresh scalar. *)
Theorem C27_setters_partial (recv : list Z) (v : Z) (b : list Z) : scalar32 recv -> - 2 ^ 63 <= v < 2 ^ 63 -> Forall (fun b => 0 <= b < 256) b ->
  (exists r x, scalar_set_int64 recv v = Ok r /\ residue_of x v /\ setter recv r x /\ (recv = repeat 0 32 -> encodes r v)) /\
  (exists r x, scalar_set_bytes recv b = Ok r /\ residue_of x (le_val b) /\ setter recv r x /\ (recv = repeat 0 32 -> encodes r (le_val b))) /\
  (forall St (R : stream St) fuel s, stream_law R ->
     (scalar_pick St R fuel recv s = OutOfFuel /\ random_int St R fuel order s = OutOfFuel) \/
     exists r x s', scalar_pick St R fuel recv s = Ok (r, s') /\ random_int St R fuel order s = Ok (x, s') /\ 1 <= x < order /\
        setter recv r x /\ (recv = repeat 0 32 -> le_val r = x)).
Proof.
  intros Hr Hv Hb.
  assert (Fresh : forall r x, setter recv r x -> recv = repeat 0 32 -> scalar32 r /\ le_val r = x).
  { intros r x [n [Hn [Sr [E1 [E2 _]]]]] E. split; [exact Sr|]. rewrite <- (firstn_skipn n r), le_val_app, E1, E2, E.
    assert (skipn n (repeat 0 32) = repeat 0 (32 - n)) as ->.
    { clear. revert n. assert (G : forall m n, skipn n (repeat 0 m) = repeat 0 (m - n)).
      { induction m as [|m IH]; intros [|n]; try reflexivity. cbn [repeat skipn]. rewrite IH. reflexivity. } intros n. apply G. }
    rewrite le_val_repeat0. lia. }
  assert (Enc : forall r x a, residue_of x a -> scalar32 r /\ le_val r = x -> encodes r a).
  { intros r x a [H1 H2] [H3 H4]. subst x. split; [exact H3|]. split; assumption. }
  split; [|split].
  - unfold scalar_set_int64, new_int64, init64. rewrite PRIME_ORDER_ell.
    assert (Hres : exists x, reduce64 v ell = Ok x /\ residue_of x v).
    { unfold reduce64. destruct (Z.ltb_spec v 0) as [Hneg|Hpos].
      - rewrite brem_pos by reflexivity. cbn [bindo]. exists (v + ell). split.
        + rewrite <- (Z.opp_involutive v) at 1. rewrite Z.rem_opp_l by discriminate. rewrite Z.rem_small by (unfold ell; lia).
          rewrite Z.abs_eq by discriminate. f_equal. lia.
        + split; [unfold ell, order; lia|]. exists 1. change order with ell. lia.
      - rewrite brem_pos by reflexivity. exists v. split; [rewrite Z.rem_small by (unfold ell; lia); reflexivity|].
        split; [unfold order; lia|]. exists 0. lia. }
    destruct Hres as [x [E Hx]]. rewrite E. cbn [bindo].
    destruct (set_int_setter recv x BigEndian Hr (proj1 Hx)) as [r [Er Sr]]. exists r, x. rewrite Er. repeat split; try apply Hx; try assumption;
      pose proof (Enc _ _ _ Hx (Fresh _ _ Sr ltac:(assumption))) as [P1 [P2 P3]]; try apply P1; try apply P2; exact P3.
  - unfold scalar_set_bytes, new_int_bytes, IntModel.set_bytes. cbn [ibo im]. rewrite reverse_same by (now rewrite repeat_length). cbn [bindo].
    rewrite brem_pos by reflexivity. cbn [bindo]. unfold be_val. rewrite rev_involutive, PRIME_ORDER_ell.
    rewrite rem_nonneg by (try reflexivity; apply (le_val_bound b Hb)).
    set (x := le_val b mod ell). assert (Hx : residue_of x (le_val b)).
    { split; [apply Z.mod_pos_bound; reflexivity|]. exists (- (le_val b / ell)). change order with ell. unfold x.
      pose proof (Z.div_mod (le_val b) ell ltac:(discriminate)). lia. }
    destruct (set_int_setter recv x LittleEndian Hr (proj1 Hx)) as [r [Er Sr]]. exists r, x. rewrite Er. repeat split; try apply Hx; try assumption;
      pose proof (Enc _ _ _ Hx (Fresh _ _ Sr ltac:(assumption))) as [P1 [P2 P3]]; try apply P1; try apply P2; exact P3.
  - intros St R fuel s HR. change order with PRIME_ORDER. unfold scalar_pick.
    pose proof (fun x s' => C18_random_int St R fuel PRIME_ORDER s s' x HR ltac:(reflexivity)) as Spec.
    pose proof (random_int_total St R HR fuel PRIME_ORDER s) as Tot.
    destruct (random_int St R fuel PRIME_ORDER s) as [[x s']|e| |] eqn:E; try contradiction; [right|left; split; reflexivity].
    destruct (proj1 (Spec x s') eq_refl) as [k [_ [_ [Hx _]]]].
    cbn [bindo]. unfold new_int. rewrite brem_pos by reflexivity. cbn [bindo]. rewrite PRIME_ORDER_ell in *.
    rewrite Z.rem_small by lia. destruct (set_int_setter recv x BigEndian Hr ltac:(lia)) as [r [Er Sr]]. rewrite Er. cbn [bindo].
    exists r, x, s'. repeat split; try reflexivity; try lia; try exact Sr. intros Er0. apply (Fresh _ _ Sr Er0).
Qed.
Print Assumptions C27_setters_partial.

(** With a non-zero receiver the stale high bytes stay: set_int64(1) on a scalar holding 2^248 stores 2^248 + 1, and
    set_bytes([7]) on an all-ones scalar stores a value that is not congruent to 7. *)
Theorem C27_setters_refuted :
  (exists recv r, scalar32 recv /\ le_val recv < order /\ scalar_set_int64 recv 1 = Ok r /\ ~ encodes r 1) /\
  (exists recv r, scalar32 recv /\ scalar_set_bytes recv [7] = Ok r /\ ~ encodes r 7) /\
  (exists recv r St (R : stream St) s s', scalar32 recv /\ stream_law R /\
      scalar_pick St R 1 recv s = Ok (r, s') /\ forall x, random_int St R 1 order s = Ok (x, s') -> le_val r <> x).
Proof.
  assert (S1 : scalar32 (repeat 0 31 ++ [1])) by (split; [|reflexivity]; repeat (constructor; [lia|]); constructor).
  split; [|split].
  - exists (repeat 0 31 ++ [1]), (1 :: repeat 0 30 ++ [1]). split; [exact S1|]. split; [vm_compute; reflexivity|]. split; [vm_compute; reflexivity|].
    intros [_ [_ D]]. apply Z.mod_divide in D; [|discriminate]. vm_compute in D. discriminate D.
  - exists (repeat 1 32), (7 :: repeat 1 31). split; [split; [|reflexivity]; repeat (constructor; [lia|]); constructor|].
    split; [vm_compute; reflexivity|]. intros [_ [_ D]]. apply Z.mod_divide in D; [|discriminate]. vm_compute in D. discriminate D.
  - (* a stream whose 32 bytes are 0,...,0,5: the drawn integer is 5 *)
    exists (repeat 0 31 ++ [1]), (5 :: repeat 0 30 ++ [1]), unit,
      (Stream (fun s src => (Some (if Nat.eqb (length src) 32 then repeat 0 31 ++ [5] else src), s))), tt, tt.
    split; [exact S1|]. split.
    + intros s src o s' H. cbn [xks] in H. injection H as <- _. destruct (Nat.eqb_spec (length src) 32) as [E|E]; [|auto].
      split; [now rewrite E|]. intros _. repeat (constructor; [unfold is_byte; lia|]). constructor.
    + split; [vm_compute; reflexivity|]. intros x Hx. vm_compute in Hx. injection Hx as <-. vm_compute. discriminate.
Qed.
Print Assumptions C27_setters_refuted.

Example C27_nonvacuous : scalar32 (repeat 0 32) /\ scalar_set_int64 (repeat 0 32) (-1) = Ok (le_bytes 32 (order - 1)) /\
  scalar_set_bytes (repeat 0 32) (repeat 255 40) = Ok (le_bytes 32 ((2 ^ 320 - 1) mod order)).
Proof. split; [apply (wf_le_bytes 0)|]. vm_compute. auto. Qed.

(** ** C70 *)

(** new_scalar_int stores v mod 8l in 32 bytes; PRIME_ORDER_SCALAR and COFACTOR_SCALAR therefore hold l and 8 exactly
    (not reduced modulo l, so l * P is computed with the integer l). *)
Theorem C70_scalar_constants (v : Z) : 0 <= v ->
  exists r, new_scalar_int v = Ok r /\ scalar32 r /\ le_val r = v mod (8 * order).
Proof.
  intros Hv. unfold new_scalar_int, new_int. change FULL_ORDER with (8 * order). rewrite brem_pos by reflexivity. cbn [bindo].
  rewrite rem_nonneg by (try assumption; reflexivity). pose proof (Z.mod_pos_bound v (8 * order) ltac:(reflexivity)) as B.
  assert (M : 8 * order <= 256 ^ 32) by discriminate.
  rewrite set_int_ok by (try assumption; reflexivity). eexists. split; [reflexivity|].
  set (x := v mod (8 * order)) in *.
  assert (N : (nbytes x <= 32)%nat). { apply nbytes_le_iff; [lia|]. rewrite Z.abs_eq by lia. change (Z.of_nat 32) with 32. lia. }
  assert (Sk : skipn (nbytes x) scalar_default = repeat 0 (32 - nbytes x)).
  { unfold scalar_default. assert (G : forall m n, skipn n (repeat 0 m) = repeat 0 (m - n)).
      { induction m as [|m IH]; intros [|n]; try reflexivity. cbn [repeat skipn]. rewrite IH. reflexivity. } apply G. }
  rewrite Sk. split; [split|].
  - apply bytes_app; [apply to_bytes_le_bytes|apply bytes_repeat0].
  - rewrite app_length, to_bytes_le_length, repeat_length. lia.
  - rewrite le_val_app, le_val_repeat0, to_bytes_le_val, Z.abs_eq by lia. lia.
Qed.
Print Assumptions C70_scalar_constants.

Example C70_nonvacuous : new_scalar_int order = Ok (le_bytes 32 order) /\ new_scalar_int 8 = Ok (8 :: repeat 0 31) /\
  new_scalar_int (9 * order) = Ok (le_bytes 32 order).
Proof. vm_compute. auto. Qed.
