(** Properties C11-C17, C67, C68: src/group/integer_field/integer.rs. *)
From Coq Require Import ZArith List Lia Znumtheory.
From Verif Require Import Base Bytes IntModel IntProofs.
Import ListNotations.
Local Open Scope Z_scope.

(** ** Specification *)

(** r is the residue of x modulo m. *)
Definition residue (m x r : Z) : Prop := 0 <= r < m /\ (m | r - x).

(** i holds, over modulus m, the residue of x. *)
Definition holds (m x : Z) (i : Int) : Prop := im i = m /\ residue m x (iv i).

Lemma residue_mod m x : 0 < m -> residue m x (x mod m).
Proof.
  intros Hm. split; [apply Z.mod_pos_bound; lia|]. exists (- (x / m)). pose proof (Z.div_mod x m ltac:(lia)). lia.
Qed.

Lemma residue_unique m x r1 r2 : residue m x r1 -> residue m x r2 -> r1 = r2.
Proof.
  intros [H1 [k1 E1]] [H2 [k2 E2]]. assert (r1 - r2 = (k1 - k2) * m) by lia.
  destruct (Z.eq_dec (k1 - k2) 0) as [e|n]; [rewrite e in *; lia|].
  assert (1 <= k1 - k2 \/ k1 - k2 <= -1) as [|] by lia; nia.
Qed.

Lemma residue_is_mod m x r : residue m x r -> r = x mod m.
Proof. intros H. apply (residue_unique m x); [exact H|]. apply residue_mod. destruct H; lia. Qed.

(** ** C11 *)

(** Arithmetic expressions over the operations, evaluated by the code and over the integers.  The receiver of the
    mutating operations is an arbitrary Int [rcv]. *)
Inductive expr :=
| ELeaf (k : nat)
| EAdd (a b : expr) | ESub (a b : expr) | EMul (a b : expr) | ENeg (a : expr) | EZero (a : expr) | EOne (a : expr).

Fixpoint eval_int (rcv : Int) (env : nat -> Int) (e : expr) : outcome int_error Int :=
  match e with
  | ELeaf k => Ok (env k)
  | EAdd a b => bindo (eval_int rcv env a) (fun x => bindo (eval_int rcv env b) (fun y => int_add x y))
  | ESub a b => bindo (eval_int rcv env a) (fun x => bindo (eval_int rcv env b) (fun y => int_sub rcv x y))
  | EMul a b => bindo (eval_int rcv env a) (fun x => bindo (eval_int rcv env b) (fun y => int_mul x y))
  | ENeg a => bindo (eval_int rcv env a) (fun x => Ok (int_neg rcv x))
  | EZero a => bindo (eval_int rcv env a) (fun x => Ok (int_zero x))
  | EOne a => bindo (eval_int rcv env a) (fun x => Ok (int_one x))
  end.

Fixpoint eval_Z (env : nat -> Z) (e : expr) : Z :=
  match e with
  | ELeaf k => env k
  | EAdd a b => eval_Z env a + eval_Z env b
  | ESub a b => eval_Z env a - eval_Z env b
  | EMul a b => eval_Z env a * eval_Z env b
  | ENeg a => - eval_Z env a
  | EZero _ => 0
  | EOne _ => 1
  end.

Theorem C11_modular_arithmetic (m : Z) (rcv : Int) (env : nat -> Int) (zenv : nat -> Z) (e : expr) :
  1 < m -> (forall k, holds m (zenv k) (env k)) ->
  exists r, eval_int rcv env e = Ok r /\ holds m (eval_Z zenv e) r.
Proof.
  intros Hm Henv. induction e as [k|a [x [Ea [Ma Ha]]] b [y [Eb [Mb Hb]]]|a [x [Ea [Ma Ha]]] b [y [Eb [Mb Hb]]]
    |a [x [Ea [Ma Ha]]] b [y [Eb [Mb Hb]]]|a [x [Ea [Ma Ha]]]|a [x [Ea [Ma Ha]]]|a [x [Ea [Ma Ha]]]]; cbn [eval_int eval_Z].
  - exists (env k). split; [reflexivity|apply Henv].
  - rewrite Ea, Eb. cbn [bindo]. assert (valid x /\ 0 <= iv y) as [V1 V2] by (unfold valid; rewrite Ma; destruct Ha, Hb; lia).
    rewrite (int_add_ok _ _ V1 V2). eexists; split; [reflexivity|]. split; [exact Ma|]. cbn [iv].
    rewrite (residue_is_mod _ _ _ Ha), (residue_is_mod _ _ _ Hb), Ma, <- Z.add_mod by lia. apply residue_mod; lia.
  - rewrite Ea, Eb. cbn [bindo]. rewrite int_sub_ok by lia. eexists; split; [reflexivity|]. split; [exact Ma|]. cbn [iv].
    rewrite (residue_is_mod _ _ _ Ha), (residue_is_mod _ _ _ Hb), Ma, <- Zminus_mod by lia. apply residue_mod; lia.
  - rewrite Ea, Eb. cbn [bindo]. assert (valid x /\ 0 <= iv y) as [V1 V2] by (unfold valid; rewrite Ma; destruct Ha, Hb; lia).
    rewrite (int_mul_ok _ _ V1 V2). eexists; split; [reflexivity|]. split; [exact Ma|]. cbn [iv].
    rewrite (residue_is_mod _ _ _ Ha), (residue_is_mod _ _ _ Hb), Ma, <- Z.mul_mod by lia. apply residue_mod; lia.
  - rewrite Ea. cbn [bindo]. assert (V1 : valid x) by (unfold valid; rewrite Ma; destruct Ha; lia).
    rewrite (int_neg_ok _ _ V1). eexists; split; [reflexivity|]. split; [exact Ma|]. cbn [iv].
    replace (- iv x) with (0 - iv x) by lia.
    change (- eval_Z zenv a) with (0 - eval_Z zenv a).
    rewrite (residue_is_mod _ _ _ Ha), Ma, Zminus_mod_idemp_r. apply residue_mod; lia.
  - rewrite Ea. cbn [bindo]. eexists; split; [reflexivity|]. split; [exact Ma|]. split; cbn [iv int_zero]; [lia|]. exists 0; lia.
  - rewrite Ea. cbn [bindo]. eexists; split; [reflexivity|]. split; [exact Ma|]. split; cbn [iv int_one]; [lia|]. exists 0; lia.
Qed.
Print Assumptions C11_modular_arithmetic.

Theorem C11_inverse (m : Z) (i a : Int) : 0 < m -> im a = m -> 0 <= iv a < m ->
  (Z.gcd (iv a) m = 1 -> exists r, int_inv i a = Ok r /\ im r = m /\ 0 <= iv r < m /\ (m | iv r * iv a - 1)) /\
  (Z.gcd (iv a) m <> 1 -> int_inv i a = Panic).
Proof.
  intros Hm Ea Ha. unfold int_inv. rewrite Ea. destruct (Z.ltb_spec m 0); [lia|]. split; intros Hg.
  - destruct (mod_inverse_ok (iv a) m ltac:(lia) Hm Hg) as [x [Ex [Hx Hc]]]. rewrite Ex. cbn [of_option bindo].
    eexists; split; [reflexivity|]. cbn [iv im]. repeat split; try lia.
    apply Z.mod_divide; [lia|]. rewrite Zminus_mod, Hc, <- Zminus_mod, Z.sub_diag. apply Z.mod_0_l; lia.
  - rewrite mod_inverse_none by (try lia; exact Hg). reflexivity.
Qed.
Print Assumptions C11_inverse.

(** one() leaves the field when m = 1: the hypothesis 1 < m of the theorem above cannot be weakened. *)
Theorem C11_one_modulus_one_refuted : exists i, im i = 1 /\ 0 <= iv i < im i /\ ~ (0 <= iv (int_one i) < im (int_one i)).
Proof. exists (mkInt 0 1 BigEndian). simpl. lia. Qed.
Print Assumptions C11_one_modulus_one_refuted.

Example C11_nonvacuous :
  (forall k, holds 7 (Z.of_nat k - 9) ((fun k => mkInt ((Z.of_nat k - 9) mod 7) 7 BigEndian) k)) /\
  eval_int (mkInt 3 11 LittleEndian) (fun k => mkInt ((Z.of_nat k - 9) mod 7) 7 BigEndian)
    (ESub (EMul (ELeaf 1) (ELeaf 2)) (ENeg (EOne (ELeaf 0)))) = Ok (mkInt 1 7 LittleEndian) /\
  int_inv (mkInt 0 0 BigEndian) (mkInt 3 7 BigEndian) = Ok (mkInt 5 7 BigEndian) /\
  int_inv (mkInt 0 0 BigEndian) (mkInt 2 4 BigEndian) = Panic.
Proof. split; [|vm_compute; auto]. intros k. split; [reflexivity|]. apply residue_mod; lia. Qed.

(** ** C12 *)

Theorem C12_constructors_partial (v m : Z) (i : Int) (a : list Z) : 0 < m -> im i = m -> bytes a ->
  (0 <= v ->
     (exists r, new_int v m = Ok r /\ holds m v r) /\ (exists r, new_int64 v m = Ok r /\ holds m v r) /\
     (exists r, set_int64 i v = Ok r /\ holds m v r) /\ (exists r, set_uint64 i v = Ok r /\ holds m v r)) /\
  (v < 0 -> ~ (m | v) ->
     (exists r, new_int64 v m = Ok r /\ holds m v r) /\ (exists r, set_int64 i v = Ok r /\ holds m v r)) /\
  (exists r, set_bytes i a = Ok r /\
     holds m (match ibo i with BigEndian => be_val a | LittleEndian => le_val a end) r).
Proof.
  intros Hm Em Hb. split; [|split].
  - intros Hv. unfold new_int, new_int64, init64, set_int64, set_uint64. rewrite Em.
    rewrite !reduce64_nonneg, !brem_pos, !rem_nonneg by lia. cbn [bindo].
    repeat split; eexists; (split; [reflexivity|]); (split; [assumption || reflexivity|]); cbn [iv]; apply residue_mod; lia.
  - intros Hv Hd. unfold new_int64, init64, set_int64. rewrite Em, !reduce64_neg by lia. cbn [bindo].
    destruct (Z.eqb_spec (v mod m) 0) as [E|E].
    + exfalso. apply Hd. apply Z.mod_divide; lia.
    + repeat split; eexists; (split; [reflexivity|]); (split; [assumption || reflexivity|]); cbn [iv]; apply residue_mod; lia.
  - unfold set_bytes. destruct (ibo i).
    + rewrite reverse_same by apply repeat_length. cbn [bindo]. rewrite Em, brem_pos by lia. cbn [bindo].
      eexists; split; [reflexivity|]. split; [reflexivity|]. cbn [iv]. unfold be_val. rewrite rev_involutive.
      pose proof (le_val_bound a Hb). rewrite rem_nonneg by lia. apply residue_mod; lia.
    + cbn [bindo]. rewrite Em, brem_pos by lia. cbn [bindo].
      eexists; split; [reflexivity|]. split; [reflexivity|]. cbn [iv].
      pose proof (be_val_bound a Hb). rewrite rem_nonneg by lia. apply residue_mod; lia.
Qed.
Print Assumptions C12_constructors_partial.

(** new_int of a negative number is out of range exactly when m does not divide it; new_int64 / set_int64 of a
    negative multiple of m store m itself. *)
Theorem C12_negative_exact (v m : Z) : 0 < m -> v < 0 ->
  (exists r, new_int v m = Ok r /\ im r = m /\ (0 <= iv r < m <-> (m | v))) /\
  ((m | v) -> exists r, new_int64 v m = Ok r /\ iv r = m).
Proof.
  intros Hm Hv. split.
  - unfold new_int. rewrite brem_pos by lia. cbn [bindo]. eexists; split; [reflexivity|]. split; [reflexivity|]. cbn [iv].
    pose proof (rem_abs_bound v m Hm). pose proof (rem_mod v m Hm) as Hc. split; intros H0.
    + assert (Z.rem v m <= 0).
      { destruct (Z.eq_dec (Z.rem v m) 0) as [|n]; [lia|].
        pose proof (Z.rem_sign_nz v m ltac:(lia) n). destruct (Z.rem v m); simpl in *; try lia. }
      assert (E : Z.rem v m = 0) by lia. rewrite E, Z.mod_0_l in Hc by lia. apply Z.mod_divide; lia.
    + apply Z.rem_divide in H0; lia.
  - intros Hd. unfold new_int64, init64. rewrite reduce64_neg by lia. apply Z.mod_divide in Hd; [|lia].
    rewrite Hd. cbn [Z.eqb bindo]. eexists; split; reflexivity.
Qed.
Print Assumptions C12_negative_exact.

Theorem C12_constructors_refuted :
  (exists v m r, 0 < m /\ new_int v m = Ok r /\ ~ residue m v (iv r)) /\
  (exists v m r, 0 < m /\ new_int64 v m = Ok r /\ ~ residue m v (iv r)) /\
  (exists i v r, 0 < im i /\ set_int64 i v = Ok r /\ ~ residue (im i) v (iv r)) /\
  (exists i n r, 0 < im i /\ set_string i (Some n) None = Ok r /\ ~ residue (im i) n (iv r)).
Proof.
  split; [|split; [|split]].
  - exists (-1), 7, (mkInt (-1) 7 BigEndian). split; [lia|]. split; [reflexivity|]. unfold residue; simpl; lia.
  - exists (-7), 7, (mkInt 7 7 BigEndian). split; [lia|]. split; [reflexivity|]. unfold residue; simpl; lia.
  - exists (mkInt 0 7 BigEndian), (-14), (mkInt 7 7 BigEndian). split; [simpl; lia|]. split; [reflexivity|]. unfold residue; simpl; lia.
  - exists (mkInt 0 7 BigEndian), 10, (mkInt 10 7 BigEndian). split; [simpl; lia|]. split; [reflexivity|]. unfold residue; simpl; lia.
Qed.
Print Assumptions C12_constructors_refuted.

Example C12_nonvacuous :
  0 < 7 /\ bytes [200; 1] /\ -5 < 0 /\ ~ (7 | -5) /\
  new_int64 (-5) 7 = Ok (mkInt 2 7 BigEndian) /\ set_bytes (mkInt 0 7 LittleEndian) [200; 1] = Ok (mkInt 1 7 LittleEndian).
Proof.
  repeat split; try lia; try (vm_compute; auto; fail).
  - repeat constructor; unfold is_byte; lia.
  - intros [k Hk]. lia.
Qed.

(** ** C13 *)

(** What div computes: the product. *)
Theorem C13_div_is_product (i a b : Int) : 0 < im i -> 0 <= iv a -> 0 <= iv b ->
  exists r, int_div i a b = Ok r /\ holds (im i) (iv a * iv b) r.
Proof.
  intros Hm Ha Hb. unfold int_div. rewrite brem_pos by lia. cbn [bindo]. eexists; split; [reflexivity|].
  split; [reflexivity|]. cbn [iv]. rewrite rem_nonneg by nia. apply residue_mod; lia.
Qed.
Print Assumptions C13_div_is_product.

(** The quotient is right exactly when b^2 = 1 or the numerator makes up for it. *)
Theorem C13_div_partial (i a b r : Int) : 0 < im i -> 0 <= iv a -> 0 <= iv b -> int_div i a b = Ok r ->
  ((im i | iv r * iv b - iv a) <-> (im i | iv a * (iv b * iv b - 1))).
Proof.
  intros Hm Ha Hb E. destruct (C13_div_is_product i a b Hm Ha Hb) as [r' [E' [Em [Hr [k Hk]]]]].
  rewrite E in E'. injection E' as E'; subst r'.
  replace (iv r) with (iv a * iv b + k * im i) by lia.
  replace ((iv a * iv b + k * im i) * iv b - iv a) with (iv a * (iv b * iv b - 1) + (k * iv b) * im i) by ring.
  split; intros H.
  - replace (iv a * (iv b * iv b - 1)) with (iv a * (iv b * iv b - 1) + (k * iv b) * im i - (k * iv b) * im i) by ring.
    apply Z.divide_sub_r; [exact H|apply Z.divide_factor_r].
  - apply Z.divide_add_r; [exact H|apply Z.divide_factor_r].
Qed.
Print Assumptions C13_div_partial.

(** set_string: a string that does not parse is refused; without a denominator the number is stored as it is; with one,
    the product is stored. *)
Theorem C13_set_string_partial (i : Int) :
  (forall n d, n = None \/ d = Some None -> set_string i n d = Err ParseError) /\
  (forall n, set_string i (Some n) None = Ok (mkInt n (im i) (ibo i))) /\
  (forall n d, 0 < im i -> 0 <= n -> 0 <= d ->
     exists r, set_string i (Some n) (Some (Some d)) = Ok r /\ ibo r = ibo i /\ holds (im i) (n * d) r).
Proof.
  split; [|split; [reflexivity|]].
  - intros [n|] d [H|H]; try discriminate H; try reflexivity. subst d. reflexivity.
  - intros n d Hm Hn Hd. cbn [set_string].
    destruct (C13_div_is_product (mkInt n (im i) (ibo i)) (mkInt n (im i) (ibo i)) (mkInt d (im i) LittleEndian) Hm Hn Hd) as [r [E H]].
    exists r. split; [exact E|]. split; [|exact H]. unfold int_div in E. rewrite brem_pos in E by exact Hm. injection E as <-. reflexivity.
Qed.
Print Assumptions C13_set_string_partial.

(** Full statement: set_string n d yields the fraction n/d.  1/2 modulo 7 is 4; set_string yields 2. *)
Theorem C13_set_string_refuted : exists i n d r, 0 < im i /\ Z.gcd d (im i) = 1 /\ set_string i (Some n) (Some (Some d)) = Ok r /\
  ~ (im i | iv r * d - n).
Proof.
  exists (mkInt 0 7 BigEndian), 1, 2, (mkInt 2 7 BigEndian). repeat split; try (simpl; lia). intros [k Hk]. simpl in Hk. lia.
Qed.
Print Assumptions C13_set_string_refuted.

(** exp raises the receiver's value, not a's. *)
Theorem C13_exp_partial (i a : Int) (e : Z) : 0 < im a -> 0 <= e ->
  exists r, int_exp i a e = Ok r /\ holds (im a) (iv i ^ e) r /\ (iv i = iv a -> holds (im a) (iv a ^ e) r).
Proof.
  intros Hm He. unfold int_exp. rewrite modpow_ok by lia. cbn [bindo]. eexists; split; [reflexivity|].
  split; [split; [reflexivity|apply residue_mod; lia]|]. intros <-. split; [reflexivity|apply residue_mod; lia].
Qed.
Print Assumptions C13_exp_partial.

Theorem C13_div_exp_refuted :
  (exists i a b r, im i = 7 /\ im a = 7 /\ im b = 7 /\ 0 <= iv a < 7 /\ 0 <= iv b < 7 /\ Z.gcd (iv b) 7 = 1 /\
     int_div i a b = Ok r /\ ~ (7 | iv r * iv b - iv a)) /\
  (exists i a e r, im i = 7 /\ im a = 7 /\ 0 <= iv a < 7 /\ 0 <= e /\ int_exp i a e = Ok r /\ ~ (7 | iv r - iv a ^ e)).
Proof.
  split.
  - exists (mkInt 0 7 BigEndian), (mkInt 1 7 BigEndian), (mkInt 2 7 BigEndian), (mkInt 2 7 BigEndian).
    repeat split; try (simpl; lia). intros [k Hk]; simpl in Hk; lia.
  - exists (mkInt 0 7 BigEndian), (mkInt 3 7 BigEndian), 2, (mkInt 0 7 BigEndian).
    repeat split; try (simpl; lia). intros [k Hk]. simpl in Hk. lia.
Qed.
Print Assumptions C13_div_exp_refuted.

Example C13_nonvacuous :
  int_div (mkInt 0 11 BigEndian) (mkInt 6 11 BigEndian) (mkInt 4 11 BigEndian) = Ok (mkInt 2 11 BigEndian) /\
  int_exp (mkInt 5 11 BigEndian) (mkInt 5 11 BigEndian) 3 = Ok (mkInt 4 11 BigEndian).
Proof. vm_compute. auto. Qed.

(** ** C14 *)
Theorem C14_big_endian_round_trip (i : Int) : 0 <= iv i < im i -> ibo i = BigEndian ->
  exists b, int_marshal i = Ok b /\ length b = int_marshal_size i /\ bytes b /\ be_val b = iv i /\
    forall j, im j = im i -> ibo j = BigEndian -> int_unmarshal j b = (Ok tt, i).
Proof.
  intros Hv Hbo. pose proof (valid_nbytes i Hv) as Hn. rewrite (int_marshal_be i Hv Hbo).
  eexists; split; [reflexivity|].
  assert (Hl : length (repeat 0 (int_marshal_size i - nbytes (iv i)) ++ to_bytes_be (iv i)) = int_marshal_size i).
  { rewrite app_length, repeat_length, to_bytes_be_length. lia. }
  assert (Hbv : be_val (repeat 0 (int_marshal_size i - nbytes (iv i)) ++ to_bytes_be (iv i)) = iv i).
  { rewrite be_val_pad, to_bytes_be_val, Z.abs_eq; lia. }
  split; [exact Hl|]. split; [apply bytes_app; [apply bytes_repeat0|apply to_bytes_be_bytes]|]. split; [exact Hbv|].
  intros j Ej Bj. unfold int_unmarshal.
  replace (int_marshal_size j) with (int_marshal_size i) by (unfold int_marshal_size; now rewrite Ej).
  rewrite Hl, Nat.eqb_refl, Bj. cbn [negb iv]. rewrite Hbv, Ej.
  destruct (Z.leb_spec (im i) (iv i)); [lia|]. destruct i as [v m bo]; simpl in *; subst. reflexivity.
Qed.
Print Assumptions C14_big_endian_round_trip.

(** The width is the least number of bytes that can hold the modulus. *)
Theorem C14_width (i : Int) : 0 < im i ->
  im i < 256 ^ Z.of_nat (int_marshal_size i) /\ 256 ^ (Z.of_nat (int_marshal_size i) - 1) <= im i.
Proof. intros Hm. pose proof (marshal_size_spec i Hm). lia. Qed.
Print Assumptions C14_width.

Example C14_nonvacuous :
  int_marshal (mkInt 5 70000 BigEndian) = Ok [0; 0; 5] /\
  int_unmarshal (mkInt 9 70000 BigEndian) [0; 0; 5] = (Ok tt, mkInt 5 70000 BigEndian).
Proof. vm_compute. auto. Qed.

(** ** C15 *)

(** The encoding has the value's own length, and decodes exactly when that happens to be the full width. *)
Theorem C15_little_endian_partial (i : Int) : 0 <= iv i < im i -> ibo i = LittleEndian ->
  exists b, int_marshal i = Ok b /\ bytes b /\ le_val b = iv i /\ length b = nbytes (iv i) /\
    (length b = int_marshal_size i <-> 256 ^ (Z.of_nat (int_marshal_size i) - 1) <= iv i \/ int_marshal_size i = 1%nat) /\
    forall j, im j = im i -> ibo j = LittleEndian ->
      (length b = int_marshal_size i -> int_unmarshal j b = (Ok tt, i)) /\
      (length b <> int_marshal_size i -> int_unmarshal j b = (Err WrongSize, j)).
Proof.
  intros Hv Hbo. pose proof (valid_nbytes i Hv) as Hn. rewrite (int_marshal_le i Hv Hbo).
  eexists; split; [reflexivity|]. split; [apply to_bytes_le_bytes|].
  assert (Hval : le_val (to_bytes_le (iv i)) = iv i) by (rewrite to_bytes_le_val, Z.abs_eq; lia).
  split; [exact Hval|]. split; [apply to_bytes_le_length|]. split.
  - rewrite to_bytes_le_length. pose proof (nbytes_pos (iv i)) as Hp.
    destruct (Nat.eq_dec (int_marshal_size i) 1) as [E1|E1]; [split; [tauto|lia]|].
    pose proof (nbytes_le_iff (iv i) (int_marshal_size i - 1) ltac:(lia)) as Hle.
    rewrite Z.abs_eq in Hle by lia. rewrite Nat2Z.inj_sub in Hle by lia.
    change (Z.of_nat 1) with 1 in Hle. split.
    + intros E. left. destruct (Z.lt_ge_cases (iv i) (256 ^ (Z.of_nat (int_marshal_size i) - 1))) as [H|H]; [|lia].
      apply Hle in H. lia.
    + intros [H|H]; [|lia]. assert (~ (nbytes (iv i) <= int_marshal_size i - 1)%nat); [|lia].
      intros H1. apply Hle in H1. lia.
  - intros j Ej Bj. unfold int_unmarshal.
    replace (int_marshal_size j) with (int_marshal_size i) by (unfold int_marshal_size; now rewrite Ej).
    split; intros H.
    + rewrite H, Nat.eqb_refl, Bj. cbn [negb iv]. unfold be_val. rewrite rev_involutive, Hval, Ej.
      destruct (Z.leb_spec (im i) (iv i)); [lia|]. destruct i as [v m bo]; simpl in *; subst. reflexivity.
    + apply Nat.eqb_neq in H. rewrite H. reflexivity.
Qed.
Print Assumptions C15_little_endian_partial.

Theorem C15_little_endian_refuted :
  exists i b, 0 <= iv i < im i /\ ibo i = LittleEndian /\ int_marshal i = Ok b /\
    length b <> int_marshal_size i /\ fst (int_unmarshal i b) = Err WrongSize.
Proof.
  exists (mkInt 5 70000 LittleEndian), [5]. repeat split; try (simpl; lia); try (vm_compute; congruence).
Qed.
Print Assumptions C15_little_endian_refuted.

Example C15_nonvacuous :
  int_marshal (mkInt 66051 70000 LittleEndian) = Ok [3; 2; 1] /\
  int_unmarshal (mkInt 9 70000 LittleEndian) [3; 2; 1] = (Ok tt, mkInt 66051 70000 LittleEndian).
Proof. vm_compute. auto. Qed.

(** ** C16 *)

(** The number a buffer encodes in the receiver's byte order. *)
Definition encoded (bo : byte_order) (data : list Z) : Z :=
  match bo with BigEndian => be_val data | LittleEndian => le_val data end.

Theorem C16_accepts_iff (i : Int) (data : list Z) :
  (fst (int_unmarshal i data) = Ok tt <->
     length data = int_marshal_size i /\ encoded (ibo i) data < im i) /\
  (fst (int_unmarshal i data) = Ok tt -> snd (int_unmarshal i data) = mkInt (encoded (ibo i) data) (im i) (ibo i)) /\
  (fst (int_unmarshal i data) = Ok tt \/ exists e, fst (int_unmarshal i data) = Err e).
Proof.
  unfold int_unmarshal. destruct (Nat.eqb_spec (length data) (int_marshal_size i)) as [E|E]; cbn [negb].
  - assert (be_val (match ibo i with LittleEndian => rev data | BigEndian => data end) = encoded (ibo i) data) as ->.
    { unfold encoded, be_val. destruct (ibo i); [now rewrite rev_involutive|reflexivity]. }
    cbn [iv]. destruct (Z.leb_spec (im i) (encoded (ibo i) data)); cbn [fst snd].
    + repeat split; try discriminate; try lia. right; eauto.
    + repeat split; try assumption; try lia. now left.
  - cbn [fst]. repeat split; try discriminate; try tauto. right; eauto.
Qed.
Print Assumptions C16_accepts_iff.

Theorem C16_failure_partial (i : Int) (data : list Z) :
  (fst (int_unmarshal i data) = Err WrongSize -> snd (int_unmarshal i data) = i) /\
  (fst (int_unmarshal i data) = Err OutOfRange ->
     snd (int_unmarshal i data) = mkInt (encoded (ibo i) data) (im i) (ibo i) /\
     im i <= iv (snd (int_unmarshal i data))).
Proof.
  unfold int_unmarshal. destruct (Nat.eqb_spec (length data) (int_marshal_size i)) as [E|E]; cbn [negb]; [|split; [reflexivity|discriminate]].
  assert (be_val (match ibo i with LittleEndian => rev data | BigEndian => data end) = encoded (ibo i) data) as ->.
  { unfold encoded, be_val. destruct (ibo i); [now rewrite rev_involutive|reflexivity]. }
  cbn [iv]. destruct (Z.leb_spec (im i) (encoded (ibo i) data)); cbn [fst snd]; split; try discriminate; auto.
Qed.
Print Assumptions C16_failure_partial.

(** A rejected decode leaves the out-of-range value in the receiver. *)
Theorem C16_receiver_unchanged_refuted :
  exists i data, 0 <= iv i < im i /\ fst (int_unmarshal i data) = Err OutOfRange /\
    ~ (0 <= iv (snd (int_unmarshal i data)) < im i).
Proof. exists (mkInt 3 7 BigEndian), [200]. repeat split; try (simpl; lia). vm_compute. intros [_ H]; discriminate H. Qed.
Print Assumptions C16_receiver_unchanged_refuted.

Example C16_nonvacuous :
  fst (int_unmarshal (mkInt 3 300 LittleEndian) [43; 1]) = Ok tt /\
  fst (int_unmarshal (mkInt 3 300 LittleEndian) [44; 1]) = Err OutOfRange /\
  fst (int_unmarshal (mkInt 3 300 LittleEndian) [43]) = Err WrongSize.
Proof. vm_compute. auto. Qed.

(** ** C17 *)

(** little_endian never panics and never exceeds a non-zero max, but ignores min. *)
Theorem C17_little_endian_partial (i : Int) (min max : nat) : 0 <= iv i < im i ->
  (exists b, little_endian i min max = Ok b /\ le_val b = iv i /\ bytes b /\ length b = nbytes (iv i) /\
     (max = 0%nat \/ (Nat.max (length b) min <= max)%nat)) \/
  (little_endian i min max = Err NotRepresentable /\ max <> 0%nat /\ (max < Nat.max (nbytes (iv i)) min)%nat).
Proof.
  intros Hv. rewrite little_endian_ok by exact Hv.
  destruct (andb (negb (Nat.eqb max 0)) (Nat.ltb max (Nat.max (nbytes (iv i)) min))) eqn:E.
  - right. apply andb_prop in E. destruct E as [E1 E2]. apply Bool.negb_true_iff, Nat.eqb_neq in E1.
    apply Nat.ltb_lt in E2. auto.
  - left. eexists; split; [reflexivity|]. rewrite to_bytes_le_val, Z.abs_eq by lia. rewrite to_bytes_le_length.
    repeat split; try apply to_bytes_le_bytes. apply Bool.andb_false_iff in E. destruct E as [E|E].
    + apply Bool.negb_false_iff, Nat.eqb_eq in E. auto.
    + apply Nat.ltb_ge in E. auto.
Qed.
Print Assumptions C17_little_endian_partial.

(** big_endian panics unless the value fills the whole width. *)
Theorem C17_big_endian_partial (i : Int) (min max : nat) : 0 <= iv i < im i ->
  big_endian i min max =
    if andb (negb (Nat.eqb max 0)) (Nat.ltb max (Nat.max (int_marshal_size i) min)) then Err NotRepresentable
    else if Nat.eqb (nbytes (iv i)) (int_marshal_size i)
         then Ok (repeat 0 (min - int_marshal_size i) ++ to_bytes_be (iv i)) else Panic.
Proof.
  intros Hv. unfold big_endian. destruct (andb _ _); [reflexivity|]. rewrite to_bytes_be_length.
  replace (Nat.max (int_marshal_size i) min - int_marshal_size i)%nat with (min - int_marshal_size i)%nat by lia.
  replace (Nat.max (int_marshal_size i) min - (min - int_marshal_size i))%nat with (int_marshal_size i) by lia.
  reflexivity.
Qed.
Print Assumptions C17_big_endian_partial.

Theorem C17_widths_refuted :
  (exists i min max b, 0 <= iv i < im i /\ little_endian i min max = Ok b /\ (length b < min)%nat) /\
  (exists i min max, 0 <= iv i < im i /\ (int_marshal_size i <= min <= max)%nat /\ big_endian i min max = Panic).
Proof.
  split.
  - exists (mkInt 5 70000 LittleEndian), 3%nat, 4%nat, [5]. repeat split; try (simpl; lia); try (vm_compute; lia); try reflexivity.
  - exists (mkInt 5 70000 BigEndian), 3%nat, 4%nat. repeat split; try (simpl; lia); try (vm_compute; lia); try reflexivity.
Qed.
Print Assumptions C17_widths_refuted.

Example C17_nonvacuous :
  little_endian (mkInt 300 70000 BigEndian) 1 2 = Ok [44; 1] /\
  little_endian (mkInt 300 70000 BigEndian) 1 1 = Err NotRepresentable /\
  big_endian (mkInt 66051 70000 BigEndian) 5 0 = Ok [0; 0; 1; 2; 3].
Proof. vm_compute. auto. Qed.

(** ** C67 *)

(** uint64 / int64 return the value modulo 2^64, unsigned and in two's complement, for every stored value, and undo
    set_uint64 / set_int64 when the argument is below the modulus. *)
Theorem C67_machine_integers (i : Int) (v : Z) :
  (0 <= uint64 i < 2 ^ 64 /\ (2 ^ 64 | uint64 i - iv i)) /\
  (- 2 ^ 63 <= int64 i < 2 ^ 63 /\ (2 ^ 64 | int64 i - iv i)) /\
  (0 <= v < 2 ^ 64 -> v < im i -> exists r, set_uint64 i v = Ok r /\ uint64 r = v) /\
  (0 <= v < 2 ^ 63 -> v < im i -> exists r, set_int64 i v = Ok r /\ int64 r = v).
Proof.
  assert (Hu : forall j, 0 <= uint64 j < 2 ^ 64 /\ (2 ^ 64 | uint64 j - iv j)).
  { intros j. rewrite uint64_ok. destruct (residue_mod (2 ^ 64) (iv j) ltac:(lia)) as [H1 H2]. split; [lia|exact H2]. }
  split; [apply Hu|]. split; [|split].
  - destruct (Hu i) as [H1 [k Hk]]. unfold int64. destruct (Z.ltb_spec (uint64 i) (2 ^ 63)) as [H|H].
    + split; [lia|]. exists k; lia.
    + split; [lia|]. exists (k - 1). lia.
  - intros H1 H2. unfold set_uint64. rewrite brem_pos by lia. cbn [bindo]. eexists; split; [reflexivity|].
    rewrite uint64_ok. cbn [iv]. rewrite rem_nonneg by lia. rewrite (Z.mod_small v (im i)) by lia. apply Z.mod_small; lia.
  - intros H1 H2. unfold set_int64. rewrite reduce64_nonneg by lia. cbn [bindo]. eexists; split; [reflexivity|].
    unfold int64. rewrite uint64_ok. cbn [iv]. rewrite (Z.mod_small v (im i)) by lia. rewrite Z.mod_small by lia.
    destruct (Z.ltb_spec v (2 ^ 63)); lia.
Qed.
Print Assumptions C67_machine_integers.

Example C67_nonvacuous :
  uint64 (mkInt (2 ^ 70 + 5) (2 ^ 71) BigEndian) = 5 /\ int64 (mkInt (2 ^ 64 - 1) (2 ^ 65) BigEndian) = -1 /\
  uint64 (mkInt (-3) 7 BigEndian) = 2 ^ 64 - 3.
Proof. vm_compute. auto. Qed.

(** ** C68 *)

(** sqrt takes the integer square root of the representative, so it is a modular root exactly for representatives
    that are squares (or agree with one modulo m). *)
Theorem C68_sqrt_partial (i a : Int) : 0 <= iv a < im a ->
  exists r, int_sqrt i a = Ok r /\ im r = im a /\ 0 <= iv r < im a /\ iv r * iv r <= iv a < (iv r + 1) * (iv r + 1) /\
    (forall s, 0 <= s -> iv a = s * s -> iv r * iv r = iv a).
Proof.
  intros Ha. unfold int_sqrt. destruct (Z.ltb_spec (iv a) 0); [lia|]. rewrite brem_pos by lia. cbn [bindo].
  pose proof (Z.sqrt_spec (iv a) ltac:(lia)) as Hs. cbn zeta in Hs. pose proof (Z.sqrt_nonneg (iv a)) as Hn.
  pose proof (Z.sqrt_le_lin (iv a) ltac:(lia)) as Hl.
  rewrite rem_nonneg, Z.mod_small by lia. eexists; split; [reflexivity|]. cbn [iv im].
  repeat split; try lia. intros s Hs0 E. rewrite E, Z.sqrt_square by lia. lia.
Qed.
Print Assumptions C68_sqrt_partial.

(** A negative representative is refused, whatever the modulus; with a zero modulus sqrt panics otherwise. *)
Theorem C68_negative (i a : Int) : (iv a < 0 -> int_sqrt i a = Err ImaginaryRoot) /\ (0 <= iv a -> im a = 0 -> int_sqrt i a = Panic).
Proof.
  unfold int_sqrt. destruct (Z.ltb_spec (iv a) 0); split; intros; try lia; [reflexivity|]. unfold brem. rewrite H1. reflexivity.
Qed.
Print Assumptions C68_negative.

(** 2 has the square root 3 modulo 7; sqrt returns 1 and reports success.  3 has none, and sqrt reports success. *)
Theorem C68_sqrt_refuted :
  (exists i a r, 0 <= iv a < im a /\ (exists s, (im a | s * s - iv a)) /\ int_sqrt i a = Ok r /\ ~ (im a | iv r * iv r - iv a)) /\
  (exists i a, 0 <= iv a < im a /\ (forall s, ~ (im a | s * s - iv a)) /\ is_ok (int_sqrt i a) = true).
Proof.
  split.
  - exists (mkInt 0 7 BigEndian), (mkInt 2 7 BigEndian), (mkInt 1 7 BigEndian). repeat split; try (simpl; lia).
    + exists 3, 1. reflexivity.
    + intros [k Hk]. simpl in Hk. lia.
  - exists (mkInt 0 7 BigEndian), (mkInt 3 7 BigEndian). split; [simpl; lia|]. split; [|reflexivity].
    intros s Hd. cbn [im iv] in Hd. apply Z.mod_divide in Hd; [|lia].
    rewrite Zminus_mod, Z.mul_mod in Hd by lia. pose proof (Z.mod_pos_bound s 7 ltac:(lia)) as Hb.
    assert (s mod 7 = 0 \/ s mod 7 = 1 \/ s mod 7 = 2 \/ s mod 7 = 3 \/ s mod 7 = 4 \/ s mod 7 = 5 \/ s mod 7 = 6) as Hc by lia.
    destruct Hc as [E|[E|[E|[E|[E|[E|E]]]]]]; rewrite E in Hd; vm_compute in Hd; discriminate Hd.
Qed.
Print Assumptions C68_sqrt_refuted.

Example C68_nonvacuous : int_sqrt (mkInt 0 0 BigEndian) (mkInt 9 11 BigEndian) = Ok (mkInt 3 11 BigEndian) /\
  int_sqrt (mkInt 0 0 BigEndian) (mkInt (-9) 11 BigEndian) = Err ImaginaryRoot.
Proof. split; reflexivity. Qed.

(** ** C69 *)

(** Comparison is decided by the stored values alone: it agrees with equality of residues on reduced values of one
    modulus, and identifies values of different moduli. *)
Theorem C69_equality_partial (a b : Int) (x y : Z) : im a = im b -> holds (im a) x a -> holds (im b) y b ->
  (int_equal a b = true <-> (im a | x - y)).
Proof.
  intros E [_ Ha] [_ Hb]. unfold int_equal. rewrite Z.eqb_eq. rewrite <- E in Hb.
  destruct Ha as [Ra [k Hk]], Hb as [Rb [l Hl]]. split.
  - intros H. exists (l - k). lia.
  - intros [q Hq]. apply (residue_unique (im a) x); split; try lia; [exists k; lia|]. exists (l - q). lia.
Qed.
Print Assumptions C69_equality_partial.

Theorem C69_equality_refuted : exists a b, int_equal a b = true /\ im a <> im b /\ int_marshal a <> int_marshal b.
Proof. exists (mkInt 3 7 BigEndian), (mkInt 3 700 BigEndian). vm_compute. repeat split; congruence. Qed.
Print Assumptions C69_equality_refuted.

Example C69_nonvacuous : holds 7 17 (mkInt 3 7 BigEndian) /\ int_equal (mkInt 3 7 BigEndian) (mkInt 3 7 LittleEndian) = true.
Proof. split; [|reflexivity]. split; [reflexivity|]. split; [simpl; lia|]. exists (-2). reflexivity. Qed.

(** [cmpr] orders the residues, [nonzero] recognises everything but zero (negative stored values included), and [set] copies
    the element with its modulus. *)
Theorem C69_order (a b : Int) (x y : Z) : im a = im b -> holds (im a) x a -> holds (im b) y b -> 0 < im a ->
  (int_cmpr a b = Eq <-> (im a | x - y)) /\ (int_cmpr a b = Lt <-> x mod im a < y mod im a) /\ (int_cmpr a b = Gt <-> x mod im a > y mod im a).
Proof.
  intros E Ha Hb P. pose proof (C69_equality_partial a b x y E Ha Hb) as HE. unfold int_equal in HE. rewrite Z.eqb_eq in HE.
  assert (Va : iv a = x mod im a).
  { destruct Ha as [_ [Ra [k Hk]]]. rewrite (Z.mod_unique x (im a) (- k) (iv a)); [reflexivity|lia|lia]. }
  assert (Vb : iv b = y mod im a).
  { destruct Hb as [_ Hb]. rewrite <- E in Hb. destruct Hb as [Rb [k Hk]]. rewrite (Z.mod_unique y (im a) (- k) (iv b)); [reflexivity|lia|lia]. }
  unfold int_cmpr. rewrite Z.compare_eq_iff, Z.compare_lt_iff, Z.compare_gt_iff, <- Va, <- Vb. split; [exact HE|]. split; lia.
Qed.
Print Assumptions C69_order.

Theorem C69_nonzero (i : Int) :
  (int_nonzero i = false <-> int_equal i (int_zero i) = true) /\
  (forall x, holds (im i) x i -> (int_nonzero i = true <-> ~ (im i | x))).
Proof.
  unfold int_nonzero, int_equal, int_zero. cbn [iv]. split; [destruct (Z.eqb_spec (iv i) 0); cbn; split; congruence|].
  intros x [_ [R [k Hk]]]. destruct (Z.eqb_spec (iv i) 0) as [e|n]; cbn; split; try congruence.
  - intros H. exfalso. apply H. exists (- k). lia.
  - intros _ [q Hq]. apply n. assert (D : (im i | iv i)) by (exists (k + q); lia). destruct D as [z Hz].
    assert (z = 0 \/ z <> 0) as [->|Nz] by lia; [lia|]. exfalso. nia.
Qed.
Print Assumptions C69_nonzero.

Theorem C69_set (i a : Int) :
  int_equal (int_set i a) a = true /\ im (int_set i a) = im a /\
  (ibo i = ibo a -> int_set i a = a /\ int_marshal (int_set i a) = int_marshal a).
Proof.
  unfold int_equal. cbn. split; [apply Z.eqb_refl|]. split; [reflexivity|].
  intros E. assert (S : int_set i a = a) by (unfold int_set; rewrite E; destruct a; reflexivity). rewrite S. now split.
Qed.
Print Assumptions C69_set.

Example C69_order_nonvacuous :
  int_cmpr (mkInt 3 7 BigEndian) (mkInt 5 7 BigEndian) = Lt /\ int_nonzero (mkInt (-3) 7 BigEndian) = true /\
  int_nonzero (mkInt 0 7 BigEndian) = false /\ int_set (mkInt 1 5 BigEndian) (mkInt 3 7 BigEndian) = mkInt 3 7 BigEndian.
Proof. repeat split; reflexivity. Qed.
