(** C119: integers read from text. *)
From Coq Require Import ZArith List Bool String Ascii Lia.
From Verif Require Import Base Bytes IntModel IntTextModel FmtModel PropsFmt.
Import ListNotations.
Local Open Scope string_scope.
Local Open Scope Z_scope.

(** ** Specification: which texts are numerals of a base, and of which number *)

(** A character and the digit it is: 0-9, then letters of either case. *)
Definition is_digit (c : ascii) (d : Z) : Prop :=
  let n := Z.of_nat (nat_of_ascii c) in
  (48 <= n <= 57 /\ d = n - 48) \/ (97 <= n <= 122 /\ d = n - 87) \/ (65 <= n <= 90 /\ d = n - 55).
(** A text is a sequence of digits of the base with underscores between them. *)
Inductive spells (base : Z) : string -> list Z -> Prop :=
| sp_nil : spells base "" []
| sp_skip s ds : spells base s ds -> spells base (String "_" s) ds
| sp_digit c d s ds : is_digit c d -> d < base -> spells base s ds -> spells base (String c s) (d :: ds).
(** The number with these digits, the most significant first. *)
Fixpoint number (base : Z) (ds : list Z) : Z :=
  match ds with [] => 0 | d :: r => d * base ^ Z.of_nat (List.length r) + number base r end.
(** An unsigned numeral begins with a digit. *)
Definition numeral (base : Z) (s : string) (v : Z) : Prop :=
  exists c r ds, s = String c r /\ c <> "_"%char /\ spells base s ds /\ v = number base ds.
(** A numeral may have one sign. *)
Definition signed (base : Z) (s : string) (v : Z) : Prop :=
  numeral base s v \/ (exists r, s = String "+" r /\ numeral base r v) \/ (exists r u, s = String "-" r /\ numeral base r u /\ v = - u).

(** ** Reading *)

Lemma digit_val c d : is_digit c d -> char_val c = d /\ 0 <= d.
Proof.
  unfold is_digit, char_val, code. generalize (Z.of_nat (nat_of_ascii c)) as n. intros n H. cbv zeta in *.
  destruct (48 <=? n) eqn:A, (n <=? 57) eqn:B, (97 <=? n) eqn:C, (n <=? 122) eqn:D, (65 <=? n) eqn:F, (n <=? 90) eqn:G; cbn [andb]; lia.
Qed.
Lemma val_digit c : char_val c < 36 -> is_digit c (char_val c).
Proof.
  unfold is_digit, char_val, code. generalize (Z.of_nat (nat_of_ascii c)) as n. intros n. cbv zeta.
  destruct (48 <=? n) eqn:A, (n <=? 57) eqn:B, (97 <=? n) eqn:C, (n <=? 122) eqn:D, (65 <=? n) eqn:F, (n <=? 90) eqn:G; cbn [andb]; lia.
Qed.
Lemma underscore_no_digit d : ~ is_digit "_" d.
Proof. unfold is_digit. cbn. lia. Qed.

Lemma read_spells base s ds acc : spells base s ds -> read_digits base acc s = Some (acc * base ^ Z.of_nat (List.length ds) + number base ds).
Proof.
  intros H. revert acc. induction H; intros acc.
  - cbn. f_equal. ring.
  - cbn [read_digits]. exact (IHspells acc).
  - destruct (digit_val _ _ H) as [V _]. cbn [read_digits].
    destruct (Ascii.eqb c UNDERSCORE) eqn:U; [apply Ascii.eqb_eq in U; subst c; now apply underscore_no_digit in H|].
    rewrite V, (proj2 (Z.ltb_lt _ _) H0), IHspells. cbn [number List.length].
    rewrite Nat2Z.inj_succ, Z.pow_succ_r by lia. f_equal. ring.
Qed.
Lemma spells_read base s acc v : base <= 36 -> read_digits base acc s = Some v ->
  exists ds, spells base s ds /\ v = acc * base ^ Z.of_nat (List.length ds) + number base ds.
Proof.
  intros Hb. revert acc v. induction s as [|c s IH]; intros acc v H.
  - injection H as <-. exists []. split; [constructor|cbn; ring].
  - cbn [read_digits] in H. destruct (Ascii.eqb c UNDERSCORE) eqn:U.
    + apply Ascii.eqb_eq in U. subst c. destruct (IH _ _ H) as [ds [S E]]. exists ds. split; [now constructor|exact E].
    + destruct (char_val c <? base) eqn:L; [|discriminate H]. apply Z.ltb_lt in L. destruct (IH _ _ H) as [ds [S E]].
      exists (char_val c :: ds). split; [constructor; [apply val_digit; lia|exact L|exact S]|].
      rewrite E. cbn [number List.length]. rewrite Nat2Z.inj_succ, Z.pow_succ_r by lia. ring.
Qed.

Lemma numeral_head base s v : numeral base s v -> starts "+" s = false /\ starts "-" s = false /\ starts UNDERSCORE s = false /\ (s =? "")%string = false.
Proof.
  intros [c [r [ds [-> [N [S _]]]]]]. inversion S; subst; try (now elim N).
  cbn [starts String.eqb]. repeat split; try (apply Ascii.eqb_neq; intros E; subst c; first [now apply N | unfold is_digit in *; cbn in *; lia]).
Qed.
Lemma read_numeral base s v : base <= 36 -> starts UNDERSCORE s = false -> (s =? "")%string = false ->
  (read_digits base 0 s = Some v <-> numeral base s v).
Proof.
  intros Hb U E. split.
  - intros H. destruct (spells_read base s 0 v Hb H) as [ds [S V]]. destruct s as [|c r]; [discriminate E|].
    exists c, r, ds. split; [reflexivity|]. split; [intros ->; discriminate U|]. split; [exact S|lia].
  - intros [c [r [ds [_ [_ [S ->]]]]]]. rewrite (read_spells _ _ _ 0 S). f_equal; lia.
Qed.
Lemma read_bad base c r : base <= 36 -> c = "+"%char \/ c = "-"%char -> read_digits base 0 (String c r) = None.
Proof.
  intros Hb H. cbn [read_digits]. destruct H as [-> | ->]; cbn [Ascii.eqb Bool.eqb UNDERSCORE];
  match goal with |- context [char_val ?x] => change (char_val x) with 255 end; destruct (255 <? base) eqn:L; try reflexivity; lia.
Qed.

Lemma starts_cons a s : starts a s = true -> exists r, s = String a r.
Proof. destruct s as [|b r]; [discriminate|]. intros H. apply Ascii.eqb_eq in H. subst b. now exists r. Qed.

(** Unsigned numerals and those with a plus sign. *)
Lemma biguint_iff base s v : 2 <= base <= 36 ->
  (biguint_from_str base s = Ok v <-> numeral base s v \/ exists r, s = String "+" r /\ numeral base r v).
Proof.
  intros Hb. unfold biguint_from_str. replace ((2 <=? base) && (base <=? 36))%bool with true by (symmetry; apply andb_true_intro; lia). cbn [negb].
  assert (M : forall x, starts "+" x = false -> (match (if (x =? "")%string then Err ParseError else if starts UNDERSCORE x then Err ParseError
     else match read_digits base 0 x with Some v => Ok v | None => Err ParseError end) with Ok w => w = v | _ => False end) <-> numeral base x v).
  { intros x Hx. destruct (x =? "")%string eqn:E; [split; [intros []|intros N; apply numeral_head in N; destruct N as [_ [_ [_ N]]]; congruence]|].
    destruct (starts UNDERSCORE x) eqn:U; [split; [intros []|intros N; apply numeral_head in N; destruct N as [_ [_ [N _]]]; congruence]|].
    rewrite <- (read_numeral base x v) by (assumption || lia). destruct (read_digits base 0 x); split; [intros ->; reflexivity|now intros [= ->]|intros []|discriminate]. }
  assert (K : forall o : outcome int_error Z, o = Ok v <-> match o with Ok w => w = v | _ => False end).
  { intros [w|e| |]; split; intros H; first [discriminate H|contradiction H|congruence]. }
  destruct (starts "+" s) eqn:P.
  - destruct (starts_cons _ _ P) as [r ->]. cbn [tail1 andb]. destruct (starts "+" r) eqn:P'; cbn [negb].
    + split.
      * cbn [String.eqb starts]. rewrite read_bad by (lia || now left). discriminate.
      * intros [N|[r' [[= <-] N]]]; apply numeral_head in N; destruct N as [N _]; cbn in N; congruence.
    + rewrite K, (M r P'). split; [intros N; right; now exists r|]. intros [N|[r' [[= <-] N]]]; [apply numeral_head in N; destruct N as [N _]; discriminate N|exact N].
  - cbn [andb]. rewrite K, (M s P). split; [now left|]. intros [N|[r [-> N]]]; [exact N|discriminate P].
Qed.
(** Exactly the numerals are read. *)
Lemma bigint_iff base s v : 2 <= base <= 36 -> (bigint_from_str base s = Ok v <-> signed base s v).
Proof.
  intros Hb. unfold bigint_from_str, signed. destruct (starts "-" s) eqn:P.
  - destruct (starts_cons _ _ P) as [r ->]. cbn [tail1]. destruct (starts "+" r) eqn:P'.
    + assert (B : forall w, biguint_from_str base (String "-" r) <> Ok w).
      { intros w H. apply (biguint_iff base _ w Hb) in H. destruct H as [N|[r' [[=] _]]]. apply numeral_head in N. destruct N as [_ [N _]]. discriminate N. }
      split.
      * destruct (biguint_from_str base (String "-" r)) eqn:E; cbn; try discriminate. now elim (B a).
      * intros [N|[[r' [[=] _]]|[r' [u [[= <-] [N _]]]]]]; apply numeral_head in N; destruct N as [N1 [N2 _]]; [discriminate N2|congruence].
    + split.
      * destruct (biguint_from_str base r) eqn:E; cbn; try discriminate. intros [= <-]. right; right. exists r, a. split; [reflexivity|]. split; [|reflexivity].
        apply (biguint_iff base _ _ Hb) in E. destruct E as [N|[r' [-> _]]]; [exact N|discriminate P'].
      * intros [N|[[r' [[=] _]]|[r' [u [[= <-] [N ->]]]]]]; [apply numeral_head in N; destruct N as [_ [N _]]; discriminate N|].
        now rewrite (proj2 (biguint_iff base _ u Hb) (or_introl N)).
  - rewrite (biguint_iff base s v Hb). split; [intros [N|N]; [now left|now right; left]|]. intros [N|[N|[r [u [-> _]]]]]; [now left|now right|discriminate P].
Qed.
Lemma bigint_total base s : 2 <= base <= 36 -> (exists v, bigint_from_str base s = Ok v) \/ bigint_from_str base s = Err ParseError.
Proof.
  intros Hb. assert (B : forall x, (exists v, biguint_from_str base x = Ok v) \/ biguint_from_str base x = Err ParseError).
  { intros x. unfold biguint_from_str. replace ((2 <=? base) && (base <=? 36))%bool with true by (symmetry; apply andb_true_intro; lia). cbn [negb].
    generalize (if (starts "+" x && negb (starts "+" (tail1 x)))%bool then tail1 x else x) as y. intros y.
    destruct (y =? "")%string; [now right|]. destruct (starts UNDERSCORE y); [now right|]. destruct (read_digits base 0 y); [left; eauto|now right]. }
  unfold bigint_from_str. destruct (starts "-" s); [|apply B].
  destruct (B (if starts "+" (tail1 s) then s else tail1 s)) as [[v ->]| ->]; [left; eexists; reflexivity|now right].
Qed.

(** ** Every number has a numeral *)
Lemma digits_exist base v : 2 <= base -> 0 <= v -> exists ds, ds <> [] /\ Forall (fun d => 0 <= d < base) ds /\ v = number base ds.
Proof.
  intros Hb Hv. pattern v. apply Zlt_0_ind; [clear v Hv|exact Hv]. intros v IH Hv.
  assert (S : forall ds d, number base (ds ++ [d])%list = number base ds * base + d).
  { intros ds d. induction ds as [|x ds E]; cbn [app number List.length]; [cbn; ring|]. rewrite E, app_length, Nat2Z.inj_add. cbn [List.length].
    rewrite Z.pow_add_r by lia. change (Z.of_nat 1) with 1. rewrite Z.pow_1_r. ring. }
  destruct (Z.lt_ge_cases v base) as [L|L].
  - exists [v]. split; [discriminate|]. split; [repeat constructor; lia|cbn; ring].
  - assert (D : 0 <= v / base < v) by (split; [apply Z.div_pos; lia|apply Z.div_lt; lia]).
    destruct (IH _ D) as [ds [N [F E]]]. exists (ds ++ [v mod base])%list. split; [now destruct ds|]. split.
    + apply Forall_app. split; [exact F|]. repeat constructor; apply Z.mod_pos_bound; lia.
    + rewrite S, <- E. pose proof (Z.div_mod v base). lia.
Qed.
Definition digit_char (d : Z) : ascii := ascii_of_nat (Z.to_nat (if d <? 10 then d + 48 else d + 87)).
Lemma digit_char_ok d : 0 <= d < 36 -> is_digit (digit_char d) d.
Proof.
  intros H. unfold is_digit, digit_char. rewrite nat_ascii_embedding by (destruct (d <? 10) eqn:E; lia).
  destruct (d <? 10) eqn:E; rewrite Z2Nat.id by lia; cbv zeta; lia.
Qed.
Lemma numeral_exists base v : 2 <= base <= 36 -> 0 <= v -> exists s, numeral base s v.
Proof.
  intros Hb Hv. destruct (digits_exist base v ltac:(lia) Hv) as [ds [N [F ->]]].
  assert (S : exists s, spells base s ds /\ forall c r, s = String c r -> c <> "_"%char).
  { clear N Hv. induction ds as [|d ds IH]; [exists ""; split; [constructor|discriminate]|].
    destruct (IH (Forall_inv_tail F)) as [s [S _]]. pose proof (Forall_inv F) as Fd. cbn beta in Fd.
    exists (String (digit_char d) s). split; [constructor; [apply digit_char_ok; lia|lia|exact S]|].
    intros c r [= <- _] E. pose proof (digit_char_ok d ltac:(lia)) as K. rewrite E in K. now apply underscore_no_digit in K. }
  destruct S as [s [S U]]. destruct s as [|c r]; [inversion S; subst; now elim N|]. exists (String c r), c, r, ds. repeat split; [exact (U c r eq_refl)|exact S].
Qed.

(** ** C119 *)

(** Without a denominator: for a base from 2 to 36, [set_string] stores v exactly when the text is a numeral of v, and
    refuses every other text; modulus and byte order stay. *)
Theorem C119_reads (i : Int) (n : string) (base : Z) : 2 <= base <= 36 ->
  (forall r, set_string_text i n "" base = Ok r <-> exists v, signed base n v /\ r = mkInt v (im i) (ibo i)) /\
  ((forall v, ~ signed base n v) -> set_string_text i n "" base = Err ParseError) /\
  (forall v w, signed base n v -> signed base n w -> v = w).
Proof.
  intros Hb. unfold set_string_text. cbn [String.eqb]. split; [|split].
  - intros r. split.
    + destruct (bigint_from_str base n) eqn:E; cbn; try discriminate. intros [= <-]. exists a. split; [now apply bigint_iff|reflexivity].
    + intros [v [S ->]]. apply (bigint_iff base n v Hb) in S. now rewrite S.
  - intros N. destruct (bigint_total base n Hb) as [[v E]|E]; [elim (N v); now apply bigint_iff|now rewrite E].
  - intros v w S S'. apply (bigint_iff base n v Hb) in S. apply (bigint_iff base n w Hb) in S'. congruence.
Qed.
Print Assumptions C119_reads.
Example C119_reads_example :
  signed 16 "-dEad_BEEF" (-3735928559) /\ set_string_text (mkInt 0 7 LittleEndian) "-dEad_BEEF" "" 16 = Ok (mkInt (-3735928559) 7 LittleEndian) /\
  set_string_text (mkInt 0 7 LittleEndian) "12" "" 2 = Err ParseError /\ set_string_text (mkInt 0 7 LittleEndian) "-+1" "" 10 = Err ParseError /\
  set_string_text (mkInt 0 7 LittleEndian) "_1" "" 10 = Err ParseError /\ set_string_text (mkInt 0 7 LittleEndian) "" "" 10 = Err ParseError.
Proof. split; [apply bigint_iff; [lia|reflexivity]|]. repeat split; reflexivity. Qed.

(** Every number, of either sign, can be given in every base. *)
Theorem C119_onto (i : Int) (v base : Z) : 2 <= base <= 36 -> exists n, set_string_text i n "" base = Ok (mkInt v (im i) (ibo i)).
Proof.
  intros Hb. destruct (Z.le_gt_cases 0 v) as [L|L].
  - destruct (numeral_exists base v Hb L) as [s N]. exists s. apply C119_reads; [exact Hb|]. exists v. split; [now left|reflexivity].
  - destruct (numeral_exists base (- v) Hb ltac:(lia)) as [s N]. exists (String "-" s). apply C119_reads; [exact Hb|]. exists v.
    split; [right; right; exists s, (- v); split; [reflexivity|]; split; [exact N|lia]|reflexivity].
Qed.
Print Assumptions C119_onto.
Example C119_onto_example : set_string_text (mkInt 0 7 BigEndian) "-zz" "" 36 = Ok (mkInt (-1295) 7 BigEndian).
Proof. reflexivity. Qed.

(** What [LowerHex] and [UpperHex] write without prefix is read back in base 16. *)
Lemma radix_agrees s acc v : radix16 acc s = Some v -> read_digits 16 acc s = Some v.
Proof.
  revert acc. induction s as [|c s IH]; intros acc H; [exact H|].
  cbn [radix16] in H. destruct (unhex_digit c) as [x|] eqn:U; [|discriminate H].
  assert (K : char_val c = x /\ x < 16 /\ Ascii.eqb c UNDERSCORE = false).
  { revert U. clear. destruct c as [[] [] [] [] [] [] [] []]; vm_compute; intros [=]; subst; repeat split. }
  destruct K as [K1 [K2 K3]]. cbn [read_digits]. rewrite K3, K1, (proj2 (Z.ltb_lt _ _) K2). apply IH. rewrite <- H. f_equal. lia.
Qed.
Lemma hex_cons u z : exists d r, 0 <= d < 16 /\ hex_of u (to_bytes_be z) = String (hex_digit u d) r.
Proof.
  pose proof (to_bytes_be_length z) as L. pose proof (to_bytes_be_bytes z) as B. destruct (to_bytes_be z) as [|b l].
  - exfalso. cbn in L. unfold nbytes in L. pose proof (Z.log2_nonneg (Z.abs z)). pose proof (Z.div_pos (Z.log2 (Z.abs z)) 8). lia.
  - cbn [hex_of]. eexists _, _. split; [|reflexivity]. apply byte_split. exact (Forall_inv B).
Qed.
Lemma hex_head u d : 0 <= d < 16 -> is_digit (hex_digit u d) d.
Proof.
  intros H. assert (X : d = 0 \/ d = 1 \/ d = 2 \/ d = 3 \/ d = 4 \/ d = 5 \/ d = 6 \/ d = 7 \/ d = 8 \/ d = 9 \/ d = 10 \/ d = 11 \/ d = 12 \/ d = 13 \/ d = 14 \/ d = 15) by lia.
  destruct u; repeat (destruct X as [-> | X]; [vm_compute; intuition congruence|]); rewrite X; vm_compute; intuition congruence.
Qed.
Theorem C119_hex (i j : Int) (upper : bool) : 0 <= iv i ->
  set_string_text j (int_hex upper false i) "" 16 = Ok (mkInt (iv i) (im j) (ibo j)).
Proof.
  intros Hi. apply C119_reads; [lia|]. exists (iv i). split; [|reflexivity]. left. unfold int_hex. cbn [append].
  destruct (hex_cons upper (iv i)) as [d [r [Hd E]]]. pose proof (hex_head upper d Hd) as K.
  assert (N : hex_digit upper d <> "_"%char) by (intros X; rewrite X in K; now apply underscore_no_digit in K).
  apply read_numeral; [lia|rewrite E; cbn [starts]; apply Ascii.eqb_neq; now apply not_eq_sym|now rewrite E|].
  apply radix_agrees. rewrite (radix16_of _ _ _ (to_bytes_be_bytes _)), to_bytes_be_val, Z.abs_eq by exact Hi. f_equal.
Qed.
Print Assumptions C119_hex.
Example C119_hex_example : int_hex false false (mkInt 48879 65537 BigEndian) = "beef" /\
  set_string_text int_default "beef" "" 16 = Ok (mkInt 48879 0 LittleEndian).
Proof. split; reflexivity. Qed.

(** What [Display] writes is not: with its prefix 0x, the text of every number is refused in every base up to 33, and in the bases
    from 34 on, where x is a digit, it is another number.  (Full statement: [to_string] is read back by [set_string].) *)
Theorem C119_display_refuted :
  (forall (i j : Int) (base : Z), 2 <= base <= 33 -> set_string_text j (int_hex false true i) "" base = Err ParseError) /\
  (exists i j, set_string_text i (int_hex false true i) "" 36 = Ok j /\ iv j <> iv i).
Proof.
  split.
  - intros i j base Hb. unfold int_hex. cbn [append]. apply C119_reads; [lia|]. intros v [N|[[r [[=] _]]|[r [u [[=] _]]]]].
    destruct N as [c [r [ds [[= <- <-] [_ [S _]]]]]].
    inversion S as [| |c d s ds' H1 H2 H3]; subst. inversion H3 as [| |c d' s ds'' H4 H5 H6]; subst. unfold is_digit in H4. cbn in H4. lia.
  - exists (mkInt 5 7 BigEndian), (mkInt 42773 7 BigEndian). split; [reflexivity|]. cbn. lia.
Qed.
Print Assumptions C119_display_refuted.

(** With a denominator (full statement: the quotient n/d).  Both texts must be numerals; what is stored for a positive modulus is
    the truncated remainder of the product n*d (C13: [div] multiplies). *)
Theorem C119_fraction_partial (i : Int) (n d : string) (base nv dv : Z) : 2 <= base <= 36 -> d <> "" -> 0 < im i ->
  (signed base n nv -> signed base d dv -> exists r, set_string_text i n d base = Ok r /\ im r = im i /\ ibo r = ibo i /\
     Z.abs (iv r) < im i /\ (im i | nv * dv - iv r) /\ 0 <= iv r * (nv * dv)) /\
  ((forall v, ~ signed base n v) \/ (forall v, ~ signed base d v) -> set_string_text i n d base = Err ParseError).
Proof.
  intros Hb Hd Hm. assert (D : (d =? "")%string = false) by now apply String.eqb_neq.
  split.
  - intros Sn Sd. apply (bigint_iff base n nv Hb) in Sn. apply (bigint_iff base d dv Hb) in Sd. unfold set_string_text. rewrite Sn, D. cbn [bindo]. rewrite Sd. cbn [bindo].
    unfold int_div, brem. cbn [iv im ibo]. destruct (im i =? 0) eqn:E; [lia|]. cbn [bindo]. eexists. split; [reflexivity|]. cbn [iv im ibo].
    split; [reflexivity|]. split; [reflexivity|]. split; [rewrite <- (Z.abs_eq (im i)) at 2 by lia; apply Z.rem_bound_abs; lia|]. split.
    + exists (Z.quot (nv * dv) (im i)). pose proof (Z.quot_rem' (nv * dv) (im i)). lia.
    + apply Z.rem_sign_mul. lia.
  - intros H. unfold set_string_text. destruct (bigint_total base n Hb) as [[v E]|E]; rewrite E; cbn [bindo]; [|reflexivity]. rewrite D.
    destruct (bigint_total base d Hb) as [[w E']|E']; rewrite E'; cbn [bindo]; [|reflexivity].
    apply (bigint_iff base n v Hb) in E. apply (bigint_iff base d w Hb) in E'. destruct H as [H|H]; [now elim (H v)|now elim (H w)].
Qed.
Print Assumptions C119_fraction_partial.
Example C119_fraction_example :
  set_string_text (mkInt 0 7 BigEndian) "-c" "1_1" 13 = Ok (mkInt 0 7 BigEndian) /\ set_string_text (mkInt 0 7 BigEndian) "1" "x" 10 = Err ParseError /\
  set_string_text (mkInt 0 7 BigEndian) "-5" "3" 10 = Ok (mkInt (-1) 7 BigEndian).
Proof. repeat split; reflexivity. Qed.

(** Full statement: a bad argument is refused with an error.  For a base outside 2..36, negative ones included, [set_string]
    panics on every text, and [new_int_string] panics on a text [set_string] refuses. *)
Theorem C119_panics :
  (forall (i : Int) (n d : string) (base : Z), base < 2 \/ 36 < base -> set_string_text i n d base = Panic) /\
  (forall (n d : string) (base m : Z), 2 <= base <= 36 -> (forall v, ~ signed base n v) -> new_int_string n d base m = Panic).
Proof.
  split.
  - intros i n d base H. assert (B : forall s, biguint_from_str base s = Panic).
    { intros s. unfold biguint_from_str. now replace ((2 <=? base) && (base <=? 36))%bool with false by (symmetry; apply andb_false_iff; lia). }
    unfold set_string_text, bigint_from_str. destruct (starts "-" n); now rewrite B.
  - intros n d base m Hb N. unfold new_int_string, set_string_text. destruct (bigint_total base n Hb) as [[v E]|E]; [elim (N v); now apply bigint_iff|now rewrite E].
Qed.
Print Assumptions C119_panics.
Example C119_refused_example : new_int_string "1.5" "" 10 7 = Panic /\ new_int_string "12" "" (-1) 7 = Panic /\
  new_int_string "12" "" 10 7 = Ok (mkInt 12 7 BigEndian).
Proof. repeat split; reflexivity. Qed.

(** The functions agree with [set_string] of IntModel.v on the parsed numbers. *)
Theorem C119_link (i : Int) (n d : string) (base : Z) : 2 <= base <= 36 ->
  let parsed s := match bigint_from_str base s with Ok v => Some v | _ => None end in
  set_string_text i n d base = set_string i (parsed n) (if (d =? "")%string then None else Some (parsed d)).
Proof.
  intros Hb parsed. unfold parsed, set_string_text, set_string. destruct (bigint_total base n Hb) as [[v ->]| ->]; cbn [bindo]; [|reflexivity].
  destruct (d =? "")%string; [reflexivity|]. destruct (bigint_total base d Hb) as [[w ->]| ->]; reflexivity.
Qed.
Print Assumptions C119_link.
