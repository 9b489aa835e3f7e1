(** Property C98: what branches and memory addresses reveal about the scalar of a multiplication. *)
From Coq Require Import ZArith List Lia Bool.
From Verif Require Import Base Bytes Limb ScLimbs ScModel IntModel FeModel GeModel GeMul GeVar PointModel LeakModel.
Import ListNotations.
Local Open Scope Z_scope.
Opaque to_extended to_projective comp_add comp_sub write_cached ext_double proj_double proj_double3 mixed_add pre_cmove cached_cmove pre_neg cached_neg
  ge_abs ge_equal ge_negative wrap8 sc_mul base_table slide ext_zero comp_default pre_zero cached_zero L_MINUS2.

Lemma fst_bind {A B} (m : leak A) (f : A -> leak B) : fst (bind m f) = fst m ++ fst (f (snd m)). Proof. reflexivity. Qed.
Lemma snd_bind {A B} (m : leak A) (f : A -> leak B) : snd (bind m f) = snd (f (snd m)). Proof. reflexivity. Qed.
Lemma bind_same {A B} (m m' : leak A) (f f' : A -> leak B) : fst m = fst m' -> fst (f (snd m)) = fst (f' (snd m')) -> fst (bind m f) = fst (bind m' f').
Proof. intros H1 H2. rewrite !fst_bind. now rewrite H1, H2. Qed.
Lemma bind_see {B} e (f f' : unit -> leak B) : fst (f tt) = fst (f' tt) -> fst (bind (see e) f) = fst (bind (see e) f').
Proof. intros H. rewrite !fst_bind. cbn [see fst snd]. now rewrite H. Qed.
Lemma bind_ret {A B} (m m' : leak A) (g g' : A -> B) : fst m = fst m' -> fst (bind m (fun x => ret (g x))) = fst (bind m' (fun x => ret (g' x))).
Proof. intros H. rewrite !fst_bind. cbn [ret fst snd]. now rewrite H. Qed.
Opaque bind.

(** *** The recorded programs compute what the programs compute *)

Lemma nibbles_val a : forall i, snd (l_nibbles i a) = nibbles a.
Proof. induction a as [|v r IH]; intros i; [reflexivity|]. cbn [l_nibbles]. rewrite !snd_bind. cbn [snd ret]. rewrite IH. reflexivity. Qed.
Lemma recode_val e : forall i c, snd (l_recode i c e) = recode c e.
Proof.
  induction e as [|x r IH]; intros i c; [reflexivity|]. cbn [l_recode recode]. rewrite !snd_bind. destruct r as [|y r]; [reflexivity|].
  rewrite snd_bind. cbn [snd ret]. now rewrite IH.
Qed.
Lemma digits_val a : snd (l_digits a) = digits a.
Proof. unfold l_digits, digits. now rewrite snd_bind, recode_val, nibbles_val. Qed.
Lemma scan_pre_val b l : forall t, snd (l_scan_pre b l t) = fold_left (fun t iu => pre_cmove t (snd iu) (ge_equal b (fst iu + 1))) l t.
Proof. induction l as [|[i u] r IH]; intros t; [reflexivity|]. cbn [l_scan_pre fold_left fst snd]. rewrite !snd_bind. apply IH. Qed.
Lemma scan_cached_val b l : forall t, snd (l_scan_cached b l t) = fold_left (fun t iu => cached_cmove t (snd iu) (ge_equal b (fst iu + 1))) l t.
Proof. induction l as [|[i u] r IH]; intros t; [reflexivity|]. cbn [l_scan_cached fold_left fst snd]. rewrite !snd_bind. apply IH. Qed.
Lemma sel_pre_val pos row b : snd (l_sel_pre pos row b) = sel_pre row b.
Proof. unfold l_sel_pre, sel_pre. rewrite !snd_bind, scan_pre_val. reflexivity. Qed.
Lemma sel_cached_val ai b : snd (l_sel_cached ai b) = sel_cached ai b.
Proof. unfold l_sel_cached, sel_cached. rewrite !snd_bind, scan_cached_val. reflexivity. Qed.
Lemma rounds_val l : forall i h, snd (l_rounds i h l) = fold_left base_round l h.
Proof.
  induction l as [|[row d] r IH]; intros i h; [reflexivity|]. cbn [l_rounds fold_left]. rewrite !snd_bind, IH, sel_pre_val. reflexivity.
Qed.
Lemma base_val a : snd (l_ge_scalar_mult_base a) = ge_scalar_mult_base a.
Proof. unfold l_ge_scalar_mult_base, ge_scalar_mult_base. rewrite !snd_bind, !rounds_val, digits_val. reflexivity. Qed.
Lemma table_val n : forall i ap c, snd (l_mult_table n i ap c) = mult_table n ap c.
Proof. induction n as [|n IH]; intros i ap c; [reflexivity|]. cbn [l_mult_table mult_table]. rewrite !snd_bind. cbn [snd ret]. now rewrite IH. Qed.
Lemma mult_rounds_val ai ds : forall i t, snd (l_mult_rounds i ai t ds) = fold_left (mult_round ai) ds t.
Proof. induction ds as [|d r IH]; intros i t; [reflexivity|]. cbn [l_mult_rounds fold_left]. rewrite !snd_bind, IH, sel_cached_val. reflexivity. Qed.
Lemma mult_val a ap : snd (l_ge_scalar_mult a ap) = ge_scalar_mult a ap.
Proof.
  unfold l_ge_scalar_mult, ge_scalar_mult. rewrite !snd_bind, table_val, digits_val. cbv zeta. destruct (rev (digits a)) as [|d ds]; [reflexivity|].
  rewrite !snd_bind, mult_rounds_val, sel_cached_val. reflexivity.
Qed.
Lemma odd_table_val n : forall i a2 c, snd (l_odd_table n i a2 c) = odd_table n a2 c.
Proof. induction n as [|n IH]; intros i a2 c; [reflexivity|]. cbn [l_odd_table odd_table]. rewrite !snd_bind. cbn [snd ret]. now rewrite IH. Qed.
Lemma drop_val l : snd (l_drop_zeros l) = drop_zeros l.
Proof. induction l as [|x r IH]; [reflexivity|]. cbn [l_drop_zeros drop_zeros]. rewrite snd_bind. destruct (x =? 0); [exact IH|reflexivity]. Qed.
Lemma vt_rounds_val ai ds : forall t, snd (l_vt_rounds ai t ds) = fold_left (vt_round ai) ds t.
Proof.
  induction ds as [|d r IH]; intros t; [reflexivity|]. cbn [l_vt_rounds fold_left]. rewrite !snd_bind, IH. f_equal. unfold l_vt_digit, vt_round. rewrite snd_bind.
  destruct (0 <? d); [reflexivity|]. rewrite snd_bind. destruct (d <? 0); reflexivity.
Qed.
Lemma vartime_val a ap : snd (l_ge_scalar_mult_vartime a ap) = ge_scalar_mult_vartime a ap.
Proof.
  unfold l_ge_scalar_mult_vartime, ge_scalar_mult_vartime. cbv zeta. rewrite !snd_bind, odd_table_val, drop_val. destruct (drop_zeros (rev (slide a))) as [|d ds]; [reflexivity|].
  rewrite !snd_bind, vt_rounds_val. cbn [snd ret]. f_equal. f_equal. unfold l_vt_digit, vt_first. rewrite snd_bind.
  destruct (0 <? d); [reflexivity|]. rewrite snd_bind. destruct (d <? 0); reflexivity.
Qed.
Lemma inv_steps_val ac bits : forall i res, snd (l_inv_steps i ac res bits) = fold_left (inv_step ac) bits res.
Proof.
  induction bits as [|b r IH]; intros i res; [reflexivity|]. cbn [l_inv_steps fold_left]. rewrite !snd_bind. unfold inv_step at 2. cbv zeta.
  destruct b; [rewrite snd_bind|]; apply IH.
Qed.

Theorem C98_same_results (self : point) (s : list Z) (p : option point) (a : list Z) :
  snd (l_point_mul self s p) = point_mul self s p /\ snd (l_scalar_inv a) = scalar_inv a.
Proof.
  split.
  - unfold l_point_mul, point_mul. rewrite !snd_bind. cbn [snd ret]. f_equal. destruct p as [q|]; [|apply base_val]. rewrite snd_bind.
    destruct (p_vt self); [apply vartime_val|apply mult_val].
  - unfold l_scalar_inv, scalar_inv. cbv zeta. destruct (Nat.ltb _ 256); [reflexivity|]. rewrite snd_bind, inv_steps_val. reflexivity.
Qed.
Print Assumptions C98_same_results.

(** *** Constant time *)

Lemma nibbles_tr a : forall a' i, length a = length a' -> fst (l_nibbles i a) = fst (l_nibbles i a').
Proof.
  induction a as [|v r IH]; intros [|v' r'] i L; try discriminate L; [reflexivity|]. cbn [l_nibbles]. do 3 (apply bind_same; [try reflexivity|]); try reflexivity.
  apply IH. (cbn [length] in *; lia).
Qed.
Lemma nibbles_len a : length (nibbles a) = (2 * length a)%nat.
Proof. unfold nibbles. induction a as [|v r IH]; [reflexivity|]. cbn [flat_map app length]. rewrite IH. lia. Qed.
Lemma recode_tr e : forall e' i c c', length e = length e' -> fst (l_recode i c e) = fst (l_recode i c' e').
Proof.
  induction e as [|x r IH]; intros [|x' r'] i c c' L; try discriminate L; [reflexivity|]. cbn [l_recode]. do 2 (apply bind_see).
  destruct r as [|y r], r' as [|y' r']; try discriminate L; [reflexivity|]. apply bind_same; [|reflexivity]. apply IH. (cbn [length] in *; lia).
Qed.
Lemma recode_len e : forall c, length (recode c e) = length e.
Proof. induction e as [|x [|y r] IH]; intros c; try reflexivity. cbn [recode length]. f_equal. exact (IH _). Qed.
Lemma digits_tr a a' : length a = length a' -> fst (l_digits a) = fst (l_digits a').
Proof.
  intros L. unfold l_digits. apply bind_same; [apply nibbles_tr; exact L|]. rewrite !nibbles_val. apply recode_tr. now rewrite !nibbles_len, L.
Qed.
Lemma digits_len a : length (digits a) = (2 * length a)%nat.
Proof. unfold digits. now rewrite recode_len, nibbles_len. Qed.

Lemma scan_pre_tr b b' l : forall l' t t', map fst l = map fst l' -> fst (l_scan_pre b l t) = fst (l_scan_pre b' l' t').
Proof.
  induction l as [|[i u] r IH]; intros [|[i' u'] r'] t t' E; try discriminate E; [reflexivity|]. cbn [map fst] in E. injection E as <- E. cbn [l_scan_pre].
  do 3 (apply bind_see). now apply IH.
Qed.
Lemma scan_cached_tr b b' l : forall l' t t', map fst l = map fst l' -> fst (l_scan_cached b l t) = fst (l_scan_cached b' l' t').
Proof.
  induction l as [|[i u] r IH]; intros [|[i' u'] r'] t t' E; try discriminate E; [reflexivity|]. cbn [map fst] in E. injection E as <- E. cbn [l_scan_cached].
  do 3 (apply bind_see). now apply IH.
Qed.
Lemma combine_fst {A B} (l : list A) (r r' : list B) : length r = length r' -> map fst (combine l r) = map fst (combine l r').
Proof.
  revert r r'. induction l as [|x l IH]; intros [|y r] [|y' r'] L; try discriminate L; try reflexivity. cbn [combine map fst]. f_equal. apply IH. (cbn [length] in *; lia).
Qed.
Lemma sel_pre_tr pos row b b' : fst (l_sel_pre pos row b) = fst (l_sel_pre pos row b').
Proof.
  unfold l_sel_pre. do 3 (apply bind_see). apply bind_same; [apply scan_pre_tr; reflexivity|]. do 2 (apply bind_see). reflexivity.
Qed.
Lemma sel_cached_tr ai ai' b b' : length ai = length ai' -> fst (l_sel_cached ai b) = fst (l_sel_cached ai' b').
Proof.
  intros L. unfold l_sel_cached. do 2 (apply bind_see). apply bind_same; [apply scan_cached_tr, combine_fst; exact L|].
  do 2 (apply bind_see). reflexivity.
Qed.
Lemma rounds_tr l : forall l' i h h', map fst l = map fst l' -> fst (l_rounds i h l) = fst (l_rounds i h' l').
Proof.
  induction l as [|[row d] r IH]; intros [|[row' d'] r'] i h h' E; try discriminate E; [reflexivity|]. cbn [map fst] in E. injection E as <- E. cbn [l_rounds].
  apply bind_see. apply bind_same; [apply sel_pre_tr|]. do 2 (apply bind_see). now apply IH.
Qed.
Lemma odds_len l : forall l', length l = length l' -> length (odds l) = length (odds l').
Proof.
  assert (H : forall n l l', (length l <= n)%nat -> length l = length l' -> length (odds l) = length (odds l')).
  { induction n as [|n IH]; intros [|x [|y r]] [|x' [|y' r']] Ln L; try discriminate L; try reflexivity; try (cbn in Ln; lia).
    cbn [odds length]. f_equal. apply IH; cbn [length] in *; lia. }
  intros l'. apply (H (length l)). lia.
Qed.
Lemma evens_len l : forall l', length l = length l' -> length (evens l) = length (evens l').
Proof.
  assert (H : forall n l l', (length l <= n)%nat -> length l = length l' -> length (evens l) = length (evens l')).
  { induction n as [|n IH]; intros [|x [|y r]] [|x' [|y' r']] Ln L; try discriminate L; try reflexivity; try (cbn in Ln; lia).
    cbn [evens length]. f_equal. apply IH; cbn [length] in *; lia. }
  intros l'. apply (H (length l)). lia.
Qed.
Lemma base_tr a a' : length a = length a' -> fst (l_ge_scalar_mult_base a) = fst (l_ge_scalar_mult_base a').
Proof.
  intros L. unfold l_ge_scalar_mult_base. assert (D : length (digits a) = length (digits a')) by (rewrite !digits_len, L; reflexivity).
  apply bind_same; [apply digits_tr; exact L|]. rewrite !digits_val. apply bind_see.
  apply bind_same; [apply rounds_tr, combine_fst, odds_len; exact D|]. do 8 (apply bind_see).
  apply rounds_tr, combine_fst, evens_len. exact D.
Qed.
Lemma table_tr n : forall i ap ap' c c', fst (l_mult_table n i ap c) = fst (l_mult_table n i ap' c').
Proof.
  induction n as [|n IH]; intros i ap ap' c c'; [reflexivity|]. cbn [l_mult_table]. do 4 (apply bind_see). apply bind_ret. exact (IH _ _ _ _ _).
Qed.
Lemma table_len n : forall ap c, length (mult_table n ap c) = S n.
Proof. induction n as [|n IH]; intros ap c; [reflexivity|]. cbn [mult_table length]. now rewrite IH. Qed.
Lemma mult_rounds_tr ai ai' : length ai = length ai' -> forall ds ds' i t t', length ds = length ds' ->
  fst (l_mult_rounds i ai t ds) = fst (l_mult_rounds i ai' t' ds').
Proof.
  intros La. induction ds as [|d r IH]; intros [|d' r'] i t t' L; try discriminate L; [reflexivity|]. cbn [l_mult_rounds]. do 10 (apply bind_see).
  apply bind_same; [apply sel_cached_tr; exact La|]. apply bind_see. apply IH. (cbn [length] in *; lia).
Qed.
Lemma mult_tr a a' ap ap' : length a = length a' -> fst (l_ge_scalar_mult a ap) = fst (l_ge_scalar_mult a' ap').
Proof.
  intros L. unfold l_ge_scalar_mult. apply bind_same; [apply digits_tr; exact L|]. apply bind_see. apply bind_same; [apply table_tr|].
  rewrite !table_val, !digits_val. assert (D : length (rev (digits a)) = length (rev (digits a'))) by (rewrite !rev_length, !digits_len, L; reflexivity).
  destruct (rev (digits a)) as [|d ds], (rev (digits a')) as [|d' ds']; try discriminate D; [reflexivity|].
  do 2 (apply bind_see). apply bind_same; [apply sel_cached_tr; rewrite !table_len; reflexivity|]. apply bind_see.
  apply bind_same; [apply mult_rounds_tr; [rewrite !table_len; reflexivity|(cbn [length] in *; lia)]|]. apply bind_same; reflexivity.
Qed.

(** Multiplication on a receiver that does not ask for variable time (a fresh point, as everywhere in the library) shows the same
    branches, addresses and calls for all scalars and all operands, also for operands whose own flag is set. *)
Theorem C98_constant_time (self self' : point) (s s' : list Z) (p p' : option point) :
  p_vt self = false -> p_vt self' = false -> length s = 32%nat -> length s' = 32%nat -> (p = None <-> p' = None) ->
  fst (l_point_mul self s p) = fst (l_point_mul self' s' p').
Proof.
  intros V V' L L' E. unfold l_point_mul.
  assert (K : (exists q q', p = Some q /\ p' = Some q') \/ (p = None /\ p' = None)).
  { destruct p as [q|], p' as [q'|]; [left; exists q, q'; auto| | |right; auto]; exfalso; [discriminate (proj2 E eq_refl)|discriminate (proj1 E eq_refl)]. }
  destruct K as [[q [q' [-> ->]]]|[-> ->]]; (apply bind_see); (apply bind_same; [|reflexivity]).
  - rewrite V, V'. apply bind_see. apply mult_tr. congruence.
  - apply base_tr. congruence.
Qed.
Print Assumptions C98_constant_time.

Lemma inv_steps_tr bits : forall i ac ac' x y, fst (l_inv_steps i ac x bits) = fst (l_inv_steps i ac' y bits).
Proof.
  induction bits as [|b r IH]; intros i ac ac' x y; [reflexivity|]. cbn [l_inv_steps]. do 3 apply bind_see. cbv zeta.
  destruct b; [apply bind_see|]; exact (IH _ _ _ _ _).
Qed.
Theorem C98_inversion (a a' : list Z) : fst (l_scalar_inv a) = fst (l_scalar_inv a').
Proof.
  unfold l_scalar_inv. cbv zeta. generalize (get_bits (to_bytes_le L_MINUS2)) as l. intros l. destruct (Nat.ltb (length l) 256); [exact eq_refl|].
  apply bind_ret. exact (inv_steps_tr _ _ _ _ _ _).
Qed.
Print Assumptions C98_inversion.

(** *** Variable time *)

Lemma odd_table_tr n : forall i ap ap' c c', fst (l_odd_table n i ap c) = fst (l_odd_table n i ap' c').
Proof.
  induction n as [|n IH]; intros i ap ap' c c'; [reflexivity|]. cbn [l_odd_table]. do 4 (apply bind_see). apply bind_ret. exact (IH _ _ _ _ _).
Qed.
(** What the match on a digit shows. *)
Definition digit_tr (d : Z) : list event :=
  if 0 <? d then [Branch true; Load (Z.quot d 2); Run Add]
  else if d <? 0 then [Branch false; Branch true; Load (Z.quot (wrap8 (- d)) 2); Run Sub] else [Branch false; Branch false].
Lemma digit_trE ai u t d : fst (l_vt_digit ai u t d) = digit_tr d.
Proof.
  unfold l_vt_digit, digit_tr. rewrite fst_bind. destruct (0 <? d); [rewrite !fst_bind; reflexivity|]. rewrite fst_bind. destruct (d <? 0); [rewrite !fst_bind; reflexivity|reflexivity].
Qed.
Fixpoint rounds_trace (ds : list Z) : list event :=
  match ds with [] => [] | d :: r => Run ToProjective :: Run Double :: digit_tr d ++ rounds_trace r end.
Lemma rounds_trE ai ds : forall t, fst (l_vt_rounds ai t ds) = rounds_trace ds.
Proof. induction ds as [|d r IH]; intros t; [reflexivity|]. cbn [l_vt_rounds rounds_trace]. rewrite !fst_bind, digit_trE, IH. reflexivity. Qed.
Fixpoint scan_trace (l : list Z) : list event :=
  match l with
  | [] => [Run Zero]
  | x :: r => Branch (x =? 0) :: if x =? 0 then scan_trace r else digit_tr x ++ rounds_trace r ++ [Run ToExtended]
  end.
Lemma vartime_trE a ap : exists hd, (forall a' ap', exists tl, fst (l_ge_scalar_mult_vartime a' ap') = hd ++ tl /\ tl = scan_trace (rev (slide a'))) /\
  fst (l_ge_scalar_mult_vartime a ap) = hd ++ scan_trace (rev (slide a)).
Proof.
  assert (H : forall a' ap', fst (l_ge_scalar_mult_vartime a' ap') =
    ([Run WriteCached; Run Double; Run ToExtended] ++ fst (l_odd_table 7 0 (to_extended (ext_double ap)) (write_cached ap))) ++ scan_trace (rev (slide a'))).
  { intros a' ap'. unfold l_ge_scalar_mult_vartime. cbv zeta. rewrite !fst_bind. rewrite (odd_table_tr 7 0 _ (to_extended (ext_double ap)) _ (write_cached ap)).
    cbn [fst see app]. do 3 f_equal. f_equal. generalize (snd (l_odd_table 7 0 (to_extended (ext_double ap')) (write_cached ap'))) as ai. intros ai.
    generalize (rev (slide a')) as l. induction l as [|x r IH]; [reflexivity|]. cbn [l_drop_zeros scan_trace]. rewrite fst_bind, snd_bind. cbn [fst see app].
    f_equal. destruct (x =? 0); [exact IH|]. cbn [fst snd ret app]. rewrite !fst_bind, digit_trE, rounds_trE. reflexivity. }
  eexists. split; [|apply H]. intros a' ap'. eexists. split; [apply H|reflexivity].
Qed.

Lemma wrap8_small x : -128 <= x < 128 -> wrap8 x = x.
Proof. intros H. Transparent wrap8. unfold wrap8. Opaque wrap8. rewrite Z.mod_small by lia. lia. Qed.
Lemma quot_odd d d' : 0 < d -> 0 < d' -> Z.odd d = true -> Z.odd d' = true -> Z.quot d 2 = Z.quot d' 2 -> d = d'.
Proof.
  intros H H' O O' E. rewrite !Z.quot_div_nonneg in E by lia. apply Z.odd_spec in O as [k ->]. apply Z.odd_spec in O' as [k' ->].
  assert (X : forall n, (2 * n + 1) / 2 = n) by (intros n; symmetry; apply (Z.div_unique _ 2 n 1); lia). rewrite !X in E. lia.
Qed.
Lemma digit_inj d d' r r' : digit_ok d -> digit_ok d' -> digit_tr d ++ r = digit_tr d' ++ r' -> d = d' /\ r = r'.
Proof.
  intros [B O] [B' O'] E. unfold digit_tr in E.
  destruct (Z.ltb_spec 0 d) as [P|P], (Z.ltb_spec 0 d') as [P'|P']; cbn [app] in E; try discriminate E.
  - injection E as E1 E2. split; [|exact E2]. apply quot_odd; try lia; destruct O, O'; try lia; assumption.
  - destruct (d' <? 0); discriminate E.
  - destruct (d <? 0); discriminate E.
  - destruct (Z.ltb_spec d 0) as [Q|Q], (Z.ltb_spec d' 0) as [Q'|Q']; cbn [app] in E; try discriminate E.
    + injection E as E1 E2. split; [|exact E2]. rewrite !wrap8_small in E1 by lia. assert (- d = - d'); [|lia].
      apply quot_odd; try lia; rewrite ?Z.odd_opp; destruct O, O'; try lia; assumption.
    + injection E as E2. split; [lia|exact E2].
Qed.
Lemma rounds_inj ds : forall ds' r r', Forall digit_ok ds -> Forall digit_ok ds' ->
  rounds_trace ds ++ Run ToExtended :: r = rounds_trace ds' ++ Run ToExtended :: r' -> ds = ds' /\ r = r'.
Proof.
  induction ds as [|d ds IH]; intros [|d' ds'] r r' F F' E; cbn [rounds_trace app] in E.
  - injection E as E. auto.
  - discriminate E.
  - discriminate E.
  - injection E as E. rewrite <- !app_assoc in E. apply digit_inj in E as [-> E]; [|exact (Forall_inv F)|exact (Forall_inv F')].
    destruct (IH ds' r r' (Forall_inv_tail F) (Forall_inv_tail F') E) as [-> ->]. auto.
Qed.
Lemma scan_inj l : forall l', length l = length l' -> Forall digit_ok l -> Forall digit_ok l' -> scan_trace l = scan_trace l' -> l = l'.
Proof.
  induction l as [|x l IH]; intros [|x' l'] L F F' E; try discriminate L; [reflexivity|]. cbn [scan_trace] in E. injection E as E0 E.
  assert (Fl := Forall_inv_tail F). assert (Fl' := Forall_inv_tail F').
  destruct (Z.eqb_spec x 0) as [->|N], (Z.eqb_spec x' 0) as [->|N']; try discriminate E0.
  - f_equal. apply IH; auto.
  - apply digit_inj in E as [-> E]; [|exact (Forall_inv F)|exact (Forall_inv F')]. f_equal. exact (proj1 (rounds_inj l l' [] [] Fl Fl' E)).
Qed.

Lemma vt_mul_trE self s p : p_vt self = true -> fst (l_point_mul self s (Some p)) = [Branch false; Branch true] ++ fst (l_ge_scalar_mult_vartime s (p_ge p)).
Proof.
  intros V. unfold l_point_mul. rewrite fst_bind. cbn [see fst snd]. rewrite fst_bind. cbn [ret fst snd]. rewrite app_nil_r, V, fst_bind. cbn [see fst snd app].
  exact eq_refl.
Qed.
(** On a receiver with the flag set, the observations determine the whole scalar. *)
Theorem C98_variable_time (self : point) (p p' : point) (s s' : list Z) : p_vt self = true ->
  length s = 32%nat -> length s' = 32%nat -> Forall (fun b => 0 <= b < 256) s -> Forall (fun b => 0 <= b < 256) s' ->
  fst (l_point_mul self s (Some p)) = fst (l_point_mul self s' (Some p')) -> s = s'.
Proof.
  intros V L L' B B' E. rewrite (vt_mul_trE self s p V), (vt_mul_trE self s' p' V) in E. apply app_inv_head in E.
  destruct (vartime_trE s (p_ge p)) as [hd [H1 H2]]. rewrite H2 in E. destruct (H1 s' (p_ge p')) as [tl [H3 ->]]. rewrite H3 in E. apply app_inv_head in E.
  destruct (slide_ok s B L) as [D [Ln [[c X] _]]]. destruct (slide_ok s' B' L') as [D' [Ln' [[c' X'] _]]].
  assert (S : rev (slide s) = rev (slide s')).
  { apply scan_inj; [rewrite !rev_length; congruence|apply Forall_rev; exact D|apply Forall_rev; exact D'|exact E]. }
  apply (f_equal (@rev Z)) in S. rewrite !rev_involutive in S. rewrite S in X.
  apply (le_val_inj s s' B B'); [congruence|]. pose proof (le_val_bound s B) as R. pose proof (le_val_bound s' B') as R'. rewrite L in R. rewrite L' in R'.
  change (256 ^ Z.of_nat 32) with (2 ^ 256) in R, R'. nia.
Qed.
Print Assumptions C98_variable_time.

(** Full statement: no point multiplication shows anything about its scalar.  False on a point whose flag was set in a message. *)
Theorem C98_refuted : exists (self p : point) (s s' : list Z), length s = 32%nat /\ length s' = 32%nat /\ Forall (fun b => 0 <= b < 256) s /\ Forall (fun b => 0 <= b < 256) s' /\
  fst (l_point_mul self s (Some p)) <> fst (l_point_mul self s' (Some p)).
Proof.
  assert (B : forall b, 0 <= b < 256 -> Forall (fun b => 0 <= b < 256) (b :: repeat 0 31)).
  { intros b Hb. constructor; [exact Hb|]. apply Forall_forall. intros x Hx. apply repeat_spec in Hx. lia. }
  exists (Pt ext_default true), point_default, (1 :: repeat 0 31), (2 :: repeat 0 31). split; [reflexivity|]. split; [reflexivity|].
  split; [apply B; lia|]. split; [apply B; lia|]. intros E. apply C98_variable_time in E; [discriminate E|reflexivity|reflexivity|reflexivity|apply B; lia|apply B; lia].
Qed.
Print Assumptions C98_refuted.

(** The flag belongs to the receiver: every operation returns a point with the receiver's flag, whatever the operands'; a new
    point does not have it.  So no computation by the API turns it on. *)
Theorem C98_flag (self p q : point) (s b d : list Z) (o : option point) :
  p_vt point_default = false /\
  Forall (fun r => p_vt r = p_vt self)
    [point_null self; point_base self; point_set self p; point_add self p q; point_sub self p q; point_neg self p; point_mul self s o;
     snd (point_unmarshal self b); snd (fst (point_unmarshal_from self b))] /\
  (forall St (R : RandModel.stream St) fuel data st r st', point_embed St R fuel self data st = Ok (r, st') -> p_vt r = p_vt self) /\
  (forall St (R : RandModel.stream St) fuel st r st', point_pick St R fuel self st = Ok (r, st') -> p_vt r = p_vt self).
Proof.
  assert (E : forall St (R : RandModel.stream St) fuel data st r st', point_embed St R fuel self data st = Ok (r, st') -> p_vt r = p_vt self).
  { intros St R fuel. revert self. induction fuel as [|f IH]; intros self data st r st' H; [discriminate H|]. cbn [point_embed] in H.
    destruct (RandModel.xks R st (repeat 0 32)) as [[x|] st1]; [|discriminate H].
    destruct (ext_set_bytes (p_ge self) (embed_bytes data x)) as [ok e]. cbv zeta in H. destruct ok; cbn [negb] in H; [|apply IH in H; exact H].
    destruct data as [dd|]; destruct (point_eqb _ NULL_POINT) in H; try (apply IH in H; exact H); injection H as <- _; reflexivity. }
  split; [reflexivity|]. split; [|split; [exact E|intros St R fuel; apply E]].
  assert (U : forall b, p_vt (snd (point_unmarshal self b)) = p_vt self).
  { intros b0. unfold point_unmarshal. destruct (ext_set_bytes (p_ge self) b0) as [ok e]. reflexivity. }
  repeat constructor; [apply U|]. unfold point_unmarshal_from. destruct (Nat.ltb _ _); [reflexivity|apply U].
Qed.
Print Assumptions C98_flag.

(** The hypotheses hold of different scalars and of different operands, one of them with its own flag set; a selection reads all
    eight entries of its table. *)
Example C98_nonvacuous : p_vt point_default = false /\ length scalar_one = 32%nat /\ length (repeat 7 32) = 32%nat /\ scalar_one <> repeat 7 32 /\
  p_vt (Pt ext_default true) = true /\
  filter (fun e => match e with Load _ => true | _ => false end) (fst (l_sel_cached (repeat cached_zero 8) 3)) = map Load [0; 1; 2; 3; 4; 5; 6; 7].
Proof. split; [reflexivity|]. split; [reflexivity|]. split; [reflexivity|]. split; [discriminate|]. split; [reflexivity|]. vm_compute. reflexivity. Qed.
