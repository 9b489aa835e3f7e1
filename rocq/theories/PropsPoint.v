(** C32 (order of the weak points), C33-C36, C80-C83: the points of edwards25519.

    The specification is EdCurve (the curve, its addition law) and Group (multiples): [eadd], [eneg], [e0], [zmul edg].
    [repr p P]: the limbs of [p] are in range and stand for the point [P] (x = X/Z, y = Y/Z, xy = T/Z). *)
From Coq Require Import ZArith String List Lia Bool Znumtheory ssrbool.
From Verif Require Import Base Bytes Limb ScLimbs IntModel RandModel RandProofs ScModel ScProofs FeLimbs FeModel FeProofs Primes Group Edwards Fp EdCurve
  GeConsts GeModel GeProofs GeMul GeBase GeBaseMul GeEnc GeVar EdOrder EdModel EdBytes PropsSc EdSpec PointModel PointProofs PointCurve.
Import ListNotations.
Local Open Scope Z_scope.
Opaque ge_scalar_mult ge_scalar_mult_base ge_scalar_mult_vartime ext_set_bytes ext_write_bytes to_extended comp_add comp_sub write_cached ext_neg
  ext_double proj_double to_projective mixed_add mixed_sub.

(** ** C33 *)

(** One step: whatever the receiver and whatever representations are given, the result represents the sum, difference,
    negation; doubling and the mixed forms of ge.rs likewise. *)
Theorem C33_operations (self p q : point) (P Q : epoint) : repr p P -> repr q Q ->
  repr (point_add self p q) (eadd P Q) /\ repr (point_sub self p q) (eadd P (eneg Q)) /\ repr (point_neg self p) (eneg P) /\
  repr (point_set self p) P /\ repr (point_null self) e0 /\ repr (point_base self) ebase /\
  repr (Pt (to_extended (ext_double (p_ge p))) (p_vt self)) (eadd P P).
Proof.
  intros HP HQ. split; [exact (add_ok self p q P Q HP HQ)|]. split; [exact (sub_ok self p q P Q HP HQ)|]. split; [exact (neg_ok self p P HP)|].
  split; [exact (set_ok self p P HP)|]. split; [exact (null_ok self)|]. split; [exact (base_ok self)|].
  exact (to_extended_ok _ _ (ext_double_ok _ _ HP)).
Qed.
Print Assumptions C33_operations.

(** The addition law has no exceptional pair: the denominators do not vanish, the result is on the curve, and the points
    form a commutative group. *)
Theorem C33_complete (P Q : epoint) :
  fadd f1 (fmul (fmul (fmul (fmul fd (ex P)) (ex Q)) (ey P)) (ey Q)) <> f0 /\
  fsub f1 (fmul (fmul (fmul (fmul fd (ex P)) (ex Q)) (ey P)) (ey Q)) <> f0 /\
  on_curve (ex (eadd P Q)) (ey (eadd P Q)) /\
  eadd P Q = eadd Q P /\ (forall R, eadd P (eadd Q R) = eadd (eadd P Q) R) /\ eadd e0 P = P /\ eadd P (eneg P) = e0.
Proof.
  split; [exact (law_dp _ _ _ _ (ep_on P) (ep_on Q))|]. split; [exact (law_dm _ _ _ _ (ep_on P) (ep_on Q))|]. split; [apply ep_on|].
  split; [apply EdCurve.eadd_comm|]. split; [intros R; apply EdCurve.eadd_assoc|]. split; [apply EdCurve.eadd_0|apply EdCurve.eadd_neg].
Qed.
Print Assumptions C33_complete.

(** Any computation: expressions over the constructors and operations of the API, executed by the code (with any receivers)
    and in the group. *)
Inductive pexp :=
| XNull | XBase | XBytes (b : list Z) | XAdd (a b : pexp) | XSub (a b : pexp) | XNeg (a : pexp) | XMul (s : list Z) (a : pexp) | XMulBase (s : list Z).
Fixpoint run (self : point) (e : pexp) : option point :=
  match e with
  | XNull => Some (point_null self)
  | XBase => Some (point_base self)
  | XBytes b => match point_unmarshal self b with (Ok _, p) => Some p | _ => None end
  | XAdd a b => match run self a, run self b with Some p, Some q => Some (point_add self p q) | _, _ => None end
  | XSub a b => match run self a, run self b with Some p, Some q => Some (point_sub self p q) | _, _ => None end
  | XNeg a => match run self a with Some p => Some (point_neg self p) | None => None end
  | XMul s a => match run self a with Some p => Some (point_mul self s (Some p)) | None => None end
  | XMulBase s => Some (point_mul self s None)
  end.
Fixpoint means (e : pexp) (P : epoint) : Prop :=
  match e with
  | XNull => P = e0
  | XBase => P = ebase
  | XBytes b => length b = 32%nat /\ decodes b P
  | XAdd a b => exists A B, means a A /\ means b B /\ P = eadd A B
  | XSub a b => exists A B, means a A /\ means b B /\ P = eadd A (eneg B)
  | XNeg a => exists A, means a A /\ P = eneg A
  | XMul s a => exists A, means a A /\ P = mul (le_val s) A
  | XMulBase s => P = mul (le_val s) ebase
  end.
(** Byte strings are bytes, scalars are 32 bytes below 2^255 (which every result of scalar arithmetic and key derivation is). *)
Fixpoint wf (e : pexp) : Prop :=
  match e with
  | XNull | XBase => True
  | XBytes b => Forall (fun x => 0 <= x < 256) b
  | XAdd a b | XSub a b => wf a /\ wf b
  | XNeg a => wf a
  | XMul s a => scalar32 s /\ le_val s < 2 ^ 255 /\ wf a
  | XMulBase s => scalar32 s /\ le_val s < 2 ^ 255
  end.
Theorem C33_computations (self : point) (e : pexp) : wf e ->
  match run self e with
  | Some p => exists P, repr p P /\ means e P /\ (forall Q, means e Q -> Q = P)
  | None => forall Q, ~ means e Q
  end.
Proof.
  induction e as [| |b|a IHa b IHb|a IHa b IHb|a IHa|s a IHa|s]; intros W; cbn [run means wf] in *.
  - exists e0. split; [exact (null_ok self)|]. auto.
  - exists ebase. split; [exact (base_ok self)|]. auto.
  - pose proof (unmarshal_ok self b W) as U. destruct (point_unmarshal self b) as [[u|e| |] p]; try contradiction.
    + destruct U as [P [HP [D [L _]]]]. exists P. split; [exact HP|]. split; [auto|]. intros Q [_ DQ]. exact (decodes_unique b Q P DQ D).
    + destruct U as [_ U]. intros Q [L D]. exact (U Q L D).
  - destruct W as [Wa Wb]. specialize (IHa Wa). specialize (IHb Wb).
    destruct (run self a) as [p|]; [|intros Q [A [B [HA _]]]; exact (IHa A HA)].
    destruct (run self b) as [q|]; [|intros Q [A [B [_ [HB _]]]]; exact (IHb B HB)].
    destruct IHa as [A [HA [MA UA]]], IHb as [B [HB [MB UB]]]. exists (eadd A B). split; [exact (add_ok self p q A B HA HB)|].
    split; [exists A, B; auto|]. intros Q [A' [B' [MA' [MB' ->]]]]. now rewrite (UA A' MA'), (UB B' MB').
  - destruct W as [Wa Wb]. specialize (IHa Wa). specialize (IHb Wb).
    destruct (run self a) as [p|]; [|intros Q [A [B [HA _]]]; exact (IHa A HA)].
    destruct (run self b) as [q|]; [|intros Q [A [B [_ [HB _]]]]; exact (IHb B HB)].
    destruct IHa as [A [HA [MA UA]]], IHb as [B [HB [MB UB]]]. exists (eadd A (eneg B)). split; [exact (sub_ok self p q A B HA HB)|].
    split; [exists A, B; auto|]. intros Q [A' [B' [MA' [MB' ->]]]]. now rewrite (UA A' MA'), (UB B' MB').
  - specialize (IHa W). destruct (run self a) as [p|]; [|intros Q [A [HA _]]; exact (IHa A HA)].
    destruct IHa as [A [HA [MA UA]]]. exists (eneg A). split; [exact (neg_ok self p A HA)|]. split; [exists A; auto|].
    intros Q [A' [MA' ->]]. now rewrite (UA A' MA').
  - destruct W as [[Sb Sl] [Hs W]]. specialize (IHa W). destruct (run self a) as [p|]; [|intros Q [A [HA _]]; exact (IHa A HA)].
    destruct IHa as [A [HA [MA UA]]]. exists (mul (le_val s) A). split; [exact (mul_some_ok self s p A Sb Sl Hs HA)|]. split; [exists A; auto|].
    intros Q [A' [MA' ->]]. now rewrite (UA A' MA').
  - destruct W as [[Sb Sl] Hs]. exists (mul (le_val s) ebase). split; [exact (mul_base_small self s Sb Sl Hs)|]. auto.
Qed.
Print Assumptions C33_computations.
(** e.g. 5 B - B + (the point of the bytes 1, 0, ...), for the default receiver. *)
Example C33_nonvacuous : let e := XAdd (XSub (XMulBase (le_bytes 32 5)) XBase) (XBytes (1 :: repeat 0 31)) in
  wf e /\ means e (mul 4 ebase) /\ mul 4 ebase <> e0.
Proof.
  assert (B : bytes (1 :: repeat 0 31)) by (repeat (constructor; [unfold is_byte; lia|]); constructor).
  cbv zeta. split; [|split].
  - cbn [wf]. split; [split; [split; [split; [apply le_bytes_bytes|reflexivity]|reflexivity]|exact I]|exact B].
  - cbn [means]. exists (mul 4 ebase), e0. split; [|split; [split; [reflexivity|]|]].
    + exists (mul (le_val (le_bytes 32 5)) ebase), ebase. split; [reflexivity|]. split; [reflexivity|].
      change (le_val (le_bytes 32 5)) with (4 + 1). rewrite emul_add, emul_1, <- GeBaseMul.eadd_assoc, EdCurve.eadd_neg. symmetry. apply eadd_e0.
    + split; [reflexivity|left; reflexivity].
    + symmetry. apply eadd_e0.
  - rewrite base_order. intros D. apply Z.divide_pos_le in D; [|reflexivity]. revert D. vm_compute. intros D. now apply D.
Qed.

(** ** C34 *)

Theorem C34_multiplication_partial (self p : point) (P : epoint) (s : list Z) : scalar32 s -> le_val s < 2 ^ 255 -> repr p P ->
  repr (point_mul self s (Some p)) (mul (le_val s) P) /\ repr (point_mul self s None) (mul (le_val s) ebase).
Proof. intros [Hb Hl] Hs HP. split; [exact (mul_some_ok self s p P Hb Hl Hs HP)|exact (mul_base_small self s Hb Hl Hs)]. Qed.
Print Assumptions C34_multiplication_partial.
(** Every scalar: the multiplier that is applied instead.  e is the 64th signed digit; above 8 it has no table entry. *)
Theorem C34_all_scalars (p : point) (P : epoint) (s : list Z) : scalar32 s -> repr p P ->
  let e := (le_val s + 8 * ((16 ^ 63 - 1) / 15)) / 16 ^ 63 in
  let k := if e <=? 8 then le_val s else le_val s - e * 16 ^ 63 in
  repr (point_mul point_default s (Some p)) (mul k P) /\ repr (point_mul point_default s None) (mul k ebase).
Proof.
  intros [Hb Hl] HP. cbv zeta.
  assert (E : effective (le_val s) = let e := (le_val s + 8 * ((16 ^ 63 - 1) / 15)) / 16 ^ 63 in if e <=? 8 then le_val s else le_val s - e * 16 ^ 63).
  { unfold effective, top_digit. change (16 ^ 63) with (2 ^ 252). change ((2 ^ 252 - 1) / 15) with S63. cbv zeta. set (e := (le_val s + 8 * S63) / 2 ^ 252).
    destruct (e <=? 8); lia. }
  cbv zeta in E. rewrite <- E. split; [exact (mul_ct_ok point_default s p P eq_refl Hb Hl HP)|exact (mul_none_ok point_default s Hb Hl)].
Qed.
Print Assumptions C34_all_scalars.
(** A scalar that unmarshal_binary accepts and that is multiplied wrongly: 2^256 - 1 times the base point gives -B. *)
Theorem C34_refuted : exists s r, scalar_unmarshal scalar_default s = (Ok tt, r) /\
  repr (point_mul point_default r None) (eneg ebase) /\ mul (le_val r) ebase <> eneg ebase /\
  (forall p P, repr p P -> repr (point_mul point_default r (Some p)) (eneg P)).
Proof.
  exists (repeat 255 32), (repeat 255 32). split; [reflexivity|].
  assert (S : scalar32 (repeat 255 32)) by (split; [repeat (constructor; [lia|]); constructor|reflexivity]).
  assert (N : forall P, eneg P = mul (-1) P) by (intros P; change (-1) with (- (1)); rewrite emul_opp, emul_1; reflexivity).
  split; [|split].
  - rewrite N. exact (proj2 (C34_all_scalars _ _ _ S (null_ok point_default))).
  - rewrite N. intros E. apply (f_equal (fun X => eadd X (mul 1 ebase))) in E. rewrite <- !emul_add in E. change (-1 + 1) with 0 in E.
    change (mul 0 ebase) with e0 in E. apply base_order in E. apply Z.mod_divide in E; [|discriminate]. vm_compute in E. discriminate E.
  - intros p P HP. rewrite N. exact (proj1 (C34_all_scalars p P _ S HP)).
Qed.
Print Assumptions C34_refuted.
Example C34_nonvacuous : let s := le_bytes 32 (2 ^ 255 - 1) in scalar32 s /\ le_val s < 2 ^ 255 /\ repr (point_base point_default) ebase /\
  mul (le_val s) ebase <> e0.
Proof.
  cbv zeta. split; [split; [apply le_bytes_bytes|reflexivity]|]. split; [reflexivity|]. split; [exact (base_ok _)|].
  rewrite base_order. intros D. apply Z.mod_divide in D; [|discriminate]. vm_compute in D. discriminate D.
Qed.

(** ** C35 *)

(** [decodes b P]: y is the field modulo p, and the sign bit is the parity of x unless x = 0.  Acceptance does not depend
    on the receiver. *)
Theorem C35_accepts (self : point) (b : list Z) : Forall (fun x => 0 <= x < 256) b ->
  (is_ok (fst (point_unmarshal self b)) <-> length b = 32%nat /\ exists P : epoint, ey P = of_Z (y_of b)).
Proof.
  intros Hb. pose proof (unmarshal_ok self b Hb) as U.
  assert (G : length b = 32%nat -> (exists P, ey P = of_Z (y_of b)) -> exists P, decodes b P).
  { intros L [P E]. destruct (sign_nth b Hb L) as [_ SB]. destruct (fp_dec (ex P) f0) as [Z|N]; [exists P; split; [exact E|now left]|].
    destruct (Z.eq_dec (fz (ex P) mod 2) (sign_bit b)) as [S|S]; [exists P; split; [exact E|now right]|].
    exists (eneg P). split; [exact E|]. right. cbn [ex eneg]. rewrite (parity_opp _ N). pose proof (Z.mod_pos_bound (fz (ex P)) 2 eq_refl). lia. }
  destruct (point_unmarshal self b) as [[u|e| |] p]; cbn [fst is_ok]; try contradiction.
  - destruct U as [P [_ [D [L _]]]]. split; [|reflexivity]. intros _. split; [exact L|]. exists P. exact (proj1 D).
  - destruct U as [_ U]. split; [discriminate|]. intros [L E]. destruct (G L E) as [P D]. exfalso. exact (U P L D).
Qed.
Print Assumptions C35_accepts.
(** Encoding then decoding gives an equal point with the same group element; two points are [eq] iff they are the same point;
    equal points have the same hash input. *)
Theorem C35_round_trip (self p : point) (P : epoint) : repr p P ->
  exists q, point_unmarshal self (point_marshal p) = (Ok tt, q) /\ repr q P /\ point_eqb q p = true.
Proof.
  intros HP. pose proof (unmarshal_ok self (point_marshal p)) as U. rewrite (marshal_ok p P HP) in *. specialize (U (enc_bytes P)).
  destruct (point_unmarshal self (enc P)) as [[[]|e| |] q]; try contradiction.
  - destruct U as [Q [HQ [D _]]]. rewrite (decodes_unique _ _ _ D (enc_decodes P)) in HQ. exists q. split; [reflexivity|]. split; [exact HQ|].
    apply (eqb_ok q p P P HQ HP). reflexivity.
  - destruct U as [_ U]. exfalso. exact (U P (enc_length P) (enc_decodes P)).
Qed.
Print Assumptions C35_round_trip.
Theorem C35_equality (p q : point) (P Q : epoint) : repr p P -> repr q Q ->
  (point_eqb p q = true <-> P = Q) /\ (point_marshal p = point_marshal q <-> P = Q).
Proof.
  intros HP HQ. split; [exact (eqb_ok p q P Q HP HQ)|]. rewrite (marshal_ok p P HP), (marshal_ok q Q HQ). split; [apply enc_inj|now intros ->].
Qed.
Print Assumptions C35_equality.
(** Decoding then encoding gives the string back when y < p and x is not 0; with x = 0 up to the sign bit; and when y >= p,
    the string is another encoding of the point with y - p. *)
Theorem C35_canonical (self q : point) (b : list Z) : Forall (fun x => 0 <= x < 256) b -> point_unmarshal self b = (Ok tt, q) ->
  length (point_marshal q) = 32%nat /\
  (y_of b < p25519 -> y_of (point_marshal q) = y_of b) /\
  (y_of b < p25519 -> y_of b <> 1 -> y_of b <> p25519 - 1 -> point_marshal q = b) /\
  (p25519 <= y_of b -> y_of (point_marshal q) = y_of b - p25519).
Proof.
  intros Hb H. pose proof (unmarshal_ok self b Hb) as U. rewrite H in U. destruct U as [P [HP [D [L _]]]]. rewrite (marshal_ok q P HP).
  assert (Rg := Z.mod_pos_bound (le_val b) (2 ^ 255) eq_refl). fold (y_of b) in Rg.
  assert (Pp : p25519 = prime_p) by reflexivity. assert (Pv : prime_p = 2 ^ 255 - 19) by reflexivity.
  split; [apply enc_length|]. split; [|split].
  - rewrite Pp. exact (decodes_low b P Hb L D).
  - intros Hy N1 N2. rewrite Pp in Hy. apply decodes_canonical; try assumption. intros X.
    pose proof (decodes_low b P Hb L D Hy) as Y. rewrite y_field_enc in Y. change (y_field b) with (y_of b) in Y.
    destruct (zero_x P X) as [E|E]; rewrite E in Y.
    + apply N1. rewrite <- Y. reflexivity.
    + apply N2. rewrite <- Y. reflexivity.
  - intros Hy. change (y_of (enc P)) with (y_field (enc P)). rewrite y_field_enc, (proj1 D). change (fz (ycoord b)) with (y_of b mod prime_p). rewrite Pp.
    symmetry. apply (Z.mod_unique_pos _ _ 1); lia.
Qed.
Print Assumptions C35_canonical.
(** Three strings for the neutral element: its encoding, the sign bit set, y = p + 1. *)
Example C35_nonvacuous : decodes (1 :: repeat 0 31) e0 /\ decodes (1 :: repeat 0 30 ++ [128]) e0 /\ decodes (le_bytes 32 (p25519 + 1)) e0 /\
  enc e0 = 1 :: repeat 0 31 /\ repr (point_base point_default) ebase.
Proof.
  split; [split; [reflexivity|now left]|]. split; [split; [apply fz_inj; vm_compute; reflexivity|now left]|].
  split; [split; [apply fz_inj; vm_compute; reflexivity|now left]|]. split; [vm_compute; reflexivity|exact (base_ok _)].
Qed.

(** ** C32 (second half): the listed y-coordinates are those of the points of order 1, 2, 4 and 8. *)

Theorem C32_exact (p : point) (P : epoint) : repr p P -> (pt_small_order (point_marshal p) = true <-> mul 8 P = e0).
Proof. intros HP. rewrite (marshal_ok p P HP). apply small_enc. Qed.
Print Assumptions C32_exact.
(** There are exactly eight of them, the multiples of one of order 8; and the whole group is cyclic of order 8 l. *)
Theorem C32_group : (forall P : epoint, exists k, 0 <= k < 8 * order /\ P = mul k (eadd ebase tors)) /\
  (forall k, mul k (eadd ebase tors) = e0 <-> (8 * order | k)) /\
  (forall P, mul 8 P = e0 <-> exists j, 0 <= j < 8 /\ P = mul j tors) /\ (forall j, mul j tors = e0 <-> (8 | j)).
Proof. split; [exact cyclic|]. split; [exact egen_order|]. split; [exact small_multiples|exact tors_order]. Qed.
Print Assumptions C32_group.
Example C32_exact_nonvacuous : repr (rep tors) tors /\ mul 8 tors = e0 /\ mul 4 tors <> e0 /\ mul 8 ebase <> e0.
Proof.
  split; [apply rep_ok|]. split; [exact mul_8_tors|]. split; [rewrite mul_4_tors; exact half_nz|].
  rewrite base_order. intros D. apply Z.mod_divide in D; [|discriminate]. vm_compute in D. discriminate D.
Qed.

(** ** C36 *)

(** A stream keeps lengths and bytes ([stream_law]); fuel bounds the number of rounds. *)
Theorem C36_embed (St : Type) (R : stream St) (fuel : nat) (self p : point) (d : list Z) (s s' : St) :
  stream_law R -> Forall (fun x => 0 <= x < 256) d -> point_embed St R fuel self (Some d) s = Ok (p, s') ->
  point_data p = Ok (firstn 29 d) /\ exists P, repr p P /\ mul order P = e0.
Proof.
  intros law Hd H. destruct (embed_some_ok St R law d Hd fuel self s p s' H) as [P [HP [E [_ D]]]]. split; [exact D|]. exists P. auto.
Qed.
Print Assumptions C36_embed.
Theorem C36_total (St : Type) (R : stream St) (fuel : nat) (self : point) (data : option (list Z)) (s : St) :
  (forall s n, exists b s', xks R s (repeat 0 n) = (Some b, s')) -> ~ is_panic (point_embed St R fuel self data s).
Proof.
  intros Hs. pose proof (embed_no_panic St R data Hs fuel self s) as N. destruct (point_embed St R fuel self data s); cbn [is_panic]; auto.
Qed.
Print Assumptions C36_total.
Theorem C36_data_total (p : point) (P : epoint) : repr p P ->
  match point_data p with
  | Ok d => nth 0 (point_marshal p) 0 <= 29 /\ d = firstn (Z.to_nat (nth 0 (point_marshal p) 0)) (skipn 1 (point_marshal p))
  | Err e => e = EmbedDataLength /\ 29 < nth 0 (point_marshal p) 0
  | _ => False
  end.
Proof.
  intros HP. pose proof (data_no_panic p P HP) as NP. unfold point_data in *. cbv zeta in *. rewrite (marshal_ok p P HP) in *.
  assert (B : 0 <= nth 0 (enc P) 0).
  { pose proof (enc_bytes P) as Hb. destruct (enc P) as [|x l]; [cbn [nth]; lia|]. inversion_clear Hb as [|? ? Hx _]. exact (proj1 Hx). }
  destruct (Nat.ltb_spec embed_len (Z.to_nat (nth 0 (enc P) 0))) as [H|H]; unfold embed_len in H.
  - split; [reflexivity|lia].
  - revert NP. unfold slice. destruct (_ && _)%bool; [|congruence]. intros _. split; [lia|]. f_equal. lia.
Qed.
Print Assumptions C36_data_total.
(** The neutral element carries one byte of data, 0; with the zero stream, embedding [0] returns at once. *)
Definition zero_stream : stream unit := Stream (fun s src => (Some src, s)).
Example C36_nonvacuous : stream_law zero_stream /\ exists p, point_embed unit zero_stream 1 point_default (Some [0]) Datatypes.tt = Ok (p, Datatypes.tt) /\ repr p e0.
Proof.
  split; [intros s src o s' H; cbn [xks zero_stream] in H; injection H as <- _; auto|].
  cbn [point_embed xks zero_stream]. set (b := embed_bytes (Some [0]) (repeat 0 32)).
  assert (B : bytes b) by (repeat (constructor; [unfold is_byte; cbn; lia|]); constructor).
  pose proof (set_bytes_ok (p_ge point_default) b B eq_refl) as SB.
  destruct (ext_set_bytes (p_ge point_default) b) as [[|] e] eqn:X; cbn [set_bytes_post] in SB.
  - destruct SB as [P [HP D]]. assert (EP : P = e0) by (apply (decodes_unique b); [exact D|split; [reflexivity|left; reflexivity]]). subst P. cbn [negb].
    cbv zeta. assert (R1 : repr (Pt e (p_vt point_default)) e0) by exact HP.
    pose proof (proj2 (eqb_ok _ _ _ _ (mul_ell_ok point_default _ _ R1) (null_ok point_default)) ((zmul_g0 edg ell : mul ell e0 = e0))) as Q. fold NULL_POINT in Q. rewrite Q.
    eexists. split; [reflexivity|exact R1].
  - exfalso. exact (SB e0 eq_refl).
Qed.

(** ** C80 *)

(** A picked point is a non-zero multiple of the base point. *)
Theorem C80_pick (St : Type) (R : stream St) (fuel : nat) (self p : point) (s s' : St) : stream_law R ->
  point_pick St R fuel self s = Ok (p, s') -> exists j, 0 < j < order /\ repr p (mul j ebase).
Proof.
  intros law H. destruct (embed_none_ok St R law fuel self s p s' H) as [P [HP [E [N _]]]].
  apply prime_multiples in E as [j [Hj E]]. exists j. rewrite <- E. split; [|exact HP].
  assert (j <> 0) by (intros ->; apply N; exact E). change order with ell. lia.
Qed.
Print Assumptions C80_pick.
(** Any string the stream delivers is used or skipped as follows: the first one that decodes to a point P with 8 P <> 0
    gives 8 P. *)
Theorem C80_first (St : Type) (R : stream St) (fuel : nat) (self : point) (s s' : St) (b : list Z) : stream_law R ->
  xks R s (repeat 0 32) = (Some b, s') ->
  (forall P, decodes b P -> mul 8 P <> e0 -> exists p, point_pick St R (S fuel) self s = Ok (p, s') /\ repr p (mul 8 P)) /\
  ((forall P, decodes b P -> mul 8 P = e0) -> exists self', point_pick St R (S fuel) self s = point_pick St R fuel self' s').
Proof.
  intros law X. destruct (law _ _ _ _ X) as [Lb Bb]. specialize (Bb (bytes_repeat0 32)). rewrite repeat_length in Lb.
  unfold point_pick. cbn [point_embed]. rewrite X. cbn [embed_bytes]. pose proof (set_bytes_ok (p_ge self) b Bb Lb) as SB.
  destruct (ext_set_bytes (p_ge self) b) as [[|] e]; cbn [set_bytes_post] in SB; cbn [negb].
  - destruct SB as [Q [HQ D]]. cbv zeta. set (p1 := Pt e (p_vt self)) in *. assert (R1 : repr p1 Q) by exact HQ.
    assert (Rq := mul_8_ok p1 p1 Q R1). pose proof (eqb_ok _ _ _ _ Rq (null_ok point_default)) as E. fold NULL_POINT in E.
    set (p2 := point_mul p1 COFACTOR_SCALAR (Some p1)) in *. split.
    + intros P DP N. assert (EP : P = Q) by exact (decodes_unique b P Q DP D). subst P.
      destruct (point_eqb p2 NULL_POINT); [exfalso; apply N; now apply E|]. exists p2. auto.
    + intros HS. assert (Q2 : point_eqb p2 NULL_POINT = true) by (apply E; exact (HS Q D)). rewrite Q2. now exists p2.
  - split; [intros P [EP _]; exfalso; exact (SB P EP)|]. intros _. now eexists.
Qed.
Print Assumptions C80_first.
(** The stream that always delivers the encoding of the base point: 8 B is picked. *)
Definition base_stream : stream unit := Stream (fun s src => (Some (if Nat.eqb (length src) 32 then enc ebase else src), s)).
Lemma base_stream_law : stream_law base_stream.
Proof.
  intros s src o s' H. cbn [xks base_stream] in H. injection H as <- _. destruct (Nat.eqb_spec (length src) 32) as [E|E]; [|auto].
  split; [rewrite E; apply enc_length|]. intros _. apply enc_bytes.
Qed.
Example C80_nonvacuous : exists p, point_pick unit base_stream 1 point_default Datatypes.tt = Ok (p, Datatypes.tt) /\ repr p (mul 8 ebase).
Proof.
  destruct (C80_first unit base_stream 0 point_default Datatypes.tt Datatypes.tt (enc ebase) base_stream_law eq_refl) as [H _].
  apply H; [apply enc_decodes|]. exact (proj2 (proj2 (proj2 C32_exact_nonvacuous))).
Qed.
