(** The bytes of deals over the scalars modulo l and the prime-order subgroup: WireModel's format for the values the protocol
    layers handle.  The limbs of a point are those of [rep]; [deal_unbytes_any] shows that any others give the same deal. *)
From Coq Require Import ZArith List Bool Lia.
From Verif Require Import Base Bytes Limb ScModel FeModel GeModel GeMul EdCurve EdModel EdSpec GeEnc PointModel PointProofs PointCurve EdScalars EdSuite WireModel WireProofs PropsWire.
Import ListNotations.
Local Open Scope Z_scope.

Opaque ge_scalar_mult ge_scalar_mult_base ge_scalar_mult_vartime ext_set_bytes ext_write_bytes to_extended comp_add comp_sub write_cached ext_neg.

(** Values of the types [Vec<u8>] and [usize]. *)
Definition small (n : nat) : bool := Z.of_nat n <? 2 ^ 64.
Definition fit_bytes (b : list nat) : bool := small (length b) && is_bytes b.

Definition wire_share (i : nat) (v : fl) : w_prishare := WPriShare (Z.of_nat i) (lbytes v).
Definition wire_points (l : list sub) : list point := map (fun P => rep (sp P)) l.
Definition unshare (s : w_prishare) : nat * fl := (Z.to_nat (wps_i s), lof (wps_v s)).
Definition unpoints (l : list point) : list sub := map (fun p => to_sub (pt_of p)) l.

(** vss/pedersen/vss.rs 114-124 through encodings.rs 49-59. *)
Definition deal_fits (sid : list nat) (i t : nat) (cs : list sub) : bool := fit_bytes sid && small i && small t && small (length cs).
Definition wire_deal (sid : list nat) (i : nat) (v : fl) (t : nat) (cs : list sub) : w_deal :=
  WDeal (toZ sid) (wire_share i v) (Z.of_nat t) (wire_points cs).
Definition deal_bytes (sid : list nat) (i : nat) (v : fl) (t : nat) (cs : list sub) : list nat := toN (c_enc cod_deal (wire_deal sid i v t cs)).
Definition deal_unbytes (b : list nat) : option (list nat * (nat * fl) * nat * list sub) :=
  match c_dec cod_deal (toZ b) with
  | Some (d, _) => Some (toN (wd_sid d), unshare (wd_share d), Z.to_nat (wd_t d), unpoints (wd_commits d))
  | None => None
  end.
(** vss/rabin/vss.rs 136-148. *)
Definition rdeal_fits (sid : list nat) (i j t : nat) (cs : list sub) : bool := fit_bytes sid && small i && small j && small t && small (length cs).
Definition wire_rdeal (sid : list nat) (i : nat) (v : fl) (j : nat) (w : fl) (t : nat) (cs : list sub) : w_rdeal :=
  WRDeal (toZ sid) (wire_share i v) (wire_share j w) (Z.of_nat t) (wire_points cs).
Definition rdeal_bytes (sid : list nat) (i : nat) (v : fl) (j : nat) (w : fl) (t : nat) (cs : list sub) : list nat :=
  toN (c_enc cod_rdeal (wire_rdeal sid i v j w t cs)).
Definition rdeal_unbytes (b : list nat) : option (list nat * (nat * fl) * (nat * fl) * nat * list sub) :=
  match c_dec cod_rdeal (toZ b) with
  | Some (d, _) => Some (toN (wrd_sid d), unshare (wrd_sec d), unshare (wrd_rnd d), Z.to_nat (wrd_t d), unpoints (wrd_commits d))
  | None => None
  end.
(** dkg/pedersen/structs.rs 99-107: what a dealer signs. *)
Definition ddeal_bytes (index : nat) (dh : sub) (sig nonce cipher : list nat) : list nat :=
  match ddeal_marshal (WDDeal (Z.of_nat index) (WEnc (rep (sp dh)) (toZ sig) (toZ nonce) (toZ cipher)) []) with Ok b => toN b | _ => [] end.

Lemma smallE n : small n = true -> usize_range (Z.of_nat n).
Proof. unfold small, usize_range. intros H. apply Z.ltb_lt in H. split; [apply Nat2Z.is_nonneg|exact H]. Qed.
Lemma fit_wf b : fit_bytes b = true -> wf_bytes (toZ b).
Proof.
  unfold fit_bytes. intros H. apply andb_prop in H as [H1 H2]. split; [|exact (is_bytes_toZ b H2)].
  unfold toZ. rewrite map_length. apply smallE in H1. exact (proj2 H1).
Qed.
Lemma wire_share_wf i v : small i = true -> wf_prishare (wire_share i v).
Proof. intros H. split; [exact (smallE i H)|]. split; [exact (proj2 (lbytes_32 v))|exact (proj1 (lbytes_32 v))]. Qed.
Lemma unshare_wire i v : unshare (wire_share i v) = (i, v).
Proof. unfold unshare, wire_share. cbn [wps_i wps_v]. rewrite Nat2Z.id, lof_lbytes. reflexivity. Qed.
Lemma to_sub_sp P : to_sub (sp P) = P.
Proof.
  apply sp_inj. unfold to_sub. destruct (Sumbool.sumbool_of_bool _) as [H|H]; [reflexivity|].
  exfalso. destruct P as [P HP]. cbn [sp] in H. rewrite HP in H. discriminate H.
Qed.
(** Any limbs of the points of the deal. *)
Definition limbs (ps : list point) (cs : list sub) : Prop := Forall2 (fun p P => repr p (sp P)) ps cs.
Lemma limbs_rep cs : limbs (wire_points cs) cs.
Proof. unfold limbs, wire_points. induction cs as [|P cs IH]; [constructor|]. constructor; [exact (rep_ok (sp P))|exact IH]. Qed.
Lemma limbs_un ps cs : limbs ps cs -> unpoints ps = cs.
Proof.
  unfold limbs, unpoints. induction 1 as [|p P ps cs H _ IH]; [reflexivity|]. cbn [map]. rewrite IH, (pt_of_ok p (sp P) H), to_sub_sp. reflexivity.
Qed.
Lemma limbs_wf ps cs : small (length cs) = true -> limbs ps cs -> wf_points ps.
Proof.
  intros S H. split.
  - assert (E : length ps = length cs) by (clear S; unfold limbs in H; induction H as [|? ? ? ? _ _ IH]; [reflexivity|cbn [length]; rewrite IH; reflexivity]). rewrite E. exact (proj2 (smallE _ S)).
  - unfold limbs in H. clear S. induction H as [|p P ps cs H _ IH]; constructor; [exact (repr_wf p (sp P) H)|exact IH].
Qed.

Lemma toN_dec {A} (c : codec A) w (ok : codec_ok c w) a : w a -> c_dec c (toZ (toN (c_enc c a))) = Some (a, []).
Proof.
  intros W. rewrite (toZ_toN _ (ok_bytes c w ok a W)). pose proof (ok_dec c w ok a [] W) as H. rewrite app_nil_r in H. exact H.
Qed.
Lemma deal_unbytes_any sid i v t cs ps : deal_fits sid i t cs = true -> limbs ps cs ->
  deal_unbytes (toN (c_enc cod_deal (WDeal (toZ sid) (wire_share i v) (Z.of_nat t) ps))) = Some (sid, (i, v), t, cs).
Proof.
  unfold deal_fits. intros F L. apply andb_prop in F as [F F4]. apply andb_prop in F as [F F3]. apply andb_prop in F as [F1 F2].
  unfold deal_unbytes. rewrite (toN_dec cod_deal wf_deal deal_ok).
  - cbn [wd_sid wd_share wd_t wd_commits]. rewrite toN_toZ, unshare_wire, Nat2Z.id, (limbs_un ps cs L). reflexivity.
  - split; [exact (fit_wf sid F1)|]. split; [exact (wire_share_wf i v F2)|]. split; [exact (smallE t F3)|exact (limbs_wf ps cs F4 L)].
Qed.
Lemma deal_unbytesK sid i v t cs : deal_fits sid i t cs = true -> deal_unbytes (deal_bytes sid i v t cs) = Some (sid, (i, v), t, cs).
Proof. intros F. exact (deal_unbytes_any sid i v t cs (wire_points cs) F (limbs_rep cs)). Qed.
Lemma rdeal_unbytes_any sid i v j w t cs ps : rdeal_fits sid i j t cs = true -> limbs ps cs ->
  rdeal_unbytes (toN (c_enc cod_rdeal (WRDeal (toZ sid) (wire_share i v) (wire_share j w) (Z.of_nat t) ps))) = Some (sid, (i, v), (j, w), t, cs).
Proof.
  unfold rdeal_fits. intros F L. apply andb_prop in F as [F F5]. apply andb_prop in F as [F F4]. apply andb_prop in F as [F F3]. apply andb_prop in F as [F1 F2].
  unfold rdeal_unbytes. rewrite (toN_dec cod_rdeal wf_rdeal rdeal_ok).
  - cbn [wrd_sid wrd_sec wrd_rnd wrd_t wrd_commits]. rewrite toN_toZ, !unshare_wire, Nat2Z.id, (limbs_un ps cs L). reflexivity.
  - split; [exact (fit_wf sid F1)|]. split; [exact (wire_share_wf i v F2)|]. split; [exact (wire_share_wf j w F3)|].
    split; [exact (smallE t F4)|exact (limbs_wf ps cs F5 L)].
Qed.
Lemma rdeal_unbytesK sid i v j w t cs : rdeal_fits sid i j t cs = true -> rdeal_unbytes (rdeal_bytes sid i v j w t cs) = Some (sid, (i, v), (j, w), t, cs).
Proof. intros F. exact (rdeal_unbytes_any sid i v j w t cs (wire_points cs) F (limbs_rep cs)). Qed.
(** The first element is a byte, so a mark that is not one cannot be mistaken for it. *)
Lemma toN_head {A} (c : codec A) w (ok : codec_ok c w) a : w a -> match toN (c_enc c a) with [] => False | x :: _ => (x < 256)%nat end.
Proof.
  intros W. pose proof (ok_pos c w ok a W) as N. pose proof (ok_bytes c w ok a W) as B.
  destruct (c_enc c a) as [|x l]; [exact (N eq_refl)|]. cbn [toN map]. inversion B as [|? ? Hx _]; subst. unfold is_byte in Hx. lia.
Qed.
Lemma deal_wf sid i v t cs : deal_fits sid i t cs = true -> wf_deal (wire_deal sid i v t cs).
Proof.
  unfold deal_fits. intros F. apply andb_prop in F as [F F4]. apply andb_prop in F as [F F3]. apply andb_prop in F as [F1 F2].
  split; [exact (fit_wf sid F1)|]. split; [exact (wire_share_wf i v F2)|]. split; [exact (smallE t F3)|exact (limbs_wf _ cs F4 (limbs_rep cs))].
Qed.
Lemma rdeal_wf sid i v j w t cs : rdeal_fits sid i j t cs = true -> wf_rdeal (wire_rdeal sid i v j w t cs).
Proof.
  unfold rdeal_fits. intros F. apply andb_prop in F as [F F5]. apply andb_prop in F as [F F4]. apply andb_prop in F as [F F3]. apply andb_prop in F as [F1 F2].
  split; [exact (fit_wf sid F1)|]. split; [exact (wire_share_wf i v F2)|]. split; [exact (wire_share_wf j w F3)|].
  split; [exact (smallE t F4)|exact (limbs_wf _ cs F5 (limbs_rep cs))].
Qed.
Lemma deal_head sid i v t cs : deal_fits sid i t cs = true -> match deal_bytes sid i v t cs with [] => False | x :: _ => (x < 256)%nat end.
Proof. intros F. exact (toN_head cod_deal wf_deal deal_ok _ (deal_wf sid i v t cs F)). Qed.
Lemma rdeal_head sid i v j w t cs : rdeal_fits sid i j t cs = true -> match rdeal_bytes sid i v j w t cs with [] => False | x :: _ => (x < 256)%nat end.
Proof. intros F. exact (toN_head cod_rdeal wf_rdeal rdeal_ok _ (rdeal_wf sid i v j w t cs F)). Qed.
(** The signed bytes determine what is signed. *)
Lemma rep_inj P Q : rep P = rep Q -> P = Q.
Proof. intros E. rewrite <- (pt_of_ok _ _ (rep_ok P)), <- (pt_of_ok _ _ (rep_ok Q)), E. reflexivity. Qed.
Definition ddeal_fits (index : nat) (sig nonce cipher : list nat) : bool :=
  (Z.of_nat index <? 2 ^ 32) && fit_bytes sig && fit_bytes nonce && fit_bytes cipher.
Definition wire_ddeal (index : nat) (dh : sub) (sig nonce cipher : list nat) : w_ddeal :=
  WDDeal (Z.of_nat index) (WEnc (rep (sp dh)) (toZ sig) (toZ nonce) (toZ cipher)) [].
Lemma wire_ddeal_wf i dh s n c : ddeal_fits i s n c = true -> wf_ddeal (wire_ddeal i dh s n c).
Proof.
  unfold ddeal_fits. intros F. apply andb_prop in F as [F F4]. apply andb_prop in F as [F F3]. apply andb_prop in F as [F1 F2].
  split; [split; [apply Nat2Z.is_nonneg|apply Z.ltb_lt in F1; exact F1]|]. split; [|split; [reflexivity|constructor]].
  split; [exact (repr_wf _ _ (rep_ok (sp dh)))|]. split; [exact (fit_wf s F2)|]. split; [exact (fit_wf n F3)|exact (fit_wf c F4)].
Qed.
Lemma ddeal_bytes_toZ i dh s n c : ddeal_fits i s n c = true -> toZ (ddeal_bytes i dh s n c) = c_enc cod_ddeal (wire_ddeal i dh s n c).
Proof. intros F. exact (toZ_toN _ (ok_bytes _ _ ddeal_ok _ (wire_ddeal_wf i dh s n c F))). Qed.
Lemma toZ_inj a b : toZ a = toZ b -> a = b.
Proof. intros E. rewrite <- (toN_toZ a), <- (toN_toZ b), E. reflexivity. Qed.
Lemma some_fst {A B} (x y : A) (r r' : B) : Some (x, r) = Some (y, r') -> x = y. Proof. intros E. injection E. auto. Qed.
Lemma ddeal_bytes_inj i dh s n c j eh u m d : ddeal_fits i s n c = true -> ddeal_fits j u m d = true ->
  ddeal_bytes i dh s n c = ddeal_bytes j eh u m d -> i = j /\ dh = eh /\ s = u /\ n = m /\ c = d.
Proof.
  intros F G E. apply (f_equal toZ) in E. rewrite (ddeal_bytes_toZ _ dh _ _ _ F), (ddeal_bytes_toZ _ eh _ _ _ G) in E.
  pose proof (ok_dec _ _ ddeal_ok _ [] (wire_ddeal_wf i dh s n c F)) as D1. rewrite E in D1.
  rewrite (ok_dec _ _ ddeal_ok _ [] (wire_ddeal_wf j eh u m d G)) in D1. apply some_fst in D1. symmetry in D1.
  pose proof (f_equal wdd_index D1 : Z.of_nat i = Z.of_nat j) as E1. pose proof (f_equal (fun x => we_dhkey (wdd_deal x)) D1 : rep (sp dh) = rep (sp eh)) as E2.
  pose proof (f_equal (fun x => we_sig (wdd_deal x)) D1 : toZ s = toZ u) as E3. pose proof (f_equal (fun x => we_nonce (wdd_deal x)) D1 : toZ n = toZ m) as E4.
  pose proof (f_equal (fun x => we_cipher (wdd_deal x)) D1 : toZ c = toZ d) as E5.
  split; [exact (Nat2Z.inj _ _ E1)|]. split; [exact (sp_inj _ _ (rep_inj _ _ E2))|].
  split; [exact (toZ_inj _ _ E3)|]. split; [exact (toZ_inj _ _ E4)|exact (toZ_inj _ _ E5)].
Qed.
