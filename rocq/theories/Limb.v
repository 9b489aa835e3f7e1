(** A small language for the straight-line limb arithmetic of src/group/edwards25519 (scalar.rs, fe.rs), with Rust's
    wrapping machine arithmetic, and a verified analyser.

    A program is a list of assignments to named variables; [carry[3]] is the variable "carry3".  The analyser
    computes, for every variable, an interval and a polynomial over the inputs and the carries.  It rejects a program
    in which an operation could overflow its type for some input in the stated ranges. *)
From Coq Require Import ZArith List String Lia Bool.
Import ListNotations.
Local Open Scope Z_scope.

(** ** Syntax and semantics *)

Inductive ty := I32 | I64.

Inductive expr :=
| V (x : string)
| K (z : Z)
| Add (t : ty) (a b : expr)
| Sub (t : ty) (a b : expr)
| Mul (t : ty) (a b : expr)
| Shl (t : ty) (a : expr) (k : Z)
| Shr (a : expr) (k : Z)
| Cast (t : ty) (a : expr).

Inductive stmt := Asg (x : string) (e : expr).

Definition half (t : ty) : Z := match t with I32 => 2 ^ 31 | I64 => 2 ^ 63 end.

(** Two's complement wrap-around (overflow checks are off, Cargo.toml 38-39). *)
Definition wrap (t : ty) (z : Z) : Z := (z + half t) mod (2 * half t) - half t.

Definition env := string -> Z.

Fixpoint eval (r : env) (e : expr) : Z :=
  match e with
  | V x => r x
  | K z => z
  | Add t a b => wrap t (eval r a + eval r b)
  | Sub t a b => wrap t (eval r a - eval r b)
  | Mul t a b => wrap t (eval r a * eval r b)
  | Shl t a k => wrap t (eval r a * 2 ^ k)
  | Shr a k => eval r a / 2 ^ k
  | Cast t a => wrap t (eval r a)
  end.

Definition upd (r : env) (x : string) (v : Z) : env := fun y => if String.eqb y x then v else r y.

Fixpoint exec (r : env) (p : list stmt) : env :=
  match p with [] => r | Asg x e :: p' => exec (upd r x (eval r e)) p' end.

Lemma exec_app r p q : exec r (p ++ q) = exec (exec r p) q.
Proof. revert r; induction p as [|[x e] p IH]; intros r; simpl; auto. Qed.

Lemma wrap_id t z : - half t <= z < half t -> wrap t z = z.
Proof.
  intros H. unfold wrap. rewrite Z.mod_small by lia. lia.
Qed.

Lemma wrap_range t z : - half t <= wrap t z < half t.
Proof.
  unfold wrap. assert (0 < half t) by (destruct t; simpl; lia).
  pose proof (Z.mod_pos_bound (z + half t) (2 * half t) ltac:(lia)). lia.
Qed.

(** ** Polynomials of degree at most two over atoms; atom 1 stands for the constant 1 *)

Definition mono := (positive * positive)%type.
Definition poly := list (mono * Z).

Definition mcmp (a b : mono) : comparison :=
  match Pos.compare (fst a) (fst b) with Eq => Pos.compare (snd a) (snd b) | c => c end.

Definition meval (rho : positive -> Z) (m : mono) : Z := rho (fst m) * rho (snd m).
Fixpoint peval (rho : positive -> Z) (p : poly) : Z :=
  match p with [] => 0 | (m, c) :: p' => c * meval rho m + peval rho p' end.

Definition pcons (m : mono) (c : Z) (p : poly) : poly := if c =? 0 then p else (m, c) :: p.

Fixpoint padd (p : poly) : poly -> poly :=
  fix go (q : poly) : poly :=
    match p, q with
    | [], _ => q
    | _, [] => p
    | (m, c) :: p', (m', c') :: q' =>
        match mcmp m m' with
        | Lt => (m, c) :: padd p' q
        | Gt => (m', c') :: go q'
        | Eq => pcons m (c + c') (padd p' q')
        end
    end.

Definition pscale (k : Z) (p : poly) : poly := if k =? 0 then [] else map (fun mc => (fst mc, k * snd mc)) p.
Definition pconst (z : Z) : poly := if z =? 0 then [] else [((1, 1)%positive, z)].
Definition patom (i : positive) : poly := [((1%positive, i), 1)].

(** Product with the constant monomial, or of linear monomials. *)
Definition mmul (a b : mono) : option mono :=
  if (fst b =? 1)%positive && (snd b =? 1)%positive then Some a
  else if (fst a =? 1)%positive && (snd a =? 1)%positive then Some b
  else if (fst a =? 1)%positive && (fst b =? 1)%positive then
    Some (if (snd a <=? snd b)%positive then (snd a, snd b) else (snd b, snd a))
  else None.

Fixpoint pmul1 (m : mono) (c : Z) (q : poly) : option poly :=
  match q with
  | [] => Some []
  | (m', c') :: q' =>
      match mmul m m', pmul1 m c q' with
      | Some m'', Some r => Some (padd [(m'', c * c')] r)
      | _, _ => None
      end
  end.
Fixpoint pmul (p q : poly) : option poly :=
  match p with
  | [] => Some []
  | (m, c) :: p' =>
      match pmul1 m c q, pmul p' q with Some a, Some b => Some (padd a b) | _, _ => None end
  end.

(** Atoms below a bound. *)
Definition mbelow (n : positive) (m : mono) : Prop := (fst m < n)%positive /\ (snd m < n)%positive.
Definition below (n : positive) (p : poly) : Prop := Forall (fun mc => mbelow n (fst mc)) p.

Section Poly.
Variable rho : positive -> Z.
Hypothesis rho1 : rho 1%positive = 1.

Lemma mcmp_eq a b : mcmp a b = Eq -> a = b.
Proof.
  destruct a as [a1 a2], b as [b1 b2]. unfold mcmp; cbn [fst snd].
  destruct (Pos.compare_spec a1 b1) as [->| |]; try discriminate.
  destruct (Pos.compare_spec a2 b2) as [->| |]; try discriminate. reflexivity.
Qed.

Lemma pcons_eval m c p : peval rho (pcons m c p) = c * meval rho m + peval rho p.
Proof. unfold pcons. destruct (Z.eqb_spec c 0) as [->|]; cbn [peval]; lia. Qed.

Lemma padd_eval p q : peval rho (padd p q) = peval rho p + peval rho q.
Proof.
  revert q; induction p as [|[m c] p IH]; intros q; [destruct q; reflexivity|].
  induction q as [|[m' c'] q IHq]; [cbn; lia|].
  cbn [padd]. destruct (mcmp m m') eqn:E.
  - apply mcmp_eq in E; subst m'. rewrite pcons_eval, IH. cbn [peval]. lia.
  - cbn [peval]. rewrite IH. cbn [peval]. lia.
  - cbn [peval]. change ((fix go (q0 : poly) : poly := _) q) with (padd ((m, c) :: p) q). rewrite IHq. cbn [peval]. lia.
Qed.

Lemma pscale_eval k p : peval rho (pscale k p) = k * peval rho p.
Proof.
  unfold pscale. destruct (Z.eqb_spec k 0) as [->|_]; [reflexivity|].
  induction p as [|[m c] p IH]; cbn [map peval fst snd]; [lia|]. rewrite IH. lia.
Qed.

Lemma pconst_eval z : peval rho (pconst z) = z.
Proof. unfold pconst. destruct (Z.eqb_spec z 0) as [->|_]; cbn [peval]; [reflexivity|]. unfold meval; cbn [fst snd]. rewrite rho1. lia. Qed.

Lemma patom_eval i : peval rho (patom i) = rho i.
Proof. unfold patom; cbn [peval]. unfold meval; cbn [fst snd]. rewrite rho1. lia. Qed.

Lemma mmul_eval a b m : mmul a b = Some m -> meval rho m = meval rho a * meval rho b.
Proof.
  unfold mmul.
  destruct ((fst b =? 1)%positive && (snd b =? 1)%positive) eqn:Eb1.
  { apply andb_prop in Eb1. rewrite !Pos.eqb_eq in Eb1. destruct Eb1 as [B1 B2]. intros H; injection H as <-.
    unfold meval at 3. rewrite B1, B2, rho1. lia. }
  destruct ((fst a =? 1)%positive && (snd a =? 1)%positive) eqn:Ea1.
  { apply andb_prop in Ea1. rewrite !Pos.eqb_eq in Ea1. destruct Ea1 as [B1 B2]. intros H; injection H as <-.
    unfold meval at 2. rewrite B1, B2, rho1. lia. }
  destruct (Pos.eqb_spec (fst a) 1) as [Ea|]; [|discriminate].
  destruct (Pos.eqb_spec (fst b) 1) as [Eb|]; [|discriminate]. cbn [andb].
  intros H; injection H as <-. unfold meval. rewrite Ea, Eb, rho1.
  destruct (snd a <=? snd b)%positive; cbn [fst snd]; lia.
Qed.

Lemma pmul1_eval m c q r : pmul1 m c q = Some r -> peval rho r = c * meval rho m * peval rho q.
Proof.
  revert r; induction q as [|[m' c'] q IH]; intros r; cbn [pmul1].
  - intros H; injection H as <-. cbn; lia.
  - destruct (mmul m m') as [m''|] eqn:E; [|discriminate]. destruct (pmul1 m c q) as [r'|]; [|discriminate].
    intros H. assert (E2 : r = padd [(m'', c * c')] r') by congruence. rewrite E2, padd_eval, (IH r' eq_refl). cbn [peval]. rewrite (mmul_eval _ _ _ E). lia.
Qed.

Lemma pmul_eval p q r : pmul p q = Some r -> peval rho r = peval rho p * peval rho q.
Proof.
  revert r; induction p as [|[m c] p IH]; intros r; cbn [pmul].
  - intros H; injection H as <-. reflexivity.
  - destruct (pmul1 m c q) as [a|] eqn:E; [|discriminate]. destruct (pmul p q) as [b|]; [|discriminate].
    intros H; injection H as <-. rewrite padd_eval, (IH b eq_refl), (pmul1_eval _ _ _ _ E). cbn [peval]. lia.
Qed.
End Poly.

Lemma peval_ext rho rho' n p : below n p -> (forall i, (i < n)%positive -> rho' i = rho i) -> peval rho' p = peval rho p.
Proof.
  intros Hb Hr. induction Hb as [|[m c] p [H1 H2] Hb IH]; cbn [peval]; [reflexivity|].
  rewrite IH. unfold meval. cbn [fst snd] in *. rewrite !Hr by assumption. reflexivity.
Qed.

Lemma below_mono n n' p : (n <= n')%positive -> below n p -> below n' p.
Proof. intros H Hb. eapply Forall_impl; [|exact Hb]. intros [m c] [H1 H2]. split; cbn [fst snd] in *; lia. Qed.

Lemma pcons_below n m c p : mbelow n m -> below n p -> below n (pcons m c p).
Proof. intros H1 H2. unfold pcons. destruct (c =? 0); [exact H2|constructor; assumption]. Qed.

Lemma padd_below n p q : below n p -> below n q -> below n (padd p q).
Proof.
  revert q; induction p as [|[m c] p IH]; intros q Hp Hq; [destruct q; exact Hq|].
  inversion Hp as [|x l Hm Hp']; subst.
  induction q as [|[m' c'] q IHq]; [exact Hp|]. inversion Hq as [|x l Hm' Hq']; subst.
  cbn [padd]. destruct (mcmp m m').
  - apply pcons_below; [exact Hm|]. now apply IH.
  - constructor; [exact Hm|]. now apply IH.
  - constructor; [exact Hm'|]. apply IHq. exact Hq'.
Qed.

Lemma pscale_below n k p : below n p -> below n (pscale k p).
Proof.
  intros H. unfold pscale. destruct (k =? 0); [constructor|]. apply Forall_map.
  eapply Forall_impl; [|exact H]. intros [m c]; auto.
Qed.

Lemma pconst_below n z : (1 < n)%positive -> below n (pconst z).
Proof. intros H. unfold pconst. destruct (z =? 0); repeat constructor; cbn; lia. Qed.

Lemma patom_below n i : (1 < n)%positive -> (i < n)%positive -> below n (patom i).
Proof. intros H1 H2. repeat constructor; cbn; lia. Qed.

Lemma mmul_below n a b m : mmul a b = Some m -> mbelow n a -> mbelow n b -> mbelow n m.
Proof.
  unfold mmul. destruct (_ && _); [intros H; injection H as <-; auto|].
  destruct (_ && _); [intros H; injection H as <-; auto|].
  destruct (_ && _); [|discriminate]. intros H; injection H as <-. intros [H1 H2] [H3 H4].
  destruct (snd a <=? snd b)%positive; split; assumption.
Qed.

Lemma pmul1_below n m c q r : pmul1 m c q = Some r -> mbelow n m -> below n q -> below n r.
Proof.
  revert r; induction q as [|[m' c'] q IH]; intros r; cbn [pmul1]; intros H Hm Hq.
  - injection H as <-. constructor.
  - inversion Hq as [|x l Hm' Hq']; subst. destruct (mmul m m') as [m''|] eqn:E; [|discriminate].
    destruct (pmul1 m c q) as [r'|]; [|discriminate].
    assert (E2 : r = padd [(m'', c * c')] r') by congruence. rewrite E2. apply padd_below; [|now apply IH].
    repeat constructor; cbn; eapply mmul_below; eauto.
Qed.

Lemma pmul_below n p q r : pmul p q = Some r -> below n p -> below n q -> below n r.
Proof.
  revert r; induction p as [|[m c] p IH]; intros r; cbn [pmul]; intros H Hp Hq.
  - injection H as <-. constructor.
  - inversion Hp as [|x l Hm Hp']; subst. destruct (pmul1 m c q) as [a|] eqn:E; [|discriminate].
    destruct (pmul p q) as [b|]; [|discriminate]. injection H as <-.
    apply padd_below; [eapply pmul1_below; eauto|now apply IH].
Qed.

(** ** The analyser *)

Record aval := AV { apoly : poly; alo : Z; ahi : Z }.

Record astate := AS { nxt : positive; adefs : list (positive * (poly * Z)); avars : list (string * aval) }.

Fixpoint slook {A} (x : string) (l : list (string * A)) : option A :=
  match l with [] => None | (y, a) :: l' => if String.eqb x y then Some a else slook x l' end.
Fixpoint plook {A} (x : positive) (l : list (positive * A)) : option A :=
  match l with [] => None | (y, a) :: l' => if Pos.eqb x y then Some a else plook x l' end.
Fixpoint sset {A} (x : string) (a : A) (l : list (string * A)) : list (string * A) :=
  match l with [] => [(x, a)] | (y, b) :: l' => if String.eqb x y then (x, a) :: l' else (y, b) :: sset x a l' end.

(** Result in the range of the type, else the analysis fails. *)
Definition inrange (t : ty) (a : aval) : option aval :=
  if (- half t <=? alo a) && (ahi a <? half t) then Some a else None.

Definition amul (a b : aval) : option aval :=
  match pmul (apoly a) (apoly b) with
  | None => None
  | Some p =>
      let x1 := alo a * alo b in let x2 := alo a * ahi b in let x3 := ahi a * alo b in let x4 := ahi a * ahi b in
      Some (AV p (Z.min (Z.min x1 x2) (Z.min x3 x4)) (Z.max (Z.max x1 x2) (Z.max x3 x4)))
  end.

Definition pdiff (p q : poly) : poly := padd p (pscale (-1) q).

(** The constant of a constant polynomial. *)
Definition pis_const (p : poly) : option Z :=
  match p with
  | [] => Some 0
  | [((i, j), c)] => if (i =? 1)%positive && (j =? 1)%positive then Some c else None
  | _ => None
  end.

(** x - 2^k * floor(y / 2^k) where x = y + d: lies in [d, d + 2^k - 1]. *)
Definition tighten (s : astate) (x c : aval) (k : Z) (r : aval) : aval :=
  match apoly c with
  | [((i, j), 1)] =>
      if (i =? 1)%positive then
        match plook j (adefs s) with
        | Some (y, k') =>
            if k =? k' then
              match pis_const (pdiff (apoly x) y) with
              | Some d => AV (apoly r) (Z.max (alo r) d) (Z.min (ahi r) (d + 2 ^ k - 1))
              | None => r
              end
            else r
        | None => r
        end
      else r
  | _ => r
  end.

Definition asub (a b : aval) : aval := AV (pdiff (apoly a) (apoly b)) (alo a - ahi b) (ahi a - alo b).
Definition ashl (a : aval) (k : Z) : aval := AV (pscale (2 ^ k) (apoly a)) (alo a * 2 ^ k) (ahi a * 2 ^ k).

Fixpoint aeval (s : astate) (e : expr) : option (aval * astate) :=
  match e with
  | V x => match slook x (avars s) with Some a => Some (a, s) | None => None end
  | K z => Some (AV (pconst z) z z, s)
  | Add t a b =>
      match aeval s a with
      | Some (x, s1) =>
          match aeval s1 b with
          | Some (y, s2) =>
              match inrange t (AV (padd (apoly x) (apoly y)) (alo x + alo y) (ahi x + ahi y)) with
              | Some r => Some (r, s2) | None => None end
          | None => None end
      | None => None end
  | Sub t a (Shl t' b k) =>
      match aeval s a with
      | Some (x, s1) =>
          match aeval s1 b with
          | Some (y, s2) =>
              if 0 <=? k then
              match inrange t' (ashl y k) with
              | Some z => match inrange t (tighten s2 x y k (asub x z)) with Some r => Some (r, s2) | None => None end
              | None => None end
              else None
          | None => None end
      | None => None end
  | Sub t a b =>
      match aeval s a with
      | Some (x, s1) =>
          match aeval s1 b with
          | Some (y, s2) => match inrange t (asub x y) with Some r => Some (r, s2) | None => None end
          | None => None end
      | None => None end
  | Mul t a b =>
      match aeval s a with
      | Some (x, s1) =>
          match aeval s1 b with
          | Some (y, s2) =>
              match amul x y with
              | Some p => match inrange t p with Some r => Some (r, s2) | None => None end
              | None => None end
          | None => None end
      | None => None end
  | Shl t a k =>
      match aeval s a with
      | Some (x, s1) => if 0 <=? k then match inrange t (ashl x k) with Some r => Some (r, s1) | None => None end else None
      | None => None end
  | Shr a k =>
      match aeval s a with
      | Some (x, s1) =>
          if 0 <=? k then
            let i := nxt s1 in
            Some (AV (patom i) (alo x / 2 ^ k) (ahi x / 2 ^ k),
                  AS (Pos.succ i) ((i, (apoly x, k)) :: adefs s1) (avars s1))
          else None
      | None => None end
  | Cast t a =>
      match aeval s a with
      | Some (x, s1) => match inrange t x with Some r => Some (r, s1) | None => None end
      | None => None end
  end.

Fixpoint arun (s : astate) (p : list stmt) : option astate :=
  match p with
  | [] => Some s
  | Asg x e :: p' =>
      match aeval s e with
      | Some (a, s') => arun (AS (nxt s') (adefs s') (sset x a (avars s'))) p'
      | None => None
      end
  end.

(** ** Soundness *)

Definition agrees (rho : positive -> Z) (a : aval) (v : Z) : Prop := v = peval rho (apoly a) /\ alo a <= v <= ahi a.

Record models (s : astate) (r : env) (rho : positive -> Z) : Prop := {
  m_one : rho 1%positive = 1;
  m_nxt : (1 < nxt s)%positive;
  m_vars : forall x a, slook x (avars s) = Some a -> agrees rho a (r x) /\ below (nxt s) (apoly a);
  m_defs : forall i y k, plook i (adefs s) = Some (y, k) ->
             0 <= k /\ (i < nxt s)%positive /\ below (nxt s) y /\ rho i = peval rho y / 2 ^ k
}.

Definition extends (s : astate) (rho rho' : positive -> Z) : Prop := forall i, (i < nxt s)%positive -> rho' i = rho i.

Lemma agrees_ext s rho rho' a v : extends s rho rho' -> below (nxt s) (apoly a) -> agrees rho a v -> agrees rho' a v.
Proof. intros He Hb [H1 H2]. split; [|exact H2]. rewrite H1. symmetry. eapply peval_ext; eauto. Qed.

Lemma inrange_spec t a r : inrange t a = Some r -> r = a /\ forall v, alo a <= v <= ahi a -> wrap t v = v.
Proof.
  unfold inrange. destruct (Z.leb_spec (- half t) (alo a)); [|discriminate].
  destruct (Z.ltb_spec (ahi a) (half t)); [|discriminate]. intros E; injection E as <-.
  split; [reflexivity|]. intros v Hv. apply wrap_id. lia.
Qed.

Lemma pis_const_eval rho p d : rho 1%positive = 1 -> pis_const p = Some d -> peval rho p = d.
Proof.
  intros H1 H. destruct p as [|[[i j] c] [|? ?]]; unfold pis_const in H; try discriminate; [injection H as <-; reflexivity|].
  destruct (Pos.eqb_spec i 1) as [->|]; [|discriminate]. destruct (Pos.eqb_spec j 1) as [->|]; [|discriminate].
  injection H as <-. cbn. unfold meval; cbn. rewrite H1. lia.
Qed.

Lemma tighten_poly s x y k a : apoly (tighten s x y k a) = apoly a.
Proof.
  unfold tighten. destruct (apoly y) as [|[[i j] c] [|? ?]]; try reflexivity.
  - destruct c as [|[]|]; try reflexivity. destruct (Pos.eqb_spec i 1); [|reflexivity].
    destruct (plook j (adefs s)) as [[y' k']|]; [|reflexivity]. destruct (Z.eqb_spec k k'); [|reflexivity].
    destruct (pis_const _); reflexivity.
  - destruct c as [|[]|]; reflexivity.
Qed.

Lemma tighten_ok s r rho x y k vx vy :
  models s r rho -> agrees rho x vx -> agrees rho y vy -> 0 <= k ->
  agrees rho (asub x (ashl y k)) (vx - vy * 2 ^ k) ->
  agrees rho (tighten s x y k (asub x (ashl y k))) (vx - vy * 2 ^ k).
Proof.
  intros M Hx Hy Hk Ha. unfold tighten.
  destruct (apoly y) as [|[[i j] c] [|? ?]] eqn:Ep; try exact Ha; [|destruct c as [|[]|]; exact Ha].
  destruct c as [|[]|]; try exact Ha. destruct (Pos.eqb_spec i 1) as [->|]; [|exact Ha].
  destruct (plook j (adefs s)) as [[y' k']|] eqn:El; [|exact Ha]. destruct (Z.eqb_spec k k') as [<-|]; [|exact Ha].
  destruct (pis_const _) as [d|] eqn:Ed; [|exact Ha].
  destruct (m_defs _ _ _ M _ _ _ El) as [_ [_ [_ Hj]]].
  apply (pis_const_eval rho _ _ (m_one _ _ _ M)) in Ed. unfold pdiff in Ed. rewrite padd_eval, pscale_eval in Ed.
  destruct Hx as [Hx _], Hy as [Hy _]. rewrite Ep in Hy. change (vy = peval rho (patom j)) in Hy.
  rewrite patom_eval in Hy by apply M.
  destruct Ha as [Ha1 Ha2]. split; [exact Ha1|]. cbn [alo ahi].
  pose proof (Z.div_mod (peval rho y') (2 ^ k) ltac:(assert (0 < 2 ^ k) by (apply Z.pow_pos_nonneg; lia); lia)) as Hdm.
  pose proof (Z.mod_pos_bound (peval rho y') (2 ^ k) ltac:(apply Z.pow_pos_nonneg; lia)).
  rewrite <- Hj, <- Hy in Hdm. lia.
Qed.

Lemma asub_ok rho x y vx vy : agrees rho x vx -> agrees rho y vy -> agrees rho (asub x y) (vx - vy).
Proof.
  intros [H1 H2] [H3 H4]. split; cbn [asub apoly alo ahi]; [|lia]. unfold pdiff. rewrite padd_eval, pscale_eval. lia.
Qed.

Lemma ashl_ok rho x vx k : 0 <= k -> agrees rho x vx -> agrees rho (ashl x k) (vx * 2 ^ k).
Proof.
  intros Hk [H1 H2]. assert (0 < 2 ^ k) by (apply Z.pow_pos_nonneg; lia).
  split; cbn [ashl apoly alo ahi]; [rewrite pscale_eval; lia|nia].
Qed.

Lemma ashl_below n x k : below n (apoly x) -> below n (apoly (ashl x k)).
Proof. intros H. cbn. now apply pscale_below. Qed.

Lemma asub_below n x y : below n (apoly x) -> below n (apoly y) -> below n (apoly (asub x y)).
Proof. intros H1 H2. cbn. apply padd_below; [exact H1|now apply pscale_below]. Qed.

Lemma amul_ok rho x y p vx vy : rho 1%positive = 1 -> amul x y = Some p -> agrees rho x vx -> agrees rho y vy -> agrees rho p (vx * vy).
Proof.
  intros H1 H [Hx1 Hx2] [Hy1 Hy2]. unfold amul in H. destruct (pmul (apoly x) (apoly y)) as [q|] eqn:E; [|discriminate].
  injection H as <-. split; cbn [apoly alo ahi]; [rewrite (pmul_eval rho H1 _ _ _ E); congruence|].
  clear - Hx2 Hy2. destruct Hx2 as [A1 A2], Hy2 as [B1 B2].
  assert (C : forall a b c d v w, a <= v <= b -> c <= w <= d ->
     Z.min (Z.min (a*c) (a*d)) (Z.min (b*c) (b*d)) <= v * w <= Z.max (Z.max (a*c) (a*d)) (Z.max (b*c) (b*d))).
  { clear. intros a b c d v w Hv Hw.
    assert (L : Z.min (a * w) (b * w) <= v * w <= Z.max (a * w) (b * w)) by (destruct (Z.le_gt_cases 0 w); nia).
    assert (La : Z.min (a * c) (a * d) <= a * w <= Z.max (a * c) (a * d)) by (destruct (Z.le_gt_cases 0 a); nia).
    assert (Lb : Z.min (b * c) (b * d) <= b * w <= Z.max (b * c) (b * d)) by (destruct (Z.le_gt_cases 0 b); nia).
    lia. }
  apply C; lia.
Qed.

Lemma amul_below n x y p : amul x y = Some p -> below n (apoly x) -> below n (apoly y) -> below n (apoly p).
Proof.
  unfold amul. destruct (pmul (apoly x) (apoly y)) as [q|] eqn:E; [|discriminate]. intros H; injection H as <-.
  intros Hx Hy. cbn. eapply pmul_below; eauto.
Qed.

(** What evaluating an expression establishes. *)
Definition eval_post (s : astate) (r : env) (rho : positive -> Z) (s' : astate) (a : aval) (v : Z) : Prop :=
  avars s' = avars s /\ (nxt s <= nxt s')%positive /\ below (nxt s') (apoly a) /\
  exists rho', extends s rho rho' /\ models s' r rho' /\ agrees rho' a v.

Lemma bin_post s r rho s1 s2 x y vx vy :
  eval_post s r rho s1 x vx -> (forall rho1, models s1 r rho1 -> eval_post s1 r rho1 s2 y vy) ->
  avars s2 = avars s /\ (nxt s <= nxt s2)%positive /\ below (nxt s2) (apoly x) /\ below (nxt s2) (apoly y) /\
  exists rho', extends s rho rho' /\ models s2 r rho' /\ agrees rho' x vx /\ agrees rho' y vy.
Proof.
  intros [E1 [L1 [B1 [rho1 [X1 [M1 A1]]]]]] H. destruct (H rho1 M1) as [E2 [L2 [B2 [rho2 [X2 [M2 A2]]]]]].
  split; [congruence|]. split; [lia|]. split; [eapply below_mono; eauto|]. split; [exact B2|].
  exists rho2. split; [|split; [exact M2|split; [|exact A2]]].
  - intros i Hi. rewrite X2 by lia. now apply X1.
  - eapply agrees_ext; eauto.
Qed.

Lemma aeval_ok e : forall s r rho a s', models s r rho -> aeval s e = Some (a, s') ->
  eval_post s r rho s' a (eval r e).
Proof.
  induction e as [x|z|t a1 IH1 a2 IH2|t a1 IH1 a2 IH2|t a1 IH1 a2 IH2|t a1 IH1 k|a1 IH1 k|t a1 IH1];
    intros s r rho a s' M H; cbn [aeval] in H.
  - destruct (slook x (avars s)) as [b|] eqn:E; [|discriminate]. injection H as <- <-.
    destruct (m_vars _ _ _ M _ _ E) as [Ha Hb]. split; [reflexivity|]. split; [lia|]. split; [exact Hb|].
    exists rho. split; [intros i _; reflexivity|]. split; [exact M|exact Ha].
  - injection H as <- <-. split; [reflexivity|]. split; [lia|]. split; [apply pconst_below; apply M|].
    exists rho. split; [intros i _; reflexivity|]. split; [exact M|]. split; cbn [apoly alo ahi eval]; [|lia].
    rewrite pconst_eval; [reflexivity|apply M].
  - destruct (aeval s a1) as [[x s1]|] eqn:E1; [|discriminate]. destruct (aeval s1 a2) as [[y s2]|] eqn:E2; [|discriminate].
    destruct (bin_post s r rho s1 s2 x y _ _ (IH1 _ _ _ _ _ M E1) (fun rho1 M1 => IH2 _ _ _ _ _ M1 E2)) as [Ev [L [Bx [By [rho' [X [M' [Ax Ay]]]]]]]].
    destruct (inrange t _) as [b|] eqn:Er; [|discriminate]. injection H as <- <-.
    destruct (inrange_spec _ _ _ Er) as [-> Hw]. split; [exact Ev|]. split; [exact L|].
    split; [now apply padd_below|]. exists rho'. split; [exact X|]. split; [exact M'|].
    destruct Ax as [Ax1 Ax2], Ay as [Ay1 Ay2]. cbn [eval].
    rewrite Hw by (cbn [alo ahi]; lia). split; cbn [apoly alo ahi]; [rewrite padd_eval; lia|lia].
  - assert (Hgen : forall x y s1 s2 b, aeval s a1 = Some (x, s1) -> aeval s1 a2 = Some (y, s2) ->
       inrange t (asub x y) = Some b -> eval_post s r rho s2 b (eval r (Sub t a1 a2))).
    { intros x y s1 s2 b E1 E2 Er.
      destruct (bin_post s r rho s1 s2 x y _ _ (IH1 _ _ _ _ _ M E1) (fun rho1 M1 => IH2 _ _ _ _ _ M1 E2)) as [Ev [L [Bx [By [rho' [X [M' [Ax Ay]]]]]]]].
      destruct (inrange_spec _ _ _ Er) as [-> Hw]. split; [exact Ev|]. split; [exact L|].
      split; [now apply asub_below|]. exists rho'. split; [exact X|]. split; [exact M'|].
      pose proof (asub_ok _ _ _ _ _ Ax Ay) as As. cbn [eval]. rewrite Hw by apply As. exact As. }
    destruct a2 as [x2|z2|t2 b1 b2|t2 b1 b2|t2 b1 b2|t2 b1 k|b1 k|t2 b1];
    try (destruct (aeval s a1) as [[x s1]|] eqn:E1; [|discriminate];
         match type of H with context [aeval s1 ?b] => destruct (aeval s1 b) as [[y s2]|] eqn:E2; [|discriminate] end;
         destruct (inrange t (asub x y)) as [b|] eqn:Er; [|discriminate]; injection H as <- <-;
         exact (Hgen x y s1 s2 b eq_refl E2 Er)).
    destruct (aeval s a1) as [[x s1]|] eqn:E1; [|discriminate].
    destruct (aeval s1 b1) as [[y s2]|] eqn:E2; [|discriminate].
    destruct (Z.leb_spec 0 k) as [Hk|]; [|discriminate].
    destruct (inrange t2 (ashl y k)) as [z|] eqn:Ez; [|discriminate].
    destruct (inrange t (tighten s2 x y k (asub x z))) as [b|] eqn:Er; [|discriminate]. injection H as <- <-.
    (* value of the shifted operand: recovered from the induction hypothesis on [Shl] *)
    assert (Hz : z = ashl y k) by (apply inrange_spec in Ez; tauto). subst z.
    assert (E2' : aeval s1 (Shl t2 b1 k) = Some (ashl y k, s2)).
    { cbn [aeval]. rewrite E2. destruct (Z.leb_spec 0 k); [|lia]. rewrite Ez. reflexivity. }
    destruct (bin_post s r rho s1 s2 x (ashl y k) _ _ (IH1 _ _ _ _ _ M E1) (fun rho1 M1 => IH2 _ _ _ _ _ M1 E2')) as [Ev [L [Bx [By [rho' [X [M' [Ax Ay]]]]]]]].
    destruct (inrange_spec _ _ _ Er) as [-> Hw]. split; [exact Ev|]. split; [exact L|].
    split; [rewrite tighten_poly; now apply asub_below|]. exists rho'. split; [exact X|]. split; [exact M'|].
    pose proof (asub_ok _ _ _ _ _ Ax Ay) as As. cbn [eval] in *.
    (* the unshifted value *)
    set (vy := peval rho' (apoly y)).
    assert (Hvy : wrap t2 (eval r b1 * 2 ^ k) = vy * 2 ^ k).
    { destruct Ay as [Ay1 _]. cbn [ashl apoly] in Ay1. rewrite pscale_eval in Ay1. unfold vy. lia. }
    assert (Ayv : agrees rho' y vy).
    { split; [reflexivity|]. destruct Ay as [_ Ay2]. cbn [ashl alo ahi] in Ay2. rewrite Hvy in Ay2.
      assert (0 < 2 ^ k) by (apply Z.pow_pos_nonneg; lia). nia. }
    rewrite Hvy in As. pose proof (tighten_ok s2 r rho' x y k _ _ M' Ax Ayv Hk As) as At.
    rewrite Hvy. rewrite Hw by apply At. exact At.
  - destruct (aeval s a1) as [[x s1]|] eqn:E1; [|discriminate]. destruct (aeval s1 a2) as [[y s2]|] eqn:E2; [|discriminate].
    destruct (bin_post s r rho s1 s2 x y _ _ (IH1 _ _ _ _ _ M E1) (fun rho1 M1 => IH2 _ _ _ _ _ M1 E2)) as [Ev [L [Bx [By [rho' [X [M' [Ax Ay]]]]]]]].
    destruct (amul x y) as [p|] eqn:Em; [|discriminate].
    destruct (inrange t p) as [b|] eqn:Er; [|discriminate]. injection H as <- <-.
    destruct (inrange_spec _ _ _ Er) as [-> Hw]. split; [exact Ev|]. split; [exact L|].
    split; [eapply amul_below; eauto|]. exists rho'. split; [exact X|]. split; [exact M'|].
    pose proof (amul_ok _ _ _ _ _ _ (m_one _ _ _ M') Em Ax Ay) as As. cbn [eval]. rewrite Hw by apply As. exact As.
  - destruct (aeval s a1) as [[x s1]|] eqn:E1; [|discriminate].
    destruct (IH1 _ _ _ _ _ M E1) as [Ev [L [Bx [rho' [X [M' Ax]]]]]].
    destruct (Z.leb_spec 0 k) as [Hk|]; [|discriminate].
    destruct (inrange t (ashl x k)) as [b|] eqn:Er; [|discriminate]. injection H as <- <-.
    destruct (inrange_spec _ _ _ Er) as [-> Hw]. split; [exact Ev|]. split; [exact L|]. split; [now apply ashl_below|].
    exists rho'. split; [exact X|]. split; [exact M'|]. pose proof (ashl_ok _ _ _ k Hk Ax) as As. cbn [eval].
    rewrite Hw by apply As. exact As.
  - destruct (aeval s a1) as [[x s1]|] eqn:E1; [|discriminate].
    destruct (IH1 _ _ _ _ _ M E1) as [Ev [L [Bx [rho' [X [M' Ax]]]]]].
    destruct (Z.leb_spec 0 k) as [Hk|]; [|discriminate]. injection H as <- <-.
    set (i := nxt s1). set (rho2 := fun j => if Pos.eqb j i then eval r a1 / 2 ^ k else rho' j).
    assert (Hext : extends s1 rho' rho2).
    { intros j Hj. unfold rho2. destruct (Pos.eqb_spec j i); [unfold i in *; lia|reflexivity]. }
    assert (Hi : rho2 i = eval r a1 / 2 ^ k) by (unfold rho2; now rewrite Pos.eqb_refl).
    assert (H1 : rho2 1%positive = 1). { rewrite Hext; apply M'. }
    pose proof (m_nxt _ _ _ M') as Hn.
    split; [exact Ev|]. cbn [nxt]. split; [unfold i; lia|]. split; [apply patom_below; unfold i; lia|].
    exists rho2. split; [|split].
    + intros j Hj. rewrite Hext by lia. now apply X.
    + constructor; cbn [nxt adefs avars].
      * exact H1.
      * unfold i; lia.
      * intros y b Hy. destruct (m_vars _ _ _ M' _ _ Hy) as [Ha Hb]. split; [eapply agrees_ext; eauto|].
        eapply below_mono; [|exact Hb]. unfold i; lia.
      * intros j y k' Hj. cbn [plook] in Hj. destruct (Pos.eqb_spec j i) as [->|Hne].
        -- injection Hj as <- <-. split; [exact Hk|]. split; [lia|]. split; [eapply below_mono; [|exact Bx]; unfold i; lia|].
           rewrite Hi. f_equal. destruct Ax as [Ax _]. rewrite Ax. symmetry. eapply peval_ext; [exact Bx|exact Hext].
        -- destruct (m_defs _ _ _ M' _ _ _ Hj) as [D1 [D2 [D3 D4]]]. split; [exact D1|]. split; [unfold i; lia|].
           split; [eapply below_mono; [|exact D3]; unfold i; lia|].
           rewrite Hext by exact D2. rewrite D4. f_equal. symmetry. eapply peval_ext; [exact D3|exact Hext].
    + destruct Ax as [_ Ax]. split; cbn [apoly alo ahi eval].
      * rewrite patom_eval by exact H1. now rewrite Hi.
      * assert (0 < 2 ^ k) by (apply Z.pow_pos_nonneg; lia). split; apply Z.div_le_mono; lia.
  - destruct (aeval s a1) as [[x s1]|] eqn:E1; [|discriminate].
    destruct (IH1 _ _ _ _ _ M E1) as [Ev [L [Bx [rho' [X [M' Ax]]]]]].
    destruct (inrange t x) as [b|] eqn:Er; [|discriminate]. injection H as <- <-.
    destruct (inrange_spec _ _ _ Er) as [-> Hw]. split; [exact Ev|]. split; [exact L|]. split; [exact Bx|].
    exists rho'. split; [exact X|]. split; [exact M'|]. cbn [eval]. rewrite Hw by apply Ax. exact Ax.
Qed.

Lemma slook_sset {A} x y (a : A) l : slook y (sset x a l) = if String.eqb y x then Some a else slook y l.
Proof.
  induction l as [|[z b] l IH]; cbn [sset slook].
  - destruct (String.eqb y x); reflexivity.
  - destruct (String.eqb_spec x z) as [->|Hn]; cbn [slook].
    + destruct (String.eqb y z); reflexivity.
    + rewrite IH. destruct (String.eqb_spec y z) as [->|]; [|reflexivity].
      destruct (String.eqb_spec z x); [congruence|reflexivity].
Qed.

Theorem arun_ok p : forall s r rho s', models s r rho -> arun s p = Some s' ->
  exists rho', extends s rho rho' /\ models s' (exec r p) rho'.
Proof.
  induction p as [|[x e] p IH]; intros s r rho s' M H; cbn [arun exec] in *.
  - injection H as <-. exists rho. split; [intros i _; reflexivity|exact M].
  - destruct (aeval s e) as [[a s1]|] eqn:E; [|discriminate].
    destruct (aeval_ok e _ _ _ _ _ M E) as [Ev [L [B [rho1 [X [M1 A]]]]]].
    assert (M2 : models (AS (nxt s1) (adefs s1) (sset x a (avars s1))) (upd r x (eval r e)) rho1).
    { constructor; cbn [nxt adefs avars]; try apply M1. intros y b Hy. rewrite slook_sset in Hy. unfold upd.
      destruct (String.eqb_spec y x) as [->|].
      - injection Hy as <-. split; assumption.
      - now apply M1. }
    destruct (IH _ _ _ _ M2 H) as [rho2 [X2 M3]]. exists rho2. split; [|exact M3].
    intros i Hi. rewrite X2 by (cbn [nxt]; lia). now apply X.
Qed.

(** ** Starting states: named inputs with ranges, as atoms 2, 3, ... *)

Fixpoint init_vars (i : positive) (l : list (string * (Z * Z))) : list (string * aval) :=
  match l with
  | [] => []
  | (x, (lo, hi)) :: l' => (x, AV (patom i) lo hi) :: init_vars (Pos.succ i) l'
  end.
Fixpoint end_atom (i : positive) {A} (l : list A) : positive :=
  match l with [] => i | _ :: l' => end_atom (Pos.succ i) l' end.
Definition init (l : list (string * (Z * Z))) : astate := AS (end_atom 2 l) [] (init_vars 2 l).

(** Atom of an input name. *)
Fixpoint atom_of (i : positive) (x : string) {A} (l : list (string * A)) : positive :=
  match l with [] => i | (y, _) :: l' => if String.eqb x y then i else atom_of (Pos.succ i) x l' end.

(** Valuation reading the inputs from an environment. *)
Fixpoint rho_of (i : positive) {A} (l : list (string * A)) (r : env) (j : positive) : Z :=
  match l with
  | [] => 1
  | (x, _) :: l' => if Pos.eqb j i then r x else rho_of (Pos.succ i) l' r j
  end.

Lemma end_atom_ge {A} (l : list A) i : (i <= end_atom i l)%positive.
Proof. revert i; induction l as [|a l IH]; intros i; cbn [end_atom]; [lia|]. specialize (IH (Pos.succ i)). lia. Qed.

Lemma rho_of_below {A} (l : list (string * A)) r i j : (j < i)%positive -> rho_of i l r j = 1.
Proof.
  revert i; induction l as [|[x a] l IH]; intros i H; cbn [rho_of]; [reflexivity|].
  destruct (Pos.eqb_spec j i); [lia|]. apply IH. lia.
Qed.

Lemma init_ok l r : Forall (fun x => fst (snd x) <= r (fst x) <= snd (snd x)) l ->
  models (init l) r (rho_of 2 l r).
Proof.
  intros H. constructor; cbn [init nxt adefs avars].
  - apply rho_of_below. lia.
  - pose proof (end_atom_ge l 2). lia.
  - assert (G : forall i (rho : positive -> Z), (1 < i)%positive -> rho 1%positive = 1 -> (forall j, (i <= j)%positive -> rho j = rho_of i l r j) ->
       forall x a, slook x (init_vars i l) = Some a -> agrees rho a (r x) /\ below (end_atom i l) (apoly a)).
    { clear - H. induction H as [|[x [lo hi]] l Hx H IH]; intros i rho Hi H1 Hr y a Hy; cbn [init_vars slook end_atom] in *; [discriminate|].
      destruct (String.eqb_spec y x) as [->|Hn].
      - injection Hy as <-. cbn [fst snd] in Hx. split.
        + split; cbn [apoly alo ahi]; [|exact Hx]. rewrite patom_eval by exact H1. rewrite Hr by lia. cbn [rho_of]. now rewrite Pos.eqb_refl.
        + pose proof (end_atom_ge l (Pos.succ i)). apply patom_below; lia.
      - apply (IH (Pos.succ i) rho); [lia|exact H1| |exact Hy]. intros j Hj. rewrite Hr by lia. cbn [rho_of].
        destruct (Pos.eqb_spec j i); [lia|reflexivity]. }
    apply G; [lia| |reflexivity]. apply rho_of_below; lia.
  - discriminate.
Qed.

(** ** Checking congruences of polynomials *)

Definition pcongr (m : Z) (p q : poly) : bool := forallb (fun mc => (snd mc) mod m =? 0) (pdiff p q).

Lemma pcongr_ok m p q rho : 0 < m -> pcongr m p q = true -> (m | peval rho p - peval rho q).
Proof.
  intros Hm H. unfold pcongr in H. replace (peval rho p - peval rho q) with (peval rho (pdiff p q)).
  2:{ unfold pdiff. rewrite padd_eval, pscale_eval. lia. }
  induction (pdiff p q) as [|[mo c] l IH]; cbn [peval forallb snd] in *; [apply Z.divide_0_r|].
  apply andb_prop in H. destruct H as [H1 H2]. apply Z.eqb_eq in H1. apply Z.mod_divide in H1; [|lia].
  apply Z.divide_add_r; [now apply Z.divide_mul_l|now apply IH].
Qed.

Definition peq (p q : poly) : bool := match pdiff p q with [] => true | _ => false end.
Lemma peq_ok p q rho : peq p q = true -> peval rho p = peval rho q.
Proof.
  intros H. unfold peq in H. destruct (pdiff p q) eqn:E; [|discriminate].
  assert (peval rho (pdiff p q) = 0) by (rewrite E; reflexivity).
  unfold pdiff in H0. rewrite padd_eval, pscale_eval in H0. lia.
Qed.

(** Weighted sum of the polynomials of named variables. *)
Fixpoint wsum (s : astate) (l : list (string * Z)) : option poly :=
  match l with
  | [] => Some []
  | (x, w) :: l' =>
      match slook x (avars s), wsum s l' with
      | Some a, Some p => Some (padd (pscale w (apoly a)) p)
      | _, _ => None
      end
  end.
Fixpoint wval (r : env) (l : list (string * Z)) : Z :=
  match l with [] => 0 | (x, w) :: l' => w * r x + wval r l' end.

Lemma wsum_ok s r rho l p : models s r rho -> wsum s l = Some p -> wval r l = peval rho p /\ below (nxt s) p.
Proof.
  intros M; revert p; induction l as [|[x w] l IH]; intros p H; cbn [wsum wval] in *.
  - injection H as <-. split; [reflexivity|constructor].
  - destruct (slook x (avars s)) as [a|] eqn:E; [|discriminate]. destruct (wsum s l) as [q|]; [|discriminate].
    injection H as <-. destruct (IH q eq_refl) as [I1 I2]. destruct (m_vars _ _ _ M _ _ E) as [[A1 _] A2].
    rewrite padd_eval, pscale_eval, I1, <- A1. split; [reflexivity|]. apply padd_below; [now apply pscale_below|exact I2].
Qed.

(** Interval facts read off a final state. *)
Definition within (s : astate) (l : list (string * (Z * Z))) : bool :=
  forallb (fun x => match slook (fst x) (avars s) with
                    | Some a => (fst (snd x) <=? alo a) && (ahi a <=? snd (snd x)) | None => false end) l.

Lemma within_ok s r rho l : models s r rho -> within s l = true ->
  Forall (fun x => fst (snd x) <= r (fst x) <= snd (snd x)) l.
Proof.
  intros M H. unfold within in H. rewrite forallb_forall in H. apply Forall_forall. intros [x [lo hi]] Hx.
  specialize (H _ Hx). cbn [fst snd] in *. destruct (slook x (avars s)) as [a|] eqn:E; [|discriminate].
  apply andb_prop in H. destruct H as [H1 H2]. apply Z.leb_le in H1. apply Z.leb_le in H2.
  destruct (m_vars _ _ _ M _ _ E) as [[_ A] _]. lia.
Qed.

(** ** Checking a program against a polynomial specification of its inputs *)

Inductive spec := SLin (l : list (string * Z)) | SAdd (a b : spec) | SSub (a b : spec) | SMul (a b : spec) | SScale (k : Z) (a : spec).

Fixpoint sval (r : env) (s : spec) : Z :=
  match s with
  | SLin l => wval r l
  | SAdd a b => sval r a + sval r b
  | SSub a b => sval r a - sval r b
  | SMul a b => sval r a * sval r b
  | SScale k a => k * sval r a
  end.

Fixpoint spoly (st : astate) (s : spec) : option poly :=
  match s with
  | SLin l => wsum st l
  | SAdd a b => match spoly st a, spoly st b with Some p, Some q => Some (padd p q) | _, _ => None end
  | SSub a b => match spoly st a, spoly st b with Some p, Some q => Some (pdiff p q) | _, _ => None end
  | SMul a b => match spoly st a, spoly st b with Some p, Some q => pmul p q | _, _ => None end
  | SScale k a => match spoly st a with Some p => Some (pscale k p) | None => None end
  end.

Lemma spoly_ok st r rho s p : models st r rho -> spoly st s = Some p -> sval r s = peval rho p /\ below (nxt st) p.
Proof.
  intros M. revert p; induction s as [l|a IHa b IHb|a IHa b IHb|a IHa b IHb|k a IHa]; intros p H; cbn [spoly sval] in *.
  - now apply wsum_ok.
  - destruct (spoly st a) as [pa|]; [|discriminate]. destruct (spoly st b) as [pb|]; [|discriminate]. injection H as <-.
    destruct (IHa _ eq_refl) as [A1 A2]. destruct (IHb _ eq_refl) as [B1 B2]. rewrite padd_eval. split; [lia|now apply padd_below].
  - destruct (spoly st a) as [pa|]; [|discriminate]. destruct (spoly st b) as [pb|]; [|discriminate]. injection H as <-.
    destruct (IHa _ eq_refl) as [A1 A2]. destruct (IHb _ eq_refl) as [B1 B2]. unfold pdiff. rewrite padd_eval, pscale_eval.
    split; [lia|]. apply padd_below; [assumption|now apply pscale_below].
  - destruct (spoly st a) as [pa|]; [|discriminate]. destruct (spoly st b) as [pb|]; [|discriminate].
    destruct (IHa _ eq_refl) as [A1 A2]. destruct (IHb _ eq_refl) as [B1 B2].
    split; [|now apply (pmul_below _ pa pb)]. rewrite (pmul_eval rho (m_one _ _ _ M) pa pb p H). now rewrite A1, B1.
  - destruct (spoly st a) as [pa|]; [|discriminate]. injection H as <-. destruct (IHa _ eq_refl) as [A1 A2].
    rewrite pscale_eval. split; [now rewrite A1|now apply pscale_below].
Qed.

(** [check m st prog outs sp rng]: running [prog] overflows nowhere, leaves [outs] congruent to [sp] modulo [m] (equal
    if m = 0) and the variables of [rng] inside their intervals. *)
Definition check (m : Z) (st : astate) (prog : list stmt) (outs : list (string * Z)) (sp : spec) (rng : list (string * (Z * Z))) : bool :=
  match arun st prog with
  | Some st' =>
      match wsum st' outs, spoly st sp with
      | Some p, Some q => (if m =? 0 then peq p q else pcongr m p q) && within st' rng
      | _, _ => false
      end
  | None => false
  end.

Theorem check_ok m ins prog outs sp rng r : 0 <= m ->
  Forall (fun x => fst (snd x) <= r (fst x) <= snd (snd x)) ins ->
  check m (init ins) prog outs sp rng = true ->
  (m | wval (exec r prog) outs - sval r sp) /\
  Forall (fun x => fst (snd x) <= exec r prog (fst x) <= snd (snd x)) rng.
Proof.
  intros Hm Hin H. unfold check in H. pose proof (init_ok _ _ Hin) as M.
  destruct (arun (init ins) prog) as [st'|] eqn:Ea; [|discriminate].
  destruct (arun_ok _ _ _ _ _ M Ea) as [rho' [X M']].
  destruct (wsum st' outs) as [p|] eqn:Ew; [|discriminate]. destruct (spoly (init ins) sp) as [q|] eqn:Es; [|discriminate].
  apply andb_prop in H. destruct H as [H1 H2].
  destruct (wsum_ok _ _ _ _ _ M' Ew) as [W1 _]. destruct (spoly_ok _ _ _ _ _ M Es) as [S1 S2].
  split; [|now apply (within_ok _ _ _ _ M')].
  rewrite W1, S1, <- (peval_ext (rho_of 2 ins r) rho' _ q S2 X). destruct (Z.eqb_spec m 0) as [->|Hn].
  - rewrite (peq_ok p q rho' H1). rewrite Z.sub_diag. apply Z.divide_0_r.
  - apply pcongr_ok; [lia|exact H1].
Qed.

(** ** Absence of overflow: every exact intermediate result fits its type *)

Definition fits (t : ty) (z : Z) : Prop := - half t <= z < half t.

Fixpoint safe (r : env) (e : expr) : Prop :=
  match e with
  | V _ | K _ => True
  | Add t a b => safe r a /\ safe r b /\ fits t (eval r a + eval r b)
  | Sub t a b => safe r a /\ safe r b /\ fits t (eval r a - eval r b)
  | Mul t a b => safe r a /\ safe r b /\ fits t (eval r a * eval r b)
  | Shl t a k => safe r a /\ fits t (eval r a * 2 ^ k)
  | Shr a k => safe r a
  | Cast t a => safe r a /\ fits t (eval r a)
  end.

Fixpoint safe_run (r : env) (p : list stmt) : Prop :=
  match p with [] => True | Asg x e :: p' => safe r e /\ safe_run (upd r x (eval r e)) p' end.

Lemma safe_run_app r p q : safe_run r p -> safe_run (exec r p) q -> safe_run r (p ++ q).
Proof. revert r; induction p as [|[x e] p IH]; intros r; simpl; [auto|]. intros [H1 H2] H3. auto. Qed.

Lemma inrange_fits t a r v : inrange t a = Some r -> alo a <= v <= ahi a -> fits t v.
Proof. intros H Hv. destruct (inrange_spec _ _ _ H) as [_ W]. rewrite <- (W v Hv). apply wrap_range. Qed.

Lemma aeval_safe e : forall s r rho a s', models s r rho -> aeval s e = Some (a, s') -> safe r e.
Proof.
  induction e as [x|z|t a1 IH1 a2 IH2|t a1 IH1 a2 IH2|t a1 IH1 a2 IH2|t a1 IH1 k|a1 IH1 k|t a1 IH1];
    intros s r rho a s' M H; cbn [aeval] in H; cbn [safe]; try exact I.
  - destruct (aeval s a1) as [[x s1]|] eqn:E1; [|discriminate]. destruct (aeval s1 a2) as [[y s2]|] eqn:E2; [|discriminate].
    destruct (bin_post s r rho s1 s2 x y _ _ (aeval_ok _ _ _ _ _ _ M E1) (fun rho1 M1 => aeval_ok _ _ _ _ _ _ M1 E2)) as [Ev [L [Bx [By [rho' [X [M' [Ax Ay]]]]]]]].
    destruct (aeval_ok _ _ _ _ _ _ M E1) as [_ [_ [_ [rho1 [_ [M1 _]]]]]].
    destruct (inrange t _) as [b|] eqn:Er; [|discriminate].
    split; [exact (IH1 _ _ _ _ _ M E1)|]. split; [exact (IH2 _ _ _ _ _ M1 E2)|]. apply (inrange_fits _ _ _ _ Er). destruct Ax, Ay. cbn [alo ahi]. lia.
  - assert (Hgen : forall x y s1 s2 b z, aeval s a1 = Some (x, s1) -> aeval s1 a2 = Some (y, s2) ->
       inrange t z = Some b -> (forall rho', models s2 r rho' -> agrees rho' x (eval r a1) -> agrees rho' y (eval r a2) -> alo z <= eval r a1 - eval r a2 <= ahi z) ->
       safe r a1 /\ safe r a2 /\ fits t (eval r a1 - eval r a2)).
    { intros x y s1 s2 b z E1 E2 Er Hz.
      destruct (bin_post s r rho s1 s2 x y _ _ (aeval_ok _ _ _ _ _ _ M E1) (fun rho1 M1 => aeval_ok _ _ _ _ _ _ M1 E2)) as [Ev [L [Bx [By [rho' [X [M' [Ax Ay]]]]]]]].
      destruct (aeval_ok _ _ _ _ _ _ M E1) as [_ [_ [_ [rho1 [_ [M1 _]]]]]].
      split; [exact (IH1 _ _ _ _ _ M E1)|]. split; [exact (IH2 _ _ _ _ _ M1 E2)|]. apply (inrange_fits _ _ _ _ Er). now apply (Hz rho'). }
    assert (Hsub : forall x y rho' va vb, agrees rho' x va -> agrees rho' y vb -> alo (asub x y) <= va - vb <= ahi (asub x y)).
    { intros x y rho' va vb Ax Ay. apply (asub_ok _ _ _ _ _ Ax Ay). }
    destruct a2 as [x2|z2|t2 b1 b2|t2 b1 b2|t2 b1 b2|t2 b1 k|b1 k|t2 b1];
    try (destruct (aeval s a1) as [[x s1]|] eqn:E1; [|discriminate];
         match type of H with context [aeval s1 ?b] => destruct (aeval s1 b) as [[y s2]|] eqn:E2; [|discriminate] end;
         destruct (inrange t (asub x y)) as [b|] eqn:Er; [|discriminate];
         exact (Hgen x y s1 s2 b _ eq_refl E2 Er (fun rho' _ Ax Ay => Hsub x y rho' _ _ Ax Ay))).
    destruct (aeval s a1) as [[x s1]|] eqn:E1; [|discriminate].
    destruct (aeval s1 b1) as [[y s2]|] eqn:E2; [|discriminate].
    destruct (Z.leb_spec 0 k) as [Hk|]; [|discriminate].
    destruct (inrange t2 (ashl y k)) as [z|] eqn:Ez; [|discriminate].
    destruct (inrange t (tighten s2 x y k (asub x z))) as [b|] eqn:Er; [|discriminate].
    assert (Hz : z = ashl y k) by (apply inrange_spec in Ez; tauto). subst z.
    assert (E2' : aeval s1 (Shl t2 b1 k) = Some (ashl y k, s2)).
    { cbn [aeval]. rewrite E2. destruct (Z.leb_spec 0 k); [|lia]. rewrite Ez. reflexivity. }
    apply (Hgen x (ashl y k) s1 s2 b _ eq_refl E2' Er). intros rho' M' Ax Ay.
    pose proof (asub_ok _ _ _ _ _ Ax Ay) as As.
    set (vy := peval rho' (apoly y)).
    assert (Hvy : eval r (Shl t2 b1 k) = vy * 2 ^ k).
    { destruct Ay as [Ay1 _]. cbn [ashl apoly] in Ay1. rewrite pscale_eval in Ay1. unfold vy. lia. }
    assert (Ayv : agrees rho' y vy).
    { split; [reflexivity|]. destruct Ay as [_ Ay2]. cbn [ashl alo ahi] in Ay2. rewrite Hvy in Ay2.
      assert (0 < 2 ^ k) by (apply Z.pow_pos_nonneg; lia). nia. }
    rewrite Hvy in *. apply (tighten_ok s2 r rho' x y k _ _ M' Ax Ayv Hk As).
  - destruct (aeval s a1) as [[x s1]|] eqn:E1; [|discriminate]. destruct (aeval s1 a2) as [[y s2]|] eqn:E2; [|discriminate].
    destruct (bin_post s r rho s1 s2 x y _ _ (aeval_ok _ _ _ _ _ _ M E1) (fun rho1 M1 => aeval_ok _ _ _ _ _ _ M1 E2)) as [Ev [L [Bx [By [rho' [X [M' [Ax Ay]]]]]]]].
    destruct (aeval_ok _ _ _ _ _ _ M E1) as [_ [_ [_ [rho1 [_ [M1 _]]]]]].
    destruct (amul x y) as [p|] eqn:Em; [|discriminate]. destruct (inrange t p) as [b|] eqn:Er; [|discriminate].
    split; [exact (IH1 _ _ _ _ _ M E1)|]. split; [exact (IH2 _ _ _ _ _ M1 E2)|]. apply (inrange_fits _ _ _ _ Er).
    apply (amul_ok _ _ _ _ _ _ (m_one _ _ _ M') Em Ax Ay).
  - destruct (aeval s a1) as [[x s1]|] eqn:E1; [|discriminate].
    destruct (aeval_ok _ _ _ _ _ _ M E1) as [Ev [L [Bx [rho' [X [M' Ax]]]]]].
    destruct (Z.leb_spec 0 k) as [Hk|]; [|discriminate]. destruct (inrange t (ashl x k)) as [b|] eqn:Er; [|discriminate].
    split; [exact (IH1 _ _ _ _ _ M E1)|]. apply (inrange_fits _ _ _ _ Er). apply (ashl_ok _ _ _ k Hk Ax).
  - destruct (aeval s a1) as [[x s1]|] eqn:E1; [|discriminate]. exact (IH1 _ _ _ _ _ M E1).
  - destruct (aeval s a1) as [[x s1]|] eqn:E1; [|discriminate].
    destruct (aeval_ok _ _ _ _ _ _ M E1) as [Ev [L [Bx [rho' [X [M' Ax]]]]]].
    destruct (inrange t x) as [b|] eqn:Er; [|discriminate].
    split; [exact (IH1 _ _ _ _ _ M E1)|]. apply (inrange_fits _ _ _ _ Er). apply Ax.
Qed.

Theorem arun_safe p : forall s r rho s', models s r rho -> arun s p = Some s' -> safe_run r p.
Proof.
  induction p as [|[x e] p IH]; intros s r rho s' M H; cbn [arun safe_run] in *; [exact I|].
  destruct (aeval s e) as [[a s1]|] eqn:E; [|discriminate]. split; [eapply aeval_safe; eauto|].
  destruct (aeval_ok e _ _ _ _ _ M E) as [Ev [L [B [rho1 [X [M1 A]]]]]].
  assert (M2 : models (AS (nxt s1) (adefs s1) (sset x a (avars s1))) (upd r x (eval r e)) rho1).
  { constructor; cbn [nxt adefs avars]; try apply M1. intros y b Hy. rewrite slook_sset in Hy. unfold upd.
    destruct (String.eqb_spec y x) as [->|].
    - injection Hy as <-. split; assumption.
    - now apply M1. }
  eapply IH; eauto.
Qed.

Theorem check_safe m ins prog outs sp rng r :
  Forall (fun x => fst (snd x) <= r (fst x) <= snd (snd x)) ins ->
  check m (init ins) prog outs sp rng = true -> safe_run r prog.
Proof.
  intros Hin H. unfold check in H. pose proof (init_ok _ _ Hin) as M.
  destruct (arun (init ins) prog) as [st'|] eqn:Ea; [|discriminate]. eapply arun_safe; eauto.
Qed.
