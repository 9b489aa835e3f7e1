(** Properties C01-C10: src/share/poly.rs. *)
From mathcomp Require Import all_ssreflect all_algebra.
From mathcomp Require Import zify.
From Verif Require Import Base PolyModel PolySpec PolyProps.

Set Implicit Arguments.
Unset Strict Implicit.
Unset Printing Implicit Defensive.

Import GRing.Theory.
Local Open Scope ring_scope.

(** Concrete data for the examples: the field with 7 elements acting on itself. *)
Definition F7 : fieldType := [fieldType of 'F_7].
Definition G7 : lmodType F7 := [lmodType F7 of F7^o].
Definition ex_f : seq F7 := [:: 3%:R; 5%:R].
Definition ex_shares : seq (option (pri_share F7)) :=
  [:: Some (PriShare 4 0%R); None; Some (PriShare 1 6%:R); Some (PriShare 4 0%R)].
Definition ex_pub : seq (option (pub_share G7)) :=
  [:: Some (@PubShare _ G7 1 6%:R); None; Some (@PubShare _ G7 0 1)].
Definition ex_pub_gap : seq (option (pub_share G7)) :=
  [:: Some (@PubShare _ G7 1 6%:R); None; Some (@PubShare _ G7 4 0)].

(** ** C01 *)
Theorem C01_recover_secret (F : fieldType) (p : nat) (ord : hash_order F) (f : seq F)
    (shares : seq (option (pri_share F))) (t : nat) :
  p \in [char F] -> (forall k s, perm_eq (ord k s) s) -> size f = t ->
  (forall s, List.In (Some s) shares -> ps_v s = share_value f (ps_i s) /\ ((ps_i s).+1 < p)%N) ->
  distinct_at_least [seq ps_i s | s <- pmap id shares] t ->
  recover_secret ord shares t = Ok f`_0.
Proof. exact: C01_lemma. Qed.
Print Assumptions C01_recover_secret.

(** The shares handed out by [PriPoly::shares] are genuine in the sense used above. *)
Theorem C01_shares_are_genuine (F : fieldType) (f : seq F) (n : nat) :
  pri_shares f n = [seq Some (PriShare i (share_value f i)) | i <- iota 0 n].
Proof. exact: pri_shares_spec. Qed.
Print Assumptions C01_shares_are_genuine.

Example C01_nonvacuous :
  [/\ 7%N \in [char F7], size ex_f = 2%N,
      (forall s, List.In (Some s) ex_shares -> ps_v s = share_value ex_f (ps_i s) /\ ((ps_i s).+1 < 7)%N),
      distinct_at_least [seq ps_i s | s <- pmap id ex_shares] 2 &
      recover_secret (fun k s => if odd k then rev s else s) ex_shares 2 = Ok 3%:R].
Proof.
have g : forall s, List.In (Some s) ex_shares -> ps_v s = share_value ex_f (ps_i s) /\ ((ps_i s).+1 < 7)%N.
  by move=> s [[<-]|[//|[[<-]|[[<-]|//]]]]; split=> //; apply/eqP; rewrite /share_value /peval !big_ord_recl big_ord0.
have d : distinct_at_least [seq ps_i s | s <- pmap id ex_shares] 2.
  by exists [:: 4%N; 1%N] => // x; rewrite !inE => /orP[]->; rewrite ?orbT.
have c : 7%N \in [char F7] by exact: char_Fp.
have op : forall k (s : seq (nat * F7)), perm_eq (if odd k then rev s else s) s.
  by move=> k s; case: odd => //; rewrite perm_rev.
split; [exact: c|by []|exact: g|exact: d|exact: (C01_recover_secret (f := ex_f) c)].
Qed.

(** ** C02 *)
Theorem C02_too_few_shares (F : fieldType) (G : lmodType F) (B : G) (ord : hash_order F)
    (shares : seq (option (pri_share F))) (pshares : seq (option (pub_share G))) (t : nat) :
  (~ distinct_at_least [seq ps_i s | s <- pmap id shares] t ->
     is_err (recover_secret ord shares t) /\ is_err (recover_pri_poly ord shares t)) /\
  (~ distinct_at_least [seq us_i s | s <- pmap id pshares] t ->
     is_err (recover_commit ord pshares t) /\ is_err (recover_pub_poly B ord pshares t)).
Proof. exact: C02_lemma. Qed.
Print Assumptions C02_too_few_shares.

Example C02_nonvacuous : ~ distinct_at_least [seq ps_i s | s <- pmap id ex_shares] 3 /\ size (pmap id ex_shares) = 3%N.
Proof.
split=> // [[s' [u sz] sub]].
have: {subset s' <= [:: 4%N; 1%N]} by move=> x /sub; rewrite !inE => /or3P[]->; rewrite ?orbT.
by move/(uniq_leq_size u); rewrite sz.
Qed.

(** ** C03 *)
Theorem C03_secrecy (F : fieldType) (p : nat) (K : seq nat) (vals : nat -> F) (s : F) :
  p \in [char F] -> uniq K -> (forall i, i \in K -> (i.+1 < p)%N) ->
  exists! f : seq F, [/\ size f = (size K).+1, f`_0 = s & forall i, i \in K -> ps_v (pri_eval f i) = vals i].
Proof. exact: C03_lemma. Qed.
Print Assumptions C03_secrecy.

Example C03_nonvacuous : uniq [:: 4%N; 1%N] /\ (forall i, i \in [:: 4%N; 1%N] -> (i.+1 < 7)%N).
Proof. by split=> // i; rewrite !inE => /orP[]/eqP->. Qed.

(** ** C04 *)
Theorem C04_recover_pri_poly (F : fieldType) (p : nat) (ord : hash_order F) (f : seq F)
    (shares : seq (option (pri_share F))) (t : nat) :
  p \in [char F] -> (forall k s, perm_eq (ord k s) s) -> size f = t -> (0 < t)%N ->
  (forall s, List.In (Some s) shares -> ps_v s = share_value f (ps_i s) /\ ((ps_i s).+1 < p)%N) ->
  distinct_at_least [seq ps_i s | s <- pmap id shares] t ->
  recover_pri_poly ord shares t = Ok f.
Proof. exact: C04_lemma. Qed.
Print Assumptions C04_recover_pri_poly.

Example C04_nonvacuous : recover_pri_poly (fun k s => s) ex_shares 2 = Ok ex_f.
Proof.
have [c sz g d _] := C01_nonvacuous.
exact: (C04_recover_pri_poly (f := ex_f) c).
Qed.

(** ** C05 *)
Theorem C05_add (F : fieldType) (f g : seq F) :
  (size f = size g ->
     exists2 h, pri_add f g = Ok h &
       [/\ size h = size f, h`_0 = f`_0 + g`_0 &
           forall i, ps_v (pri_eval h i) = ps_v (pri_eval f i) + ps_v (pri_eval g i)]) /\
  (size f <> size g -> is_err (pri_add f g)).
Proof. exact: C05_add_lemma. Qed.
Print Assumptions C05_add.

Theorem C05_mul (F : fieldType) (f g : seq F) : f <> [::] -> g <> [::] ->
  exists2 h, pri_mul f g = Ok h &
    [/\ size h = (size f + size g - 1)%N, h`_0 = f`_0 * g`_0 &
        forall i, ps_v (pri_eval h i) = ps_v (pri_eval f i) * ps_v (pri_eval g i)].
Proof. exact: C05_mul_lemma. Qed.
Print Assumptions C05_mul.

Theorem C05_pub_add (F : fieldType) (G : lmodType F) (P Q : pub_poly G) :
  (size (pcommits P) = size (pcommits Q) -> pcommits P <> [::] ->
     exists2 R, pub_add P Q = Ok R &
       pb R = pb P /\
       forall i, exists a b, [/\ pub_eval P i = Ok a, pub_eval Q i = Ok b & pub_eval R i = Ok (PubShare i (us_v a + us_v b))]) /\
  (size (pcommits P) <> size (pcommits Q) -> is_err (pub_add P Q)).
Proof. exact: C05_pub_add_lemma. Qed.
Print Assumptions C05_pub_add.

Theorem C05_commit_add (F : fieldType) (G : lmodType F) (B : G) (f g : seq F) (b : option G) h :
  pri_add f g = Ok h -> pub_add (pri_commit B f b) (pri_commit B g b) = Ok (pri_commit B h b).
Proof. exact: C05_commit_add_lemma. Qed.
Print Assumptions C05_commit_add.

Example C05_nonvacuous : size ex_f = size [:: 6%:R; 0 : F7] /\ ex_f <> [::] /\
  pri_add ex_f [:: 6%:R; 0] = Ok [:: 2%:R; 5%:R] /\ pri_mul ex_f ex_f = Ok [:: 2%:R; 2%:R; 4%:R].
Proof. by split=> //; split=> //; split; congr Ok; apply/eqP. Qed.

(** ** C06 *)
Theorem C06_check_exact (F : fieldType) (G : lmodType F) (B : G) (f : seq F) (b : option G) (s : pri_share F) :
  f <> [::] -> odflt B b <> 0 ->
  pub_eval (pri_commit B f b) (ps_i s) = Ok (PubShare (ps_i s) (share_value f (ps_i s) *: odflt B b)) /\
  exists2 r, pub_check B (pri_commit B f b) s = Ok r & (r = true <-> ps_v s = share_value f (ps_i s)).
Proof. exact: C06_lemma. Qed.
Print Assumptions C06_check_exact.

(** The neutral base accepts everything: the restriction is needed. *)
Theorem C06_neutral_base_accepts_all (F : fieldType) (G : lmodType F) (B : G) (f : seq F) (s : pri_share F) :
  f <> [::] -> pub_check B (pri_commit B f (Some 0)) s = Ok true.
Proof. exact: C06_neutral_lemma. Qed.
Print Assumptions C06_neutral_base_accepts_all.

Example C06_nonvacuous : ex_f <> [::] /\ odflt (1 : G7) None <> 0 /\
  pub_check (1 : G7) (pri_commit (1 : G7) ex_f None) (PriShare 1 6%:R) = Ok true /\
  pub_check (1 : G7) (pri_commit (1 : G7) ex_f None) (PriShare 1 5%:R) = Ok false.
Proof. by split. Qed.

(** ** C07 *)
Theorem C07_recover_commit (F : fieldType) (G : lmodType F) (p : nat) (ord : hash_order F) (cs : seq G)
    (shares : seq (option (pub_share G))) (t : nat) :
  p \in [char F] -> (forall k s, perm_eq (ord k s) s) -> size cs = t ->
  (forall s, List.In (Some s) shares -> us_v s = pub_share_value cs (us_i s) /\ ((us_i s).+1 < p)%N) ->
  distinct_at_least [seq us_i s | s <- pmap id shares] t ->
  recover_commit ord shares t = Ok cs`_0.
Proof. exact: C07_lemma. Qed.
Print Assumptions C07_recover_commit.

Example C07_nonvacuous :
  (forall s, List.In (Some s) ex_pub_gap -> us_v s = pub_share_value (ex_f : seq G7) (us_i s) /\ ((us_i s).+1 < 7)%N) /\
  distinct_at_least [seq us_i s | s <- pmap id ex_pub_gap] 2.
Proof.
split; last by exists [:: 4%N; 1%N] => // x; rewrite !inE => /orP[]->; rewrite ?orbT.
by move=> s [[<-]|[//|[[<-]|//]]]; split=> //; apply/eqP; rewrite /pub_share_value /geval !big_ord_recl big_ord0.
Qed.

(** ** C08.  The full statement

      p \in [char F] -> (forall k s, perm_eq (ord k s) s) -> size cs = t -> 0 < t ->
      (every member of shares is a genuine share) -> distinct_at_least (indices) t ->
      exists2 P, recover_pub_poly B ord shares t = Ok P & pcommits P = cs

    is false of the code: the loop uses positions 0..t-1 as map keys. *)
Theorem C08_recover_pub_poly_partial (F : fieldType) (G : lmodType F) (B : G) (p : nat) (ord : hash_order F)
    (cs : seq G) (shares : seq (option (pub_share G))) (t : nat) :
  p \in [char F] -> (forall k s, perm_eq (ord k s) s) -> size cs = t -> (0 < t)%N ->
  (forall s, List.In (Some s) shares -> us_v s = pub_share_value cs (us_i s) /\ ((us_i s).+1 < p)%N) ->
  distinct_at_least [seq us_i s | s <- pmap id shares] t ->
  ((forall j, (j < t)%N -> j \in [seq us_i s | s <- pmap id shares]) ->
     exists2 P, recover_pub_poly B ord shares t = Ok P &
       pcommits P = cs /\ pb P = Some (pub_share_value cs 0)) /\
  (forall j, (j < t)%N -> j \notin [seq us_i s | s <- pmap id shares] ->
     recover_pub_poly B ord shares t = Panic).
Proof. exact: C08_lemma. Qed.
Print Assumptions C08_recover_pub_poly_partial.

(** Genuine shares, enough of them, and the call panics. *)
Theorem C08_recover_pub_poly_refuted :
  exists (F : fieldType) (G : lmodType F) (B : G) (cs : seq G) (shares : seq (option (pub_share G))) (t : nat),
    [/\ size cs = t, (0 < t)%N,
       (forall s, List.In (Some s) shares -> us_v s = pub_share_value cs (us_i s) /\ ((us_i s).+1 < 7)%N),
       distinct_at_least [seq us_i s | s <- pmap id shares] t &
       recover_pub_poly B (fun _ s => s) shares t = Panic].
Proof.
exists F7, G7, (1 : G7), (ex_f : seq G7), ex_pub_gap, 2%N.
have [g d] := C07_nonvacuous; split=> //.
Qed.
Print Assumptions C08_recover_pub_poly_refuted.

(** Even when it succeeds, the recovered polynomial does not verify the shares of the original: its base point
    is the public share of index 0 instead of the base the commitments were made with. *)
Theorem C08_recovered_poly_check_refuted :
  exists (F : fieldType) (G : lmodType F) (B : G) (f : seq F) (shares : seq (option (pub_share G))) P s,
    [/\ pub_shares (pri_commit B f None) 2 = Ok shares,
        recover_pub_poly B (fun _ s => s) shares (size f) = Ok P,
        pub_check B (pri_commit B f None) s = Ok true &
        pub_check B P s = Ok false].
Proof.
pose f : seq F7 := [:: 2%:R; 1].
pose cs : seq G7 := pcommits (pri_commit (1 : G7) f None).
pose v i : G7 := foldl (fun v c => xcoord F7 i *: v + c) 0 (rev cs).
pose sh := [:: Some (PubShare 0 (v 0%N)); Some (PubShare 1 (v 1%N))].
have g s : List.In (Some s) sh -> us_v s = pub_share_value cs (us_i s) /\ ((us_i s).+1 < 7)%N.
  by move=> [[<-]|[[<-]|//]]; split=> //; apply/eqP; rewrite /pub_share_value /geval !big_ord_recl big_ord0.
have d : distinct_at_least [seq us_i s | s <- pmap id sh] 2.
  by exists [:: 0%N; 1%N] => // x; rewrite !inE => /orP[]->; rewrite ?orbT.
have c : 7%N \in [char F7] by exact: char_Fp.
have [|[b cs'] e [/= e1 e2]] := (C08_recover_pub_poly_partial (1 : G7) (ord := fun _ s => s) (cs := cs) (t := 2) c (fun _ _ => perm_refl _)
  erefl isT g d).1; first by case=> [|[|j]].
exists F7, G7, (1 : G7), f, sh, (PubPoly b cs'), (PriShare 1 4%:R); split=> //.
by rewrite e1 e2 /pub_share_value /geval !big_ord_recl big_ord0.
Qed.
Print Assumptions C08_recovered_poly_check_refuted.

Example C08_nonvacuous :
  (forall s, List.In (Some s) ex_pub -> us_v s = pub_share_value (ex_f : seq G7) (us_i s) /\ ((us_i s).+1 < 7)%N) /\
  (forall j, (j < 2)%N -> j \in [seq us_i s | s <- pmap id ex_pub]) /\
  distinct_at_least [seq us_i s | s <- pmap id ex_pub] 2.
Proof.
split; first by move=> s [[<-]|[//|[[<-]|//]]]; split=> //; apply/eqP; rewrite /pub_share_value /geval !big_ord_recl big_ord0.
split; first by case=> [|[|j]].
by exists [:: 0%N; 1%N] => // x; rewrite !inE => /orP[]->; rewrite ?orbT.
Qed.

(** ** C09 *)
Theorem C09_pri_equal (F : fieldType) (encF : F -> seq nat) (f g : seq F) :
  injective encF -> exists2 r, pri_equal encF f g = Ok r & (r = true <-> f = g).
Proof. exact: C09_pri_lemma. Qed.
Print Assumptions C09_pri_equal.

(** PubPoly::equal: exact only for equal lengths; a longer second operand is compared on a prefix, a shorter one
    makes it panic.  (Full claim: [exists2 r, pub_equal encG P Q = Ok r & (r = true <-> pcommits P = pcommits Q)].) *)
Theorem C09_pub_equal_partial (F : fieldType) (G : lmodType F) (encG : G -> seq nat) (P Q : pub_poly G) :
  injective encG ->
  (size (pcommits P) = size (pcommits Q) ->
     exists2 r, pub_equal encG P Q = Ok r & (r = true <-> pcommits P = pcommits Q)) /\
  ((size (pcommits P) < size (pcommits Q))%N ->
     exists2 r, pub_equal encG P Q = Ok r & (r = true <-> exists tl, pcommits Q = pcommits P ++ tl)) /\
  ((size (pcommits Q) < size (pcommits P))%N -> pub_equal encG P Q = Panic).
Proof. exact: C09_pub_lemma. Qed.
Print Assumptions C09_pub_equal_partial.

Definition ex_enc (x : F7) : seq nat := [:: nat_of_ord x].

Theorem C09_pub_equal_refuted :
  exists (F : fieldType) (G : lmodType F) (encG : G -> seq nat) (P Q : pub_poly G),
    [/\ injective encG, pcommits P <> pcommits Q, pub_equal encG P Q = Ok true & pub_equal encG Q P = Panic].
Proof.
exists F7, G7, (ex_enc : G7 -> seq nat), (@PubPoly _ G7 None [:: 1]), (@PubPoly _ G7 None [:: 1; 0]).
by split=> // x y [] /val_inj.
Qed.
Print Assumptions C09_pub_equal_refuted.

Example C09_nonvacuous : injective ex_enc.
Proof. by move=> x y [] /val_inj. Qed.

(** ** C10.  Polynomials built by the listed operations can be read without a panic; the three ways around it
    ([recover_pri_poly] with threshold 0 and no share, [PubPoly::new] without commitments, [mul] of two empty
    polynomials) are exhibited below. *)
Inductive built (F : fieldType) : seq F -> Prop :=
| built_new t s picks : built (new_pri_poly t s picks)
| built_coeffs c f : built (c :: f)
| built_add f g h : built f -> built g -> pri_add f g = Ok h -> built h
| built_mul f g h : built f -> built g -> pri_mul f g = Ok h -> built h
| built_recover ord shares t h : (forall k s, perm_eq (ord k s) s) -> (0 < t)%N ->
    recover_pri_poly ord shares t = Ok h -> built h.

Theorem C10_accessors_partial (F : fieldType) (G : lmodType F) (B : G) (f : seq F) (b : option G) (i : nat) :
  built f -> [/\ is_ok (pri_secret f), is_ok (pub_commit (pri_commit B f b)), is_ok (pub_eval (pri_commit B f b) i),
     is_ok (pub_check B (pri_commit B f b) (pri_eval f i)) & is_ok (pri_mul f f)].
Proof.
move=> bf; suff: f <> [::] by exact: C10_lemma.
elim: bf => {f} [t s picks|c f|f g h _ IHf _ _|f g h _ IHf _ IHg|ord shares t h op t0].
- exact: C10_new.
- by [].
- exact: C10_add.
- exact: C10_mul.
- exact: C10_recover.
Qed.
Print Assumptions C10_accessors_partial.

Theorem C10_accessors_refuted (F : fieldType) (G : lmodType F) (B : G) (ord : hash_order F) :
  (forall k s, perm_eq (ord k s) s) ->
  recover_pri_poly ord [::] 0 = Ok [::] /\ pri_secret ([::] : seq F) = Panic /\
  pub_eval (@PubPoly _ G None [::]) 0 = Panic /\ pri_mul ([::] : seq F) [::] = Panic.
Proof. exact: C10_refuted_lemma. Qed.
Print Assumptions C10_accessors_refuted.

(** The values the accessors give. *)
Theorem C10_values (F : fieldType) (G : lmodType F) (B : G) (f : seq F) (b : option G) :
  built f -> [/\ pri_secret f = Ok f`_0, pub_commit (pri_commit B f b) = Ok (f`_0 *: odflt B b), pri_threshold f = size f &
     pub_threshold (pri_commit B f b) = size f].
Proof.
move=> /(@C10_accessors_partial F G B f b 0%N) [+ _ _ _ _].
by case: f => //= c f _; rewrite /pub_threshold /= size_map.
Qed.
Print Assumptions C10_values.
Theorem C10_new_values (F : fieldType) (t : nat) (s : F) (picks : nat -> F) : (0 < t)%N ->
  [/\ pri_secret (new_pri_poly t (Some s) picks) = Ok s, pri_secret (new_pri_poly t None picks) = Ok (picks 0%N),
      pri_threshold (new_pri_poly t (Some s) picks) = t & pri_threshold (new_pri_poly t None picks) = t].
Proof. by case: t => // t _; rewrite /pri_threshold /= !size_mkseq subn1. Qed.
Print Assumptions C10_new_values.

Example C10_nonvacuous : built ex_f /\ new_pri_poly 0 None (fun _ => 1 : F7) = [:: 1].
Proof. split=> //; exact: built_coeffs. Qed.
