(** Properties C78 and C79: [qualified_shares] and [expected_deals] of src/share/dkg/pedersen/dkg.rs. *)
From mathcomp Require Import all_ssreflect all_algebra.
From Verif Require Import Base Lagrange PolyModel PolySpec Suite VssModel VssSpec VssProofs Toy.
From Verif Require Import DkgModel DkgSpec DkgProofs PropsDkg.

Set Implicit Arguments.
Unset Strict Implicit.
Unset Printing Implicit Defensive.

Import GRing.Theory.
Local Open Scope ring_scope.
Local Open Scope outcome_scope.

Section Q.
Variables (F : fieldType) (G : lmodType F) (S : suite G).

(** ** C78 *)
(** A deal counts if it has a response and no holder's recorded response is a complaint. *)
Definition deal_counts (n : nat) (v : verifier G) : Prop :=
  a_responses (v_agg v) <> [::] /\ forall k r, (k < n)%N -> mget k (a_responses (v_agg v)) = Some r -> r_status r = true.
Theorem C78_qualified_shares (g : dkg G) :
  (forall h, h \in qualified_shares g <->
    ((h < size (c_new (g_c g)))%N /\
     forall i v, List.In (i, v) (g_verifiers g) -> deal_counts (size (c_new (g_c g))) v -> mget h (a_responses (v_agg v)) <> None)) /\ uniq (qualified_shares g) /\ sorted ltn (qualified_shares g).
Proof.
rewrite /qualified_shares; set n := size _; 
pose inv := fun iv : nat * verifier G => (size (a_responses (v_agg iv.2)) == 0%N) ||
  has (fun h => if mget h (a_responses (v_agg iv.2)) is Some r then ~~ r_status r else false) (iota 0 n).
rewrite -/(fun iv => ~~ inv iv).
have invP v : reflect (deal_counts n v.2) (~~ inv v).
  rewrite /inv negb_or; apply: (iffP andP).
    move=> [/eqP s0 /hasPn h]; split=> [e|k r lk e]; first by rewrite e in s0.
    by move: (h k); rewrite mem_iota add0n lk e negbK => /(_ isT).
  move=> [ne h]; split; first by case: a_responses ne.
  apply/hasPn => k; rewrite mem_iota add0n => /= lk; case e: mget => [r|//].
  by rewrite (h k r lk e).
split; last by split; [exact: filter_uniq (iota_uniq _ _)|apply: (sorted_filter ltn_trans); exact: iota_ltn_sorted].
move=> h; rewrite mem_filter mem_iota add0n andbC leq0n andTb; split.
  move=> /andP[lh /negP nh]; split=> // i v iv dc e; apply: nh.
  have : List.In (i, v) [seq iv <- g_verifiers g | ~~ inv iv].
    by apply/List.filter_In; split=> //; apply/invP.
  elim: [seq _ <- _ | _] => //= a l IH [->|/IH ->]; first by rewrite e.
  by rewrite orbT.
move=> [lh H]; apply/andP; split=> //; apply/negP => nh.
have [[i v] vin ev] : exists2 iv, List.In iv [seq iv <- g_verifiers g | ~~ inv iv] & mget h (a_responses (v_agg iv.2)) = None.
  move: nh; elim: [seq _ <- _ | _] => //= a l IH /orP[|/IH[b bl eb]].
    by case e: mget => // _; exists a => //; left.
  by exists b => //; right.
have /List.filter_In[iv /invP dc] := vin.
exact: (H i v iv dc ev).
Qed.

(** ** C79 *)
(** The number of deals a handler expects is the number of dealers other than itself if it is a new holder, else 0. *)
Theorem C79_expected_deals (c : config G) (secret : F) (picks : nat -> F) (g : dkg G) :
  new_dist_key_handler S c secret picks = Ok g ->
  let own := c_long c *: su_base S in
  let dealers := if isSome (c_share c) || isSome (c_coeffs c) || (own \notin c_new c) then c_old c else c_new c in
  uniq dealers ->
  expected_deals g = if own \in c_new c then size [seq k <- dealers | k != own] else 0%N.
Proof.
move=> H own dealers u0.
have cnt (l : seq G) : uniq l -> size [seq k <- l | k != own] = (if own \in l then size l - 1 else size l)%N.
  move=> u; rewrite size_filter; have := count_predC (pred1 own) l; rewrite (count_uniq_mem own u).
  have -> : count (fun k => k != own) l = count (predC (pred1 own)) l by [].
  by case: (own \in l) => <-; rewrite ?add0n // add1n subSS subn0.
move: u0 H; rewrite /new_dist_key_handler => u0; case: ifP => // _; case: ifP => // _; case: ifP => // _; rewrite /pmul -/own.
have dfE l : (dfind_pub l own).2 = (own \in l) by rewrite /dfind_pub -index_mem; case: ifP.
case eo: (dfind_pub (c_old c) own) => [oi op0]; case en: (dfind_pub (c_new c) own) => [ni np0].
have eop : op0 = (own \in c_old c) by rewrite -dfE eo.
have enp : np0 = (own \in c_new c) by rewrite -dfE en.
case: ifP => // _; rewrite {}enp {en}.
have fin (c' : config G) (g0 : dkg G) : g_c g0 = c' -> c_old c' = dealers ->
    g_new_present g0 = (own \in c_new c) -> g_old_present g0 = (own \in dealers) ->
    (if own \in c_new c then match init_verifiers S c' with
       | Ok vs => Ok (g_set_verifiers g0 vs) | Err _ => Ok g0 | Panic => Panic | OutOfFuel => OutOfFuel end
     else Ok g0) = Ok g :> outcome dkg_error _ ->
    expected_deals g = if own \in c_new c then size [seq k <- dealers | k != own] else 0%N.
  move=> e0 e1 e3 e4 h; have [h1 h2 h3] : [/\ g_c g = c', g_new_present g = (own \in c_new c) & g_old_present g = (own \in dealers)].
    case: (own \in c_new c) e3 h => e3; last by case=> <-.
    by case: init_verifiers => //= [vs|er] [<-].
  by rewrite /expected_deals h1 h2 h3 e1 cnt.
move: (erefl dealers) fin; rewrite {1}/dealers; case es: (c_share c) => [sh|] /= dE; last first.
  case ec: (c_coeffs c) dE => [cs|] /= dE.
    by case on: (own \in c_new c) => /= fin; rewrite ?ec /= => h; apply: (fin _ _ _ _ _ _ h); rewrite //= -?dE //= ?eop.
  case on: (own \in c_new c) dE => /= dE fin.
    by case: dvss => //= d h; apply: (fin _ _ _ _ _ _ h); rewrite //= -?dE //= ?dfE ?on.
  by move=> h; apply: (fin _ _ _ _ _ _ h); rewrite //= -?dE //= ?eop.
case: dvss => //= d; case on: (own \in c_new c) => /= fin; last by move=> h; apply: (fin _ _ _ _ _ _ h); rewrite //= -?dE //= ?eop.
by case ec: (c_coeffs c) => [cs|]; rewrite /= ?es /= => h; apply: (fin _ _ _ _ _ _ h); rewrite //= -?dE //= ?eop.
Qed.
End Q.
Print Assumptions C78_qualified_shares.
Print Assumptions C79_expected_deals.

(** Non-vacuity: three participants, only the messages about the deal of 0 delivered, the answer of 1 not yet at 0; then
    everything; and the deals expected by each. *)
Definition kq (acts : seq act) (i : nat) : seq nat :=
  if net_run ktoy kdeal_enc kdeal_dec kddeal_enc kcoins (net0 (hnode0 ktoy kkeys 2 kkey ksec kpicks)) acts is Some N
  then qualified_shares (n_node N i) else [:: 99]%N.
Example C78_nonvacuous : [/\ kq kacts0 0 = [:: 0; 1; 2]%N, kq [:: ADeals 0; ADeal 0 2; AResp 0 2 0] 0 = [:: 0; 2]%N & kq kacts 1 = [:: 0; 1; 2]%N].
Proof.
split.
- by vm_cast_no_check (erefl [:: 0; 1; 2]%N).
- by vm_cast_no_check (erefl [:: 0; 2]%N).
- by vm_cast_no_check (erefl [:: 0; 1; 2]%N).
Qed.
Example C79_nonvacuous : expected_deals (hnode0 ktoy kkeys 2 kkey ksec kpicks 1) = 2%N.
Proof. by vm_cast_no_check (erefl 2%N). Qed.
