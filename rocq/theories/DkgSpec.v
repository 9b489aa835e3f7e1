(** Specification vocabulary for the Pedersen DKG properties. *)
From mathcomp Require Import all_ssreflect all_algebra.
From Verif Require Import Base PolyModel PolySpec Suite VssModel DkgModel.

Set Implicit Arguments.
Unset Strict Implicit.
Unset Printing Implicit Defensive.

Import GRing.Theory.
Local Open Scope ring_scope.

(** A schedule of a run with n participants: participant i calls [deals]; participant i receives the deal of j;
    participant i receives the response of k about the deal of j. *)
Definition act := (nat + (nat * nat) + (nat * nat * nat))%type.
Definition ADeals (i : nat) : act := inl (inl i).
Definition ADeal (j i : nat) : act := inl (inr (j, i)).
Definition AResp (j k i : nat) : act := inr (j, k, i).

(** An action may happen once what it delivers has been sent. *)
Definition enabled (n : nat) (done : seq act) (a : act) : bool :=
  match a with
  | inl (inl i) => (i < n)%N
  | inl (inr (j, i)) => [&& (j < n)%N, (i < n)%N, i != j & ADeals j \in done]
  | inr (j, k, i) => [&& (j < n)%N, (k < n)%N, (i < n)%N, k != j & (k != i) && (ADeal j k \in done)]
  end.

(** Every message is delivered at most once, after it was sent; otherwise in any order. *)
Fixpoint schedule (n : nat) (done : seq act) (acts : seq act) : bool :=
  if acts is a :: l then [&& enabled n done a, a \notin done & schedule n (rcons done a) l] else true.

(** Every message is delivered. *)
Definition complete (n : nat) (acts : seq act) : Prop :=
  [/\ forall i, (i < n)%N -> ADeals i \in acts,
      forall j i, (j < n)%N -> (i < n)%N -> i <> j -> ADeal j i \in acts &
      forall j k i, (j < n)%N -> (k < n)%N -> (i < n)%N -> k <> j -> k <> i -> AResp j k i \in acts].

(** In a run, participant i has the deal of j (its own once it called [deals]). *)
Definition received (acts : seq act) (i j : nat) : bool := if i == j then ADeals i \in acts else ADeal j i \in acts.
(** ... knows the answer of k about it: its own and the dealer's with the deal, others as they arrive. *)
Definition answered (acts : seq act) (i j k : nat) : bool :=
  (received acts i j && ((k == i) || (k == j))) || (AResp j k i \in acts).
(** ... and the dealers about whom i knows all answers. *)
Definition heard (n : nat) (acts : seq act) (i : nat) : seq nat := [seq j <- iota 0 n | all (answered acts i j) (iota 0 n)].

(** The coefficient-wise sum of the polynomials of the dealers in Q. *)
Definition joint_poly (F : fieldType) (t : nat) (sec : nat -> F) (picks : nat -> nat -> F) (Q : seq nat) : seq F :=
  mkseq (fun m => \sum_(j <- Q) nth 0 (sec j :: mkseq (picks j) (t - 1)) m) t.

Section Net.
Variables (F : fieldType) (G : lmodType F) (S : suite G).
Variable deal_enc : deal G -> bytestr.
Variable deal_dec : bytestr -> option (deal G).
Variable ddeal_enc : nat -> enc_deal G -> bytestr.

(** The participants and the messages they have sent: the deal of j for i, the response of k about the deal of j. *)
Record net := Net {
  n_node : nat -> dkg G; n_deal : nat -> nat -> option (ddeal G); n_resp : nat -> nat -> option dresponse }.

(** The randomness of the participants: ephemeral keys and nonces of the deals, signature nonces. *)
Record coins := Coins { co_rnd : nat -> nat -> F * F; co_ks : nat -> nat -> F; co_kr : nat -> nat -> F; co_kj : nat -> F }.
Definition coins_ok (co : coins) : Prop :=
  forall i j, [/\ su_good S (co_rnd co i j).2, su_good S (co_ks co i j) & su_good S (co_kr co i j)].

Definition upd {A : Type} (f : nat -> A) (i : nat) (x : A) : nat -> A := fun j => if j == i then x else f j.

(** One action; [None] if the message was not sent or a participant reports an error or issues a justification. *)
Definition net_step (co : coins) (N : net) (a : act) : option net :=
  match a with
  | inl (inl i) =>
      let '(g, o) := ddeals S deal_enc deal_dec ddeal_enc (n_node N i) (co_rnd co i) (co_ks co i) (co_kr co i i) (co_kr co i i) in
      if o is Ok ds then Some (Net (upd (n_node N) i g) (upd (n_deal N) i (fun m => mget m ds)) (n_resp N)) else None
  | inl (inr (j, i)) =>
      if n_deal N j i is Some dd then
        let '(g, o) := dprocess_deal S deal_dec ddeal_enc (n_node N i) dd (co_kr co i j) (co_kr co i j) in
        if o is Ok r then Some (Net (upd (n_node N) i g) (n_deal N) (upd (n_resp N) j (upd (n_resp N j) i (Some r))))
        else None
      else None
  | inr (j, k, i) =>
      if n_resp N j k is Some r then
        let '(g, o) := dprocess_response S deal_enc (n_node N i) r (co_kj co i) in
        if o is Ok None then Some (Net (upd (n_node N) i g) (n_deal N) (n_resp N)) else None
      else None
  end.
Fixpoint net_run (co : coins) (N : net) (acts : seq act) : option net :=
  if acts is a :: l then if net_step co N a is Some N' then net_run co N' l else None else Some N.

Definition net0 (node : nat -> dkg G) : net := Net node (fun _ _ => None) (fun _ _ => None).

(** What can happen to one participant. *)
Inductive devent :=
| DEvDeals (rnd : nat -> F * F) (ks : nat -> F) (k k' : F)
| DEvDeal (dd : ddeal G) (k k' : F)
| DEvResponse (r : dresponse) (k : F)
| DEvJustification (j : djustification G)
| DEvTimeout.
Definition dstep (g : dkg G) (ev : devent) : dkg G :=
  match ev with
  | DEvDeals rnd ks k k' => (ddeals S deal_enc deal_dec ddeal_enc g rnd ks k k').1
  | DEvDeal dd k k' => (dprocess_deal S deal_dec ddeal_enc g dd k k').1
  | DEvResponse r k => (dprocess_response S deal_enc g r k).1
  | DEvJustification j => (dprocess_justification S g j).1
  | DEvTimeout => dset_timeout g
  end.
Definition drun (g : dkg G) (evs : seq devent) : dkg G := foldl dstep g evs.

(** No response bearing one's own index comes from the network. *)
Definition foreign (i : nat) (ev : devent) : bool := if ev is DEvResponse r _ then r_index (dr_resp r) != i else true.

(** Number of dealers whose deal the participant regards as certified. *)
Definition ncertified (g : dkg G) : nat :=
  count (fun j => if mget j (g_verifiers g) is Some v then deal_certified (v_agg v) else false) (iota 0 (size (c_old (g_c g)))).

(** The threshold of a configuration: the given one, or (n+1)/2. *)
Definition threshold_of (c : config G) : nat := if c_t c == 0%N then ((size (c_new c)).+1 %/ 2)%N else c_t c.
End Net.
