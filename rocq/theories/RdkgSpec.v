(** Specification vocabulary for the Rabin DKG properties. *)
From mathcomp Require Import all_ssreflect all_algebra.
From Verif Require Import Base PolyModel PolySpec Suite VssModel RvssModel DkgSpec RdkgModel.

Set Implicit Arguments.
Unset Strict Implicit.
Unset Printing Implicit Defensive.

Import GRing.Theory.
Local Open Scope ring_scope.

(** A schedule: the actions of the first phase (DkgSpec), participant i calls [secret_commits], participant i receives the
    secret commitments of j. *)
Definition ract := (act + (nat + nat * nat))%type.
Definition RAct (a : act) : ract := inl a.
Definition RSec (i : nat) : ract := inr (inl i).
Definition RCom (j i : nat) : ract := inr (inr (j, i)).

(** The actions of the first phase. *)
Definition phase1 (acts : seq ract) : seq act := pmap (fun a => if a is inl b then Some b else None) acts.

(** Participant i has all answers about the deal of j. *)
Definition settled (n : nat) (acts : seq ract) (i j : nat) : bool := all (answered (phase1 acts) i j) (iota 0 n).

(** Participant i has the revealed commitments of j. *)
Definition revealed (acts : seq ract) (i j : nat) : bool := if i == j then RSec i \in acts else RCom j i \in acts.

(** An action may happen once what it delivers has been sent.  Unlike in the Pedersen variant a response is only
    understood by those who have the deal, and secret commitments by those who have all the answers. *)
Definition renabled (n : nat) (done : seq ract) (a : ract) : bool :=
  match a with
  | inl b => enabled n (phase1 done) b && (if b is inr (j, _, i) then received (phase1 done) i j else true)
  | inr (inl i) => (i < n)%N && settled n done i i
  | inr (inr (j, i)) => [&& (j < n)%N, (i < n)%N, i != j, RSec j \in done & settled n done i j]
  end.

(** Every message is delivered at most once, once it can be; otherwise in any order. *)
Fixpoint rschedule (n : nat) (done : seq ract) (acts : seq ract) : bool :=
  if acts is a :: l then [&& renabled n done a, a \notin done & rschedule n (rcons done a) l] else true.

(** Every message is delivered. *)
Definition rcomplete (n : nat) (acts : seq ract) : Prop :=
  complete n (phase1 acts) /\ forall i j, (i < n)%N -> (j < n)%N -> revealed acts i j.

Section Net.
Variables (F : fieldType) (G : lmodType F) (S : suite G).
Variable rdeal_enc : rdeal G -> bytestr.
Variable rdeal_dec : bytestr -> option (rdeal G).

(** The participants and the messages they have sent: deals, responses, secret commitments. *)
Record rnet := RNet {
  rn_node : nat -> rdkg G; rn_deal : nat -> nat -> option (rddeal G); rn_resp : nat -> nat -> option rdresponse;
  rn_sc : nat -> option (secret_commits G) }.

(** One action, with the randomness [co]; [None] if the message was not sent, or a participant reports an error, issues a
    justification or a complaint. *)
Definition rnet_step (co : coins F) (N : rnet) (a : ract) : option rnet :=
  match a with
  | inl (inl (inl i)) =>
      let '(g, o) := rgdeals S rdeal_enc rdeal_dec (rn_node N i) (co_rnd co i) (co_kr co i i) in
      if o is Ok ds then Some (RNet (upd (rn_node N) i g) (upd (rn_deal N) i (fun m => mget m ds)) (rn_resp N) (rn_sc N))
      else None
  | inl (inl (inr (j, i))) =>
      if rn_deal N j i is Some dd then
        let '(g, o) := rgprocess_deal S rdeal_dec (rn_node N i) dd (co_kr co i j) in
        if o is Ok r then
          Some (RNet (upd (rn_node N) i g) (rn_deal N) (upd (rn_resp N) j (upd (rn_resp N j) i (Some r))) (rn_sc N))
        else None
      else None
  | inl (inr (j, k, i)) =>
      if rn_resp N j k is Some r then
        let '(g, o) := rgprocess_response S rdeal_enc (rn_node N i) r (co_kj co i) in
        if o is Ok None then Some (RNet (upd (rn_node N) i g) (rn_deal N) (rn_resp N) (rn_sc N)) else None
      else None
  | inr (inl i) =>
      let '(g, o) := rsecret_commits S (rn_node N i) (co_ks co i i) in
      if o is Ok sc then Some (RNet (upd (rn_node N) i g) (rn_deal N) (rn_resp N) (upd (rn_sc N) i (Some sc))) else None
  | inr (inr (j, i)) =>
      if rn_sc N j is Some sc then
        let '(g, o) := rprocess_secret_commits S rdeal_enc (rn_node N i) sc (co_kj co i) in
        if o is Ok None then Some (RNet (upd (rn_node N) i g) (rn_deal N) (rn_resp N) (rn_sc N)) else None
      else None
  end.
Fixpoint rnet_run (co : coins F) (N : rnet) (acts : seq ract) : option rnet :=
  if acts is a :: l then if rnet_step co N a is Some N' then rnet_run co N' l else None else Some N.

Definition rnet0 (node : nat -> rdkg G) : rnet := RNet node (fun _ _ => None) (fun _ _ => None) (fun _ => None).

(** What can happen to one participant. *)
Inductive rgevent :=
| RGDeals (rnd : nat -> F * F) (k : F)
| RGDeal (dd : rddeal G) (k : F)
| RGResponse (r : rdresponse) (k : F)
| RGJustification (j : rdjustification G)
| RGTimeout
| RGSecret (k : F)
| RGSecretCommits (sc : secret_commits G) (k : F)
| RGComplaint (cc : complaint_commits G) (k : F)
| RGReconstruct (hord : hash_order F) (rc : reconstruct_commits F).
Definition rgstep (g : rdkg G) (ev : rgevent) : rdkg G :=
  match ev with
  | RGDeals rnd k => (rgdeals S rdeal_enc rdeal_dec g rnd k).1
  | RGDeal dd k => (rgprocess_deal S rdeal_dec g dd k).1
  | RGResponse r k => (rgprocess_response S rdeal_enc g r k).1
  | RGJustification j => (rgprocess_justification S g j).1
  | RGTimeout => rgset_timeout g
  | RGSecret k => (rsecret_commits S g k).1
  | RGSecretCommits sc k => (rprocess_secret_commits S rdeal_enc g sc k).1
  | RGComplaint cc k => (rprocess_complaint_commits S rdeal_enc g cc k).1
  | RGReconstruct hord rc => (rprocess_reconstruct_commits S hord g rc).1
  end.
Definition rgrun (g : rdkg G) (evs : seq rgevent) : rdkg G := foldl rgstep g evs.
End Net.
