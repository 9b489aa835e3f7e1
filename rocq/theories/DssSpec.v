(** Vocabulary for the properties of src/sign/dss/dss_sig.rs. *)
From mathcomp Require Import all_ssreflect all_algebra.
From Verif Require Import Base PolyModel PolySpec Suite DssModel.

Set Implicit Arguments.
Unset Strict Implicit.
Unset Printing Implicit Defensive.

Import GRing.Theory.
Local Open Scope ring_scope.

Section Spec.
Variables (F : fieldType) (G : lmodType F) (S : suite G) (chal : bytestr -> F).
Notation B := (su_base S).

(** What can happen to a signer: its owner asks for its partial signature (with some nonce), or a message arrives. *)
Inductive dss_event := DSign (k : F) | DReceive (ps : partial_sig F).
Definition dss_step (d : dss G) (e : dss_event) : dss G :=
  match e with
  | DSign k => (dss_partial_sig S chal d k).1
  | DReceive ps => (process_partial_sig S chal d ps).1
  end.
Definition dss_run (d : dss G) (es : seq dss_event) : dss G := foldl dss_step d es.

(** The message claims to come from participant i. *)
Definition from_index (i : nat) (e : dss_event) : bool :=
  if e is DReceive ps then ps_i (pt_partial ps) == i else false.

(** The participants whose partial signatures are stored, with repetitions. *)
Definition dss_contributors (d : dss G) : seq nat := [seq ps_i s | s <- pmap id (ds_partials d)].

(** The polynomial f was shared: x holds the commitments to its coefficients and the share of participant i. *)
Definition dealt (f : seq F) (i : nat) (x : dks G) : Prop :=
  dks_commits x = [seq c *: B | c <- f] /\ ps_v (dks_share x) = share_value f i.

(** The challenge of the signature of msg under the nonce point R and the public key A. *)
Definition challenge (R A : G) (msg : bytestr) : F := chal (su_enc S R ++ su_enc S A ++ msg).

(** [sig] is a valid EdDSA signature of msg under A: the encoding of a point R and a scalar s with s B = R + h A. *)
Definition ed_valid (A : G) (msg sig : bytestr) : Prop :=
  exists (R : G) (s : F), sig = su_enc S R ++ su_senc S s /\ s *: B = R + challenge R A msg *: A.
End Spec.
