(** The argument n of the recovery functions and of [shares]: the number of elements for which room is reserved. *)
From Coq Require Import ZArith NArith.
From mathcomp Require Import all_ssreflect all_algebra.
From Verif Require Import Base PolyModel Suite VssModel RvssModel.

Set Implicit Arguments.
Unset Strict Implicit.
Unset Printing Implicit Defensive.
Local Open Scope outcome_scope.

(** [Vec::with_capacity(n)] for elements of [sz] bytes: panics with "capacity overflow" when n * sz exceeds isize::MAX
    (64 bits).  Called in poly.rs 145, 292, 473 and 543.  Simplification: memory is unlimited; a reservation that fits in
    isize but not in memory aborts the process, which is not modelled. *)
Definition with_capacity {E : Type} (sz n : N) : outcome E unit :=
  if N.leb (sz * n) 9223372036854775807 then Ok tt else Panic.

Section Cap.
Variables (F : fieldType) (G : lmodType F).

(** poly.rs 244-278 [recover_secret] with its argument n: [xy_scalar] (292) first reserves a vector of n references. *)
Definition recover_secret_n (ord : hash_order F) (shares : seq (option (pri_share F))) (t : nat) (n : N) : outcome poly_error F :=
  let! _ := with_capacity 8 n in recover_secret ord shares t.
(** poly.rs 326-359 [recover_pri_poly], likewise through [xy_scalar]. *)
Definition recover_pri_poly_n (ord : hash_order F) (shares : seq (option (pri_share F))) (t : nat) (n : N) :=
  let! _ := with_capacity 8 n in recover_pri_poly ord shares t.
(** poly.rs 566-603 [recover_commit], through [xy_commit] (543). *)
Definition recover_commit_n (ord : hash_order F) (shares : seq (option (pub_share G))) (t : nat) (n : N) :=
  let! _ := with_capacity 8 n in recover_commit ord shares t.
(** poly.rs 607-636 [recover_pub_poly], through [xy_commit] (543). *)
Definition recover_pub_poly_n (b : G) (ord : hash_order F) (shares : seq (option (pub_share G))) (t : nat) (n : N) :=
  let! _ := with_capacity 8 n in recover_pub_poly b ord shares t.
(** poly.rs 144-150 [PriPoly::shares]; [sz] is the size of an [Option<PriShare>]. *)
Definition pri_shares_n (sz : N) (p : pri_poly F) (n : N) : outcome poly_error (seq (option (pri_share F))) :=
  let! _ := with_capacity sz n in Ok (pri_shares p (N.to_nat n)).
(** poly.rs 472-478 [PubPoly::shares]; [sz] is the size of an [Option<PubShare>]. *)
Definition pub_shares_n (sz : N) (p : pub_poly G) (n : N) : outcome poly_error (seq (option (pub_share G))) :=
  let! _ := with_capacity sz n in pub_shares p (N.to_nat n).

(** pedersen/vss.rs 746-762 [recover_secret] with its argument n, passed on to poly.rs.  The loop over the deals is that of
    [vss_recover_secret]. *)
Definition vss_recover_secret_n (ord : hash_order F) (deals : seq (deal G)) (n : N) (t : nat) : outcome vss_error F :=
  let! shares := foldo (fun acc d =>
      if d_sid d == d_sid (head d deals) then Ok (rcons acc (Some (d_share d))) else Err DealsSameID) [::] deals in
  of_poly (recover_secret_n ord shares t n).
(** rabin/vss.rs 1072-1088 [recover_secret], likewise. *)
Definition rvss_recover_secret_n (ord : hash_order F) (deals : seq (rdeal G)) (n : N) (t : nat) : outcome vss_error F :=
  let! shares := foldo (fun acc d =>
      if rd_sid d == rd_sid (head d deals) then Ok (rcons acc (Some (rd_sec d))) else Err DealsSameID) [::] deals in
  of_poly (recover_secret_n ord shares t n).
End Cap.
