(** [RandStream] used as a stream cipher through the [Stream] interface: src/cipher/stream.rs 5-25 and
    src/util/random/random_stream.rs 55-125, over a history of calls. *)
From Coq Require Import ZArith List.
From Verif Require Import Base RandModel EntropyModel.
Import ListNotations.

Section Calls.
(** SHA-256 and the output of Blake3 (external, arbitrary). *)
Variable sha256 : list Z -> list Z.
Variable out : list Z -> nat -> Z.
Context {U : Type}.
Variable rd : reader U.

(** random_stream.rs 89-125: one call of [xor_key_stream].  The lengths are compared (91-93) before the readers are asked. *)
Definition rand_call (us : list U) (dst src : list Z) : outcome stream_error (list Z) * list U :=
  if negb (Nat.eqb (length src) (length dst)) then (Err WrongBufferLengths, us) else
  (rand_xks sha256 out (map (fun u => fst (rd u)) us) dst src, map (fun u => snd (rd u)) us).

(** The caller: one call per source buffer, each into a destination of the same length; stops at the first error. *)
Fixpoint rand_calls (us : list U) (srcs : list (list Z)) : outcome stream_error (list (list Z)) :=
  match srcs with
  | [] => Ok []
  | s :: r =>
      match rand_call us s s with
      | (Ok d, us') => match rand_calls us' r with Ok ds => Ok (d :: ds) | Err e => Err e | Panic => Panic | OutOfFuel => OutOfFuel end
      | (Err e, _) => Err e
      | (Panic, _) => Panic
      | (OutOfFuel, _) => OutOfFuel
      end
  end.

End Calls.
