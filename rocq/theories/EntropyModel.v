(** Model of the entropy options of the Pedersen key generator: src/share/dkg/pedersen/dkg.rs 89-97, 334-350 and the stateful
    use of src/util/random/random_stream.rs 55-125. *)
From Coq Require Import ZArith List.
From Verif Require Import Base Bytes IntModel RandModel ScModel.
Import ListNotations.
Local Open Scope Z_scope.

(** A [std::io::Read] as seen by random_stream.rs 102-109: the outcome of [read_exact] on a buffer of 32 bytes ([None] for an
    error) and the reader afterwards. *)
Definition reader (U : Type) : Type := U -> option (list Z) * U.

Section Entropy.
(** SHA-256 and the output of Blake3 (external, arbitrary). *)
Variable sha256 : list Z -> list Z.
Variable out : list Z -> nat -> Z.

(** random_stream.rs 89-125 [RandStream] as a [Stream]: each call reads once from every reader. *)
Definition rand_stream {U} (rd : reader U) : stream (list U) :=
  Stream (fun us src =>
    (match rand_xks sha256 out (map (fun u => fst (rd u)) us) src src with Ok d => Some d | _ => None end,
     map (fun u => snd (rd u)) us)).

(** dkg.rs 334-349: the readers of the stream that picks the secret coefficient.  [user] is a clone of [Config::reader], [sys]
    the state of [StdRng::from_entropy()]. *)
Definition secret_readers {U V} (user : option U) (user_reader_only : bool) (sys : V) : list (U + V) :=
  match user with
  | Some u => if user_reader_only then [inl u] else [inl u; inr sys]
  | None => [inr sys]
  end.

(** The readers are trait objects; here a sum of the two types. *)
Definition either {U V} (ru : reader U) (rv : reader V) : reader (U + V) := fun x =>
  match x with
  | inl u => let '(b, u') := ru u in (b, inl u')
  | inr v => let '(b, v') := rv v in (b, inr v')
  end.

(** dkg.rs 350: [c.suite.scalar().pick(&mut random_stream)]. *)
Definition secret_coeff {U V} (ru : reader U) (rv : reader V) (fuel : nat) (user : option U) (user_reader_only : bool) (sys : V)
  : outcome int_error (list Z) :=
  match scalar_pick _ (rand_stream (either ru rv)) fuel scalar_default (secret_readers user user_reader_only sys) with
  | Ok (s, _) => Ok s
  | Err e => Err e
  | Panic => Panic
  | OutOfFuel => OutOfFuel
  end.

End Entropy.

(** std [Read] for a byte string ([Cursor], [&[u8]]): [read_exact] fails once fewer than 32 bytes are left; what is left after a
    failure is simplified to the same bytes (still fewer than 32). *)
Definition slice_reader : reader (list Z) := fun l =>
  if Nat.ltb (length l) 32 then (None, l) else (Some (firstn 32 l), skipn 32 l).
