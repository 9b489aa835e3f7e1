(** Model of src/util/random/random_stream.rs and of the XOF in src/xof/blake3/xof.rs. *)
From Coq Require Import ZArith List.
From Verif Require Import Base Bytes IntModel.
Import ListNotations.
Local Open Scope Z_scope.
Local Open Scope outcome_scope.

(** cipher/stream.rs 7-22 [Stream]: [xor_key_stream] on a source of the same length as the destination.
    [None] is an [Err] (the destination is then left as it was). *)
Record stream (S : Type) := Stream { xks : S -> list Z -> option (list Z) * S }.
Arguments Stream {S} _.
Arguments xks {S} _ _ _.

(** Byte-wise xor of two strings (up to the shorter). *)
Fixpoint xorb_list (a b : list Z) : list Z :=
  match a, b with x :: a', y :: b' => Z.lxor x y :: xorb_list a' b' | _, _ => [] end.

Section Random.
Variable St : Type.
Variable R : stream St.

(** random_stream.rs 17-34 [bits].  The stream's error is ignored and the zero buffer used; [b[0]] on an empty
    buffer panics.  [0xff << highbits] is a u8, so its complement is 2^highbits - 1. *)
Definition bits (bit_len : Z) (exact : bool) (s : St) : outcome unit (list Z * St) :=
  let n := Z.to_nat ((bit_len + 7) / 8) in
  let '(o, s') := xks R s (repeat 0 n) in
  let b := match o with Some out => out | None => repeat 0 n end in
  let highbits := bit_len mod 8 in
  let! b1 := (if highbits =? 0 then Ok b
              else match b with [] => Panic | x :: r => Ok (Z.land x (2 ^ highbits - 1) :: r) end) in
  let! b2 := (if exact then
                match b1 with
                | [] => Panic
                | x :: r => Ok (Z.lor x (if highbits =? 0 then 128 else 2 ^ (highbits - 1)) :: r)
                end
              else Ok b1) in
  Ok (b2, s').

(** random_stream.rs 37-47 [random_int]: rejection loop, with fuel. *)
Fixpoint random_int (fuel : nat) (modulus : Z) (s : St) : outcome unit (Z * St) :=
  match fuel with
  | O => OutOfFuel
  | S f =>
      let! (b, s') := bits (bits_of modulus) false s in
      let i := be_val b in
      if andb (0 <? i) (i <? modulus) then Ok (i, s') else random_int f modulus s'
  end.

(** random_stream.rs 50-54 [bytes] ([b.len()] = n). *)
Definition random_bytes (n : nat) (s : St) : outcome unit (list Z * St) :=
  match xks R s (repeat 0 n) with
  | (Some out, s') => Ok (out, s')
  | (None, s') => Err tt
  end.

(** integer.rs 377-382 [Int::pick]. *)
Definition int_pick (fuel : nat) (i : Int) (s : St) : outcome unit (Int * St) :=
  let! (v, s') := random_int fuel (im i) s in Ok (mkInt v (im i) (ibo i), s').

End Random.

(** ** src/xof/blake3/xof.rs *)
Section Xof.
(** The extendable output of Blake3 on an absorbed input: byte at each position (external, arbitrary; the
    2^64 byte output limit of the library is not modelled). *)
Variable out : list Z -> nat -> Z.

(** n output bytes from position pos. *)
Definition squeeze (abs : list Z) (pos n : nat) : list Z := map (out abs) (seq pos n).

(** xof.rs 10-14 [HashState]. *)
Inductive xstate := Writeable (abs : list Z) | Readable (abs : list Z) (pos : nat).

(** xof.rs 16-22 [Xof]: state plus the reusable key buffer. *)
Record xof := Xof { ximpl : xstate; xkey : list Z }.

Inductive xof_error := ShortDestination | Interrupted.

(** xof.rs 109-120 [Xof::new]. *)
Definition xof_new (seed : option (list Z)) : xof :=
  Xof (Writeable (match seed with Some s => s | None => [] end)) [].

(** xof.rs 73-86 [read] into a buffer of length n: switches to [Readable] first.  The library reader always fills
    the buffer and returns n. *)
Definition xof_read (x : xof) (n : nat) : list Z * xof :=
  match ximpl x with
  | Readable abs pos => (squeeze abs pos n, Xof (Readable abs (pos + n)) (xkey x))
  | Writeable abs => (squeeze abs 0 n, Xof (Readable abs n) (xkey x))
  end.

(** xof.rs 25-46 [xor_key_stream]: returns the new destination. *)
Definition xof_xks (x : xof) (dst src : list Z) : outcome xof_error (list Z) * xof :=
  if Nat.ltb (length dst) (length src) then (Err ShortDestination, x) else
  let '(key, x') := xof_read x (length src) in
  (Ok (xorb_list src key ++ skipn (length src) dst), Xof (ximpl x') key).

(** xof.rs 50-58 [write]. *)
Definition xof_write (x : xof) (buf : list Z) : outcome xof_error nat * xof :=
  match ximpl x with
  | Readable _ _ => (Err Interrupted, x)
  | Writeable abs => (Ok (length buf), Xof (Writeable (abs ++ buf)) (xkey x))
  end.

(** std::io::Write::write_all: retries when the error kind is [Interrupted] (fuelled). *)
Fixpoint xof_write_all (fuel : nat) (x : xof) (buf : list Z) : outcome xof_error unit * xof :=
  match buf with
  | [] => (Ok tt, x)
  | _ =>
    match fuel with
    | O => (OutOfFuel, x)
    | S f =>
        match xof_write x buf with
        | (Ok n, x') => xof_write_all f x' (skipn n buf)
        | (Err Interrupted, x') => xof_write_all f x' buf
        | (Err e, x') => (Err e, x')
        | (Panic, x') => (Panic, x')
        | (OutOfFuel, x') => (OutOfFuel, x')
        end
    end
  end.

(** xof.rs 60-70 [flush]: [todo!()] in both branches. *)
Definition xof_flush (x : xof) : outcome xof_error unit := Panic.

(** xof.rs 97-111 [reseed]: squeeze 128 bytes, start again from them. *)
Definition xof_reseed (x : xof) : xof :=
  let '(k, _) := xof_read x 128 in Xof (Writeable k) k.

(** xof.rs 89-95 [clone]. *)
Definition xof_clone (x : xof) : xof := Xof (ximpl x) (xkey x).

(** ** Call histories of one XOF object *)
Inductive xop :=
| OpRead (n : nat)
| OpXks (dst src : list Z)
| OpWrite (buf : list Z)
| OpReseed.

(** What the caller observes: the bytes read, the bytes written to dst, the result of write. *)
Inductive xobs := ObsRead (bs : list Z) | ObsXks (r : outcome xof_error (list Z)) | ObsWrite (r : outcome xof_error nat) | ObsUnit.

Definition xstep (x : xof) (o : xop) : xobs * xof :=
  match o with
  | OpRead n => let '(b, x') := xof_read x n in (ObsRead b, x')
  | OpXks dst src => let '(r, x') := xof_xks x dst src in (ObsXks r, x')
  | OpWrite buf => let '(r, x') := xof_write x buf in (ObsWrite r, x')
  | OpReseed => (ObsUnit, xof_reseed x)
  end.

Fixpoint xrun (x : xof) (l : list xop) : list xobs * xof :=
  match l with
  | [] => ([], x)
  | o :: l' => let '(ob, x') := xstep x o in let '(obs, x'') := xrun x' l' in (ob :: obs, x'')
  end.

End Xof.

(** ** random_stream.rs 57-125 [RandStream] *)
Section RandStream.
Variable sha256 : list Z -> list Z.
Variable out : list Z -> nat -> Z.

Inductive stream_error := WrongBufferLengths | ReadersFailure | XofErr (e : xof_error).

(** random_stream.rs 89-125 [xor_key_stream].  [reads] lists, for each reader in order, the 32 bytes its
    [read_exact] produced on this call, or [None] when it failed. *)
Definition rand_xks (reads : list (option (list Z))) (dst src : list Z) : outcome stream_error (list Z) :=
  if negb (Nat.eqb (length src) (length dst)) then Err WrongBufferLengths else
  let '(b, nerr) := fold_left (fun acc r => match r with
                                            | Some bs => (fst acc ++ bs, snd acc)
                                            | None => (fst acc, S (snd acc))
                                            end) reads ([], 0%nat) in
  if Nat.eqb nerr (length reads) then Err ReadersFailure else
  match fst (xof_xks out (xof_new (Some (sha256 b))) dst src) with
  | Ok d => Ok d
  | Err e => Err (XofErr e)
  | Panic => Panic
  | OutOfFuel => OutOfFuel
  end.

End RandStream.
