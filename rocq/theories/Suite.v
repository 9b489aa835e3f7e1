(** The cryptographic suite the protocol layers (vss, dkg, dss) are parametrised by: src/share/vss/suite.rs, group.rs.

    Scalars are a field F, points a vector space G over it (the prime-order group; cofactor components are not
    representable), both with decidable equality.  Hash, Schnorr signatures, AEAD and the serialisation of plaintexts are
    operations of the record, with the laws the proofs use in [suite_ok]; nothing else is assumed about them. *)
From mathcomp Require Import all_ssreflect all_algebra.
From Coq Require Import String Ascii.
From Verif Require Import Base.

Set Implicit Arguments.
Unset Strict Implicit.
Unset Printing Implicit Defensive.

Import GRing.Theory.
Local Open Scope ring_scope.

(** Byte strings, as sequences of numbers. *)
Definition bytestr := seq nat.

(** [str.as_bytes()]. *)
Fixpoint str_bytes (s : string) : bytestr :=
  match s with EmptyString => [::] | String c s' => nat_of_ascii c :: str_bytes s' end.

(** byteorder's [write_u32::<LittleEndian>]. *)
Definition u32le (n : nat) : bytestr := 
  [:: n %% 256; (n %/ 256) %% 256; (n %/ 256 %/ 256) %% 256; (n %/ 256 %/ 256 %/ 256) %% 256]%N.

Record suite (F : fieldType) (G : lmodType F) := Suite {
  su_base : G;                                              (* point().base() *)
  su_enc : G -> bytestr;                                    (* Point::marshal_binary *)
  su_senc : F -> bytestr;                                   (* Scalar::marshal_binary *)
  su_hash : bytestr -> bytestr;                             (* HashFactory::hash, applied to everything written *)
  su_sign : F -> bytestr -> F -> bytestr;                   (* schnorr::sign key msg, with its nonce *)
  su_verify : G -> bytestr -> bytestr -> bool;              (* schnorr::verify pub msg sig *)
  su_seal : G -> bytestr -> bytestr -> bytestr -> bytestr;  (* AEAD::new(pre, ctx) then seal nonce plaintext, aad = ctx *)
  su_open : G -> bytestr -> bytestr -> bytestr -> option bytestr; (* AEAD::new(pre, ctx) then open nonce cipher, aad = ctx *)
  su_derive : bytestr -> G;                                 (* point().pick(xof(seed)) *)
  su_good : pred F                                          (* key or nonce x whose point x * base the Schnorr verifier lets through *)
}.

(** The laws of a suite.  [su_sign_ok] is Schnorr completeness, proved of the Schnorr code in C37 and of
    this record in SuiteEd.v: the verifier refuses points of small order and those C31 is about, so key and nonce have to be
    good. *)
Record suite_ok (F : fieldType) (G : lmodType F) (S : suite G) : Prop := SuiteOk {
  su_base_nz : su_base S != 0;
  su_enc_inj : injective (su_enc S);
  su_enc_size : exists n : nat, n != 0%N /\ forall P, size (su_enc S P) = n;
  su_sign_ok : forall x m k, su_good S x -> su_good S k -> su_verify S (x *: su_base S) m (su_sign S x m k);
  su_open_seal : forall pre ctx nonce pt, su_open S pre ctx nonce (su_seal S pre ctx nonce pt) = Some pt
}.
