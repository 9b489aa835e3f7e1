(** Generated from src/group/edwards25519/scalar.rs by a statement-by-statement translation: the limb arithmetic of
    sc_mul_add, sc_add, sc_sub and sc_mul.  The three parts of a function are consecutive; the cuts are only there for
    the proofs. *)
From Coq Require Import ZArith List String.
From Verif Require Import Base Bytes Limb.
Import ListNotations.
Local Open Scope Z_scope.

(** [as u8] of an i64. *)
Definition u8 (z : Z) : Z := z mod 256.

(** fe.rs 52-57 [load3] and 59-65 [load4]: little-endian, as i64; out of range indices panic, every call below has at
    least the bytes it reads (32-byte arrays). *)
Definition load3 (b : list Z) : Z :=
  Z.lor (Z.lor (nth 0 b 0) (Z.shiftl (nth 1 b 0) 8)) (Z.shiftl (nth 2 b 0) 16).
Definition load4 (b : list Z) : Z :=
  Z.lor (Z.lor (Z.lor (nth 0 b 0) (Z.shiftl (nth 1 b 0) 8)) (Z.shiftl (nth 2 b 0) 16)) (Z.shiftl (nth 3 b 0) 24).

(** The 12 limbs of a 32-byte input: scalar.rs 280-291 (a), 292-303 (b), 304-315 (c), and the identical lines of
    sc_add 760-783, sc_sub 1188-1211, sc_mul 1597-1620 (the generator checks that the texts agree). *)
Definition sc_limbs (a : list Z) : list Z :=
  [Z.land 2097151 (load3 (skipn 0 a));
   Z.land 2097151 (Z.shiftr (load4 (skipn 2 a)) 5);
   Z.land 2097151 (Z.shiftr (load3 (skipn 5 a)) 2);
   Z.land 2097151 (Z.shiftr (load4 (skipn 7 a)) 7);
   Z.land 2097151 (Z.shiftr (load4 (skipn 10 a)) 4);
   Z.land 2097151 (Z.shiftr (load3 (skipn 13 a)) 1);
   Z.land 2097151 (Z.shiftr (load4 (skipn 15 a)) 6);
   Z.land 2097151 (Z.shiftr (load3 (skipn 18 a)) 3);
   Z.land 2097151 (load3 (skipn 21 a));
   Z.land 2097151 (Z.shiftr (load4 (skipn 23 a)) 5);
   Z.land 2097151 (Z.shiftr (load3 (skipn 26 a)) 2);
   Z.shiftr (load4 (skipn 28 a)) 7].

(** The 32 output bytes: scalar.rs 709-743 and the identical lines of the other three functions. *)
Definition sc_bytes (s0 s1 s2 s3 s4 s5 s6 s7 s8 s9 s10 s11 : Z) : list Z :=
  [u8 s0;
   u8 (Z.shiftr s0 8);
   u8 (Z.lor (Z.shiftr s0 16) (wrap I64 (Z.shiftl s1 5)));
   u8 (Z.shiftr s1 3);
   u8 (Z.shiftr s1 11);
   u8 (Z.lor (Z.shiftr s1 19) (wrap I64 (Z.shiftl s2 2)));
   u8 (Z.shiftr s2 6);
   u8 (Z.lor (Z.shiftr s2 14) (wrap I64 (Z.shiftl s3 7)));
   u8 (Z.shiftr s3 1);
   u8 (Z.shiftr s3 9);
   u8 (Z.lor (Z.shiftr s3 17) (wrap I64 (Z.shiftl s4 4)));
   u8 (Z.shiftr s4 4);
   u8 (Z.shiftr s4 12);
   u8 (Z.lor (Z.shiftr s4 20) (wrap I64 (Z.shiftl s5 1)));
   u8 (Z.shiftr s5 7);
   u8 (Z.lor (Z.shiftr s5 15) (wrap I64 (Z.shiftl s6 6)));
   u8 (Z.shiftr s6 2);
   u8 (Z.shiftr s6 10);
   u8 (Z.lor (Z.shiftr s6 18) (wrap I64 (Z.shiftl s7 3)));
   u8 (Z.shiftr s7 5);
   u8 (Z.shiftr s7 13);
   u8 s8;
   u8 (Z.shiftr s8 8);
   u8 (Z.lor (Z.shiftr s8 16) (wrap I64 (Z.shiftl s9 5)));
   u8 (Z.shiftr s9 3);
   u8 (Z.shiftr s9 11);
   u8 (Z.lor (Z.shiftr s9 19) (wrap I64 (Z.shiftl s10 2)));
   u8 (Z.shiftr s10 6);
   u8 (Z.lor (Z.shiftr s10 14) (wrap I64 (Z.shiftl s11 7)));
   u8 (Z.shiftr s11 1);
   u8 (Z.shiftr s11 9);
   u8 (Z.shiftr s11 17)].

Local Open Scope string_scope.

(** scalar.rs 279-744 [sc_mul_add], part 1 (lines 318-633). *)
Definition sc_mul_add_p1 : list stmt :=
  [Asg "s0" (Add I64 (V "c0") (Mul I64 (V "a0") (V "b0")));
   Asg "s1" (Add I64 (Add I64 (V "c1") (Mul I64 (V "a0") (V "b1"))) (Mul I64 (V "a1") (V "b0")));
   Asg "s2" (Add I64 (Add I64 (Add I64 (V "c2") (Mul I64 (V "a0") (V "b2"))) (Mul I64 (V "a1") (V "b1"))) (Mul I64 (V "a2") (V "b0")));
   Asg "s3" (Add I64 (Add I64 (Add I64 (Add I64 (V "c3") (Mul I64 (V "a0") (V "b3"))) (Mul I64 (V "a1") (V "b2"))) (Mul I64 (V "a2") (V "b1"))) (Mul I64 (V "a3") (V "b0")));
   Asg "s4" (Add I64 (Add I64 (Add I64 (Add I64 (Add I64 (V "c4") (Mul I64 (V "a0") (V "b4"))) (Mul I64 (V "a1") (V "b3"))) (Mul I64 (V "a2") (V "b2"))) (Mul I64 (V "a3") (V "b1"))) (Mul I64 (V "a4") (V "b0")));
   Asg "s5" (Add I64 (Add I64 (Add I64 (Add I64 (Add I64 (Add I64 (V "c5") (Mul I64 (V "a0") (V "b5"))) (Mul I64 (V "a1") (V "b4"))) (Mul I64 (V "a2") (V "b3"))) (Mul I64 (V "a3") (V "b2"))) (Mul I64 (V "a4") (V "b1"))) (Mul I64 (V "a5") (V "b0")));
   Asg "s6" (Add I64 (Add I64 (Add I64 (Add I64 (Add I64 (Add I64 (Add I64 (V "c6") (Mul I64 (V "a0") (V "b6"))) (Mul I64 (V "a1") (V "b5"))) (Mul I64 (V "a2") (V "b4"))) (Mul I64 (V "a3") (V "b3"))) (Mul I64 (V "a4") (V "b2"))) (Mul I64 (V "a5") (V "b1"))) (Mul I64 (V "a6") (V "b0")));
   Asg "s7" (Add I64 (Add I64 (Add I64 (Add I64 (Add I64 (Add I64 (Add I64 (Add I64 (V "c7") (Mul I64 (V "a0") (V "b7"))) (Mul I64 (V "a1") (V "b6"))) (Mul I64 (V "a2") (V "b5"))) (Mul I64 (V "a3") (V "b4"))) (Mul I64 (V "a4") (V "b3"))) (Mul I64 (V "a5") (V "b2"))) (Mul I64 (V "a6") (V "b1"))) (Mul I64 (V "a7") (V "b0")));
   Asg "s8" (Add I64 (Add I64 (Add I64 (Add I64 (Add I64 (Add I64 (Add I64 (Add I64 (Add I64 (V "c8") (Mul I64 (V "a0") (V "b8"))) (Mul I64 (V "a1") (V "b7"))) (Mul I64 (V "a2") (V "b6"))) (Mul I64 (V "a3") (V "b5"))) (Mul I64 (V "a4") (V "b4"))) (Mul I64 (V "a5") (V "b3"))) (Mul I64 (V "a6") (V "b2"))) (Mul I64 (V "a7") (V "b1"))) (Mul I64 (V "a8") (V "b0")));
   Asg "s9" (Add I64 (Add I64 (Add I64 (Add I64 (Add I64 (Add I64 (Add I64 (Add I64 (Add I64 (Add I64 (V "c9") (Mul I64 (V "a0") (V "b9"))) (Mul I64 (V "a1") (V "b8"))) (Mul I64 (V "a2") (V "b7"))) (Mul I64 (V "a3") (V "b6"))) (Mul I64 (V "a4") (V "b5"))) (Mul I64 (V "a5") (V "b4"))) (Mul I64 (V "a6") (V "b3"))) (Mul I64 (V "a7") (V "b2"))) (Mul I64 (V "a8") (V "b1"))) (Mul I64 (V "a9") (V "b0")));
   Asg "s10" (Add I64 (Add I64 (Add I64 (Add I64 (Add I64 (Add I64 (Add I64 (Add I64 (Add I64 (Add I64 (Add I64 (V "c10") (Mul I64 (V "a0") (V "b10"))) (Mul I64 (V "a1") (V "b9"))) (Mul I64 (V "a2") (V "b8"))) (Mul I64 (V "a3") (V "b7"))) (Mul I64 (V "a4") (V "b6"))) (Mul I64 (V "a5") (V "b5"))) (Mul I64 (V "a6") (V "b4"))) (Mul I64 (V "a7") (V "b3"))) (Mul I64 (V "a8") (V "b2"))) (Mul I64 (V "a9") (V "b1"))) (Mul I64 (V "a10") (V "b0")));
   Asg "s11" (Add I64 (Add I64 (Add I64 (Add I64 (Add I64 (Add I64 (Add I64 (Add I64 (Add I64 (Add I64 (Add I64 (Add I64 (V "c11") (Mul I64 (V "a0") (V "b11"))) (Mul I64 (V "a1") (V "b10"))) (Mul I64 (V "a2") (V "b9"))) (Mul I64 (V "a3") (V "b8"))) (Mul I64 (V "a4") (V "b7"))) (Mul I64 (V "a5") (V "b6"))) (Mul I64 (V "a6") (V "b5"))) (Mul I64 (V "a7") (V "b4"))) (Mul I64 (V "a8") (V "b3"))) (Mul I64 (V "a9") (V "b2"))) (Mul I64 (V "a10") (V "b1"))) (Mul I64 (V "a11") (V "b0")));
   Asg "s12" (Add I64 (Add I64 (Add I64 (Add I64 (Add I64 (Add I64 (Add I64 (Add I64 (Add I64 (Add I64 (Mul I64 (V "a1") (V "b11")) (Mul I64 (V "a2") (V "b10"))) (Mul I64 (V "a3") (V "b9"))) (Mul I64 (V "a4") (V "b8"))) (Mul I64 (V "a5") (V "b7"))) (Mul I64 (V "a6") (V "b6"))) (Mul I64 (V "a7") (V "b5"))) (Mul I64 (V "a8") (V "b4"))) (Mul I64 (V "a9") (V "b3"))) (Mul I64 (V "a10") (V "b2"))) (Mul I64 (V "a11") (V "b1")));
   Asg "s13" (Add I64 (Add I64 (Add I64 (Add I64 (Add I64 (Add I64 (Add I64 (Add I64 (Add I64 (Mul I64 (V "a2") (V "b11")) (Mul I64 (V "a3") (V "b10"))) (Mul I64 (V "a4") (V "b9"))) (Mul I64 (V "a5") (V "b8"))) (Mul I64 (V "a6") (V "b7"))) (Mul I64 (V "a7") (V "b6"))) (Mul I64 (V "a8") (V "b5"))) (Mul I64 (V "a9") (V "b4"))) (Mul I64 (V "a10") (V "b3"))) (Mul I64 (V "a11") (V "b2")));
   Asg "s14" (Add I64 (Add I64 (Add I64 (Add I64 (Add I64 (Add I64 (Add I64 (Add I64 (Mul I64 (V "a3") (V "b11")) (Mul I64 (V "a4") (V "b10"))) (Mul I64 (V "a5") (V "b9"))) (Mul I64 (V "a6") (V "b8"))) (Mul I64 (V "a7") (V "b7"))) (Mul I64 (V "a8") (V "b6"))) (Mul I64 (V "a9") (V "b5"))) (Mul I64 (V "a10") (V "b4"))) (Mul I64 (V "a11") (V "b3")));
   Asg "s15" (Add I64 (Add I64 (Add I64 (Add I64 (Add I64 (Add I64 (Add I64 (Mul I64 (V "a4") (V "b11")) (Mul I64 (V "a5") (V "b10"))) (Mul I64 (V "a6") (V "b9"))) (Mul I64 (V "a7") (V "b8"))) (Mul I64 (V "a8") (V "b7"))) (Mul I64 (V "a9") (V "b6"))) (Mul I64 (V "a10") (V "b5"))) (Mul I64 (V "a11") (V "b4")));
   Asg "s16" (Add I64 (Add I64 (Add I64 (Add I64 (Add I64 (Add I64 (Mul I64 (V "a5") (V "b11")) (Mul I64 (V "a6") (V "b10"))) (Mul I64 (V "a7") (V "b9"))) (Mul I64 (V "a8") (V "b8"))) (Mul I64 (V "a9") (V "b7"))) (Mul I64 (V "a10") (V "b6"))) (Mul I64 (V "a11") (V "b5")));
   Asg "s17" (Add I64 (Add I64 (Add I64 (Add I64 (Add I64 (Mul I64 (V "a6") (V "b11")) (Mul I64 (V "a7") (V "b10"))) (Mul I64 (V "a8") (V "b9"))) (Mul I64 (V "a9") (V "b8"))) (Mul I64 (V "a10") (V "b7"))) (Mul I64 (V "a11") (V "b6")));
   Asg "s18" (Add I64 (Add I64 (Add I64 (Add I64 (Mul I64 (V "a7") (V "b11")) (Mul I64 (V "a8") (V "b10"))) (Mul I64 (V "a9") (V "b9"))) (Mul I64 (V "a10") (V "b8"))) (Mul I64 (V "a11") (V "b7")));
   Asg "s19" (Add I64 (Add I64 (Add I64 (Mul I64 (V "a8") (V "b11")) (Mul I64 (V "a9") (V "b10"))) (Mul I64 (V "a10") (V "b9"))) (Mul I64 (V "a11") (V "b8")));
   Asg "s20" (Add I64 (Add I64 (Mul I64 (V "a9") (V "b11")) (Mul I64 (V "a10") (V "b10"))) (Mul I64 (V "a11") (V "b9")));
   Asg "s21" (Add I64 (Mul I64 (V "a10") (V "b11")) (Mul I64 (V "a11") (V "b10")));
   Asg "s22" (Mul I64 (V "a11") (V "b11"));
   Asg "s23" (K 0);
   Asg "carry0" (Shr (Add I64 (V "s0") (Shl I64 (K 1) 20)) 21);
   Asg "s1" (Add I64 (V "s1") (V "carry0"));
   Asg "s0" (Sub I64 (V "s0") (Shl I64 (V "carry0") 21));
   Asg "carry2" (Shr (Add I64 (V "s2") (Shl I64 (K 1) 20)) 21);
   Asg "s3" (Add I64 (V "s3") (V "carry2"));
   Asg "s2" (Sub I64 (V "s2") (Shl I64 (V "carry2") 21));
   Asg "carry4" (Shr (Add I64 (V "s4") (Shl I64 (K 1) 20)) 21);
   Asg "s5" (Add I64 (V "s5") (V "carry4"));
   Asg "s4" (Sub I64 (V "s4") (Shl I64 (V "carry4") 21));
   Asg "carry6" (Shr (Add I64 (V "s6") (Shl I64 (K 1) 20)) 21);
   Asg "s7" (Add I64 (V "s7") (V "carry6"));
   Asg "s6" (Sub I64 (V "s6") (Shl I64 (V "carry6") 21));
   Asg "carry8" (Shr (Add I64 (V "s8") (Shl I64 (K 1) 20)) 21);
   Asg "s9" (Add I64 (V "s9") (V "carry8"));
   Asg "s8" (Sub I64 (V "s8") (Shl I64 (V "carry8") 21));
   Asg "carry10" (Shr (Add I64 (V "s10") (Shl I64 (K 1) 20)) 21);
   Asg "s11" (Add I64 (V "s11") (V "carry10"));
   Asg "s10" (Sub I64 (V "s10") (Shl I64 (V "carry10") 21));
   Asg "carry12" (Shr (Add I64 (V "s12") (Shl I64 (K 1) 20)) 21);
   Asg "s13" (Add I64 (V "s13") (V "carry12"));
   Asg "s12" (Sub I64 (V "s12") (Shl I64 (V "carry12") 21));
   Asg "carry14" (Shr (Add I64 (V "s14") (Shl I64 (K 1) 20)) 21);
   Asg "s15" (Add I64 (V "s15") (V "carry14"));
   Asg "s14" (Sub I64 (V "s14") (Shl I64 (V "carry14") 21));
   Asg "carry16" (Shr (Add I64 (V "s16") (Shl I64 (K 1) 20)) 21);
   Asg "s17" (Add I64 (V "s17") (V "carry16"));
   Asg "s16" (Sub I64 (V "s16") (Shl I64 (V "carry16") 21));
   Asg "carry18" (Shr (Add I64 (V "s18") (Shl I64 (K 1) 20)) 21);
   Asg "s19" (Add I64 (V "s19") (V "carry18"));
   Asg "s18" (Sub I64 (V "s18") (Shl I64 (V "carry18") 21));
   Asg "carry20" (Shr (Add I64 (V "s20") (Shl I64 (K 1) 20)) 21);
   Asg "s21" (Add I64 (V "s21") (V "carry20"));
   Asg "s20" (Sub I64 (V "s20") (Shl I64 (V "carry20") 21));
   Asg "carry22" (Shr (Add I64 (V "s22") (Shl I64 (K 1) 20)) 21);
   Asg "s23" (Add I64 (V "s23") (V "carry22"));
   Asg "s22" (Sub I64 (V "s22") (Shl I64 (V "carry22") 21));
   Asg "carry1" (Shr (Add I64 (V "s1") (Shl I64 (K 1) 20)) 21);
   Asg "s2" (Add I64 (V "s2") (V "carry1"));
   Asg "s1" (Sub I64 (V "s1") (Shl I64 (V "carry1") 21));
   Asg "carry3" (Shr (Add I64 (V "s3") (Shl I64 (K 1) 20)) 21);
   Asg "s4" (Add I64 (V "s4") (V "carry3"));
   Asg "s3" (Sub I64 (V "s3") (Shl I64 (V "carry3") 21));
   Asg "carry5" (Shr (Add I64 (V "s5") (Shl I64 (K 1) 20)) 21);
   Asg "s6" (Add I64 (V "s6") (V "carry5"));
   Asg "s5" (Sub I64 (V "s5") (Shl I64 (V "carry5") 21));
   Asg "carry7" (Shr (Add I64 (V "s7") (Shl I64 (K 1) 20)) 21);
   Asg "s8" (Add I64 (V "s8") (V "carry7"));
   Asg "s7" (Sub I64 (V "s7") (Shl I64 (V "carry7") 21));
   Asg "carry9" (Shr (Add I64 (V "s9") (Shl I64 (K 1) 20)) 21);
   Asg "s10" (Add I64 (V "s10") (V "carry9"));
   Asg "s9" (Sub I64 (V "s9") (Shl I64 (V "carry9") 21));
   Asg "carry11" (Shr (Add I64 (V "s11") (Shl I64 (K 1) 20)) 21);
   Asg "s12" (Add I64 (V "s12") (V "carry11"));
   Asg "s11" (Sub I64 (V "s11") (Shl I64 (V "carry11") 21));
   Asg "carry13" (Shr (Add I64 (V "s13") (Shl I64 (K 1) 20)) 21);
   Asg "s14" (Add I64 (V "s14") (V "carry13"));
   Asg "s13" (Sub I64 (V "s13") (Shl I64 (V "carry13") 21));
   Asg "carry15" (Shr (Add I64 (V "s15") (Shl I64 (K 1) 20)) 21);
   Asg "s16" (Add I64 (V "s16") (V "carry15"));
   Asg "s15" (Sub I64 (V "s15") (Shl I64 (V "carry15") 21));
   Asg "carry17" (Shr (Add I64 (V "s17") (Shl I64 (K 1) 20)) 21);
   Asg "s18" (Add I64 (V "s18") (V "carry17"));
   Asg "s17" (Sub I64 (V "s17") (Shl I64 (V "carry17") 21));
   Asg "carry19" (Shr (Add I64 (V "s19") (Shl I64 (K 1) 20)) 21);
   Asg "s20" (Add I64 (V "s20") (V "carry19"));
   Asg "s19" (Sub I64 (V "s19") (Shl I64 (V "carry19") 21));
   Asg "carry21" (Shr (Add I64 (V "s21") (Shl I64 (K 1) 20)) 21);
   Asg "s22" (Add I64 (V "s22") (V "carry21"));
   Asg "s21" (Sub I64 (V "s21") (Shl I64 (V "carry21") 21));
   Asg "s11" (Add I64 (V "s11") (Mul I64 (V "s23") (K 666643)));
   Asg "s12" (Add I64 (V "s12") (Mul I64 (V "s23") (K 470296)));
   Asg "s13" (Add I64 (V "s13") (Mul I64 (V "s23") (K 654183)));
   Asg "s14" (Sub I64 (V "s14") (Mul I64 (V "s23") (K 997805)));
   Asg "s15" (Add I64 (V "s15") (Mul I64 (V "s23") (K 136657)));
   Asg "s16" (Sub I64 (V "s16") (Mul I64 (V "s23") (K 683901)));
   Asg "s10" (Add I64 (V "s10") (Mul I64 (V "s22") (K 666643)));
   Asg "s11" (Add I64 (V "s11") (Mul I64 (V "s22") (K 470296)));
   Asg "s12" (Add I64 (V "s12") (Mul I64 (V "s22") (K 654183)));
   Asg "s13" (Sub I64 (V "s13") (Mul I64 (V "s22") (K 997805)));
   Asg "s14" (Add I64 (V "s14") (Mul I64 (V "s22") (K 136657)));
   Asg "s15" (Sub I64 (V "s15") (Mul I64 (V "s22") (K 683901)));
   Asg "s9" (Add I64 (V "s9") (Mul I64 (V "s21") (K 666643)));
   Asg "s10" (Add I64 (V "s10") (Mul I64 (V "s21") (K 470296)));
   Asg "s11" (Add I64 (V "s11") (Mul I64 (V "s21") (K 654183)));
   Asg "s12" (Sub I64 (V "s12") (Mul I64 (V "s21") (K 997805)));
   Asg "s13" (Add I64 (V "s13") (Mul I64 (V "s21") (K 136657)));
   Asg "s14" (Sub I64 (V "s14") (Mul I64 (V "s21") (K 683901)));
   Asg "s8" (Add I64 (V "s8") (Mul I64 (V "s20") (K 666643)));
   Asg "s9" (Add I64 (V "s9") (Mul I64 (V "s20") (K 470296)));
   Asg "s10" (Add I64 (V "s10") (Mul I64 (V "s20") (K 654183)));
   Asg "s11" (Sub I64 (V "s11") (Mul I64 (V "s20") (K 997805)));
   Asg "s12" (Add I64 (V "s12") (Mul I64 (V "s20") (K 136657)));
   Asg "s13" (Sub I64 (V "s13") (Mul I64 (V "s20") (K 683901)));
   Asg "s7" (Add I64 (V "s7") (Mul I64 (V "s19") (K 666643)));
   Asg "s8" (Add I64 (V "s8") (Mul I64 (V "s19") (K 470296)));
   Asg "s9" (Add I64 (V "s9") (Mul I64 (V "s19") (K 654183)));
   Asg "s10" (Sub I64 (V "s10") (Mul I64 (V "s19") (K 997805)));
   Asg "s11" (Add I64 (V "s11") (Mul I64 (V "s19") (K 136657)));
   Asg "s12" (Sub I64 (V "s12") (Mul I64 (V "s19") (K 683901)));
   Asg "s6" (Add I64 (V "s6") (Mul I64 (V "s18") (K 666643)));
   Asg "s7" (Add I64 (V "s7") (Mul I64 (V "s18") (K 470296)));
   Asg "s8" (Add I64 (V "s8") (Mul I64 (V "s18") (K 654183)));
   Asg "s9" (Sub I64 (V "s9") (Mul I64 (V "s18") (K 997805)));
   Asg "s10" (Add I64 (V "s10") (Mul I64 (V "s18") (K 136657)));
   Asg "s11" (Sub I64 (V "s11") (Mul I64 (V "s18") (K 683901)));
   Asg "carry6" (Shr (Add I64 (V "s6") (Shl I64 (K 1) 20)) 21);
   Asg "s7" (Add I64 (V "s7") (V "carry6"));
   Asg "s6" (Sub I64 (V "s6") (Shl I64 (V "carry6") 21));
   Asg "carry8" (Shr (Add I64 (V "s8") (Shl I64 (K 1) 20)) 21);
   Asg "s9" (Add I64 (V "s9") (V "carry8"));
   Asg "s8" (Sub I64 (V "s8") (Shl I64 (V "carry8") 21));
   Asg "carry10" (Shr (Add I64 (V "s10") (Shl I64 (K 1) 20)) 21);
   Asg "s11" (Add I64 (V "s11") (V "carry10"));
   Asg "s10" (Sub I64 (V "s10") (Shl I64 (V "carry10") 21));
   Asg "carry12" (Shr (Add I64 (V "s12") (Shl I64 (K 1) 20)) 21);
   Asg "s13" (Add I64 (V "s13") (V "carry12"));
   Asg "s12" (Sub I64 (V "s12") (Shl I64 (V "carry12") 21));
   Asg "carry14" (Shr (Add I64 (V "s14") (Shl I64 (K 1) 20)) 21);
   Asg "s15" (Add I64 (V "s15") (V "carry14"));
   Asg "s14" (Sub I64 (V "s14") (Shl I64 (V "carry14") 21));
   Asg "carry16" (Shr (Add I64 (V "s16") (Shl I64 (K 1) 20)) 21);
   Asg "s17" (Add I64 (V "s17") (V "carry16"));
   Asg "s16" (Sub I64 (V "s16") (Shl I64 (V "carry16") 21));
   Asg "carry7" (Shr (Add I64 (V "s7") (Shl I64 (K 1) 20)) 21);
   Asg "s8" (Add I64 (V "s8") (V "carry7"));
   Asg "s7" (Sub I64 (V "s7") (Shl I64 (V "carry7") 21));
   Asg "carry9" (Shr (Add I64 (V "s9") (Shl I64 (K 1) 20)) 21);
   Asg "s10" (Add I64 (V "s10") (V "carry9"));
   Asg "s9" (Sub I64 (V "s9") (Shl I64 (V "carry9") 21));
   Asg "carry11" (Shr (Add I64 (V "s11") (Shl I64 (K 1) 20)) 21);
   Asg "s12" (Add I64 (V "s12") (V "carry11"));
   Asg "s11" (Sub I64 (V "s11") (Shl I64 (V "carry11") 21));
   Asg "carry13" (Shr (Add I64 (V "s13") (Shl I64 (K 1) 20)) 21);
   Asg "s14" (Add I64 (V "s14") (V "carry13"));
   Asg "s13" (Sub I64 (V "s13") (Shl I64 (V "carry13") 21));
   Asg "carry15" (Shr (Add I64 (V "s15") (Shl I64 (K 1) 20)) 21);
   Asg "s16" (Add I64 (V "s16") (V "carry15"));
   Asg "s15" (Sub I64 (V "s15") (Shl I64 (V "carry15") 21));
   Asg "s5" (Add I64 (V "s5") (Mul I64 (V "s17") (K 666643)));
   Asg "s6" (Add I64 (V "s6") (Mul I64 (V "s17") (K 470296)));
   Asg "s7" (Add I64 (V "s7") (Mul I64 (V "s17") (K 654183)));
   Asg "s8" (Sub I64 (V "s8") (Mul I64 (V "s17") (K 997805)));
   Asg "s9" (Add I64 (V "s9") (Mul I64 (V "s17") (K 136657)));
   Asg "s10" (Sub I64 (V "s10") (Mul I64 (V "s17") (K 683901)));
   Asg "s4" (Add I64 (V "s4") (Mul I64 (V "s16") (K 666643)));
   Asg "s5" (Add I64 (V "s5") (Mul I64 (V "s16") (K 470296)));
   Asg "s6" (Add I64 (V "s6") (Mul I64 (V "s16") (K 654183)));
   Asg "s7" (Sub I64 (V "s7") (Mul I64 (V "s16") (K 997805)));
   Asg "s8" (Add I64 (V "s8") (Mul I64 (V "s16") (K 136657)));
   Asg "s9" (Sub I64 (V "s9") (Mul I64 (V "s16") (K 683901)));
   Asg "s3" (Add I64 (V "s3") (Mul I64 (V "s15") (K 666643)));
   Asg "s4" (Add I64 (V "s4") (Mul I64 (V "s15") (K 470296)));
   Asg "s5" (Add I64 (V "s5") (Mul I64 (V "s15") (K 654183)));
   Asg "s6" (Sub I64 (V "s6") (Mul I64 (V "s15") (K 997805)));
   Asg "s7" (Add I64 (V "s7") (Mul I64 (V "s15") (K 136657)));
   Asg "s8" (Sub I64 (V "s8") (Mul I64 (V "s15") (K 683901)));
   Asg "s2" (Add I64 (V "s2") (Mul I64 (V "s14") (K 666643)));
   Asg "s3" (Add I64 (V "s3") (Mul I64 (V "s14") (K 470296)));
   Asg "s4" (Add I64 (V "s4") (Mul I64 (V "s14") (K 654183)));
   Asg "s5" (Sub I64 (V "s5") (Mul I64 (V "s14") (K 997805)));
   Asg "s6" (Add I64 (V "s6") (Mul I64 (V "s14") (K 136657)));
   Asg "s7" (Sub I64 (V "s7") (Mul I64 (V "s14") (K 683901)));
   Asg "s1" (Add I64 (V "s1") (Mul I64 (V "s13") (K 666643)));
   Asg "s2" (Add I64 (V "s2") (Mul I64 (V "s13") (K 470296)));
   Asg "s3" (Add I64 (V "s3") (Mul I64 (V "s13") (K 654183)));
   Asg "s4" (Sub I64 (V "s4") (Mul I64 (V "s13") (K 997805)));
   Asg "s5" (Add I64 (V "s5") (Mul I64 (V "s13") (K 136657)));
   Asg "s6" (Sub I64 (V "s6") (Mul I64 (V "s13") (K 683901)));
   Asg "s0" (Add I64 (V "s0") (Mul I64 (V "s12") (K 666643)));
   Asg "s1" (Add I64 (V "s1") (Mul I64 (V "s12") (K 470296)));
   Asg "s2" (Add I64 (V "s2") (Mul I64 (V "s12") (K 654183)));
   Asg "s3" (Sub I64 (V "s3") (Mul I64 (V "s12") (K 997805)));
   Asg "s4" (Add I64 (V "s4") (Mul I64 (V "s12") (K 136657)));
   Asg "s5" (Sub I64 (V "s5") (Mul I64 (V "s12") (K 683901)));
   Asg "s12" (K 0);
   Asg "carry0" (Shr (Add I64 (V "s0") (Shl I64 (K 1) 20)) 21);
   Asg "s1" (Add I64 (V "s1") (V "carry0"));
   Asg "s0" (Sub I64 (V "s0") (Shl I64 (V "carry0") 21));
   Asg "carry2" (Shr (Add I64 (V "s2") (Shl I64 (K 1) 20)) 21);
   Asg "s3" (Add I64 (V "s3") (V "carry2"));
   Asg "s2" (Sub I64 (V "s2") (Shl I64 (V "carry2") 21));
   Asg "carry4" (Shr (Add I64 (V "s4") (Shl I64 (K 1) 20)) 21);
   Asg "s5" (Add I64 (V "s5") (V "carry4"));
   Asg "s4" (Sub I64 (V "s4") (Shl I64 (V "carry4") 21));
   Asg "carry6" (Shr (Add I64 (V "s6") (Shl I64 (K 1) 20)) 21);
   Asg "s7" (Add I64 (V "s7") (V "carry6"));
   Asg "s6" (Sub I64 (V "s6") (Shl I64 (V "carry6") 21));
   Asg "carry8" (Shr (Add I64 (V "s8") (Shl I64 (K 1) 20)) 21);
   Asg "s9" (Add I64 (V "s9") (V "carry8"));
   Asg "s8" (Sub I64 (V "s8") (Shl I64 (V "carry8") 21));
   Asg "carry10" (Shr (Add I64 (V "s10") (Shl I64 (K 1) 20)) 21);
   Asg "s11" (Add I64 (V "s11") (V "carry10"));
   Asg "s10" (Sub I64 (V "s10") (Shl I64 (V "carry10") 21));
   Asg "carry1" (Shr (Add I64 (V "s1") (Shl I64 (K 1) 20)) 21);
   Asg "s2" (Add I64 (V "s2") (V "carry1"));
   Asg "s1" (Sub I64 (V "s1") (Shl I64 (V "carry1") 21));
   Asg "carry3" (Shr (Add I64 (V "s3") (Shl I64 (K 1) 20)) 21);
   Asg "s4" (Add I64 (V "s4") (V "carry3"));
   Asg "s3" (Sub I64 (V "s3") (Shl I64 (V "carry3") 21));
   Asg "carry5" (Shr (Add I64 (V "s5") (Shl I64 (K 1) 20)) 21);
   Asg "s6" (Add I64 (V "s6") (V "carry5"));
   Asg "s5" (Sub I64 (V "s5") (Shl I64 (V "carry5") 21));
   Asg "carry7" (Shr (Add I64 (V "s7") (Shl I64 (K 1) 20)) 21);
   Asg "s8" (Add I64 (V "s8") (V "carry7"));
   Asg "s7" (Sub I64 (V "s7") (Shl I64 (V "carry7") 21));
   Asg "carry9" (Shr (Add I64 (V "s9") (Shl I64 (K 1) 20)) 21);
   Asg "s10" (Add I64 (V "s10") (V "carry9"));
   Asg "s9" (Sub I64 (V "s9") (Shl I64 (V "carry9") 21));
   Asg "carry11" (Shr (Add I64 (V "s11") (Shl I64 (K 1) 20)) 21);
   Asg "s12" (Add I64 (V "s12") (V "carry11"));
   Asg "s11" (Sub I64 (V "s11") (Shl I64 (V "carry11") 21));
   Asg "s0" (Add I64 (V "s0") (Mul I64 (V "s12") (K 666643)));
   Asg "s1" (Add I64 (V "s1") (Mul I64 (V "s12") (K 470296)));
   Asg "s2" (Add I64 (V "s2") (Mul I64 (V "s12") (K 654183)));
   Asg "s3" (Sub I64 (V "s3") (Mul I64 (V "s12") (K 997805)));
   Asg "s4" (Add I64 (V "s4") (Mul I64 (V "s12") (K 136657)));
   Asg "s5" (Sub I64 (V "s5") (Mul I64 (V "s12") (K 683901)));
   Asg "s12" (K 0)].

(** scalar.rs 279-744 [sc_mul_add], part 2 (lines 634-669). *)
Definition sc_mul_add_p2 : list stmt :=
  [Asg "carry0" (Shr (V "s0") 21);
   Asg "s1" (Add I64 (V "s1") (V "carry0"));
   Asg "s0" (Sub I64 (V "s0") (Shl I64 (V "carry0") 21));
   Asg "carry1" (Shr (V "s1") 21);
   Asg "s2" (Add I64 (V "s2") (V "carry1"));
   Asg "s1" (Sub I64 (V "s1") (Shl I64 (V "carry1") 21));
   Asg "carry2" (Shr (V "s2") 21);
   Asg "s3" (Add I64 (V "s3") (V "carry2"));
   Asg "s2" (Sub I64 (V "s2") (Shl I64 (V "carry2") 21));
   Asg "carry3" (Shr (V "s3") 21);
   Asg "s4" (Add I64 (V "s4") (V "carry3"));
   Asg "s3" (Sub I64 (V "s3") (Shl I64 (V "carry3") 21));
   Asg "carry4" (Shr (V "s4") 21);
   Asg "s5" (Add I64 (V "s5") (V "carry4"));
   Asg "s4" (Sub I64 (V "s4") (Shl I64 (V "carry4") 21));
   Asg "carry5" (Shr (V "s5") 21);
   Asg "s6" (Add I64 (V "s6") (V "carry5"));
   Asg "s5" (Sub I64 (V "s5") (Shl I64 (V "carry5") 21));
   Asg "carry6" (Shr (V "s6") 21);
   Asg "s7" (Add I64 (V "s7") (V "carry6"));
   Asg "s6" (Sub I64 (V "s6") (Shl I64 (V "carry6") 21));
   Asg "carry7" (Shr (V "s7") 21);
   Asg "s8" (Add I64 (V "s8") (V "carry7"));
   Asg "s7" (Sub I64 (V "s7") (Shl I64 (V "carry7") 21));
   Asg "carry8" (Shr (V "s8") 21);
   Asg "s9" (Add I64 (V "s9") (V "carry8"));
   Asg "s8" (Sub I64 (V "s8") (Shl I64 (V "carry8") 21));
   Asg "carry9" (Shr (V "s9") 21);
   Asg "s10" (Add I64 (V "s10") (V "carry9"));
   Asg "s9" (Sub I64 (V "s9") (Shl I64 (V "carry9") 21));
   Asg "carry10" (Shr (V "s10") 21);
   Asg "s11" (Add I64 (V "s11") (V "carry10"));
   Asg "s10" (Sub I64 (V "s10") (Shl I64 (V "carry10") 21));
   Asg "carry11" (Shr (V "s11") 21);
   Asg "s12" (Add I64 (V "s12") (V "carry11"));
   Asg "s11" (Sub I64 (V "s11") (Shl I64 (V "carry11") 21))].

(** scalar.rs 279-744 [sc_mul_add], part 3 (lines 670-709). *)
Definition sc_mul_add_p3 : list stmt :=
  [Asg "s0" (Add I64 (V "s0") (Mul I64 (V "s12") (K 666643)));
   Asg "s1" (Add I64 (V "s1") (Mul I64 (V "s12") (K 470296)));
   Asg "s2" (Add I64 (V "s2") (Mul I64 (V "s12") (K 654183)));
   Asg "s3" (Sub I64 (V "s3") (Mul I64 (V "s12") (K 997805)));
   Asg "s4" (Add I64 (V "s4") (Mul I64 (V "s12") (K 136657)));
   Asg "s5" (Sub I64 (V "s5") (Mul I64 (V "s12") (K 683901)));
   Asg "carry0" (Shr (V "s0") 21);
   Asg "s1" (Add I64 (V "s1") (V "carry0"));
   Asg "s0" (Sub I64 (V "s0") (Shl I64 (V "carry0") 21));
   Asg "carry1" (Shr (V "s1") 21);
   Asg "s2" (Add I64 (V "s2") (V "carry1"));
   Asg "s1" (Sub I64 (V "s1") (Shl I64 (V "carry1") 21));
   Asg "carry2" (Shr (V "s2") 21);
   Asg "s3" (Add I64 (V "s3") (V "carry2"));
   Asg "s2" (Sub I64 (V "s2") (Shl I64 (V "carry2") 21));
   Asg "carry3" (Shr (V "s3") 21);
   Asg "s4" (Add I64 (V "s4") (V "carry3"));
   Asg "s3" (Sub I64 (V "s3") (Shl I64 (V "carry3") 21));
   Asg "carry4" (Shr (V "s4") 21);
   Asg "s5" (Add I64 (V "s5") (V "carry4"));
   Asg "s4" (Sub I64 (V "s4") (Shl I64 (V "carry4") 21));
   Asg "carry5" (Shr (V "s5") 21);
   Asg "s6" (Add I64 (V "s6") (V "carry5"));
   Asg "s5" (Sub I64 (V "s5") (Shl I64 (V "carry5") 21));
   Asg "carry6" (Shr (V "s6") 21);
   Asg "s7" (Add I64 (V "s7") (V "carry6"));
   Asg "s6" (Sub I64 (V "s6") (Shl I64 (V "carry6") 21));
   Asg "carry7" (Shr (V "s7") 21);
   Asg "s8" (Add I64 (V "s8") (V "carry7"));
   Asg "s7" (Sub I64 (V "s7") (Shl I64 (V "carry7") 21));
   Asg "carry8" (Shr (V "s8") 21);
   Asg "s9" (Add I64 (V "s9") (V "carry8"));
   Asg "s8" (Sub I64 (V "s8") (Shl I64 (V "carry8") 21));
   Asg "carry9" (Shr (V "s9") 21);
   Asg "s10" (Add I64 (V "s10") (V "carry9"));
   Asg "s9" (Sub I64 (V "s9") (Shl I64 (V "carry9") 21));
   Asg "carry10" (Shr (V "s10") 21);
   Asg "s11" (Add I64 (V "s11") (V "carry10"));
   Asg "s10" (Sub I64 (V "s10") (Shl I64 (V "carry10") 21))].

Definition sc_mul_add_prog : list stmt := (sc_mul_add_p1 ++ sc_mul_add_p2 ++ sc_mul_add_p3)%list.

(** scalar.rs 759-1172 [sc_add], part 1 (lines 786-1057). *)
Definition sc_add_p1 : list stmt :=
  [Asg "s0" (Add I64 (V "c0") (V "a0"));
   Asg "s1" (Add I64 (V "c1") (V "a1"));
   Asg "s2" (Add I64 (V "c2") (V "a2"));
   Asg "s3" (Add I64 (V "c3") (V "a3"));
   Asg "s4" (Add I64 (V "c4") (V "a4"));
   Asg "s5" (Add I64 (V "c5") (V "a5"));
   Asg "s6" (Add I64 (V "c6") (V "a6"));
   Asg "s7" (Add I64 (V "c7") (V "a7"));
   Asg "s8" (Add I64 (V "c8") (V "a8"));
   Asg "s9" (Add I64 (V "c9") (V "a9"));
   Asg "s10" (Add I64 (V "c10") (V "a10"));
   Asg "s11" (Add I64 (V "c11") (V "a11"));
   Asg "s12" (K 0);
   Asg "s13" (K 0);
   Asg "s14" (K 0);
   Asg "s15" (K 0);
   Asg "s16" (K 0);
   Asg "s17" (K 0);
   Asg "s18" (K 0);
   Asg "s19" (K 0);
   Asg "s20" (K 0);
   Asg "s21" (K 0);
   Asg "s22" (K 0);
   Asg "s23" (K 0);
   Asg "carry0" (Shr (Add I64 (V "s0") (Shl I64 (K 1) 20)) 21);
   Asg "s1" (Add I64 (V "s1") (V "carry0"));
   Asg "s0" (Sub I64 (V "s0") (Shl I64 (V "carry0") 21));
   Asg "carry2" (Shr (Add I64 (V "s2") (Shl I64 (K 1) 20)) 21);
   Asg "s3" (Add I64 (V "s3") (V "carry2"));
   Asg "s2" (Sub I64 (V "s2") (Shl I64 (V "carry2") 21));
   Asg "carry4" (Shr (Add I64 (V "s4") (Shl I64 (K 1) 20)) 21);
   Asg "s5" (Add I64 (V "s5") (V "carry4"));
   Asg "s4" (Sub I64 (V "s4") (Shl I64 (V "carry4") 21));
   Asg "carry6" (Shr (Add I64 (V "s6") (Shl I64 (K 1) 20)) 21);
   Asg "s7" (Add I64 (V "s7") (V "carry6"));
   Asg "s6" (Sub I64 (V "s6") (Shl I64 (V "carry6") 21));
   Asg "carry8" (Shr (Add I64 (V "s8") (Shl I64 (K 1) 20)) 21);
   Asg "s9" (Add I64 (V "s9") (V "carry8"));
   Asg "s8" (Sub I64 (V "s8") (Shl I64 (V "carry8") 21));
   Asg "carry10" (Shr (Add I64 (V "s10") (Shl I64 (K 1) 20)) 21);
   Asg "s11" (Add I64 (V "s11") (V "carry10"));
   Asg "s10" (Sub I64 (V "s10") (Shl I64 (V "carry10") 21));
   Asg "carry12" (Shr (Add I64 (V "s12") (Shl I64 (K 1) 20)) 21);
   Asg "s13" (Add I64 (V "s13") (V "carry12"));
   Asg "s12" (Sub I64 (V "s12") (Shl I64 (V "carry12") 21));
   Asg "carry14" (Shr (Add I64 (V "s14") (Shl I64 (K 1) 20)) 21);
   Asg "s15" (Add I64 (V "s15") (V "carry14"));
   Asg "s14" (Sub I64 (V "s14") (Shl I64 (V "carry14") 21));
   Asg "carry16" (Shr (Add I64 (V "s16") (Shl I64 (K 1) 20)) 21);
   Asg "s17" (Add I64 (V "s17") (V "carry16"));
   Asg "s16" (Sub I64 (V "s16") (Shl I64 (V "carry16") 21));
   Asg "carry18" (Shr (Add I64 (V "s18") (Shl I64 (K 1) 20)) 21);
   Asg "s19" (Add I64 (V "s19") (V "carry18"));
   Asg "s18" (Sub I64 (V "s18") (Shl I64 (V "carry18") 21));
   Asg "carry20" (Shr (Add I64 (V "s20") (Shl I64 (K 1) 20)) 21);
   Asg "s21" (Add I64 (V "s21") (V "carry20"));
   Asg "s20" (Sub I64 (V "s20") (Shl I64 (V "carry20") 21));
   Asg "carry22" (Shr (Add I64 (V "s22") (Shl I64 (K 1) 20)) 21);
   Asg "s23" (Add I64 (V "s23") (V "carry22"));
   Asg "s22" (Sub I64 (V "s22") (Shl I64 (V "carry22") 21));
   Asg "carry1" (Shr (Add I64 (V "s1") (Shl I64 (K 1) 20)) 21);
   Asg "s2" (Add I64 (V "s2") (V "carry1"));
   Asg "s1" (Sub I64 (V "s1") (Shl I64 (V "carry1") 21));
   Asg "carry3" (Shr (Add I64 (V "s3") (Shl I64 (K 1) 20)) 21);
   Asg "s4" (Add I64 (V "s4") (V "carry3"));
   Asg "s3" (Sub I64 (V "s3") (Shl I64 (V "carry3") 21));
   Asg "carry5" (Shr (Add I64 (V "s5") (Shl I64 (K 1) 20)) 21);
   Asg "s6" (Add I64 (V "s6") (V "carry5"));
   Asg "s5" (Sub I64 (V "s5") (Shl I64 (V "carry5") 21));
   Asg "carry7" (Shr (Add I64 (V "s7") (Shl I64 (K 1) 20)) 21);
   Asg "s8" (Add I64 (V "s8") (V "carry7"));
   Asg "s7" (Sub I64 (V "s7") (Shl I64 (V "carry7") 21));
   Asg "carry9" (Shr (Add I64 (V "s9") (Shl I64 (K 1) 20)) 21);
   Asg "s10" (Add I64 (V "s10") (V "carry9"));
   Asg "s9" (Sub I64 (V "s9") (Shl I64 (V "carry9") 21));
   Asg "carry11" (Shr (Add I64 (V "s11") (Shl I64 (K 1) 20)) 21);
   Asg "s12" (Add I64 (V "s12") (V "carry11"));
   Asg "s11" (Sub I64 (V "s11") (Shl I64 (V "carry11") 21));
   Asg "carry13" (Shr (Add I64 (V "s13") (Shl I64 (K 1) 20)) 21);
   Asg "s14" (Add I64 (V "s14") (V "carry13"));
   Asg "s13" (Sub I64 (V "s13") (Shl I64 (V "carry13") 21));
   Asg "carry15" (Shr (Add I64 (V "s15") (Shl I64 (K 1) 20)) 21);
   Asg "s16" (Add I64 (V "s16") (V "carry15"));
   Asg "s15" (Sub I64 (V "s15") (Shl I64 (V "carry15") 21));
   Asg "carry17" (Shr (Add I64 (V "s17") (Shl I64 (K 1) 20)) 21);
   Asg "s18" (Add I64 (V "s18") (V "carry17"));
   Asg "s17" (Sub I64 (V "s17") (Shl I64 (V "carry17") 21));
   Asg "carry19" (Shr (Add I64 (V "s19") (Shl I64 (K 1) 20)) 21);
   Asg "s20" (Add I64 (V "s20") (V "carry19"));
   Asg "s19" (Sub I64 (V "s19") (Shl I64 (V "carry19") 21));
   Asg "carry21" (Shr (Add I64 (V "s21") (Shl I64 (K 1) 20)) 21);
   Asg "s22" (Add I64 (V "s22") (V "carry21"));
   Asg "s21" (Sub I64 (V "s21") (Shl I64 (V "carry21") 21));
   Asg "s11" (Add I64 (V "s11") (Mul I64 (V "s23") (K 666643)));
   Asg "s12" (Add I64 (V "s12") (Mul I64 (V "s23") (K 470296)));
   Asg "s13" (Add I64 (V "s13") (Mul I64 (V "s23") (K 654183)));
   Asg "s14" (Sub I64 (V "s14") (Mul I64 (V "s23") (K 997805)));
   Asg "s15" (Add I64 (V "s15") (Mul I64 (V "s23") (K 136657)));
   Asg "s16" (Sub I64 (V "s16") (Mul I64 (V "s23") (K 683901)));
   Asg "s10" (Add I64 (V "s10") (Mul I64 (V "s22") (K 666643)));
   Asg "s11" (Add I64 (V "s11") (Mul I64 (V "s22") (K 470296)));
   Asg "s12" (Add I64 (V "s12") (Mul I64 (V "s22") (K 654183)));
   Asg "s13" (Sub I64 (V "s13") (Mul I64 (V "s22") (K 997805)));
   Asg "s14" (Add I64 (V "s14") (Mul I64 (V "s22") (K 136657)));
   Asg "s15" (Sub I64 (V "s15") (Mul I64 (V "s22") (K 683901)));
   Asg "s9" (Add I64 (V "s9") (Mul I64 (V "s21") (K 666643)));
   Asg "s10" (Add I64 (V "s10") (Mul I64 (V "s21") (K 470296)));
   Asg "s11" (Add I64 (V "s11") (Mul I64 (V "s21") (K 654183)));
   Asg "s12" (Sub I64 (V "s12") (Mul I64 (V "s21") (K 997805)));
   Asg "s13" (Add I64 (V "s13") (Mul I64 (V "s21") (K 136657)));
   Asg "s14" (Sub I64 (V "s14") (Mul I64 (V "s21") (K 683901)));
   Asg "s8" (Add I64 (V "s8") (Mul I64 (V "s20") (K 666643)));
   Asg "s9" (Add I64 (V "s9") (Mul I64 (V "s20") (K 470296)));
   Asg "s10" (Add I64 (V "s10") (Mul I64 (V "s20") (K 654183)));
   Asg "s11" (Sub I64 (V "s11") (Mul I64 (V "s20") (K 997805)));
   Asg "s12" (Add I64 (V "s12") (Mul I64 (V "s20") (K 136657)));
   Asg "s13" (Sub I64 (V "s13") (Mul I64 (V "s20") (K 683901)));
   Asg "s7" (Add I64 (V "s7") (Mul I64 (V "s19") (K 666643)));
   Asg "s8" (Add I64 (V "s8") (Mul I64 (V "s19") (K 470296)));
   Asg "s9" (Add I64 (V "s9") (Mul I64 (V "s19") (K 654183)));
   Asg "s10" (Sub I64 (V "s10") (Mul I64 (V "s19") (K 997805)));
   Asg "s11" (Add I64 (V "s11") (Mul I64 (V "s19") (K 136657)));
   Asg "s12" (Sub I64 (V "s12") (Mul I64 (V "s19") (K 683901)));
   Asg "s6" (Add I64 (V "s6") (Mul I64 (V "s18") (K 666643)));
   Asg "s7" (Add I64 (V "s7") (Mul I64 (V "s18") (K 470296)));
   Asg "s8" (Add I64 (V "s8") (Mul I64 (V "s18") (K 654183)));
   Asg "s9" (Sub I64 (V "s9") (Mul I64 (V "s18") (K 997805)));
   Asg "s10" (Add I64 (V "s10") (Mul I64 (V "s18") (K 136657)));
   Asg "s11" (Sub I64 (V "s11") (Mul I64 (V "s18") (K 683901)));
   Asg "carry6" (Shr (Add I64 (V "s6") (Shl I64 (K 1) 20)) 21);
   Asg "s7" (Add I64 (V "s7") (V "carry6"));
   Asg "s6" (Sub I64 (V "s6") (Shl I64 (V "carry6") 21));
   Asg "carry8" (Shr (Add I64 (V "s8") (Shl I64 (K 1) 20)) 21);
   Asg "s9" (Add I64 (V "s9") (V "carry8"));
   Asg "s8" (Sub I64 (V "s8") (Shl I64 (V "carry8") 21));
   Asg "carry10" (Shr (Add I64 (V "s10") (Shl I64 (K 1) 20)) 21);
   Asg "s11" (Add I64 (V "s11") (V "carry10"));
   Asg "s10" (Sub I64 (V "s10") (Shl I64 (V "carry10") 21));
   Asg "carry12" (Shr (Add I64 (V "s12") (Shl I64 (K 1) 20)) 21);
   Asg "s13" (Add I64 (V "s13") (V "carry12"));
   Asg "s12" (Sub I64 (V "s12") (Shl I64 (V "carry12") 21));
   Asg "carry14" (Shr (Add I64 (V "s14") (Shl I64 (K 1) 20)) 21);
   Asg "s15" (Add I64 (V "s15") (V "carry14"));
   Asg "s14" (Sub I64 (V "s14") (Shl I64 (V "carry14") 21));
   Asg "carry16" (Shr (Add I64 (V "s16") (Shl I64 (K 1) 20)) 21);
   Asg "s17" (Add I64 (V "s17") (V "carry16"));
   Asg "s16" (Sub I64 (V "s16") (Shl I64 (V "carry16") 21));
   Asg "carry7" (Shr (Add I64 (V "s7") (Shl I64 (K 1) 20)) 21);
   Asg "s8" (Add I64 (V "s8") (V "carry7"));
   Asg "s7" (Sub I64 (V "s7") (Shl I64 (V "carry7") 21));
   Asg "carry9" (Shr (Add I64 (V "s9") (Shl I64 (K 1) 20)) 21);
   Asg "s10" (Add I64 (V "s10") (V "carry9"));
   Asg "s9" (Sub I64 (V "s9") (Shl I64 (V "carry9") 21));
   Asg "carry11" (Shr (Add I64 (V "s11") (Shl I64 (K 1) 20)) 21);
   Asg "s12" (Add I64 (V "s12") (V "carry11"));
   Asg "s11" (Sub I64 (V "s11") (Shl I64 (V "carry11") 21));
   Asg "carry13" (Shr (Add I64 (V "s13") (Shl I64 (K 1) 20)) 21);
   Asg "s14" (Add I64 (V "s14") (V "carry13"));
   Asg "s13" (Sub I64 (V "s13") (Shl I64 (V "carry13") 21));
   Asg "carry15" (Shr (Add I64 (V "s15") (Shl I64 (K 1) 20)) 21);
   Asg "s16" (Add I64 (V "s16") (V "carry15"));
   Asg "s15" (Sub I64 (V "s15") (Shl I64 (V "carry15") 21));
   Asg "s5" (Add I64 (V "s5") (Mul I64 (V "s17") (K 666643)));
   Asg "s6" (Add I64 (V "s6") (Mul I64 (V "s17") (K 470296)));
   Asg "s7" (Add I64 (V "s7") (Mul I64 (V "s17") (K 654183)));
   Asg "s8" (Sub I64 (V "s8") (Mul I64 (V "s17") (K 997805)));
   Asg "s9" (Add I64 (V "s9") (Mul I64 (V "s17") (K 136657)));
   Asg "s10" (Sub I64 (V "s10") (Mul I64 (V "s17") (K 683901)));
   Asg "s4" (Add I64 (V "s4") (Mul I64 (V "s16") (K 666643)));
   Asg "s5" (Add I64 (V "s5") (Mul I64 (V "s16") (K 470296)));
   Asg "s6" (Add I64 (V "s6") (Mul I64 (V "s16") (K 654183)));
   Asg "s7" (Sub I64 (V "s7") (Mul I64 (V "s16") (K 997805)));
   Asg "s8" (Add I64 (V "s8") (Mul I64 (V "s16") (K 136657)));
   Asg "s9" (Sub I64 (V "s9") (Mul I64 (V "s16") (K 683901)));
   Asg "s3" (Add I64 (V "s3") (Mul I64 (V "s15") (K 666643)));
   Asg "s4" (Add I64 (V "s4") (Mul I64 (V "s15") (K 470296)));
   Asg "s5" (Add I64 (V "s5") (Mul I64 (V "s15") (K 654183)));
   Asg "s6" (Sub I64 (V "s6") (Mul I64 (V "s15") (K 997805)));
   Asg "s7" (Add I64 (V "s7") (Mul I64 (V "s15") (K 136657)));
   Asg "s8" (Sub I64 (V "s8") (Mul I64 (V "s15") (K 683901)));
   Asg "s2" (Add I64 (V "s2") (Mul I64 (V "s14") (K 666643)));
   Asg "s3" (Add I64 (V "s3") (Mul I64 (V "s14") (K 470296)));
   Asg "s4" (Add I64 (V "s4") (Mul I64 (V "s14") (K 654183)));
   Asg "s5" (Sub I64 (V "s5") (Mul I64 (V "s14") (K 997805)));
   Asg "s6" (Add I64 (V "s6") (Mul I64 (V "s14") (K 136657)));
   Asg "s7" (Sub I64 (V "s7") (Mul I64 (V "s14") (K 683901)));
   Asg "s1" (Add I64 (V "s1") (Mul I64 (V "s13") (K 666643)));
   Asg "s2" (Add I64 (V "s2") (Mul I64 (V "s13") (K 470296)));
   Asg "s3" (Add I64 (V "s3") (Mul I64 (V "s13") (K 654183)));
   Asg "s4" (Sub I64 (V "s4") (Mul I64 (V "s13") (K 997805)));
   Asg "s5" (Add I64 (V "s5") (Mul I64 (V "s13") (K 136657)));
   Asg "s6" (Sub I64 (V "s6") (Mul I64 (V "s13") (K 683901)));
   Asg "s0" (Add I64 (V "s0") (Mul I64 (V "s12") (K 666643)));
   Asg "s1" (Add I64 (V "s1") (Mul I64 (V "s12") (K 470296)));
   Asg "s2" (Add I64 (V "s2") (Mul I64 (V "s12") (K 654183)));
   Asg "s3" (Sub I64 (V "s3") (Mul I64 (V "s12") (K 997805)));
   Asg "s4" (Add I64 (V "s4") (Mul I64 (V "s12") (K 136657)));
   Asg "s5" (Sub I64 (V "s5") (Mul I64 (V "s12") (K 683901)));
   Asg "s12" (K 0);
   Asg "carry0" (Shr (Add I64 (V "s0") (Shl I64 (K 1) 20)) 21);
   Asg "s1" (Add I64 (V "s1") (V "carry0"));
   Asg "s0" (Sub I64 (V "s0") (Shl I64 (V "carry0") 21));
   Asg "carry2" (Shr (Add I64 (V "s2") (Shl I64 (K 1) 20)) 21);
   Asg "s3" (Add I64 (V "s3") (V "carry2"));
   Asg "s2" (Sub I64 (V "s2") (Shl I64 (V "carry2") 21));
   Asg "carry4" (Shr (Add I64 (V "s4") (Shl I64 (K 1) 20)) 21);
   Asg "s5" (Add I64 (V "s5") (V "carry4"));
   Asg "s4" (Sub I64 (V "s4") (Shl I64 (V "carry4") 21));
   Asg "carry6" (Shr (Add I64 (V "s6") (Shl I64 (K 1) 20)) 21);
   Asg "s7" (Add I64 (V "s7") (V "carry6"));
   Asg "s6" (Sub I64 (V "s6") (Shl I64 (V "carry6") 21));
   Asg "carry8" (Shr (Add I64 (V "s8") (Shl I64 (K 1) 20)) 21);
   Asg "s9" (Add I64 (V "s9") (V "carry8"));
   Asg "s8" (Sub I64 (V "s8") (Shl I64 (V "carry8") 21));
   Asg "carry10" (Shr (Add I64 (V "s10") (Shl I64 (K 1) 20)) 21);
   Asg "s11" (Add I64 (V "s11") (V "carry10"));
   Asg "s10" (Sub I64 (V "s10") (Shl I64 (V "carry10") 21));
   Asg "carry1" (Shr (Add I64 (V "s1") (Shl I64 (K 1) 20)) 21);
   Asg "s2" (Add I64 (V "s2") (V "carry1"));
   Asg "s1" (Sub I64 (V "s1") (Shl I64 (V "carry1") 21));
   Asg "carry3" (Shr (Add I64 (V "s3") (Shl I64 (K 1) 20)) 21);
   Asg "s4" (Add I64 (V "s4") (V "carry3"));
   Asg "s3" (Sub I64 (V "s3") (Shl I64 (V "carry3") 21));
   Asg "carry5" (Shr (Add I64 (V "s5") (Shl I64 (K 1) 20)) 21);
   Asg "s6" (Add I64 (V "s6") (V "carry5"));
   Asg "s5" (Sub I64 (V "s5") (Shl I64 (V "carry5") 21));
   Asg "carry7" (Shr (Add I64 (V "s7") (Shl I64 (K 1) 20)) 21);
   Asg "s8" (Add I64 (V "s8") (V "carry7"));
   Asg "s7" (Sub I64 (V "s7") (Shl I64 (V "carry7") 21));
   Asg "carry9" (Shr (Add I64 (V "s9") (Shl I64 (K 1) 20)) 21);
   Asg "s10" (Add I64 (V "s10") (V "carry9"));
   Asg "s9" (Sub I64 (V "s9") (Shl I64 (V "carry9") 21));
   Asg "carry11" (Shr (Add I64 (V "s11") (Shl I64 (K 1) 20)) 21);
   Asg "s12" (Add I64 (V "s12") (V "carry11"));
   Asg "s11" (Sub I64 (V "s11") (Shl I64 (V "carry11") 21));
   Asg "s0" (Add I64 (V "s0") (Mul I64 (V "s12") (K 666643)));
   Asg "s1" (Add I64 (V "s1") (Mul I64 (V "s12") (K 470296)));
   Asg "s2" (Add I64 (V "s2") (Mul I64 (V "s12") (K 654183)));
   Asg "s3" (Sub I64 (V "s3") (Mul I64 (V "s12") (K 997805)));
   Asg "s4" (Add I64 (V "s4") (Mul I64 (V "s12") (K 136657)));
   Asg "s5" (Sub I64 (V "s5") (Mul I64 (V "s12") (K 683901)));
   Asg "s12" (K 0)].

(** scalar.rs 759-1172 [sc_add], part 2 (lines 1059-1094). *)
Definition sc_add_p2 : list stmt :=
  [Asg "carry0" (Shr (V "s0") 21);
   Asg "s1" (Add I64 (V "s1") (V "carry0"));
   Asg "s0" (Sub I64 (V "s0") (Shl I64 (V "carry0") 21));
   Asg "carry1" (Shr (V "s1") 21);
   Asg "s2" (Add I64 (V "s2") (V "carry1"));
   Asg "s1" (Sub I64 (V "s1") (Shl I64 (V "carry1") 21));
   Asg "carry2" (Shr (V "s2") 21);
   Asg "s3" (Add I64 (V "s3") (V "carry2"));
   Asg "s2" (Sub I64 (V "s2") (Shl I64 (V "carry2") 21));
   Asg "carry3" (Shr (V "s3") 21);
   Asg "s4" (Add I64 (V "s4") (V "carry3"));
   Asg "s3" (Sub I64 (V "s3") (Shl I64 (V "carry3") 21));
   Asg "carry4" (Shr (V "s4") 21);
   Asg "s5" (Add I64 (V "s5") (V "carry4"));
   Asg "s4" (Sub I64 (V "s4") (Shl I64 (V "carry4") 21));
   Asg "carry5" (Shr (V "s5") 21);
   Asg "s6" (Add I64 (V "s6") (V "carry5"));
   Asg "s5" (Sub I64 (V "s5") (Shl I64 (V "carry5") 21));
   Asg "carry6" (Shr (V "s6") 21);
   Asg "s7" (Add I64 (V "s7") (V "carry6"));
   Asg "s6" (Sub I64 (V "s6") (Shl I64 (V "carry6") 21));
   Asg "carry7" (Shr (V "s7") 21);
   Asg "s8" (Add I64 (V "s8") (V "carry7"));
   Asg "s7" (Sub I64 (V "s7") (Shl I64 (V "carry7") 21));
   Asg "carry8" (Shr (V "s8") 21);
   Asg "s9" (Add I64 (V "s9") (V "carry8"));
   Asg "s8" (Sub I64 (V "s8") (Shl I64 (V "carry8") 21));
   Asg "carry9" (Shr (V "s9") 21);
   Asg "s10" (Add I64 (V "s10") (V "carry9"));
   Asg "s9" (Sub I64 (V "s9") (Shl I64 (V "carry9") 21));
   Asg "carry10" (Shr (V "s10") 21);
   Asg "s11" (Add I64 (V "s11") (V "carry10"));
   Asg "s10" (Sub I64 (V "s10") (Shl I64 (V "carry10") 21));
   Asg "carry11" (Shr (V "s11") 21);
   Asg "s12" (Add I64 (V "s12") (V "carry11"));
   Asg "s11" (Sub I64 (V "s11") (Shl I64 (V "carry11") 21))].

(** scalar.rs 759-1172 [sc_add], part 3 (lines 1096-1136). *)
Definition sc_add_p3 : list stmt :=
  [Asg "s0" (Add I64 (V "s0") (Mul I64 (V "s12") (K 666643)));
   Asg "s1" (Add I64 (V "s1") (Mul I64 (V "s12") (K 470296)));
   Asg "s2" (Add I64 (V "s2") (Mul I64 (V "s12") (K 654183)));
   Asg "s3" (Sub I64 (V "s3") (Mul I64 (V "s12") (K 997805)));
   Asg "s4" (Add I64 (V "s4") (Mul I64 (V "s12") (K 136657)));
   Asg "s5" (Sub I64 (V "s5") (Mul I64 (V "s12") (K 683901)));
   Asg "carry0" (Shr (V "s0") 21);
   Asg "s1" (Add I64 (V "s1") (V "carry0"));
   Asg "s0" (Sub I64 (V "s0") (Shl I64 (V "carry0") 21));
   Asg "carry1" (Shr (V "s1") 21);
   Asg "s2" (Add I64 (V "s2") (V "carry1"));
   Asg "s1" (Sub I64 (V "s1") (Shl I64 (V "carry1") 21));
   Asg "carry2" (Shr (V "s2") 21);
   Asg "s3" (Add I64 (V "s3") (V "carry2"));
   Asg "s2" (Sub I64 (V "s2") (Shl I64 (V "carry2") 21));
   Asg "carry3" (Shr (V "s3") 21);
   Asg "s4" (Add I64 (V "s4") (V "carry3"));
   Asg "s3" (Sub I64 (V "s3") (Shl I64 (V "carry3") 21));
   Asg "carry4" (Shr (V "s4") 21);
   Asg "s5" (Add I64 (V "s5") (V "carry4"));
   Asg "s4" (Sub I64 (V "s4") (Shl I64 (V "carry4") 21));
   Asg "carry5" (Shr (V "s5") 21);
   Asg "s6" (Add I64 (V "s6") (V "carry5"));
   Asg "s5" (Sub I64 (V "s5") (Shl I64 (V "carry5") 21));
   Asg "carry6" (Shr (V "s6") 21);
   Asg "s7" (Add I64 (V "s7") (V "carry6"));
   Asg "s6" (Sub I64 (V "s6") (Shl I64 (V "carry6") 21));
   Asg "carry7" (Shr (V "s7") 21);
   Asg "s8" (Add I64 (V "s8") (V "carry7"));
   Asg "s7" (Sub I64 (V "s7") (Shl I64 (V "carry7") 21));
   Asg "carry8" (Shr (V "s8") 21);
   Asg "s9" (Add I64 (V "s9") (V "carry8"));
   Asg "s8" (Sub I64 (V "s8") (Shl I64 (V "carry8") 21));
   Asg "carry9" (Shr (V "s9") 21);
   Asg "s10" (Add I64 (V "s10") (V "carry9"));
   Asg "s9" (Sub I64 (V "s9") (Shl I64 (V "carry9") 21));
   Asg "carry10" (Shr (V "s10") 21);
   Asg "s11" (Add I64 (V "s11") (V "carry10"));
   Asg "s10" (Sub I64 (V "s10") (Shl I64 (V "carry10") 21))].

Definition sc_add_prog : list stmt := (sc_add_p1 ++ sc_add_p2 ++ sc_add_p3)%list.

(** scalar.rs 1187-1581 [sc_sub], part 1 (lines 1214-1470). *)
Definition sc_sub_p1 : list stmt :=
  [Asg "s0" (Add I64 (Sub I64 (K 1916624) (V "c0")) (V "a0"));
   Asg "s1" (Add I64 (Sub I64 (K 863866) (V "c1")) (V "a1"));
   Asg "s2" (Add I64 (Sub I64 (K 18828) (V "c2")) (V "a2"));
   Asg "s3" (Add I64 (Sub I64 (K 1284811) (V "c3")) (V "a3"));
   Asg "s4" (Add I64 (Sub I64 (K 2007799) (V "c4")) (V "a4"));
   Asg "s5" (Add I64 (Sub I64 (K 456654) (V "c5")) (V "a5"));
   Asg "s6" (Add I64 (Sub I64 (K 5) (V "c6")) (V "a6"));
   Asg "s7" (Add I64 (Sub I64 (K 0) (V "c7")) (V "a7"));
   Asg "s8" (Add I64 (Sub I64 (K 0) (V "c8")) (V "a8"));
   Asg "s9" (Add I64 (Sub I64 (K 0) (V "c9")) (V "a9"));
   Asg "s10" (Add I64 (Sub I64 (K 0) (V "c10")) (V "a10"));
   Asg "s11" (Add I64 (Sub I64 (K 0) (V "c11")) (V "a11"));
   Asg "s12" (K 16);
   Asg "s13" (K 0);
   Asg "s14" (K 0);
   Asg "s15" (K 0);
   Asg "s16" (K 0);
   Asg "s17" (K 0);
   Asg "s18" (K 0);
   Asg "s19" (K 0);
   Asg "s20" (K 0);
   Asg "s21" (K 0);
   Asg "s22" (K 0);
   Asg "s23" (K 0);
   Asg "carry0" (Shr (Add I64 (V "s0") (Shl I64 (K 1) 20)) 21);
   Asg "s1" (Add I64 (V "s1") (V "carry0"));
   Asg "s0" (Sub I64 (V "s0") (Shl I64 (V "carry0") 21));
   Asg "carry2" (Shr (Add I64 (V "s2") (Shl I64 (K 1) 20)) 21);
   Asg "s3" (Add I64 (V "s3") (V "carry2"));
   Asg "s2" (Sub I64 (V "s2") (Shl I64 (V "carry2") 21));
   Asg "carry4" (Shr (Add I64 (V "s4") (Shl I64 (K 1) 20)) 21);
   Asg "s5" (Add I64 (V "s5") (V "carry4"));
   Asg "s4" (Sub I64 (V "s4") (Shl I64 (V "carry4") 21));
   Asg "carry6" (Shr (Add I64 (V "s6") (Shl I64 (K 1) 20)) 21);
   Asg "s7" (Add I64 (V "s7") (V "carry6"));
   Asg "s6" (Sub I64 (V "s6") (Shl I64 (V "carry6") 21));
   Asg "carry8" (Shr (Add I64 (V "s8") (Shl I64 (K 1) 20)) 21);
   Asg "s9" (Add I64 (V "s9") (V "carry8"));
   Asg "s8" (Sub I64 (V "s8") (Shl I64 (V "carry8") 21));
   Asg "carry10" (Shr (Add I64 (V "s10") (Shl I64 (K 1) 20)) 21);
   Asg "s11" (Add I64 (V "s11") (V "carry10"));
   Asg "s10" (Sub I64 (V "s10") (Shl I64 (V "carry10") 21));
   Asg "carry12" (Shr (Add I64 (V "s12") (Shl I64 (K 1) 20)) 21);
   Asg "s13" (Add I64 (V "s13") (V "carry12"));
   Asg "s12" (Sub I64 (V "s12") (Shl I64 (V "carry12") 21));
   Asg "carry14" (Shr (Add I64 (V "s14") (Shl I64 (K 1) 20)) 21);
   Asg "s15" (Add I64 (V "s15") (V "carry14"));
   Asg "s14" (Sub I64 (V "s14") (Shl I64 (V "carry14") 21));
   Asg "carry16" (Shr (Add I64 (V "s16") (Shl I64 (K 1) 20)) 21);
   Asg "s17" (Add I64 (V "s17") (V "carry16"));
   Asg "s16" (Sub I64 (V "s16") (Shl I64 (V "carry16") 21));
   Asg "carry18" (Shr (Add I64 (V "s18") (Shl I64 (K 1) 20)) 21);
   Asg "s19" (Add I64 (V "s19") (V "carry18"));
   Asg "s18" (Sub I64 (V "s18") (Shl I64 (V "carry18") 21));
   Asg "carry20" (Shr (Add I64 (V "s20") (Shl I64 (K 1) 20)) 21);
   Asg "s21" (Add I64 (V "s21") (V "carry20"));
   Asg "s20" (Sub I64 (V "s20") (Shl I64 (V "carry20") 21));
   Asg "carry22" (Shr (Add I64 (V "s22") (Shl I64 (K 1) 20)) 21);
   Asg "s23" (Add I64 (V "s23") (V "carry22"));
   Asg "s22" (Sub I64 (V "s22") (Shl I64 (V "carry22") 21));
   Asg "carry1" (Shr (Add I64 (V "s1") (Shl I64 (K 1) 20)) 21);
   Asg "s2" (Add I64 (V "s2") (V "carry1"));
   Asg "s1" (Sub I64 (V "s1") (Shl I64 (V "carry1") 21));
   Asg "carry3" (Shr (Add I64 (V "s3") (Shl I64 (K 1) 20)) 21);
   Asg "s4" (Add I64 (V "s4") (V "carry3"));
   Asg "s3" (Sub I64 (V "s3") (Shl I64 (V "carry3") 21));
   Asg "carry5" (Shr (Add I64 (V "s5") (Shl I64 (K 1) 20)) 21);
   Asg "s6" (Add I64 (V "s6") (V "carry5"));
   Asg "s5" (Sub I64 (V "s5") (Shl I64 (V "carry5") 21));
   Asg "carry7" (Shr (Add I64 (V "s7") (Shl I64 (K 1) 20)) 21);
   Asg "s8" (Add I64 (V "s8") (V "carry7"));
   Asg "s7" (Sub I64 (V "s7") (Shl I64 (V "carry7") 21));
   Asg "carry9" (Shr (Add I64 (V "s9") (Shl I64 (K 1) 20)) 21);
   Asg "s10" (Add I64 (V "s10") (V "carry9"));
   Asg "s9" (Sub I64 (V "s9") (Shl I64 (V "carry9") 21));
   Asg "carry11" (Shr (Add I64 (V "s11") (Shl I64 (K 1) 20)) 21);
   Asg "s12" (Add I64 (V "s12") (V "carry11"));
   Asg "s11" (Sub I64 (V "s11") (Shl I64 (V "carry11") 21));
   Asg "carry13" (Shr (Add I64 (V "s13") (Shl I64 (K 1) 20)) 21);
   Asg "s14" (Add I64 (V "s14") (V "carry13"));
   Asg "s13" (Sub I64 (V "s13") (Shl I64 (V "carry13") 21));
   Asg "carry15" (Shr (Add I64 (V "s15") (Shl I64 (K 1) 20)) 21);
   Asg "s16" (Add I64 (V "s16") (V "carry15"));
   Asg "s15" (Sub I64 (V "s15") (Shl I64 (V "carry15") 21));
   Asg "carry17" (Shr (Add I64 (V "s17") (Shl I64 (K 1) 20)) 21);
   Asg "s18" (Add I64 (V "s18") (V "carry17"));
   Asg "s17" (Sub I64 (V "s17") (Shl I64 (V "carry17") 21));
   Asg "carry19" (Shr (Add I64 (V "s19") (Shl I64 (K 1) 20)) 21);
   Asg "s20" (Add I64 (V "s20") (V "carry19"));
   Asg "s19" (Sub I64 (V "s19") (Shl I64 (V "carry19") 21));
   Asg "carry21" (Shr (Add I64 (V "s21") (Shl I64 (K 1) 20)) 21);
   Asg "s22" (Add I64 (V "s22") (V "carry21"));
   Asg "s21" (Sub I64 (V "s21") (Shl I64 (V "carry21") 21));
   Asg "s11" (Add I64 (V "s11") (Mul I64 (V "s23") (K 666643)));
   Asg "s12" (Add I64 (V "s12") (Mul I64 (V "s23") (K 470296)));
   Asg "s13" (Add I64 (V "s13") (Mul I64 (V "s23") (K 654183)));
   Asg "s14" (Sub I64 (V "s14") (Mul I64 (V "s23") (K 997805)));
   Asg "s15" (Add I64 (V "s15") (Mul I64 (V "s23") (K 136657)));
   Asg "s16" (Sub I64 (V "s16") (Mul I64 (V "s23") (K 683901)));
   Asg "s10" (Add I64 (V "s10") (Mul I64 (V "s22") (K 666643)));
   Asg "s11" (Add I64 (V "s11") (Mul I64 (V "s22") (K 470296)));
   Asg "s12" (Add I64 (V "s12") (Mul I64 (V "s22") (K 654183)));
   Asg "s13" (Sub I64 (V "s13") (Mul I64 (V "s22") (K 997805)));
   Asg "s14" (Add I64 (V "s14") (Mul I64 (V "s22") (K 136657)));
   Asg "s15" (Sub I64 (V "s15") (Mul I64 (V "s22") (K 683901)));
   Asg "s9" (Add I64 (V "s9") (Mul I64 (V "s21") (K 666643)));
   Asg "s10" (Add I64 (V "s10") (Mul I64 (V "s21") (K 470296)));
   Asg "s11" (Add I64 (V "s11") (Mul I64 (V "s21") (K 654183)));
   Asg "s12" (Sub I64 (V "s12") (Mul I64 (V "s21") (K 997805)));
   Asg "s13" (Add I64 (V "s13") (Mul I64 (V "s21") (K 136657)));
   Asg "s14" (Sub I64 (V "s14") (Mul I64 (V "s21") (K 683901)));
   Asg "s8" (Add I64 (V "s8") (Mul I64 (V "s20") (K 666643)));
   Asg "s9" (Add I64 (V "s9") (Mul I64 (V "s20") (K 470296)));
   Asg "s10" (Add I64 (V "s10") (Mul I64 (V "s20") (K 654183)));
   Asg "s11" (Sub I64 (V "s11") (Mul I64 (V "s20") (K 997805)));
   Asg "s12" (Add I64 (V "s12") (Mul I64 (V "s20") (K 136657)));
   Asg "s13" (Sub I64 (V "s13") (Mul I64 (V "s20") (K 683901)));
   Asg "s7" (Add I64 (V "s7") (Mul I64 (V "s19") (K 666643)));
   Asg "s8" (Add I64 (V "s8") (Mul I64 (V "s19") (K 470296)));
   Asg "s9" (Add I64 (V "s9") (Mul I64 (V "s19") (K 654183)));
   Asg "s10" (Sub I64 (V "s10") (Mul I64 (V "s19") (K 997805)));
   Asg "s11" (Add I64 (V "s11") (Mul I64 (V "s19") (K 136657)));
   Asg "s12" (Sub I64 (V "s12") (Mul I64 (V "s19") (K 683901)));
   Asg "s6" (Add I64 (V "s6") (Mul I64 (V "s18") (K 666643)));
   Asg "s7" (Add I64 (V "s7") (Mul I64 (V "s18") (K 470296)));
   Asg "s8" (Add I64 (V "s8") (Mul I64 (V "s18") (K 654183)));
   Asg "s9" (Sub I64 (V "s9") (Mul I64 (V "s18") (K 997805)));
   Asg "s10" (Add I64 (V "s10") (Mul I64 (V "s18") (K 136657)));
   Asg "s11" (Sub I64 (V "s11") (Mul I64 (V "s18") (K 683901)));
   Asg "carry6" (Shr (Add I64 (V "s6") (Shl I64 (K 1) 20)) 21);
   Asg "s7" (Add I64 (V "s7") (V "carry6"));
   Asg "s6" (Sub I64 (V "s6") (Shl I64 (V "carry6") 21));
   Asg "carry8" (Shr (Add I64 (V "s8") (Shl I64 (K 1) 20)) 21);
   Asg "s9" (Add I64 (V "s9") (V "carry8"));
   Asg "s8" (Sub I64 (V "s8") (Shl I64 (V "carry8") 21));
   Asg "carry10" (Shr (Add I64 (V "s10") (Shl I64 (K 1) 20)) 21);
   Asg "s11" (Add I64 (V "s11") (V "carry10"));
   Asg "s10" (Sub I64 (V "s10") (Shl I64 (V "carry10") 21));
   Asg "carry12" (Shr (Add I64 (V "s12") (Shl I64 (K 1) 20)) 21);
   Asg "s13" (Add I64 (V "s13") (V "carry12"));
   Asg "s12" (Sub I64 (V "s12") (Shl I64 (V "carry12") 21));
   Asg "carry14" (Shr (Add I64 (V "s14") (Shl I64 (K 1) 20)) 21);
   Asg "s15" (Add I64 (V "s15") (V "carry14"));
   Asg "s14" (Sub I64 (V "s14") (Shl I64 (V "carry14") 21));
   Asg "carry16" (Shr (Add I64 (V "s16") (Shl I64 (K 1) 20)) 21);
   Asg "s17" (Add I64 (V "s17") (V "carry16"));
   Asg "s16" (Sub I64 (V "s16") (Shl I64 (V "carry16") 21));
   Asg "carry7" (Shr (Add I64 (V "s7") (Shl I64 (K 1) 20)) 21);
   Asg "s8" (Add I64 (V "s8") (V "carry7"));
   Asg "s7" (Sub I64 (V "s7") (Shl I64 (V "carry7") 21));
   Asg "carry9" (Shr (Add I64 (V "s9") (Shl I64 (K 1) 20)) 21);
   Asg "s10" (Add I64 (V "s10") (V "carry9"));
   Asg "s9" (Sub I64 (V "s9") (Shl I64 (V "carry9") 21));
   Asg "carry11" (Shr (Add I64 (V "s11") (Shl I64 (K 1) 20)) 21);
   Asg "s12" (Add I64 (V "s12") (V "carry11"));
   Asg "s11" (Sub I64 (V "s11") (Shl I64 (V "carry11") 21));
   Asg "carry13" (Shr (Add I64 (V "s13") (Shl I64 (K 1) 20)) 21);
   Asg "s14" (Add I64 (V "s14") (V "carry13"));
   Asg "s13" (Sub I64 (V "s13") (Shl I64 (V "carry13") 21));
   Asg "carry15" (Shr (Add I64 (V "s15") (Shl I64 (K 1) 20)) 21);
   Asg "s16" (Add I64 (V "s16") (V "carry15"));
   Asg "s15" (Sub I64 (V "s15") (Shl I64 (V "carry15") 21));
   Asg "s5" (Add I64 (V "s5") (Mul I64 (V "s17") (K 666643)));
   Asg "s6" (Add I64 (V "s6") (Mul I64 (V "s17") (K 470296)));
   Asg "s7" (Add I64 (V "s7") (Mul I64 (V "s17") (K 654183)));
   Asg "s8" (Sub I64 (V "s8") (Mul I64 (V "s17") (K 997805)));
   Asg "s9" (Add I64 (V "s9") (Mul I64 (V "s17") (K 136657)));
   Asg "s10" (Sub I64 (V "s10") (Mul I64 (V "s17") (K 683901)));
   Asg "s4" (Add I64 (V "s4") (Mul I64 (V "s16") (K 666643)));
   Asg "s5" (Add I64 (V "s5") (Mul I64 (V "s16") (K 470296)));
   Asg "s6" (Add I64 (V "s6") (Mul I64 (V "s16") (K 654183)));
   Asg "s7" (Sub I64 (V "s7") (Mul I64 (V "s16") (K 997805)));
   Asg "s8" (Add I64 (V "s8") (Mul I64 (V "s16") (K 136657)));
   Asg "s9" (Sub I64 (V "s9") (Mul I64 (V "s16") (K 683901)));
   Asg "s3" (Add I64 (V "s3") (Mul I64 (V "s15") (K 666643)));
   Asg "s4" (Add I64 (V "s4") (Mul I64 (V "s15") (K 470296)));
   Asg "s5" (Add I64 (V "s5") (Mul I64 (V "s15") (K 654183)));
   Asg "s6" (Sub I64 (V "s6") (Mul I64 (V "s15") (K 997805)));
   Asg "s7" (Add I64 (V "s7") (Mul I64 (V "s15") (K 136657)));
   Asg "s8" (Sub I64 (V "s8") (Mul I64 (V "s15") (K 683901)));
   Asg "s2" (Add I64 (V "s2") (Mul I64 (V "s14") (K 666643)));
   Asg "s3" (Add I64 (V "s3") (Mul I64 (V "s14") (K 470296)));
   Asg "s4" (Add I64 (V "s4") (Mul I64 (V "s14") (K 654183)));
   Asg "s5" (Sub I64 (V "s5") (Mul I64 (V "s14") (K 997805)));
   Asg "s6" (Add I64 (V "s6") (Mul I64 (V "s14") (K 136657)));
   Asg "s7" (Sub I64 (V "s7") (Mul I64 (V "s14") (K 683901)));
   Asg "s1" (Add I64 (V "s1") (Mul I64 (V "s13") (K 666643)));
   Asg "s2" (Add I64 (V "s2") (Mul I64 (V "s13") (K 470296)));
   Asg "s3" (Add I64 (V "s3") (Mul I64 (V "s13") (K 654183)));
   Asg "s4" (Sub I64 (V "s4") (Mul I64 (V "s13") (K 997805)));
   Asg "s5" (Add I64 (V "s5") (Mul I64 (V "s13") (K 136657)));
   Asg "s6" (Sub I64 (V "s6") (Mul I64 (V "s13") (K 683901)));
   Asg "s0" (Add I64 (V "s0") (Mul I64 (V "s12") (K 666643)));
   Asg "s1" (Add I64 (V "s1") (Mul I64 (V "s12") (K 470296)));
   Asg "s2" (Add I64 (V "s2") (Mul I64 (V "s12") (K 654183)));
   Asg "s3" (Sub I64 (V "s3") (Mul I64 (V "s12") (K 997805)));
   Asg "s4" (Add I64 (V "s4") (Mul I64 (V "s12") (K 136657)));
   Asg "s5" (Sub I64 (V "s5") (Mul I64 (V "s12") (K 683901)));
   Asg "s12" (K 0);
   Asg "carry0" (Shr (Add I64 (V "s0") (Shl I64 (K 1) 20)) 21);
   Asg "s1" (Add I64 (V "s1") (V "carry0"));
   Asg "s0" (Sub I64 (V "s0") (Shl I64 (V "carry0") 21));
   Asg "carry2" (Shr (Add I64 (V "s2") (Shl I64 (K 1) 20)) 21);
   Asg "s3" (Add I64 (V "s3") (V "carry2"));
   Asg "s2" (Sub I64 (V "s2") (Shl I64 (V "carry2") 21));
   Asg "carry4" (Shr (Add I64 (V "s4") (Shl I64 (K 1) 20)) 21);
   Asg "s5" (Add I64 (V "s5") (V "carry4"));
   Asg "s4" (Sub I64 (V "s4") (Shl I64 (V "carry4") 21));
   Asg "carry6" (Shr (Add I64 (V "s6") (Shl I64 (K 1) 20)) 21);
   Asg "s7" (Add I64 (V "s7") (V "carry6"));
   Asg "s6" (Sub I64 (V "s6") (Shl I64 (V "carry6") 21));
   Asg "carry8" (Shr (Add I64 (V "s8") (Shl I64 (K 1) 20)) 21);
   Asg "s9" (Add I64 (V "s9") (V "carry8"));
   Asg "s8" (Sub I64 (V "s8") (Shl I64 (V "carry8") 21));
   Asg "carry10" (Shr (Add I64 (V "s10") (Shl I64 (K 1) 20)) 21);
   Asg "s11" (Add I64 (V "s11") (V "carry10"));
   Asg "s10" (Sub I64 (V "s10") (Shl I64 (V "carry10") 21));
   Asg "carry1" (Shr (Add I64 (V "s1") (Shl I64 (K 1) 20)) 21);
   Asg "s2" (Add I64 (V "s2") (V "carry1"));
   Asg "s1" (Sub I64 (V "s1") (Shl I64 (V "carry1") 21));
   Asg "carry3" (Shr (Add I64 (V "s3") (Shl I64 (K 1) 20)) 21);
   Asg "s4" (Add I64 (V "s4") (V "carry3"));
   Asg "s3" (Sub I64 (V "s3") (Shl I64 (V "carry3") 21));
   Asg "carry5" (Shr (Add I64 (V "s5") (Shl I64 (K 1) 20)) 21);
   Asg "s6" (Add I64 (V "s6") (V "carry5"));
   Asg "s5" (Sub I64 (V "s5") (Shl I64 (V "carry5") 21));
   Asg "carry7" (Shr (Add I64 (V "s7") (Shl I64 (K 1) 20)) 21);
   Asg "s8" (Add I64 (V "s8") (V "carry7"));
   Asg "s7" (Sub I64 (V "s7") (Shl I64 (V "carry7") 21));
   Asg "carry9" (Shr (Add I64 (V "s9") (Shl I64 (K 1) 20)) 21);
   Asg "s10" (Add I64 (V "s10") (V "carry9"));
   Asg "s9" (Sub I64 (V "s9") (Shl I64 (V "carry9") 21));
   Asg "carry11" (Shr (Add I64 (V "s11") (Shl I64 (K 1) 20)) 21);
   Asg "s12" (Add I64 (V "s12") (V "carry11"));
   Asg "s11" (Sub I64 (V "s11") (Shl I64 (V "carry11") 21));
   Asg "s0" (Add I64 (V "s0") (Mul I64 (V "s12") (K 666643)));
   Asg "s1" (Add I64 (V "s1") (Mul I64 (V "s12") (K 470296)));
   Asg "s2" (Add I64 (V "s2") (Mul I64 (V "s12") (K 654183)));
   Asg "s3" (Sub I64 (V "s3") (Mul I64 (V "s12") (K 997805)));
   Asg "s4" (Add I64 (V "s4") (Mul I64 (V "s12") (K 136657)));
   Asg "s5" (Sub I64 (V "s5") (Mul I64 (V "s12") (K 683901)));
   Asg "s12" (K 0)].

(** scalar.rs 1187-1581 [sc_sub], part 2 (lines 1471-1506). *)
Definition sc_sub_p2 : list stmt :=
  [Asg "carry0" (Shr (V "s0") 21);
   Asg "s1" (Add I64 (V "s1") (V "carry0"));
   Asg "s0" (Sub I64 (V "s0") (Shl I64 (V "carry0") 21));
   Asg "carry1" (Shr (V "s1") 21);
   Asg "s2" (Add I64 (V "s2") (V "carry1"));
   Asg "s1" (Sub I64 (V "s1") (Shl I64 (V "carry1") 21));
   Asg "carry2" (Shr (V "s2") 21);
   Asg "s3" (Add I64 (V "s3") (V "carry2"));
   Asg "s2" (Sub I64 (V "s2") (Shl I64 (V "carry2") 21));
   Asg "carry3" (Shr (V "s3") 21);
   Asg "s4" (Add I64 (V "s4") (V "carry3"));
   Asg "s3" (Sub I64 (V "s3") (Shl I64 (V "carry3") 21));
   Asg "carry4" (Shr (V "s4") 21);
   Asg "s5" (Add I64 (V "s5") (V "carry4"));
   Asg "s4" (Sub I64 (V "s4") (Shl I64 (V "carry4") 21));
   Asg "carry5" (Shr (V "s5") 21);
   Asg "s6" (Add I64 (V "s6") (V "carry5"));
   Asg "s5" (Sub I64 (V "s5") (Shl I64 (V "carry5") 21));
   Asg "carry6" (Shr (V "s6") 21);
   Asg "s7" (Add I64 (V "s7") (V "carry6"));
   Asg "s6" (Sub I64 (V "s6") (Shl I64 (V "carry6") 21));
   Asg "carry7" (Shr (V "s7") 21);
   Asg "s8" (Add I64 (V "s8") (V "carry7"));
   Asg "s7" (Sub I64 (V "s7") (Shl I64 (V "carry7") 21));
   Asg "carry8" (Shr (V "s8") 21);
   Asg "s9" (Add I64 (V "s9") (V "carry8"));
   Asg "s8" (Sub I64 (V "s8") (Shl I64 (V "carry8") 21));
   Asg "carry9" (Shr (V "s9") 21);
   Asg "s10" (Add I64 (V "s10") (V "carry9"));
   Asg "s9" (Sub I64 (V "s9") (Shl I64 (V "carry9") 21));
   Asg "carry10" (Shr (V "s10") 21);
   Asg "s11" (Add I64 (V "s11") (V "carry10"));
   Asg "s10" (Sub I64 (V "s10") (Shl I64 (V "carry10") 21));
   Asg "carry11" (Shr (V "s11") 21);
   Asg "s12" (Add I64 (V "s12") (V "carry11"));
   Asg "s11" (Sub I64 (V "s11") (Shl I64 (V "carry11") 21))].

(** scalar.rs 1187-1581 [sc_sub], part 3 (lines 1507-1546). *)
Definition sc_sub_p3 : list stmt :=
  [Asg "s0" (Add I64 (V "s0") (Mul I64 (V "s12") (K 666643)));
   Asg "s1" (Add I64 (V "s1") (Mul I64 (V "s12") (K 470296)));
   Asg "s2" (Add I64 (V "s2") (Mul I64 (V "s12") (K 654183)));
   Asg "s3" (Sub I64 (V "s3") (Mul I64 (V "s12") (K 997805)));
   Asg "s4" (Add I64 (V "s4") (Mul I64 (V "s12") (K 136657)));
   Asg "s5" (Sub I64 (V "s5") (Mul I64 (V "s12") (K 683901)));
   Asg "carry0" (Shr (V "s0") 21);
   Asg "s1" (Add I64 (V "s1") (V "carry0"));
   Asg "s0" (Sub I64 (V "s0") (Shl I64 (V "carry0") 21));
   Asg "carry1" (Shr (V "s1") 21);
   Asg "s2" (Add I64 (V "s2") (V "carry1"));
   Asg "s1" (Sub I64 (V "s1") (Shl I64 (V "carry1") 21));
   Asg "carry2" (Shr (V "s2") 21);
   Asg "s3" (Add I64 (V "s3") (V "carry2"));
   Asg "s2" (Sub I64 (V "s2") (Shl I64 (V "carry2") 21));
   Asg "carry3" (Shr (V "s3") 21);
   Asg "s4" (Add I64 (V "s4") (V "carry3"));
   Asg "s3" (Sub I64 (V "s3") (Shl I64 (V "carry3") 21));
   Asg "carry4" (Shr (V "s4") 21);
   Asg "s5" (Add I64 (V "s5") (V "carry4"));
   Asg "s4" (Sub I64 (V "s4") (Shl I64 (V "carry4") 21));
   Asg "carry5" (Shr (V "s5") 21);
   Asg "s6" (Add I64 (V "s6") (V "carry5"));
   Asg "s5" (Sub I64 (V "s5") (Shl I64 (V "carry5") 21));
   Asg "carry6" (Shr (V "s6") 21);
   Asg "s7" (Add I64 (V "s7") (V "carry6"));
   Asg "s6" (Sub I64 (V "s6") (Shl I64 (V "carry6") 21));
   Asg "carry7" (Shr (V "s7") 21);
   Asg "s8" (Add I64 (V "s8") (V "carry7"));
   Asg "s7" (Sub I64 (V "s7") (Shl I64 (V "carry7") 21));
   Asg "carry8" (Shr (V "s8") 21);
   Asg "s9" (Add I64 (V "s9") (V "carry8"));
   Asg "s8" (Sub I64 (V "s8") (Shl I64 (V "carry8") 21));
   Asg "carry9" (Shr (V "s9") 21);
   Asg "s10" (Add I64 (V "s10") (V "carry9"));
   Asg "s9" (Sub I64 (V "s9") (Shl I64 (V "carry9") 21));
   Asg "carry10" (Shr (V "s10") 21);
   Asg "s11" (Add I64 (V "s11") (V "carry10"));
   Asg "s10" (Sub I64 (V "s10") (Shl I64 (V "carry10") 21))].

Definition sc_sub_prog : list stmt := (sc_sub_p1 ++ sc_sub_p2 ++ sc_sub_p3)%list.

(** scalar.rs 1596-2083 [sc_mul], part 1 (lines 1621-1968). *)
Definition sc_mul_p1 : list stmt :=
  [Asg "c0" (K 0);
   Asg "c1" (K 0);
   Asg "c2" (K 0);
   Asg "c3" (K 0);
   Asg "c4" (K 0);
   Asg "c5" (K 0);
   Asg "c6" (K 0);
   Asg "c7" (K 0);
   Asg "c8" (K 0);
   Asg "c9" (K 0);
   Asg "c10" (K 0);
   Asg "c11" (K 0);
   Asg "s0" (Add I64 (V "c0") (Mul I64 (V "a0") (V "b0")));
   Asg "s1" (Add I64 (Add I64 (V "c1") (Mul I64 (V "a0") (V "b1"))) (Mul I64 (V "a1") (V "b0")));
   Asg "s2" (Add I64 (Add I64 (Add I64 (V "c2") (Mul I64 (V "a0") (V "b2"))) (Mul I64 (V "a1") (V "b1"))) (Mul I64 (V "a2") (V "b0")));
   Asg "s3" (Add I64 (Add I64 (Add I64 (Add I64 (V "c3") (Mul I64 (V "a0") (V "b3"))) (Mul I64 (V "a1") (V "b2"))) (Mul I64 (V "a2") (V "b1"))) (Mul I64 (V "a3") (V "b0")));
   Asg "s4" (Add I64 (Add I64 (Add I64 (Add I64 (Add I64 (V "c4") (Mul I64 (V "a0") (V "b4"))) (Mul I64 (V "a1") (V "b3"))) (Mul I64 (V "a2") (V "b2"))) (Mul I64 (V "a3") (V "b1"))) (Mul I64 (V "a4") (V "b0")));
   Asg "s5" (Add I64 (Add I64 (Add I64 (Add I64 (Add I64 (Add I64 (V "c5") (Mul I64 (V "a0") (V "b5"))) (Mul I64 (V "a1") (V "b4"))) (Mul I64 (V "a2") (V "b3"))) (Mul I64 (V "a3") (V "b2"))) (Mul I64 (V "a4") (V "b1"))) (Mul I64 (V "a5") (V "b0")));
   Asg "s6" (Add I64 (Add I64 (Add I64 (Add I64 (Add I64 (Add I64 (Add I64 (V "c6") (Mul I64 (V "a0") (V "b6"))) (Mul I64 (V "a1") (V "b5"))) (Mul I64 (V "a2") (V "b4"))) (Mul I64 (V "a3") (V "b3"))) (Mul I64 (V "a4") (V "b2"))) (Mul I64 (V "a5") (V "b1"))) (Mul I64 (V "a6") (V "b0")));
   Asg "s7" (Add I64 (Add I64 (Add I64 (Add I64 (Add I64 (Add I64 (Add I64 (Add I64 (V "c7") (Mul I64 (V "a0") (V "b7"))) (Mul I64 (V "a1") (V "b6"))) (Mul I64 (V "a2") (V "b5"))) (Mul I64 (V "a3") (V "b4"))) (Mul I64 (V "a4") (V "b3"))) (Mul I64 (V "a5") (V "b2"))) (Mul I64 (V "a6") (V "b1"))) (Mul I64 (V "a7") (V "b0")));
   Asg "s8" (Add I64 (Add I64 (Add I64 (Add I64 (Add I64 (Add I64 (Add I64 (Add I64 (Add I64 (V "c8") (Mul I64 (V "a0") (V "b8"))) (Mul I64 (V "a1") (V "b7"))) (Mul I64 (V "a2") (V "b6"))) (Mul I64 (V "a3") (V "b5"))) (Mul I64 (V "a4") (V "b4"))) (Mul I64 (V "a5") (V "b3"))) (Mul I64 (V "a6") (V "b2"))) (Mul I64 (V "a7") (V "b1"))) (Mul I64 (V "a8") (V "b0")));
   Asg "s9" (Add I64 (Add I64 (Add I64 (Add I64 (Add I64 (Add I64 (Add I64 (Add I64 (Add I64 (Add I64 (V "c9") (Mul I64 (V "a0") (V "b9"))) (Mul I64 (V "a1") (V "b8"))) (Mul I64 (V "a2") (V "b7"))) (Mul I64 (V "a3") (V "b6"))) (Mul I64 (V "a4") (V "b5"))) (Mul I64 (V "a5") (V "b4"))) (Mul I64 (V "a6") (V "b3"))) (Mul I64 (V "a7") (V "b2"))) (Mul I64 (V "a8") (V "b1"))) (Mul I64 (V "a9") (V "b0")));
   Asg "s10" (Add I64 (Add I64 (Add I64 (Add I64 (Add I64 (Add I64 (Add I64 (Add I64 (Add I64 (Add I64 (Add I64 (V "c10") (Mul I64 (V "a0") (V "b10"))) (Mul I64 (V "a1") (V "b9"))) (Mul I64 (V "a2") (V "b8"))) (Mul I64 (V "a3") (V "b7"))) (Mul I64 (V "a4") (V "b6"))) (Mul I64 (V "a5") (V "b5"))) (Mul I64 (V "a6") (V "b4"))) (Mul I64 (V "a7") (V "b3"))) (Mul I64 (V "a8") (V "b2"))) (Mul I64 (V "a9") (V "b1"))) (Mul I64 (V "a10") (V "b0")));
   Asg "s11" (Add I64 (Add I64 (Add I64 (Add I64 (Add I64 (Add I64 (Add I64 (Add I64 (Add I64 (Add I64 (Add I64 (Add I64 (V "c11") (Mul I64 (V "a0") (V "b11"))) (Mul I64 (V "a1") (V "b10"))) (Mul I64 (V "a2") (V "b9"))) (Mul I64 (V "a3") (V "b8"))) (Mul I64 (V "a4") (V "b7"))) (Mul I64 (V "a5") (V "b6"))) (Mul I64 (V "a6") (V "b5"))) (Mul I64 (V "a7") (V "b4"))) (Mul I64 (V "a8") (V "b3"))) (Mul I64 (V "a9") (V "b2"))) (Mul I64 (V "a10") (V "b1"))) (Mul I64 (V "a11") (V "b0")));
   Asg "s12" (Add I64 (Add I64 (Add I64 (Add I64 (Add I64 (Add I64 (Add I64 (Add I64 (Add I64 (Add I64 (Mul I64 (V "a1") (V "b11")) (Mul I64 (V "a2") (V "b10"))) (Mul I64 (V "a3") (V "b9"))) (Mul I64 (V "a4") (V "b8"))) (Mul I64 (V "a5") (V "b7"))) (Mul I64 (V "a6") (V "b6"))) (Mul I64 (V "a7") (V "b5"))) (Mul I64 (V "a8") (V "b4"))) (Mul I64 (V "a9") (V "b3"))) (Mul I64 (V "a10") (V "b2"))) (Mul I64 (V "a11") (V "b1")));
   Asg "s13" (Add I64 (Add I64 (Add I64 (Add I64 (Add I64 (Add I64 (Add I64 (Add I64 (Add I64 (Mul I64 (V "a2") (V "b11")) (Mul I64 (V "a3") (V "b10"))) (Mul I64 (V "a4") (V "b9"))) (Mul I64 (V "a5") (V "b8"))) (Mul I64 (V "a6") (V "b7"))) (Mul I64 (V "a7") (V "b6"))) (Mul I64 (V "a8") (V "b5"))) (Mul I64 (V "a9") (V "b4"))) (Mul I64 (V "a10") (V "b3"))) (Mul I64 (V "a11") (V "b2")));
   Asg "s14" (Add I64 (Add I64 (Add I64 (Add I64 (Add I64 (Add I64 (Add I64 (Add I64 (Mul I64 (V "a3") (V "b11")) (Mul I64 (V "a4") (V "b10"))) (Mul I64 (V "a5") (V "b9"))) (Mul I64 (V "a6") (V "b8"))) (Mul I64 (V "a7") (V "b7"))) (Mul I64 (V "a8") (V "b6"))) (Mul I64 (V "a9") (V "b5"))) (Mul I64 (V "a10") (V "b4"))) (Mul I64 (V "a11") (V "b3")));
   Asg "s15" (Add I64 (Add I64 (Add I64 (Add I64 (Add I64 (Add I64 (Add I64 (Mul I64 (V "a4") (V "b11")) (Mul I64 (V "a5") (V "b10"))) (Mul I64 (V "a6") (V "b9"))) (Mul I64 (V "a7") (V "b8"))) (Mul I64 (V "a8") (V "b7"))) (Mul I64 (V "a9") (V "b6"))) (Mul I64 (V "a10") (V "b5"))) (Mul I64 (V "a11") (V "b4")));
   Asg "s16" (Add I64 (Add I64 (Add I64 (Add I64 (Add I64 (Add I64 (Mul I64 (V "a5") (V "b11")) (Mul I64 (V "a6") (V "b10"))) (Mul I64 (V "a7") (V "b9"))) (Mul I64 (V "a8") (V "b8"))) (Mul I64 (V "a9") (V "b7"))) (Mul I64 (V "a10") (V "b6"))) (Mul I64 (V "a11") (V "b5")));
   Asg "s17" (Add I64 (Add I64 (Add I64 (Add I64 (Add I64 (Mul I64 (V "a6") (V "b11")) (Mul I64 (V "a7") (V "b10"))) (Mul I64 (V "a8") (V "b9"))) (Mul I64 (V "a9") (V "b8"))) (Mul I64 (V "a10") (V "b7"))) (Mul I64 (V "a11") (V "b6")));
   Asg "s18" (Add I64 (Add I64 (Add I64 (Add I64 (Mul I64 (V "a7") (V "b11")) (Mul I64 (V "a8") (V "b10"))) (Mul I64 (V "a9") (V "b9"))) (Mul I64 (V "a10") (V "b8"))) (Mul I64 (V "a11") (V "b7")));
   Asg "s19" (Add I64 (Add I64 (Add I64 (Mul I64 (V "a8") (V "b11")) (Mul I64 (V "a9") (V "b10"))) (Mul I64 (V "a10") (V "b9"))) (Mul I64 (V "a11") (V "b8")));
   Asg "s20" (Add I64 (Add I64 (Mul I64 (V "a9") (V "b11")) (Mul I64 (V "a10") (V "b10"))) (Mul I64 (V "a11") (V "b9")));
   Asg "s21" (Add I64 (Mul I64 (V "a10") (V "b11")) (Mul I64 (V "a11") (V "b10")));
   Asg "s22" (Mul I64 (V "a11") (V "b11"));
   Asg "s23" (K 0);
   Asg "carry0" (Shr (Add I64 (V "s0") (Shl I64 (K 1) 20)) 21);
   Asg "s1" (Add I64 (V "s1") (V "carry0"));
   Asg "s0" (Sub I64 (V "s0") (Shl I64 (V "carry0") 21));
   Asg "carry2" (Shr (Add I64 (V "s2") (Shl I64 (K 1) 20)) 21);
   Asg "s3" (Add I64 (V "s3") (V "carry2"));
   Asg "s2" (Sub I64 (V "s2") (Shl I64 (V "carry2") 21));
   Asg "carry4" (Shr (Add I64 (V "s4") (Shl I64 (K 1) 20)) 21);
   Asg "s5" (Add I64 (V "s5") (V "carry4"));
   Asg "s4" (Sub I64 (V "s4") (Shl I64 (V "carry4") 21));
   Asg "carry6" (Shr (Add I64 (V "s6") (Shl I64 (K 1) 20)) 21);
   Asg "s7" (Add I64 (V "s7") (V "carry6"));
   Asg "s6" (Sub I64 (V "s6") (Shl I64 (V "carry6") 21));
   Asg "carry8" (Shr (Add I64 (V "s8") (Shl I64 (K 1) 20)) 21);
   Asg "s9" (Add I64 (V "s9") (V "carry8"));
   Asg "s8" (Sub I64 (V "s8") (Shl I64 (V "carry8") 21));
   Asg "carry10" (Shr (Add I64 (V "s10") (Shl I64 (K 1) 20)) 21);
   Asg "s11" (Add I64 (V "s11") (V "carry10"));
   Asg "s10" (Sub I64 (V "s10") (Shl I64 (V "carry10") 21));
   Asg "carry12" (Shr (Add I64 (V "s12") (Shl I64 (K 1) 20)) 21);
   Asg "s13" (Add I64 (V "s13") (V "carry12"));
   Asg "s12" (Sub I64 (V "s12") (Shl I64 (V "carry12") 21));
   Asg "carry14" (Shr (Add I64 (V "s14") (Shl I64 (K 1) 20)) 21);
   Asg "s15" (Add I64 (V "s15") (V "carry14"));
   Asg "s14" (Sub I64 (V "s14") (Shl I64 (V "carry14") 21));
   Asg "carry16" (Shr (Add I64 (V "s16") (Shl I64 (K 1) 20)) 21);
   Asg "s17" (Add I64 (V "s17") (V "carry16"));
   Asg "s16" (Sub I64 (V "s16") (Shl I64 (V "carry16") 21));
   Asg "carry18" (Shr (Add I64 (V "s18") (Shl I64 (K 1) 20)) 21);
   Asg "s19" (Add I64 (V "s19") (V "carry18"));
   Asg "s18" (Sub I64 (V "s18") (Shl I64 (V "carry18") 21));
   Asg "carry20" (Shr (Add I64 (V "s20") (Shl I64 (K 1) 20)) 21);
   Asg "s21" (Add I64 (V "s21") (V "carry20"));
   Asg "s20" (Sub I64 (V "s20") (Shl I64 (V "carry20") 21));
   Asg "carry22" (Shr (Add I64 (V "s22") (Shl I64 (K 1) 20)) 21);
   Asg "s23" (Add I64 (V "s23") (V "carry22"));
   Asg "s22" (Sub I64 (V "s22") (Shl I64 (V "carry22") 21));
   Asg "carry1" (Shr (Add I64 (V "s1") (Shl I64 (K 1) 20)) 21);
   Asg "s2" (Add I64 (V "s2") (V "carry1"));
   Asg "s1" (Sub I64 (V "s1") (Shl I64 (V "carry1") 21));
   Asg "carry3" (Shr (Add I64 (V "s3") (Shl I64 (K 1) 20)) 21);
   Asg "s4" (Add I64 (V "s4") (V "carry3"));
   Asg "s3" (Sub I64 (V "s3") (Shl I64 (V "carry3") 21));
   Asg "carry5" (Shr (Add I64 (V "s5") (Shl I64 (K 1) 20)) 21);
   Asg "s6" (Add I64 (V "s6") (V "carry5"));
   Asg "s5" (Sub I64 (V "s5") (Shl I64 (V "carry5") 21));
   Asg "carry7" (Shr (Add I64 (V "s7") (Shl I64 (K 1) 20)) 21);
   Asg "s8" (Add I64 (V "s8") (V "carry7"));
   Asg "s7" (Sub I64 (V "s7") (Shl I64 (V "carry7") 21));
   Asg "carry9" (Shr (Add I64 (V "s9") (Shl I64 (K 1) 20)) 21);
   Asg "s10" (Add I64 (V "s10") (V "carry9"));
   Asg "s9" (Sub I64 (V "s9") (Shl I64 (V "carry9") 21));
   Asg "carry11" (Shr (Add I64 (V "s11") (Shl I64 (K 1) 20)) 21);
   Asg "s12" (Add I64 (V "s12") (V "carry11"));
   Asg "s11" (Sub I64 (V "s11") (Shl I64 (V "carry11") 21));
   Asg "carry13" (Shr (Add I64 (V "s13") (Shl I64 (K 1) 20)) 21);
   Asg "s14" (Add I64 (V "s14") (V "carry13"));
   Asg "s13" (Sub I64 (V "s13") (Shl I64 (V "carry13") 21));
   Asg "carry15" (Shr (Add I64 (V "s15") (Shl I64 (K 1) 20)) 21);
   Asg "s16" (Add I64 (V "s16") (V "carry15"));
   Asg "s15" (Sub I64 (V "s15") (Shl I64 (V "carry15") 21));
   Asg "carry17" (Shr (Add I64 (V "s17") (Shl I64 (K 1) 20)) 21);
   Asg "s18" (Add I64 (V "s18") (V "carry17"));
   Asg "s17" (Sub I64 (V "s17") (Shl I64 (V "carry17") 21));
   Asg "carry19" (Shr (Add I64 (V "s19") (Shl I64 (K 1) 20)) 21);
   Asg "s20" (Add I64 (V "s20") (V "carry19"));
   Asg "s19" (Sub I64 (V "s19") (Shl I64 (V "carry19") 21));
   Asg "carry21" (Shr (Add I64 (V "s21") (Shl I64 (K 1) 20)) 21);
   Asg "s22" (Add I64 (V "s22") (V "carry21"));
   Asg "s21" (Sub I64 (V "s21") (Shl I64 (V "carry21") 21));
   Asg "s11" (Add I64 (V "s11") (Mul I64 (V "s23") (K 666643)));
   Asg "s12" (Add I64 (V "s12") (Mul I64 (V "s23") (K 470296)));
   Asg "s13" (Add I64 (V "s13") (Mul I64 (V "s23") (K 654183)));
   Asg "s14" (Sub I64 (V "s14") (Mul I64 (V "s23") (K 997805)));
   Asg "s15" (Add I64 (V "s15") (Mul I64 (V "s23") (K 136657)));
   Asg "s16" (Sub I64 (V "s16") (Mul I64 (V "s23") (K 683901)));
   Asg "s10" (Add I64 (V "s10") (Mul I64 (V "s22") (K 666643)));
   Asg "s11" (Add I64 (V "s11") (Mul I64 (V "s22") (K 470296)));
   Asg "s12" (Add I64 (V "s12") (Mul I64 (V "s22") (K 654183)));
   Asg "s13" (Sub I64 (V "s13") (Mul I64 (V "s22") (K 997805)));
   Asg "s14" (Add I64 (V "s14") (Mul I64 (V "s22") (K 136657)));
   Asg "s15" (Sub I64 (V "s15") (Mul I64 (V "s22") (K 683901)));
   Asg "s9" (Add I64 (V "s9") (Mul I64 (V "s21") (K 666643)));
   Asg "s10" (Add I64 (V "s10") (Mul I64 (V "s21") (K 470296)));
   Asg "s11" (Add I64 (V "s11") (Mul I64 (V "s21") (K 654183)));
   Asg "s12" (Sub I64 (V "s12") (Mul I64 (V "s21") (K 997805)));
   Asg "s13" (Add I64 (V "s13") (Mul I64 (V "s21") (K 136657)));
   Asg "s14" (Sub I64 (V "s14") (Mul I64 (V "s21") (K 683901)));
   Asg "s8" (Add I64 (V "s8") (Mul I64 (V "s20") (K 666643)));
   Asg "s9" (Add I64 (V "s9") (Mul I64 (V "s20") (K 470296)));
   Asg "s10" (Add I64 (V "s10") (Mul I64 (V "s20") (K 654183)));
   Asg "s11" (Sub I64 (V "s11") (Mul I64 (V "s20") (K 997805)));
   Asg "s12" (Add I64 (V "s12") (Mul I64 (V "s20") (K 136657)));
   Asg "s13" (Sub I64 (V "s13") (Mul I64 (V "s20") (K 683901)));
   Asg "s7" (Add I64 (V "s7") (Mul I64 (V "s19") (K 666643)));
   Asg "s8" (Add I64 (V "s8") (Mul I64 (V "s19") (K 470296)));
   Asg "s9" (Add I64 (V "s9") (Mul I64 (V "s19") (K 654183)));
   Asg "s10" (Sub I64 (V "s10") (Mul I64 (V "s19") (K 997805)));
   Asg "s11" (Add I64 (V "s11") (Mul I64 (V "s19") (K 136657)));
   Asg "s12" (Sub I64 (V "s12") (Mul I64 (V "s19") (K 683901)));
   Asg "s6" (Add I64 (V "s6") (Mul I64 (V "s18") (K 666643)));
   Asg "s7" (Add I64 (V "s7") (Mul I64 (V "s18") (K 470296)));
   Asg "s8" (Add I64 (V "s8") (Mul I64 (V "s18") (K 654183)));
   Asg "s9" (Sub I64 (V "s9") (Mul I64 (V "s18") (K 997805)));
   Asg "s10" (Add I64 (V "s10") (Mul I64 (V "s18") (K 136657)));
   Asg "s11" (Sub I64 (V "s11") (Mul I64 (V "s18") (K 683901)));
   Asg "carry6" (Shr (Add I64 (V "s6") (Shl I64 (K 1) 20)) 21);
   Asg "s7" (Add I64 (V "s7") (V "carry6"));
   Asg "s6" (Sub I64 (V "s6") (Shl I64 (V "carry6") 21));
   Asg "carry8" (Shr (Add I64 (V "s8") (Shl I64 (K 1) 20)) 21);
   Asg "s9" (Add I64 (V "s9") (V "carry8"));
   Asg "s8" (Sub I64 (V "s8") (Shl I64 (V "carry8") 21));
   Asg "carry10" (Shr (Add I64 (V "s10") (Shl I64 (K 1) 20)) 21);
   Asg "s11" (Add I64 (V "s11") (V "carry10"));
   Asg "s10" (Sub I64 (V "s10") (Shl I64 (V "carry10") 21));
   Asg "carry12" (Shr (Add I64 (V "s12") (Shl I64 (K 1) 20)) 21);
   Asg "s13" (Add I64 (V "s13") (V "carry12"));
   Asg "s12" (Sub I64 (V "s12") (Shl I64 (V "carry12") 21));
   Asg "carry14" (Shr (Add I64 (V "s14") (Shl I64 (K 1) 20)) 21);
   Asg "s15" (Add I64 (V "s15") (V "carry14"));
   Asg "s14" (Sub I64 (V "s14") (Shl I64 (V "carry14") 21));
   Asg "carry16" (Shr (Add I64 (V "s16") (Shl I64 (K 1) 20)) 21);
   Asg "s17" (Add I64 (V "s17") (V "carry16"));
   Asg "s16" (Sub I64 (V "s16") (Shl I64 (V "carry16") 21));
   Asg "carry7" (Shr (Add I64 (V "s7") (Shl I64 (K 1) 20)) 21);
   Asg "s8" (Add I64 (V "s8") (V "carry7"));
   Asg "s7" (Sub I64 (V "s7") (Shl I64 (V "carry7") 21));
   Asg "carry9" (Shr (Add I64 (V "s9") (Shl I64 (K 1) 20)) 21);
   Asg "s10" (Add I64 (V "s10") (V "carry9"));
   Asg "s9" (Sub I64 (V "s9") (Shl I64 (V "carry9") 21));
   Asg "carry11" (Shr (Add I64 (V "s11") (Shl I64 (K 1) 20)) 21);
   Asg "s12" (Add I64 (V "s12") (V "carry11"));
   Asg "s11" (Sub I64 (V "s11") (Shl I64 (V "carry11") 21));
   Asg "carry13" (Shr (Add I64 (V "s13") (Shl I64 (K 1) 20)) 21);
   Asg "s14" (Add I64 (V "s14") (V "carry13"));
   Asg "s13" (Sub I64 (V "s13") (Shl I64 (V "carry13") 21));
   Asg "carry15" (Shr (Add I64 (V "s15") (Shl I64 (K 1) 20)) 21);
   Asg "s16" (Add I64 (V "s16") (V "carry15"));
   Asg "s15" (Sub I64 (V "s15") (Shl I64 (V "carry15") 21));
   Asg "s5" (Add I64 (V "s5") (Mul I64 (V "s17") (K 666643)));
   Asg "s6" (Add I64 (V "s6") (Mul I64 (V "s17") (K 470296)));
   Asg "s7" (Add I64 (V "s7") (Mul I64 (V "s17") (K 654183)));
   Asg "s8" (Sub I64 (V "s8") (Mul I64 (V "s17") (K 997805)));
   Asg "s9" (Add I64 (V "s9") (Mul I64 (V "s17") (K 136657)));
   Asg "s10" (Sub I64 (V "s10") (Mul I64 (V "s17") (K 683901)));
   Asg "s4" (Add I64 (V "s4") (Mul I64 (V "s16") (K 666643)));
   Asg "s5" (Add I64 (V "s5") (Mul I64 (V "s16") (K 470296)));
   Asg "s6" (Add I64 (V "s6") (Mul I64 (V "s16") (K 654183)));
   Asg "s7" (Sub I64 (V "s7") (Mul I64 (V "s16") (K 997805)));
   Asg "s8" (Add I64 (V "s8") (Mul I64 (V "s16") (K 136657)));
   Asg "s9" (Sub I64 (V "s9") (Mul I64 (V "s16") (K 683901)));
   Asg "s3" (Add I64 (V "s3") (Mul I64 (V "s15") (K 666643)));
   Asg "s4" (Add I64 (V "s4") (Mul I64 (V "s15") (K 470296)));
   Asg "s5" (Add I64 (V "s5") (Mul I64 (V "s15") (K 654183)));
   Asg "s6" (Sub I64 (V "s6") (Mul I64 (V "s15") (K 997805)));
   Asg "s7" (Add I64 (V "s7") (Mul I64 (V "s15") (K 136657)));
   Asg "s8" (Sub I64 (V "s8") (Mul I64 (V "s15") (K 683901)));
   Asg "s2" (Add I64 (V "s2") (Mul I64 (V "s14") (K 666643)));
   Asg "s3" (Add I64 (V "s3") (Mul I64 (V "s14") (K 470296)));
   Asg "s4" (Add I64 (V "s4") (Mul I64 (V "s14") (K 654183)));
   Asg "s5" (Sub I64 (V "s5") (Mul I64 (V "s14") (K 997805)));
   Asg "s6" (Add I64 (V "s6") (Mul I64 (V "s14") (K 136657)));
   Asg "s7" (Sub I64 (V "s7") (Mul I64 (V "s14") (K 683901)));
   Asg "s1" (Add I64 (V "s1") (Mul I64 (V "s13") (K 666643)));
   Asg "s2" (Add I64 (V "s2") (Mul I64 (V "s13") (K 470296)));
   Asg "s3" (Add I64 (V "s3") (Mul I64 (V "s13") (K 654183)));
   Asg "s4" (Sub I64 (V "s4") (Mul I64 (V "s13") (K 997805)));
   Asg "s5" (Add I64 (V "s5") (Mul I64 (V "s13") (K 136657)));
   Asg "s6" (Sub I64 (V "s6") (Mul I64 (V "s13") (K 683901)));
   Asg "s0" (Add I64 (V "s0") (Mul I64 (V "s12") (K 666643)));
   Asg "s1" (Add I64 (V "s1") (Mul I64 (V "s12") (K 470296)));
   Asg "s2" (Add I64 (V "s2") (Mul I64 (V "s12") (K 654183)));
   Asg "s3" (Sub I64 (V "s3") (Mul I64 (V "s12") (K 997805)));
   Asg "s4" (Add I64 (V "s4") (Mul I64 (V "s12") (K 136657)));
   Asg "s5" (Sub I64 (V "s5") (Mul I64 (V "s12") (K 683901)));
   Asg "s12" (K 0);
   Asg "carry0" (Shr (Add I64 (V "s0") (Shl I64 (K 1) 20)) 21);
   Asg "s1" (Add I64 (V "s1") (V "carry0"));
   Asg "s0" (Sub I64 (V "s0") (Shl I64 (V "carry0") 21));
   Asg "carry2" (Shr (Add I64 (V "s2") (Shl I64 (K 1) 20)) 21);
   Asg "s3" (Add I64 (V "s3") (V "carry2"));
   Asg "s2" (Sub I64 (V "s2") (Shl I64 (V "carry2") 21));
   Asg "carry4" (Shr (Add I64 (V "s4") (Shl I64 (K 1) 20)) 21);
   Asg "s5" (Add I64 (V "s5") (V "carry4"));
   Asg "s4" (Sub I64 (V "s4") (Shl I64 (V "carry4") 21));
   Asg "carry6" (Shr (Add I64 (V "s6") (Shl I64 (K 1) 20)) 21);
   Asg "s7" (Add I64 (V "s7") (V "carry6"));
   Asg "s6" (Sub I64 (V "s6") (Shl I64 (V "carry6") 21));
   Asg "carry8" (Shr (Add I64 (V "s8") (Shl I64 (K 1) 20)) 21);
   Asg "s9" (Add I64 (V "s9") (V "carry8"));
   Asg "s8" (Sub I64 (V "s8") (Shl I64 (V "carry8") 21));
   Asg "carry10" (Shr (Add I64 (V "s10") (Shl I64 (K 1) 20)) 21);
   Asg "s11" (Add I64 (V "s11") (V "carry10"));
   Asg "s10" (Sub I64 (V "s10") (Shl I64 (V "carry10") 21));
   Asg "carry1" (Shr (Add I64 (V "s1") (Shl I64 (K 1) 20)) 21);
   Asg "s2" (Add I64 (V "s2") (V "carry1"));
   Asg "s1" (Sub I64 (V "s1") (Shl I64 (V "carry1") 21));
   Asg "carry3" (Shr (Add I64 (V "s3") (Shl I64 (K 1) 20)) 21);
   Asg "s4" (Add I64 (V "s4") (V "carry3"));
   Asg "s3" (Sub I64 (V "s3") (Shl I64 (V "carry3") 21));
   Asg "carry5" (Shr (Add I64 (V "s5") (Shl I64 (K 1) 20)) 21);
   Asg "s6" (Add I64 (V "s6") (V "carry5"));
   Asg "s5" (Sub I64 (V "s5") (Shl I64 (V "carry5") 21));
   Asg "carry7" (Shr (Add I64 (V "s7") (Shl I64 (K 1) 20)) 21);
   Asg "s8" (Add I64 (V "s8") (V "carry7"));
   Asg "s7" (Sub I64 (V "s7") (Shl I64 (V "carry7") 21));
   Asg "carry9" (Shr (Add I64 (V "s9") (Shl I64 (K 1) 20)) 21);
   Asg "s10" (Add I64 (V "s10") (V "carry9"));
   Asg "s9" (Sub I64 (V "s9") (Shl I64 (V "carry9") 21));
   Asg "carry11" (Shr (Add I64 (V "s11") (Shl I64 (K 1) 20)) 21);
   Asg "s12" (Add I64 (V "s12") (V "carry11"));
   Asg "s11" (Sub I64 (V "s11") (Shl I64 (V "carry11") 21));
   Asg "s0" (Add I64 (V "s0") (Mul I64 (V "s12") (K 666643)));
   Asg "s1" (Add I64 (V "s1") (Mul I64 (V "s12") (K 470296)));
   Asg "s2" (Add I64 (V "s2") (Mul I64 (V "s12") (K 654183)));
   Asg "s3" (Sub I64 (V "s3") (Mul I64 (V "s12") (K 997805)));
   Asg "s4" (Add I64 (V "s4") (Mul I64 (V "s12") (K 136657)));
   Asg "s5" (Sub I64 (V "s5") (Mul I64 (V "s12") (K 683901)));
   Asg "s12" (K 0)].

(** scalar.rs 1596-2083 [sc_mul], part 2 (lines 1970-2005). *)
Definition sc_mul_p2 : list stmt :=
  [Asg "carry0" (Shr (V "s0") 21);
   Asg "s1" (Add I64 (V "s1") (V "carry0"));
   Asg "s0" (Sub I64 (V "s0") (Shl I64 (V "carry0") 21));
   Asg "carry1" (Shr (V "s1") 21);
   Asg "s2" (Add I64 (V "s2") (V "carry1"));
   Asg "s1" (Sub I64 (V "s1") (Shl I64 (V "carry1") 21));
   Asg "carry2" (Shr (V "s2") 21);
   Asg "s3" (Add I64 (V "s3") (V "carry2"));
   Asg "s2" (Sub I64 (V "s2") (Shl I64 (V "carry2") 21));
   Asg "carry3" (Shr (V "s3") 21);
   Asg "s4" (Add I64 (V "s4") (V "carry3"));
   Asg "s3" (Sub I64 (V "s3") (Shl I64 (V "carry3") 21));
   Asg "carry4" (Shr (V "s4") 21);
   Asg "s5" (Add I64 (V "s5") (V "carry4"));
   Asg "s4" (Sub I64 (V "s4") (Shl I64 (V "carry4") 21));
   Asg "carry5" (Shr (V "s5") 21);
   Asg "s6" (Add I64 (V "s6") (V "carry5"));
   Asg "s5" (Sub I64 (V "s5") (Shl I64 (V "carry5") 21));
   Asg "carry6" (Shr (V "s6") 21);
   Asg "s7" (Add I64 (V "s7") (V "carry6"));
   Asg "s6" (Sub I64 (V "s6") (Shl I64 (V "carry6") 21));
   Asg "carry7" (Shr (V "s7") 21);
   Asg "s8" (Add I64 (V "s8") (V "carry7"));
   Asg "s7" (Sub I64 (V "s7") (Shl I64 (V "carry7") 21));
   Asg "carry8" (Shr (V "s8") 21);
   Asg "s9" (Add I64 (V "s9") (V "carry8"));
   Asg "s8" (Sub I64 (V "s8") (Shl I64 (V "carry8") 21));
   Asg "carry9" (Shr (V "s9") 21);
   Asg "s10" (Add I64 (V "s10") (V "carry9"));
   Asg "s9" (Sub I64 (V "s9") (Shl I64 (V "carry9") 21));
   Asg "carry10" (Shr (V "s10") 21);
   Asg "s11" (Add I64 (V "s11") (V "carry10"));
   Asg "s10" (Sub I64 (V "s10") (Shl I64 (V "carry10") 21));
   Asg "carry11" (Shr (V "s11") 21);
   Asg "s12" (Add I64 (V "s12") (V "carry11"));
   Asg "s11" (Sub I64 (V "s11") (Shl I64 (V "carry11") 21))].

(** scalar.rs 1596-2083 [sc_mul], part 3 (lines 2007-2047). *)
Definition sc_mul_p3 : list stmt :=
  [Asg "s0" (Add I64 (V "s0") (Mul I64 (V "s12") (K 666643)));
   Asg "s1" (Add I64 (V "s1") (Mul I64 (V "s12") (K 470296)));
   Asg "s2" (Add I64 (V "s2") (Mul I64 (V "s12") (K 654183)));
   Asg "s3" (Sub I64 (V "s3") (Mul I64 (V "s12") (K 997805)));
   Asg "s4" (Add I64 (V "s4") (Mul I64 (V "s12") (K 136657)));
   Asg "s5" (Sub I64 (V "s5") (Mul I64 (V "s12") (K 683901)));
   Asg "carry0" (Shr (V "s0") 21);
   Asg "s1" (Add I64 (V "s1") (V "carry0"));
   Asg "s0" (Sub I64 (V "s0") (Shl I64 (V "carry0") 21));
   Asg "carry1" (Shr (V "s1") 21);
   Asg "s2" (Add I64 (V "s2") (V "carry1"));
   Asg "s1" (Sub I64 (V "s1") (Shl I64 (V "carry1") 21));
   Asg "carry2" (Shr (V "s2") 21);
   Asg "s3" (Add I64 (V "s3") (V "carry2"));
   Asg "s2" (Sub I64 (V "s2") (Shl I64 (V "carry2") 21));
   Asg "carry3" (Shr (V "s3") 21);
   Asg "s4" (Add I64 (V "s4") (V "carry3"));
   Asg "s3" (Sub I64 (V "s3") (Shl I64 (V "carry3") 21));
   Asg "carry4" (Shr (V "s4") 21);
   Asg "s5" (Add I64 (V "s5") (V "carry4"));
   Asg "s4" (Sub I64 (V "s4") (Shl I64 (V "carry4") 21));
   Asg "carry5" (Shr (V "s5") 21);
   Asg "s6" (Add I64 (V "s6") (V "carry5"));
   Asg "s5" (Sub I64 (V "s5") (Shl I64 (V "carry5") 21));
   Asg "carry6" (Shr (V "s6") 21);
   Asg "s7" (Add I64 (V "s7") (V "carry6"));
   Asg "s6" (Sub I64 (V "s6") (Shl I64 (V "carry6") 21));
   Asg "carry7" (Shr (V "s7") 21);
   Asg "s8" (Add I64 (V "s8") (V "carry7"));
   Asg "s7" (Sub I64 (V "s7") (Shl I64 (V "carry7") 21));
   Asg "carry8" (Shr (V "s8") 21);
   Asg "s9" (Add I64 (V "s9") (V "carry8"));
   Asg "s8" (Sub I64 (V "s8") (Shl I64 (V "carry8") 21));
   Asg "carry9" (Shr (V "s9") 21);
   Asg "s10" (Add I64 (V "s10") (V "carry9"));
   Asg "s9" (Sub I64 (V "s9") (Shl I64 (V "carry9") 21));
   Asg "carry10" (Shr (V "s10") 21);
   Asg "s11" (Add I64 (V "s11") (V "carry10"));
   Asg "s10" (Sub I64 (V "s10") (Shl I64 (V "carry10") 21))].

Definition sc_mul_prog : list stmt := (sc_mul_p1 ++ sc_mul_p2 ++ sc_mul_p3)%list.
