(** Generated from src/group/edwards25519/fe.rs by a statement-by-statement translation: the limb programs of fe_mul,
    fe_square, fe_square2, fe_from_bytes and fe_to_bytes.  Array element h[3] of the result is the variable "out3" in
    the first four (the locals are called h0..h9 there) and "h3" in fe_to_bytes. *)
From Coq Require Import ZArith List String.
From Verif Require Import Base Bytes Limb ScLimbs.
Import ListNotations.
Local Open Scope Z_scope.

(** fe.rs 299-535 [fe_mul]. *)
Definition fe_mul_prog : list stmt :=
  [Asg "g1_19" (Mul I32 (K 19) (V "g1"));
   Asg "g2_19" (Mul I32 (K 19) (V "g2"));
   Asg "g3_19" (Mul I32 (K 19) (V "g3"));
   Asg "g4_19" (Mul I32 (K 19) (V "g4"));
   Asg "g5_19" (Mul I32 (K 19) (V "g5"));
   Asg "g6_19" (Mul I32 (K 19) (V "g6"));
   Asg "g7_19" (Mul I32 (K 19) (V "g7"));
   Asg "g8_19" (Mul I32 (K 19) (V "g8"));
   Asg "g9_19" (Mul I32 (K 19) (V "g9"));
   Asg "f1_2" (Mul I32 (K 2) (V "f1"));
   Asg "f3_2" (Mul I32 (K 2) (V "f3"));
   Asg "f5_2" (Mul I32 (K 2) (V "f5"));
   Asg "f7_2" (Mul I32 (K 2) (V "f7"));
   Asg "f9_2" (Mul I32 (K 2) (V "f9"));
   Asg "f0g0" (Mul I64 (Cast I64 (V "f0")) (Cast I64 (V "g0")));
   Asg "f0g1" (Mul I64 (Cast I64 (V "f0")) (Cast I64 (V "g1")));
   Asg "f0g2" (Mul I64 (Cast I64 (V "f0")) (Cast I64 (V "g2")));
   Asg "f0g3" (Mul I64 (Cast I64 (V "f0")) (Cast I64 (V "g3")));
   Asg "f0g4" (Mul I64 (Cast I64 (V "f0")) (Cast I64 (V "g4")));
   Asg "f0g5" (Mul I64 (Cast I64 (V "f0")) (Cast I64 (V "g5")));
   Asg "f0g6" (Mul I64 (Cast I64 (V "f0")) (Cast I64 (V "g6")));
   Asg "f0g7" (Mul I64 (Cast I64 (V "f0")) (Cast I64 (V "g7")));
   Asg "f0g8" (Mul I64 (Cast I64 (V "f0")) (Cast I64 (V "g8")));
   Asg "f0g9" (Mul I64 (Cast I64 (V "f0")) (Cast I64 (V "g9")));
   Asg "f1g0" (Mul I64 (Cast I64 (V "f1")) (Cast I64 (V "g0")));
   Asg "f1g1_2" (Mul I64 (Cast I64 (V "f1_2")) (Cast I64 (V "g1")));
   Asg "f1g2" (Mul I64 (Cast I64 (V "f1")) (Cast I64 (V "g2")));
   Asg "f1g3_2" (Mul I64 (Cast I64 (V "f1_2")) (Cast I64 (V "g3")));
   Asg "f1g4" (Mul I64 (Cast I64 (V "f1")) (Cast I64 (V "g4")));
   Asg "f1g5_2" (Mul I64 (Cast I64 (V "f1_2")) (Cast I64 (V "g5")));
   Asg "f1g6" (Mul I64 (Cast I64 (V "f1")) (Cast I64 (V "g6")));
   Asg "f1g7_2" (Mul I64 (Cast I64 (V "f1_2")) (Cast I64 (V "g7")));
   Asg "f1g8" (Mul I64 (Cast I64 (V "f1")) (Cast I64 (V "g8")));
   Asg "f1g9_38" (Mul I64 (Cast I64 (V "f1_2")) (Cast I64 (V "g9_19")));
   Asg "f2g0" (Mul I64 (Cast I64 (V "f2")) (Cast I64 (V "g0")));
   Asg "f2g1" (Mul I64 (Cast I64 (V "f2")) (Cast I64 (V "g1")));
   Asg "f2g2" (Mul I64 (Cast I64 (V "f2")) (Cast I64 (V "g2")));
   Asg "f2g3" (Mul I64 (Cast I64 (V "f2")) (Cast I64 (V "g3")));
   Asg "f2g4" (Mul I64 (Cast I64 (V "f2")) (Cast I64 (V "g4")));
   Asg "f2g5" (Mul I64 (Cast I64 (V "f2")) (Cast I64 (V "g5")));
   Asg "f2g6" (Mul I64 (Cast I64 (V "f2")) (Cast I64 (V "g6")));
   Asg "f2g7" (Mul I64 (Cast I64 (V "f2")) (Cast I64 (V "g7")));
   Asg "f2g8_19" (Mul I64 (Cast I64 (V "f2")) (Cast I64 (V "g8_19")));
   Asg "f2g9_19" (Mul I64 (Cast I64 (V "f2")) (Cast I64 (V "g9_19")));
   Asg "f3g0" (Mul I64 (Cast I64 (V "f3")) (Cast I64 (V "g0")));
   Asg "f3g1_2" (Mul I64 (Cast I64 (V "f3_2")) (Cast I64 (V "g1")));
   Asg "f3g2" (Mul I64 (Cast I64 (V "f3")) (Cast I64 (V "g2")));
   Asg "f3g3_2" (Mul I64 (Cast I64 (V "f3_2")) (Cast I64 (V "g3")));
   Asg "f3g4" (Mul I64 (Cast I64 (V "f3")) (Cast I64 (V "g4")));
   Asg "f3g5_2" (Mul I64 (Cast I64 (V "f3_2")) (Cast I64 (V "g5")));
   Asg "f3g6" (Mul I64 (Cast I64 (V "f3")) (Cast I64 (V "g6")));
   Asg "f3g7_38" (Mul I64 (Cast I64 (V "f3_2")) (Cast I64 (V "g7_19")));
   Asg "f3g8_19" (Mul I64 (Cast I64 (V "f3")) (Cast I64 (V "g8_19")));
   Asg "f3g9_38" (Mul I64 (Cast I64 (V "f3_2")) (Cast I64 (V "g9_19")));
   Asg "f4g0" (Mul I64 (Cast I64 (V "f4")) (Cast I64 (V "g0")));
   Asg "f4g1" (Mul I64 (Cast I64 (V "f4")) (Cast I64 (V "g1")));
   Asg "f4g2" (Mul I64 (Cast I64 (V "f4")) (Cast I64 (V "g2")));
   Asg "f4g3" (Mul I64 (Cast I64 (V "f4")) (Cast I64 (V "g3")));
   Asg "f4g4" (Mul I64 (Cast I64 (V "f4")) (Cast I64 (V "g4")));
   Asg "f4g5" (Mul I64 (Cast I64 (V "f4")) (Cast I64 (V "g5")));
   Asg "f4g6_19" (Mul I64 (Cast I64 (V "f4")) (Cast I64 (V "g6_19")));
   Asg "f4g7_19" (Mul I64 (Cast I64 (V "f4")) (Cast I64 (V "g7_19")));
   Asg "f4g8_19" (Mul I64 (Cast I64 (V "f4")) (Cast I64 (V "g8_19")));
   Asg "f4g9_19" (Mul I64 (Cast I64 (V "f4")) (Cast I64 (V "g9_19")));
   Asg "f5g0" (Mul I64 (Cast I64 (V "f5")) (Cast I64 (V "g0")));
   Asg "f5g1_2" (Mul I64 (Cast I64 (V "f5_2")) (Cast I64 (V "g1")));
   Asg "f5g2" (Mul I64 (Cast I64 (V "f5")) (Cast I64 (V "g2")));
   Asg "f5g3_2" (Mul I64 (Cast I64 (V "f5_2")) (Cast I64 (V "g3")));
   Asg "f5g4" (Mul I64 (Cast I64 (V "f5")) (Cast I64 (V "g4")));
   Asg "f5g5_38" (Mul I64 (Cast I64 (V "f5_2")) (Cast I64 (V "g5_19")));
   Asg "f5g6_19" (Mul I64 (Cast I64 (V "f5")) (Cast I64 (V "g6_19")));
   Asg "f5g7_38" (Mul I64 (Cast I64 (V "f5_2")) (Cast I64 (V "g7_19")));
   Asg "f5g8_19" (Mul I64 (Cast I64 (V "f5")) (Cast I64 (V "g8_19")));
   Asg "f5g9_38" (Mul I64 (Cast I64 (V "f5_2")) (Cast I64 (V "g9_19")));
   Asg "f6g0" (Mul I64 (Cast I64 (V "f6")) (Cast I64 (V "g0")));
   Asg "f6g1" (Mul I64 (Cast I64 (V "f6")) (Cast I64 (V "g1")));
   Asg "f6g2" (Mul I64 (Cast I64 (V "f6")) (Cast I64 (V "g2")));
   Asg "f6g3" (Mul I64 (Cast I64 (V "f6")) (Cast I64 (V "g3")));
   Asg "f6g4_19" (Mul I64 (Cast I64 (V "f6")) (Cast I64 (V "g4_19")));
   Asg "f6g5_19" (Mul I64 (Cast I64 (V "f6")) (Cast I64 (V "g5_19")));
   Asg "f6g6_19" (Mul I64 (Cast I64 (V "f6")) (Cast I64 (V "g6_19")));
   Asg "f6g7_19" (Mul I64 (Cast I64 (V "f6")) (Cast I64 (V "g7_19")));
   Asg "f6g8_19" (Mul I64 (Cast I64 (V "f6")) (Cast I64 (V "g8_19")));
   Asg "f6g9_19" (Mul I64 (Cast I64 (V "f6")) (Cast I64 (V "g9_19")));
   Asg "f7g0" (Mul I64 (Cast I64 (V "f7")) (Cast I64 (V "g0")));
   Asg "f7g1_2" (Mul I64 (Cast I64 (V "f7_2")) (Cast I64 (V "g1")));
   Asg "f7g2" (Mul I64 (Cast I64 (V "f7")) (Cast I64 (V "g2")));
   Asg "f7g3_38" (Mul I64 (Cast I64 (V "f7_2")) (Cast I64 (V "g3_19")));
   Asg "f7g4_19" (Mul I64 (Cast I64 (V "f7")) (Cast I64 (V "g4_19")));
   Asg "f7g5_38" (Mul I64 (Cast I64 (V "f7_2")) (Cast I64 (V "g5_19")));
   Asg "f7g6_19" (Mul I64 (Cast I64 (V "f7")) (Cast I64 (V "g6_19")));
   Asg "f7g7_38" (Mul I64 (Cast I64 (V "f7_2")) (Cast I64 (V "g7_19")));
   Asg "f7g8_19" (Mul I64 (Cast I64 (V "f7")) (Cast I64 (V "g8_19")));
   Asg "f7g9_38" (Mul I64 (Cast I64 (V "f7_2")) (Cast I64 (V "g9_19")));
   Asg "f8g0" (Mul I64 (Cast I64 (V "f8")) (Cast I64 (V "g0")));
   Asg "f8g1" (Mul I64 (Cast I64 (V "f8")) (Cast I64 (V "g1")));
   Asg "f8g2_19" (Mul I64 (Cast I64 (V "f8")) (Cast I64 (V "g2_19")));
   Asg "f8g3_19" (Mul I64 (Cast I64 (V "f8")) (Cast I64 (V "g3_19")));
   Asg "f8g4_19" (Mul I64 (Cast I64 (V "f8")) (Cast I64 (V "g4_19")));
   Asg "f8g5_19" (Mul I64 (Cast I64 (V "f8")) (Cast I64 (V "g5_19")));
   Asg "f8g6_19" (Mul I64 (Cast I64 (V "f8")) (Cast I64 (V "g6_19")));
   Asg "f8g7_19" (Mul I64 (Cast I64 (V "f8")) (Cast I64 (V "g7_19")));
   Asg "f8g8_19" (Mul I64 (Cast I64 (V "f8")) (Cast I64 (V "g8_19")));
   Asg "f8g9_19" (Mul I64 (Cast I64 (V "f8")) (Cast I64 (V "g9_19")));
   Asg "f9g0" (Mul I64 (Cast I64 (V "f9")) (Cast I64 (V "g0")));
   Asg "f9g1_38" (Mul I64 (Cast I64 (V "f9_2")) (Cast I64 (V "g1_19")));
   Asg "f9g2_19" (Mul I64 (Cast I64 (V "f9")) (Cast I64 (V "g2_19")));
   Asg "f9g3_38" (Mul I64 (Cast I64 (V "f9_2")) (Cast I64 (V "g3_19")));
   Asg "f9g4_19" (Mul I64 (Cast I64 (V "f9")) (Cast I64 (V "g4_19")));
   Asg "f9g5_38" (Mul I64 (Cast I64 (V "f9_2")) (Cast I64 (V "g5_19")));
   Asg "f9g6_19" (Mul I64 (Cast I64 (V "f9")) (Cast I64 (V "g6_19")));
   Asg "f9g7_38" (Mul I64 (Cast I64 (V "f9_2")) (Cast I64 (V "g7_19")));
   Asg "f9g8_19" (Mul I64 (Cast I64 (V "f9")) (Cast I64 (V "g8_19")));
   Asg "f9g9_38" (Mul I64 (Cast I64 (V "f9_2")) (Cast I64 (V "g9_19")));
   Asg "h0" (Add I64 (Add I64 (Add I64 (Add I64 (Add I64 (Add I64 (Add I64 (Add I64 (Add I64 (V "f0g0") (V "f1g9_38")) (V "f2g8_19")) (V "f3g7_38")) (V "f4g6_19")) (V "f5g5_38")) (V "f6g4_19")) (V "f7g3_38")) (V "f8g2_19")) (V "f9g1_38"));
   Asg "h1" (Add I64 (Add I64 (Add I64 (Add I64 (Add I64 (Add I64 (Add I64 (Add I64 (Add I64 (V "f0g1") (V "f1g0")) (V "f2g9_19")) (V "f3g8_19")) (V "f4g7_19")) (V "f5g6_19")) (V "f6g5_19")) (V "f7g4_19")) (V "f8g3_19")) (V "f9g2_19"));
   Asg "h2" (Add I64 (Add I64 (Add I64 (Add I64 (Add I64 (Add I64 (Add I64 (Add I64 (Add I64 (V "f0g2") (V "f1g1_2")) (V "f2g0")) (V "f3g9_38")) (V "f4g8_19")) (V "f5g7_38")) (V "f6g6_19")) (V "f7g5_38")) (V "f8g4_19")) (V "f9g3_38"));
   Asg "h3" (Add I64 (Add I64 (Add I64 (Add I64 (Add I64 (Add I64 (Add I64 (Add I64 (Add I64 (V "f0g3") (V "f1g2")) (V "f2g1")) (V "f3g0")) (V "f4g9_19")) (V "f5g8_19")) (V "f6g7_19")) (V "f7g6_19")) (V "f8g5_19")) (V "f9g4_19"));
   Asg "h4" (Add I64 (Add I64 (Add I64 (Add I64 (Add I64 (Add I64 (Add I64 (Add I64 (Add I64 (V "f0g4") (V "f1g3_2")) (V "f2g2")) (V "f3g1_2")) (V "f4g0")) (V "f5g9_38")) (V "f6g8_19")) (V "f7g7_38")) (V "f8g6_19")) (V "f9g5_38"));
   Asg "h5" (Add I64 (Add I64 (Add I64 (Add I64 (Add I64 (Add I64 (Add I64 (Add I64 (Add I64 (V "f0g5") (V "f1g4")) (V "f2g3")) (V "f3g2")) (V "f4g1")) (V "f5g0")) (V "f6g9_19")) (V "f7g8_19")) (V "f8g7_19")) (V "f9g6_19"));
   Asg "h6" (Add I64 (Add I64 (Add I64 (Add I64 (Add I64 (Add I64 (Add I64 (Add I64 (Add I64 (V "f0g6") (V "f1g5_2")) (V "f2g4")) (V "f3g3_2")) (V "f4g2")) (V "f5g1_2")) (V "f6g0")) (V "f7g9_38")) (V "f8g8_19")) (V "f9g7_38"));
   Asg "h7" (Add I64 (Add I64 (Add I64 (Add I64 (Add I64 (Add I64 (Add I64 (Add I64 (Add I64 (V "f0g7") (V "f1g6")) (V "f2g5")) (V "f3g4")) (V "f4g3")) (V "f5g2")) (V "f6g1")) (V "f7g0")) (V "f8g9_19")) (V "f9g8_19"));
   Asg "h8" (Add I64 (Add I64 (Add I64 (Add I64 (Add I64 (Add I64 (Add I64 (Add I64 (Add I64 (V "f0g8") (V "f1g7_2")) (V "f2g6")) (V "f3g5_2")) (V "f4g4")) (V "f5g3_2")) (V "f6g2")) (V "f7g1_2")) (V "f8g0")) (V "f9g9_38"));
   Asg "h9" (Add I64 (Add I64 (Add I64 (Add I64 (Add I64 (Add I64 (Add I64 (Add I64 (Add I64 (V "f0g9") (V "f1g8")) (V "f2g7")) (V "f3g6")) (V "f4g5")) (V "f5g4")) (V "f6g3")) (V "f7g2")) (V "f8g1")) (V "f9g0"));
   Asg "carry0" (Shr (Add I64 (V "h0") (K 33554432)) 26);
   Asg "h1" (Add I64 (V "h1") (V "carry0"));
   Asg "h0" (Sub I64 (V "h0") (Shl I64 (V "carry0") 26));
   Asg "carry4" (Shr (Add I64 (V "h4") (K 33554432)) 26);
   Asg "h5" (Add I64 (V "h5") (V "carry4"));
   Asg "h4" (Sub I64 (V "h4") (Shl I64 (V "carry4") 26));
   Asg "carry1" (Shr (Add I64 (V "h1") (K 16777216)) 25);
   Asg "h2" (Add I64 (V "h2") (V "carry1"));
   Asg "h1" (Sub I64 (V "h1") (Shl I64 (V "carry1") 25));
   Asg "carry5" (Shr (Add I64 (V "h5") (K 16777216)) 25);
   Asg "h6" (Add I64 (V "h6") (V "carry5"));
   Asg "h5" (Sub I64 (V "h5") (Shl I64 (V "carry5") 25));
   Asg "carry2" (Shr (Add I64 (V "h2") (K 33554432)) 26);
   Asg "h3" (Add I64 (V "h3") (V "carry2"));
   Asg "h2" (Sub I64 (V "h2") (Shl I64 (V "carry2") 26));
   Asg "carry6" (Shr (Add I64 (V "h6") (K 33554432)) 26);
   Asg "h7" (Add I64 (V "h7") (V "carry6"));
   Asg "h6" (Sub I64 (V "h6") (Shl I64 (V "carry6") 26));
   Asg "carry3" (Shr (Add I64 (V "h3") (K 16777216)) 25);
   Asg "h4" (Add I64 (V "h4") (V "carry3"));
   Asg "h3" (Sub I64 (V "h3") (Shl I64 (V "carry3") 25));
   Asg "carry7" (Shr (Add I64 (V "h7") (K 16777216)) 25);
   Asg "h8" (Add I64 (V "h8") (V "carry7"));
   Asg "h7" (Sub I64 (V "h7") (Shl I64 (V "carry7") 25));
   Asg "carry4" (Shr (Add I64 (V "h4") (K 33554432)) 26);
   Asg "h5" (Add I64 (V "h5") (V "carry4"));
   Asg "h4" (Sub I64 (V "h4") (Shl I64 (V "carry4") 26));
   Asg "carry8" (Shr (Add I64 (V "h8") (K 33554432)) 26);
   Asg "h9" (Add I64 (V "h9") (V "carry8"));
   Asg "h8" (Sub I64 (V "h8") (Shl I64 (V "carry8") 26));
   Asg "carry9" (Shr (Add I64 (V "h9") (K 16777216)) 25);
   Asg "h0" (Add I64 (V "h0") (Mul I64 (V "carry9") (K 19)));
   Asg "h9" (Sub I64 (V "h9") (Shl I64 (V "carry9") 25));
   Asg "carry0" (Shr (Add I64 (V "h0") (K 33554432)) 26);
   Asg "h1" (Add I64 (V "h1") (V "carry0"));
   Asg "h0" (Sub I64 (V "h0") (Shl I64 (V "carry0") 26));
   Asg "out0" (Cast I32 (V "h0"));
   Asg "out1" (Cast I32 (V "h1"));
   Asg "out2" (Cast I32 (V "h2"));
   Asg "out3" (Cast I32 (V "h3"));
   Asg "out4" (Cast I32 (V "h4"));
   Asg "out5" (Cast I32 (V "h5"));
   Asg "out6" (Cast I32 (V "h6"));
   Asg "out7" (Cast I32 (V "h7"));
   Asg "out8" (Cast I32 (V "h8"));
   Asg "out9" (Cast I32 (V "h9"))]%string%list.

(** fe.rs 544-688 [fe_square]. *)
Definition fe_square_prog : list stmt :=
  [Asg "f0_2" (Mul I32 (K 2) (V "f0"));
   Asg "f1_2" (Mul I32 (K 2) (V "f1"));
   Asg "f2_2" (Mul I32 (K 2) (V "f2"));
   Asg "f3_2" (Mul I32 (K 2) (V "f3"));
   Asg "f4_2" (Mul I32 (K 2) (V "f4"));
   Asg "f5_2" (Mul I32 (K 2) (V "f5"));
   Asg "f6_2" (Mul I32 (K 2) (V "f6"));
   Asg "f7_2" (Mul I32 (K 2) (V "f7"));
   Asg "f5_38" (Mul I32 (K 38) (V "f5"));
   Asg "f6_19" (Mul I32 (K 19) (V "f6"));
   Asg "f7_38" (Mul I32 (K 38) (V "f7"));
   Asg "f8_19" (Mul I32 (K 19) (V "f8"));
   Asg "f9_38" (Mul I32 (K 38) (V "f9"));
   Asg "f0f0" (Mul I64 (Cast I64 (V "f0")) (Cast I64 (V "f0")));
   Asg "f0f1_2" (Mul I64 (Cast I64 (V "f0_2")) (Cast I64 (V "f1")));
   Asg "f0f2_2" (Mul I64 (Cast I64 (V "f0_2")) (Cast I64 (V "f2")));
   Asg "f0f3_2" (Mul I64 (Cast I64 (V "f0_2")) (Cast I64 (V "f3")));
   Asg "f0f4_2" (Mul I64 (Cast I64 (V "f0_2")) (Cast I64 (V "f4")));
   Asg "f0f5_2" (Mul I64 (Cast I64 (V "f0_2")) (Cast I64 (V "f5")));
   Asg "f0f6_2" (Mul I64 (Cast I64 (V "f0_2")) (Cast I64 (V "f6")));
   Asg "f0f7_2" (Mul I64 (Cast I64 (V "f0_2")) (Cast I64 (V "f7")));
   Asg "f0f8_2" (Mul I64 (Cast I64 (V "f0_2")) (Cast I64 (V "f8")));
   Asg "f0f9_2" (Mul I64 (Cast I64 (V "f0_2")) (Cast I64 (V "f9")));
   Asg "f1f1_2" (Mul I64 (Cast I64 (V "f1_2")) (Cast I64 (V "f1")));
   Asg "f1f2_2" (Mul I64 (Cast I64 (V "f1_2")) (Cast I64 (V "f2")));
   Asg "f1f3_4" (Mul I64 (Cast I64 (V "f1_2")) (Cast I64 (V "f3_2")));
   Asg "f1f4_2" (Mul I64 (Cast I64 (V "f1_2")) (Cast I64 (V "f4")));
   Asg "f1f5_4" (Mul I64 (Cast I64 (V "f1_2")) (Cast I64 (V "f5_2")));
   Asg "f1f6_2" (Mul I64 (Cast I64 (V "f1_2")) (Cast I64 (V "f6")));
   Asg "f1f7_4" (Mul I64 (Cast I64 (V "f1_2")) (Cast I64 (V "f7_2")));
   Asg "f1f8_2" (Mul I64 (Cast I64 (V "f1_2")) (Cast I64 (V "f8")));
   Asg "f1f9_76" (Mul I64 (Cast I64 (V "f1_2")) (Cast I64 (V "f9_38")));
   Asg "f2f2" (Mul I64 (Cast I64 (V "f2")) (Cast I64 (V "f2")));
   Asg "f2f3_2" (Mul I64 (Cast I64 (V "f2_2")) (Cast I64 (V "f3")));
   Asg "f2f4_2" (Mul I64 (Cast I64 (V "f2_2")) (Cast I64 (V "f4")));
   Asg "f2f5_2" (Mul I64 (Cast I64 (V "f2_2")) (Cast I64 (V "f5")));
   Asg "f2f6_2" (Mul I64 (Cast I64 (V "f2_2")) (Cast I64 (V "f6")));
   Asg "f2f7_2" (Mul I64 (Cast I64 (V "f2_2")) (Cast I64 (V "f7")));
   Asg "f2f8_38" (Mul I64 (Cast I64 (V "f2_2")) (Cast I64 (V "f8_19")));
   Asg "f2f9_38" (Mul I64 (Cast I64 (V "f2")) (Cast I64 (V "f9_38")));
   Asg "f3f3_2" (Mul I64 (Cast I64 (V "f3_2")) (Cast I64 (V "f3")));
   Asg "f3f4_2" (Mul I64 (Cast I64 (V "f3_2")) (Cast I64 (V "f4")));
   Asg "f3f5_4" (Mul I64 (Cast I64 (V "f3_2")) (Cast I64 (V "f5_2")));
   Asg "f3f6_2" (Mul I64 (Cast I64 (V "f3_2")) (Cast I64 (V "f6")));
   Asg "f3f7_76" (Mul I64 (Cast I64 (V "f3_2")) (Cast I64 (V "f7_38")));
   Asg "f3f8_38" (Mul I64 (Cast I64 (V "f3_2")) (Cast I64 (V "f8_19")));
   Asg "f3f9_76" (Mul I64 (Cast I64 (V "f3_2")) (Cast I64 (V "f9_38")));
   Asg "f4f4" (Mul I64 (Cast I64 (V "f4")) (Cast I64 (V "f4")));
   Asg "f4f5_2" (Mul I64 (Cast I64 (V "f4_2")) (Cast I64 (V "f5")));
   Asg "f4f6_38" (Mul I64 (Cast I64 (V "f4_2")) (Cast I64 (V "f6_19")));
   Asg "f4f7_38" (Mul I64 (Cast I64 (V "f4")) (Cast I64 (V "f7_38")));
   Asg "f4f8_38" (Mul I64 (Cast I64 (V "f4_2")) (Cast I64 (V "f8_19")));
   Asg "f4f9_38" (Mul I64 (Cast I64 (V "f4")) (Cast I64 (V "f9_38")));
   Asg "f5f5_38" (Mul I64 (Cast I64 (V "f5")) (Cast I64 (V "f5_38")));
   Asg "f5f6_38" (Mul I64 (Cast I64 (V "f5_2")) (Cast I64 (V "f6_19")));
   Asg "f5f7_76" (Mul I64 (Cast I64 (V "f5_2")) (Cast I64 (V "f7_38")));
   Asg "f5f8_38" (Mul I64 (Cast I64 (V "f5_2")) (Cast I64 (V "f8_19")));
   Asg "f5f9_76" (Mul I64 (Cast I64 (V "f5_2")) (Cast I64 (V "f9_38")));
   Asg "f6f6_19" (Mul I64 (Cast I64 (V "f6")) (Cast I64 (V "f6_19")));
   Asg "f6f7_38" (Mul I64 (Cast I64 (V "f6")) (Cast I64 (V "f7_38")));
   Asg "f6f8_38" (Mul I64 (Cast I64 (V "f6_2")) (Cast I64 (V "f8_19")));
   Asg "f6f9_38" (Mul I64 (Cast I64 (V "f6")) (Cast I64 (V "f9_38")));
   Asg "f7f7_38" (Mul I64 (Cast I64 (V "f7")) (Cast I64 (V "f7_38")));
   Asg "f7f8_38" (Mul I64 (Cast I64 (V "f7_2")) (Cast I64 (V "f8_19")));
   Asg "f7f9_76" (Mul I64 (Cast I64 (V "f7_2")) (Cast I64 (V "f9_38")));
   Asg "f8f8_19" (Mul I64 (Cast I64 (V "f8")) (Cast I64 (V "f8_19")));
   Asg "f8f9_38" (Mul I64 (Cast I64 (V "f8")) (Cast I64 (V "f9_38")));
   Asg "f9f9_38" (Mul I64 (Cast I64 (V "f9")) (Cast I64 (V "f9_38")));
   Asg "h0" (Add I64 (Add I64 (Add I64 (Add I64 (Add I64 (V "f0f0") (V "f1f9_76")) (V "f2f8_38")) (V "f3f7_76")) (V "f4f6_38")) (V "f5f5_38"));
   Asg "h1" (Add I64 (Add I64 (Add I64 (Add I64 (V "f0f1_2") (V "f2f9_38")) (V "f3f8_38")) (V "f4f7_38")) (V "f5f6_38"));
   Asg "h2" (Add I64 (Add I64 (Add I64 (Add I64 (Add I64 (V "f0f2_2") (V "f1f1_2")) (V "f3f9_76")) (V "f4f8_38")) (V "f5f7_76")) (V "f6f6_19"));
   Asg "h3" (Add I64 (Add I64 (Add I64 (Add I64 (V "f0f3_2") (V "f1f2_2")) (V "f4f9_38")) (V "f5f8_38")) (V "f6f7_38"));
   Asg "h4" (Add I64 (Add I64 (Add I64 (Add I64 (Add I64 (V "f0f4_2") (V "f1f3_4")) (V "f2f2")) (V "f5f9_76")) (V "f6f8_38")) (V "f7f7_38"));
   Asg "h5" (Add I64 (Add I64 (Add I64 (Add I64 (V "f0f5_2") (V "f1f4_2")) (V "f2f3_2")) (V "f6f9_38")) (V "f7f8_38"));
   Asg "h6" (Add I64 (Add I64 (Add I64 (Add I64 (Add I64 (V "f0f6_2") (V "f1f5_4")) (V "f2f4_2")) (V "f3f3_2")) (V "f7f9_76")) (V "f8f8_19"));
   Asg "h7" (Add I64 (Add I64 (Add I64 (Add I64 (V "f0f7_2") (V "f1f6_2")) (V "f2f5_2")) (V "f3f4_2")) (V "f8f9_38"));
   Asg "h8" (Add I64 (Add I64 (Add I64 (Add I64 (Add I64 (V "f0f8_2") (V "f1f7_4")) (V "f2f6_2")) (V "f3f5_4")) (V "f4f4")) (V "f9f9_38"));
   Asg "h9" (Add I64 (Add I64 (Add I64 (Add I64 (V "f0f9_2") (V "f1f8_2")) (V "f2f7_2")) (V "f3f6_2")) (V "f4f5_2"));
   Asg "carry0" (Shr (Add I64 (V "h0") (K 33554432)) 26);
   Asg "h1" (Add I64 (V "h1") (V "carry0"));
   Asg "h0" (Sub I64 (V "h0") (Shl I64 (V "carry0") 26));
   Asg "carry4" (Shr (Add I64 (V "h4") (K 33554432)) 26);
   Asg "h5" (Add I64 (V "h5") (V "carry4"));
   Asg "h4" (Sub I64 (V "h4") (Shl I64 (V "carry4") 26));
   Asg "carry1" (Shr (Add I64 (V "h1") (K 16777216)) 25);
   Asg "h2" (Add I64 (V "h2") (V "carry1"));
   Asg "h1" (Sub I64 (V "h1") (Shl I64 (V "carry1") 25));
   Asg "carry5" (Shr (Add I64 (V "h5") (K 16777216)) 25);
   Asg "h6" (Add I64 (V "h6") (V "carry5"));
   Asg "h5" (Sub I64 (V "h5") (Shl I64 (V "carry5") 25));
   Asg "carry2" (Shr (Add I64 (V "h2") (K 33554432)) 26);
   Asg "h3" (Add I64 (V "h3") (V "carry2"));
   Asg "h2" (Sub I64 (V "h2") (Shl I64 (V "carry2") 26));
   Asg "carry6" (Shr (Add I64 (V "h6") (K 33554432)) 26);
   Asg "h7" (Add I64 (V "h7") (V "carry6"));
   Asg "h6" (Sub I64 (V "h6") (Shl I64 (V "carry6") 26));
   Asg "carry3" (Shr (Add I64 (V "h3") (K 16777216)) 25);
   Asg "h4" (Add I64 (V "h4") (V "carry3"));
   Asg "h3" (Sub I64 (V "h3") (Shl I64 (V "carry3") 25));
   Asg "carry7" (Shr (Add I64 (V "h7") (K 16777216)) 25);
   Asg "h8" (Add I64 (V "h8") (V "carry7"));
   Asg "h7" (Sub I64 (V "h7") (Shl I64 (V "carry7") 25));
   Asg "carry4" (Shr (Add I64 (V "h4") (K 33554432)) 26);
   Asg "h5" (Add I64 (V "h5") (V "carry4"));
   Asg "h4" (Sub I64 (V "h4") (Shl I64 (V "carry4") 26));
   Asg "carry8" (Shr (Add I64 (V "h8") (K 33554432)) 26);
   Asg "h9" (Add I64 (V "h9") (V "carry8"));
   Asg "h8" (Sub I64 (V "h8") (Shl I64 (V "carry8") 26));
   Asg "carry9" (Shr (Add I64 (V "h9") (K 16777216)) 25);
   Asg "h0" (Add I64 (V "h0") (Mul I64 (V "carry9") (K 19)));
   Asg "h9" (Sub I64 (V "h9") (Shl I64 (V "carry9") 25));
   Asg "carry0" (Shr (Add I64 (V "h0") (K 33554432)) 26);
   Asg "h1" (Add I64 (V "h1") (V "carry0"));
   Asg "h0" (Sub I64 (V "h0") (Shl I64 (V "carry0") 26));
   Asg "out0" (Cast I32 (V "h0"));
   Asg "out1" (Cast I32 (V "h1"));
   Asg "out2" (Cast I32 (V "h2"));
   Asg "out3" (Cast I32 (V "h3"));
   Asg "out4" (Cast I32 (V "h4"));
   Asg "out5" (Cast I32 (V "h5"));
   Asg "out6" (Cast I32 (V "h6"));
   Asg "out7" (Cast I32 (V "h7"));
   Asg "out8" (Cast I32 (V "h8"));
   Asg "out9" (Cast I32 (V "h9"))]%string%list.

(** fe.rs 700-855 [fe_square2]. *)
Definition fe_square2_prog : list stmt :=
  [Asg "f0_2" (Mul I32 (K 2) (V "f0"));
   Asg "f1_2" (Mul I32 (K 2) (V "f1"));
   Asg "f2_2" (Mul I32 (K 2) (V "f2"));
   Asg "f3_2" (Mul I32 (K 2) (V "f3"));
   Asg "f4_2" (Mul I32 (K 2) (V "f4"));
   Asg "f5_2" (Mul I32 (K 2) (V "f5"));
   Asg "f6_2" (Mul I32 (K 2) (V "f6"));
   Asg "f7_2" (Mul I32 (K 2) (V "f7"));
   Asg "f5_38" (Mul I32 (K 38) (V "f5"));
   Asg "f6_19" (Mul I32 (K 19) (V "f6"));
   Asg "f7_38" (Mul I32 (K 38) (V "f7"));
   Asg "f8_19" (Mul I32 (K 19) (V "f8"));
   Asg "f9_38" (Mul I32 (K 38) (V "f9"));
   Asg "f0f0" (Mul I64 (Cast I64 (V "f0")) (Cast I64 (V "f0")));
   Asg "f0f1_2" (Mul I64 (Cast I64 (V "f0_2")) (Cast I64 (V "f1")));
   Asg "f0f2_2" (Mul I64 (Cast I64 (V "f0_2")) (Cast I64 (V "f2")));
   Asg "f0f3_2" (Mul I64 (Cast I64 (V "f0_2")) (Cast I64 (V "f3")));
   Asg "f0f4_2" (Mul I64 (Cast I64 (V "f0_2")) (Cast I64 (V "f4")));
   Asg "f0f5_2" (Mul I64 (Cast I64 (V "f0_2")) (Cast I64 (V "f5")));
   Asg "f0f6_2" (Mul I64 (Cast I64 (V "f0_2")) (Cast I64 (V "f6")));
   Asg "f0f7_2" (Mul I64 (Cast I64 (V "f0_2")) (Cast I64 (V "f7")));
   Asg "f0f8_2" (Mul I64 (Cast I64 (V "f0_2")) (Cast I64 (V "f8")));
   Asg "f0f9_2" (Mul I64 (Cast I64 (V "f0_2")) (Cast I64 (V "f9")));
   Asg "f1f1_2" (Mul I64 (Cast I64 (V "f1_2")) (Cast I64 (V "f1")));
   Asg "f1f2_2" (Mul I64 (Cast I64 (V "f1_2")) (Cast I64 (V "f2")));
   Asg "f1f3_4" (Mul I64 (Cast I64 (V "f1_2")) (Cast I64 (V "f3_2")));
   Asg "f1f4_2" (Mul I64 (Cast I64 (V "f1_2")) (Cast I64 (V "f4")));
   Asg "f1f5_4" (Mul I64 (Cast I64 (V "f1_2")) (Cast I64 (V "f5_2")));
   Asg "f1f6_2" (Mul I64 (Cast I64 (V "f1_2")) (Cast I64 (V "f6")));
   Asg "f1f7_4" (Mul I64 (Cast I64 (V "f1_2")) (Cast I64 (V "f7_2")));
   Asg "f1f8_2" (Mul I64 (Cast I64 (V "f1_2")) (Cast I64 (V "f8")));
   Asg "f1f9_76" (Mul I64 (Cast I64 (V "f1_2")) (Cast I64 (V "f9_38")));
   Asg "f2f2" (Mul I64 (Cast I64 (V "f2")) (Cast I64 (V "f2")));
   Asg "f2f3_2" (Mul I64 (Cast I64 (V "f2_2")) (Cast I64 (V "f3")));
   Asg "f2f4_2" (Mul I64 (Cast I64 (V "f2_2")) (Cast I64 (V "f4")));
   Asg "f2f5_2" (Mul I64 (Cast I64 (V "f2_2")) (Cast I64 (V "f5")));
   Asg "f2f6_2" (Mul I64 (Cast I64 (V "f2_2")) (Cast I64 (V "f6")));
   Asg "f2f7_2" (Mul I64 (Cast I64 (V "f2_2")) (Cast I64 (V "f7")));
   Asg "f2f8_38" (Mul I64 (Cast I64 (V "f2_2")) (Cast I64 (V "f8_19")));
   Asg "f2f9_38" (Mul I64 (Cast I64 (V "f2")) (Cast I64 (V "f9_38")));
   Asg "f3f3_2" (Mul I64 (Cast I64 (V "f3_2")) (Cast I64 (V "f3")));
   Asg "f3f4_2" (Mul I64 (Cast I64 (V "f3_2")) (Cast I64 (V "f4")));
   Asg "f3f5_4" (Mul I64 (Cast I64 (V "f3_2")) (Cast I64 (V "f5_2")));
   Asg "f3f6_2" (Mul I64 (Cast I64 (V "f3_2")) (Cast I64 (V "f6")));
   Asg "f3f7_76" (Mul I64 (Cast I64 (V "f3_2")) (Cast I64 (V "f7_38")));
   Asg "f3f8_38" (Mul I64 (Cast I64 (V "f3_2")) (Cast I64 (V "f8_19")));
   Asg "f3f9_76" (Mul I64 (Cast I64 (V "f3_2")) (Cast I64 (V "f9_38")));
   Asg "f4f4" (Mul I64 (Cast I64 (V "f4")) (Cast I64 (V "f4")));
   Asg "f4f5_2" (Mul I64 (Cast I64 (V "f4_2")) (Cast I64 (V "f5")));
   Asg "f4f6_38" (Mul I64 (Cast I64 (V "f4_2")) (Cast I64 (V "f6_19")));
   Asg "f4f7_38" (Mul I64 (Cast I64 (V "f4")) (Cast I64 (V "f7_38")));
   Asg "f4f8_38" (Mul I64 (Cast I64 (V "f4_2")) (Cast I64 (V "f8_19")));
   Asg "f4f9_38" (Mul I64 (Cast I64 (V "f4")) (Cast I64 (V "f9_38")));
   Asg "f5f5_38" (Mul I64 (Cast I64 (V "f5")) (Cast I64 (V "f5_38")));
   Asg "f5f6_38" (Mul I64 (Cast I64 (V "f5_2")) (Cast I64 (V "f6_19")));
   Asg "f5f7_76" (Mul I64 (Cast I64 (V "f5_2")) (Cast I64 (V "f7_38")));
   Asg "f5f8_38" (Mul I64 (Cast I64 (V "f5_2")) (Cast I64 (V "f8_19")));
   Asg "f5f9_76" (Mul I64 (Cast I64 (V "f5_2")) (Cast I64 (V "f9_38")));
   Asg "f6f6_19" (Mul I64 (Cast I64 (V "f6")) (Cast I64 (V "f6_19")));
   Asg "f6f7_38" (Mul I64 (Cast I64 (V "f6")) (Cast I64 (V "f7_38")));
   Asg "f6f8_38" (Mul I64 (Cast I64 (V "f6_2")) (Cast I64 (V "f8_19")));
   Asg "f6f9_38" (Mul I64 (Cast I64 (V "f6")) (Cast I64 (V "f9_38")));
   Asg "f7f7_38" (Mul I64 (Cast I64 (V "f7")) (Cast I64 (V "f7_38")));
   Asg "f7f8_38" (Mul I64 (Cast I64 (V "f7_2")) (Cast I64 (V "f8_19")));
   Asg "f7f9_76" (Mul I64 (Cast I64 (V "f7_2")) (Cast I64 (V "f9_38")));
   Asg "f8f8_19" (Mul I64 (Cast I64 (V "f8")) (Cast I64 (V "f8_19")));
   Asg "f8f9_38" (Mul I64 (Cast I64 (V "f8")) (Cast I64 (V "f9_38")));
   Asg "f9f9_38" (Mul I64 (Cast I64 (V "f9")) (Cast I64 (V "f9_38")));
   Asg "h0" (Add I64 (Add I64 (Add I64 (Add I64 (Add I64 (V "f0f0") (V "f1f9_76")) (V "f2f8_38")) (V "f3f7_76")) (V "f4f6_38")) (V "f5f5_38"));
   Asg "h1" (Add I64 (Add I64 (Add I64 (Add I64 (V "f0f1_2") (V "f2f9_38")) (V "f3f8_38")) (V "f4f7_38")) (V "f5f6_38"));
   Asg "h2" (Add I64 (Add I64 (Add I64 (Add I64 (Add I64 (V "f0f2_2") (V "f1f1_2")) (V "f3f9_76")) (V "f4f8_38")) (V "f5f7_76")) (V "f6f6_19"));
   Asg "h3" (Add I64 (Add I64 (Add I64 (Add I64 (V "f0f3_2") (V "f1f2_2")) (V "f4f9_38")) (V "f5f8_38")) (V "f6f7_38"));
   Asg "h4" (Add I64 (Add I64 (Add I64 (Add I64 (Add I64 (V "f0f4_2") (V "f1f3_4")) (V "f2f2")) (V "f5f9_76")) (V "f6f8_38")) (V "f7f7_38"));
   Asg "h5" (Add I64 (Add I64 (Add I64 (Add I64 (V "f0f5_2") (V "f1f4_2")) (V "f2f3_2")) (V "f6f9_38")) (V "f7f8_38"));
   Asg "h6" (Add I64 (Add I64 (Add I64 (Add I64 (Add I64 (V "f0f6_2") (V "f1f5_4")) (V "f2f4_2")) (V "f3f3_2")) (V "f7f9_76")) (V "f8f8_19"));
   Asg "h7" (Add I64 (Add I64 (Add I64 (Add I64 (V "f0f7_2") (V "f1f6_2")) (V "f2f5_2")) (V "f3f4_2")) (V "f8f9_38"));
   Asg "h8" (Add I64 (Add I64 (Add I64 (Add I64 (Add I64 (V "f0f8_2") (V "f1f7_4")) (V "f2f6_2")) (V "f3f5_4")) (V "f4f4")) (V "f9f9_38"));
   Asg "h9" (Add I64 (Add I64 (Add I64 (Add I64 (V "f0f9_2") (V "f1f8_2")) (V "f2f7_2")) (V "f3f6_2")) (V "f4f5_2"));
   Asg "h0" (Add I64 (V "h0") (V "h0"));
   Asg "h1" (Add I64 (V "h1") (V "h1"));
   Asg "h2" (Add I64 (V "h2") (V "h2"));
   Asg "h3" (Add I64 (V "h3") (V "h3"));
   Asg "h4" (Add I64 (V "h4") (V "h4"));
   Asg "h5" (Add I64 (V "h5") (V "h5"));
   Asg "h6" (Add I64 (V "h6") (V "h6"));
   Asg "h7" (Add I64 (V "h7") (V "h7"));
   Asg "h8" (Add I64 (V "h8") (V "h8"));
   Asg "h9" (Add I64 (V "h9") (V "h9"));
   Asg "carry0" (Shr (Add I64 (V "h0") (K 33554432)) 26);
   Asg "h1" (Add I64 (V "h1") (V "carry0"));
   Asg "h0" (Sub I64 (V "h0") (Shl I64 (V "carry0") 26));
   Asg "carry4" (Shr (Add I64 (V "h4") (K 33554432)) 26);
   Asg "h5" (Add I64 (V "h5") (V "carry4"));
   Asg "h4" (Sub I64 (V "h4") (Shl I64 (V "carry4") 26));
   Asg "carry1" (Shr (Add I64 (V "h1") (K 16777216)) 25);
   Asg "h2" (Add I64 (V "h2") (V "carry1"));
   Asg "h1" (Sub I64 (V "h1") (Shl I64 (V "carry1") 25));
   Asg "carry5" (Shr (Add I64 (V "h5") (K 16777216)) 25);
   Asg "h6" (Add I64 (V "h6") (V "carry5"));
   Asg "h5" (Sub I64 (V "h5") (Shl I64 (V "carry5") 25));
   Asg "carry2" (Shr (Add I64 (V "h2") (K 33554432)) 26);
   Asg "h3" (Add I64 (V "h3") (V "carry2"));
   Asg "h2" (Sub I64 (V "h2") (Shl I64 (V "carry2") 26));
   Asg "carry6" (Shr (Add I64 (V "h6") (K 33554432)) 26);
   Asg "h7" (Add I64 (V "h7") (V "carry6"));
   Asg "h6" (Sub I64 (V "h6") (Shl I64 (V "carry6") 26));
   Asg "carry3" (Shr (Add I64 (V "h3") (K 16777216)) 25);
   Asg "h4" (Add I64 (V "h4") (V "carry3"));
   Asg "h3" (Sub I64 (V "h3") (Shl I64 (V "carry3") 25));
   Asg "carry7" (Shr (Add I64 (V "h7") (K 16777216)) 25);
   Asg "h8" (Add I64 (V "h8") (V "carry7"));
   Asg "h7" (Sub I64 (V "h7") (Shl I64 (V "carry7") 25));
   Asg "carry4" (Shr (Add I64 (V "h4") (K 33554432)) 26);
   Asg "h5" (Add I64 (V "h5") (V "carry4"));
   Asg "h4" (Sub I64 (V "h4") (Shl I64 (V "carry4") 26));
   Asg "carry8" (Shr (Add I64 (V "h8") (K 33554432)) 26);
   Asg "h9" (Add I64 (V "h9") (V "carry8"));
   Asg "h8" (Sub I64 (V "h8") (Shl I64 (V "carry8") 26));
   Asg "carry9" (Shr (Add I64 (V "h9") (K 16777216)) 25);
   Asg "h0" (Add I64 (V "h0") (Mul I64 (V "carry9") (K 19)));
   Asg "h9" (Sub I64 (V "h9") (Shl I64 (V "carry9") 25));
   Asg "carry0" (Shr (Add I64 (V "h0") (K 33554432)) 26);
   Asg "h1" (Add I64 (V "h1") (V "carry0"));
   Asg "h0" (Sub I64 (V "h0") (Shl I64 (V "carry0") 26));
   Asg "out0" (Cast I32 (V "h0"));
   Asg "out1" (Cast I32 (V "h1"));
   Asg "out2" (Cast I32 (V "h2"));
   Asg "out3" (Cast I32 (V "h3"));
   Asg "out4" (Cast I32 (V "h4"));
   Asg "out5" (Cast I32 (V "h5"));
   Asg "out6" (Cast I32 (V "h6"));
   Asg "out7" (Cast I32 (V "h7"));
   Asg "out8" (Cast I32 (V "h8"));
   Asg "out9" (Cast I32 (V "h9"))]%string%list.

(** fe.rs 68-77: the initial limbs (shifts are of i64 values). *)
Definition fe_limbs (src : list Z) : list Z :=
  [load4 src;
   wrap I64 (Z.shiftl (load3 (skipn 4 src)) 6);
   wrap I64 (Z.shiftl (load3 (skipn 7 src)) 5);
   wrap I64 (Z.shiftl (load3 (skipn 10 src)) 3);
   wrap I64 (Z.shiftl (load3 (skipn 13 src)) 2);
   load4 (skipn 16 src);
   wrap I64 (Z.shiftl (load3 (skipn 20 src)) 7);
   wrap I64 (Z.shiftl (load3 (skipn 23 src)) 5);
   wrap I64 (Z.shiftl (load3 (skipn 26 src)) 4);
   wrap I64 (Z.shiftl (Z.land (load3 (skipn 29 src)) 8388607) 2)].

(** fe.rs 67-122 [fe_from_bytes] (lines 80-121). *)
Definition fe_from_bytes_prog : list stmt :=
  [Asg "carry9" (Shr (Add I64 (V "h9") (K 16777216)) 25);
   Asg "h0" (Add I64 (V "h0") (Mul I64 (V "carry9") (K 19)));
   Asg "h9" (Sub I64 (V "h9") (Shl I64 (V "carry9") 25));
   Asg "carry1" (Shr (Add I64 (V "h1") (K 16777216)) 25);
   Asg "h2" (Add I64 (V "h2") (V "carry1"));
   Asg "h1" (Sub I64 (V "h1") (Shl I64 (V "carry1") 25));
   Asg "carry3" (Shr (Add I64 (V "h3") (K 16777216)) 25);
   Asg "h4" (Add I64 (V "h4") (V "carry3"));
   Asg "h3" (Sub I64 (V "h3") (Shl I64 (V "carry3") 25));
   Asg "carry5" (Shr (Add I64 (V "h5") (K 16777216)) 25);
   Asg "h6" (Add I64 (V "h6") (V "carry5"));
   Asg "h5" (Sub I64 (V "h5") (Shl I64 (V "carry5") 25));
   Asg "carry7" (Shr (Add I64 (V "h7") (K 16777216)) 25);
   Asg "h8" (Add I64 (V "h8") (V "carry7"));
   Asg "h7" (Sub I64 (V "h7") (Shl I64 (V "carry7") 25));
   Asg "carry0" (Shr (Add I64 (V "h0") (K 33554432)) 26);
   Asg "h1" (Add I64 (V "h1") (V "carry0"));
   Asg "h0" (Sub I64 (V "h0") (Shl I64 (V "carry0") 26));
   Asg "carry2" (Shr (Add I64 (V "h2") (K 33554432)) 26);
   Asg "h3" (Add I64 (V "h3") (V "carry2"));
   Asg "h2" (Sub I64 (V "h2") (Shl I64 (V "carry2") 26));
   Asg "carry4" (Shr (Add I64 (V "h4") (K 33554432)) 26);
   Asg "h5" (Add I64 (V "h5") (V "carry4"));
   Asg "h4" (Sub I64 (V "h4") (Shl I64 (V "carry4") 26));
   Asg "carry6" (Shr (Add I64 (V "h6") (K 33554432)) 26);
   Asg "h7" (Add I64 (V "h7") (V "carry6"));
   Asg "h6" (Sub I64 (V "h6") (Shl I64 (V "carry6") 26));
   Asg "carry8" (Shr (Add I64 (V "h8") (K 33554432)) 26);
   Asg "h9" (Add I64 (V "h9") (V "carry8"));
   Asg "h8" (Sub I64 (V "h8") (Shl I64 (V "carry8") 26));
   Asg "out0" (Cast I32 (V "h0"));
   Asg "out1" (Cast I32 (V "h1"));
   Asg "out2" (Cast I32 (V "h2"));
   Asg "out3" (Cast I32 (V "h3"));
   Asg "out4" (Cast I32 (V "h4"));
   Asg "out5" (Cast I32 (V "h5"));
   Asg "out6" (Cast I32 (V "h6"));
   Asg "out7" (Cast I32 (V "h7"));
   Asg "out8" (Cast I32 (V "h8"));
   Asg "out9" (Cast I32 (V "h9"))]%string%list.

(** fe.rs 147-238 [fe_to_bytes, quotient] (lines 152-162). *)
Definition fe_to_bytes_q : list stmt :=
  [Asg "q" (Shr (Add I32 (Mul I32 (K 19) (V "h9")) (K 16777216)) 25);
   Asg "q" (Shr (Add I32 (V "h0") (V "q")) 26);
   Asg "q" (Shr (Add I32 (V "h1") (V "q")) 25);
   Asg "q" (Shr (Add I32 (V "h2") (V "q")) 26);
   Asg "q" (Shr (Add I32 (V "h3") (V "q")) 25);
   Asg "q" (Shr (Add I32 (V "h4") (V "q")) 26);
   Asg "q" (Shr (Add I32 (V "h5") (V "q")) 25);
   Asg "q" (Shr (Add I32 (V "h6") (V "q")) 26);
   Asg "q" (Shr (Add I32 (V "h7") (V "q")) 25);
   Asg "q" (Shr (Add I32 (V "h8") (V "q")) 26);
   Asg "q" (Shr (Add I32 (V "h9") (V "q")) 25)]%string%list.

(** fe.rs 147-238 [fe_to_bytes, carries] (lines 165-196). *)
Definition fe_to_bytes_c : list stmt :=
  [Asg "h0" (Add I32 (V "h0") (Mul I32 (K 19) (V "q")));
   Asg "carry0" (Shr (V "h0") 26);
   Asg "h1" (Add I32 (V "h1") (V "carry0"));
   Asg "h0" (Sub I32 (V "h0") (Shl I32 (V "carry0") 26));
   Asg "carry1" (Shr (V "h1") 25);
   Asg "h2" (Add I32 (V "h2") (V "carry1"));
   Asg "h1" (Sub I32 (V "h1") (Shl I32 (V "carry1") 25));
   Asg "carry2" (Shr (V "h2") 26);
   Asg "h3" (Add I32 (V "h3") (V "carry2"));
   Asg "h2" (Sub I32 (V "h2") (Shl I32 (V "carry2") 26));
   Asg "carry3" (Shr (V "h3") 25);
   Asg "h4" (Add I32 (V "h4") (V "carry3"));
   Asg "h3" (Sub I32 (V "h3") (Shl I32 (V "carry3") 25));
   Asg "carry4" (Shr (V "h4") 26);
   Asg "h5" (Add I32 (V "h5") (V "carry4"));
   Asg "h4" (Sub I32 (V "h4") (Shl I32 (V "carry4") 26));
   Asg "carry5" (Shr (V "h5") 25);
   Asg "h6" (Add I32 (V "h6") (V "carry5"));
   Asg "h5" (Sub I32 (V "h5") (Shl I32 (V "carry5") 25));
   Asg "carry6" (Shr (V "h6") 26);
   Asg "h7" (Add I32 (V "h7") (V "carry6"));
   Asg "h6" (Sub I32 (V "h6") (Shl I32 (V "carry6") 26));
   Asg "carry7" (Shr (V "h7") 25);
   Asg "h8" (Add I32 (V "h8") (V "carry7"));
   Asg "h7" (Sub I32 (V "h7") (Shl I32 (V "carry7") 25));
   Asg "carry8" (Shr (V "h8") 26);
   Asg "h9" (Add I32 (V "h9") (V "carry8"));
   Asg "h8" (Sub I32 (V "h8") (Shl I32 (V "carry8") 26));
   Asg "carry9" (Shr (V "h9") 25);
   Asg "h9" (Sub I32 (V "h9") (Shl I32 (V "carry9") 25))]%string%list.

(** fe.rs 203-237: the output bytes. *)
Definition fe_bytes (h0 h1 h2 h3 h4 h5 h6 h7 h8 h9 : Z) : list Z :=
  [u8 h0;
   u8 (Z.shiftr h0 8);
   u8 (Z.shiftr h0 16);
   u8 (Z.lor (Z.shiftr h0 24) (wrap I32 (Z.shiftl h1 2)));
   u8 (Z.shiftr h1 6);
   u8 (Z.shiftr h1 14);
   u8 (Z.lor (Z.shiftr h1 22) (wrap I32 (Z.shiftl h2 3)));
   u8 (Z.shiftr h2 5);
   u8 (Z.shiftr h2 13);
   u8 (Z.lor (Z.shiftr h2 21) (wrap I32 (Z.shiftl h3 5)));
   u8 (Z.shiftr h3 3);
   u8 (Z.shiftr h3 11);
   u8 (Z.lor (Z.shiftr h3 19) (wrap I32 (Z.shiftl h4 6)));
   u8 (Z.shiftr h4 2);
   u8 (Z.shiftr h4 10);
   u8 (Z.shiftr h4 18);
   u8 h5;
   u8 (Z.shiftr h5 8);
   u8 (Z.shiftr h5 16);
   u8 (Z.lor (Z.shiftr h5 24) (wrap I32 (Z.shiftl h6 1)));
   u8 (Z.shiftr h6 7);
   u8 (Z.shiftr h6 15);
   u8 (Z.lor (Z.shiftr h6 23) (wrap I32 (Z.shiftl h7 3)));
   u8 (Z.shiftr h7 5);
   u8 (Z.shiftr h7 13);
   u8 (Z.lor (Z.shiftr h7 21) (wrap I32 (Z.shiftl h8 4)));
   u8 (Z.shiftr h8 4);
   u8 (Z.shiftr h8 12);
   u8 (Z.lor (Z.shiftr h8 20) (wrap I32 (Z.shiftl h9 6)));
   u8 (Z.shiftr h9 2);
   u8 (Z.shiftr h9 10);
   u8 (Z.shiftr h9 18)].
