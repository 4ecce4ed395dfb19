(** IEEE binary64 with round-to-nearest-even as an instance of the kernels' arithmetic,
    from the standard library's purely computational SpecFloat.  It satisfies no ring
    law; theorems that use none hold for it bit by bit. *)
From Coq Require Import ZArith Floats.SpecFloat.
From Verif Require Import Algebra.
Definition F64ops : ops spec_float :=
  {| o0 := S754_zero false; o1 := S754_finite false 4503599627370496 (-52);
     oadd := SFadd 53 1024; omul := SFmul 53 1024; osub := SFsub 53 1024; oopp := SFopp; odiv := SFdiv 53 1024;
     ocj := fun a => a; oeqb := SFeqb |}.
(** 2^k as a double (-1022 <= k <= 1023), and small integers *)
Definition two_to (k : Z) : spec_float := S754_finite false 4503599627370496 (k - 52).
Definition f_of (z : Z) : spec_float := binary_normalize 53 1024 z 0 false.
