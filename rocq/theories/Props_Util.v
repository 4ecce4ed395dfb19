(** C37: the integer-product overflow guard. *)
From Coq Require Import ZArith Bool.
From Verif Require Import Base UtilModel UtilProof.
Open Scope Z_scope.

(** The guard itself never executes an overflowing operation, and an answer
    "no overflow" always means that the product is representable. *)
Theorem C37_product_guard_never_misses : forall w a b,
  0 < w -> - 2 ^ w <= a <= 2 ^ w - 1 -> - 2 ^ w <= b <= 2 ^ w - 1 ->
  exists r, int_product_overflow w a b = Some r /\
    (r = false -> - 2 ^ w <= a * b <= 2 ^ w - 1) /\
    (r = true -> a * b < - 2 ^ w \/ 2 ^ w - 1 < a * b \/ (a * b = - 2 ^ w /\ a <> 1 /\ b <> 1)).
Proof. exact product_guard_lemma. Qed.
Print Assumptions C37_product_guard_never_misses.

(** For the non-negative arguments it is called with (dimensions, strides and
    leading dimensions) the guard is exact. *)
Theorem C37_product_guard_exact_nonneg : forall w a b,
  0 < w -> 0 <= a <= 2 ^ w - 1 -> 0 <= b <= 2 ^ w - 1 ->
  exists r, int_product_overflow w a b = Some r /\ (r = true <-> 2 ^ w - 1 < a * b).
Proof. exact int_product_exact_nonneg. Qed.
Print Assumptions C37_product_guard_exact_nonneg.

Example C37_nonneg_case : int_product_overflow 31 65536 32768 = Some true /\
  int_product_overflow 31 65535 32768 = Some false.
Proof. vm_compute; auto. Qed.

(** Exactness fails for negative arguments: -2 * 2^30 = -2^31 is an int but is
    reported as an overflow. *)
Theorem C37_product_guard_exact_refuted :
  exists w a b, - 2 ^ w <= a <= 2 ^ w - 1 /\ - 2 ^ w <= b <= 2 ^ w - 1 /\
    - 2 ^ w <= a * b <= 2 ^ w - 1 /\ int_product_overflow w a b = Some true.
Proof. exact product_guard_refuted_lemma. Qed.
Print Assumptions C37_product_guard_exact_refuted.
