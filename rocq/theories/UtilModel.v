(** library/src/extra/aoclsparse_utils.hpp: integer guards. *)
From Coq Require Import ZArith Bool.
From Verif Require Import Base.
Open Scope Z_scope.

(** Range of aoclsparse_int with [w] value bits ([w] = 31 for LP64 builds, 63 for
    ILP64 builds).  extra/aoclsparse_utils.hpp 391-393: int_max, int_min. *)
Definition int_max (w : Z) : Z := 2 ^ w - 1.
Definition int_min (w : Z) : Z := - 2 ^ w.
Definition in_int (w v : Z) : bool := (int_min w <=? v) && (v <=? int_max w).

(** Signed arithmetic: a result outside the type is undefined behaviour. *)
Definition chk (w v : Z) : option Z := if in_int w v then Some v else None.
Definition neg_i (w a : Z) : option Z := chk w (- a).
Definition div_i (w a b : Z) : option Z := if b =? 0 then None else chk w (Z.quot a b).

(** extra/aoclsparse_utils.hpp 395-405: aoclsparse_int_sum_overflow.  The
    accumulator is int64_t; [aw] is its value-bit count (63). *)
Definition int_sum_overflow (aw w v : Z) : bool :=
  if w <? aw then int_max w <? v else false.

(** extra/aoclsparse_utils.hpp 407-421: aoclsparse_int_product_overflow *)
Definition int_product_overflow (w a b : Z) : option bool :=
  if (b =? 0) || (a =? 0) then Some false
  else if a =? int_min w then Some (negb (b =? 1))
  else if b =? int_min w then Some (negb (a =? 1))
  else
    let* abs_a := (if a <? 0 then neg_i w a else Some a) in
    let* abs_b := (if b <? 0 then neg_i w b else Some b) in
    let* q := div_i w (int_max w) abs_b in
    Some (q <? abs_a).
