(** Which matrices the 4-row interleaved copy can be built for without padding a row
    before any column has been seen. *)
From Coq Require Import ZArith List.
From Verif Require Import Base Csr.
Open Scope Z_scope.

(** Base zero, or: no block of four rows starts with an empty row while nothing is stored
    above it and the block itself stores something.  [zn ptr i] is the row pointer, so
    [zn ptr i = zn ptr 0] says that rows 0 .. i-1 are empty. *)
Definition pad_safe (m b : Z) (ptr : list Z) : Prop :=
  b = 0 \/ forall i, 0 <= i < m / 4 * 4 -> zn ptr (i + 1) = zn ptr 0 -> zn ptr (i / 4 * 4 + 4) = zn ptr 0.
