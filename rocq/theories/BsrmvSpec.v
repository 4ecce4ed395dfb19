(** The matrix BSR arrays denote. *)
From Coq Require Import ZArith List Bool.
From Verif Require Import Base Algebra Csr BsrSpec.
Import ListNotations.
Open Scope Z_scope.

(** Element (i, j): the sum over the stored blocks of block row i / bd that lie in block
    column j / bd (at most one when block columns are distinct). *)
Definition bsr_elem {T} (O : ops T) (row_order : bool) (b bd : Z) (ptr ind : list Z) (val : list T) (i j : Z) : T :=
  sumz O (zn ptr (i / bd) - b) (zn ptr (i / bd + 1) - b) (fun k =>
    if zn ind k - b =? j / bd then block_elt (o0 O) row_order bd val k (i mod bd) (j mod bd) else o0 O).
