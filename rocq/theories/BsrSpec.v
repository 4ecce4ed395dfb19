(** What a BSR matrix is (C10). *)
From Coq Require Import ZArith List Bool.
From Verif Require Import Base Csr.
Import ListNotations.
Open Scope Z_scope.

(** Number of block rows or columns that cover [m] rows or columns *)
Definition nblocks (m bd : Z) : Z := (m + bd - 1) / bd.

(** Some stored element of the CSR arrays lies in block row [I], block column [J] *)
Definition occupied (m b bd : Z) (ptr ind : list Z) (I J : Z) : Prop :=
  exists i k, 0 <= i < m /\ i / bd = I /\ in_row ptr b i k /\ (zn ind k - b) / bd = J.

(** Element (r, c) of the [k]-th stored block *)
Definition block_elt {T} (d : T) (row_order : bool) (bd : Z) (bval : list T) (k r c : Z) : T :=
  nthZ d bval (k * bd * bd + (if row_order then r * bd + c else c * bd + r)).

(** The BSR arrays: a valid compressed structure of blocks with strictly ascending block
    columns in each block row, exactly the occupied blocks, and enough values *)
Record bsr_of (m n b bd : Z) (ptr ind : list Z) {T} (bnnz : Z) (bptr bind : list Z) (bval : list T) : Prop := mk_bsr_of {
  bo_wf : csr_wf (nblocks m bd) (nblocks n bd) bnnz b bptr bind;
  bo_len : zlen bval = bnnz * bd * bd;
  bo_sorted : forall I k k', 0 <= I < nblocks m bd -> in_row bptr b I k -> in_row bptr b I k' -> k < k' -> zn bind k < zn bind k';
  bo_blocks : forall I J, 0 <= I < nblocks m bd -> (exists k, in_row bptr b I k /\ zn bind k - b = J) <-> occupied m b bd ptr ind I J
}.

(** Element (i, j) of a BSR matrix: zero outside the stored blocks *)
Definition bsr_get {T} (zero : T) (row_order : bool) (b bd : Z) (bptr bind : list Z) (bval : list T) (i j : Z) : T :=
  match find (fun k => zn bind k - b =? j / bd) (zrange (zn bptr (i / bd) - b) (zn bptr (i / bd + 1) - b)) with
  | Some k => block_elt zero row_order bd bval k (i mod bd) (j mod bd)
  | None => zero
  end.
