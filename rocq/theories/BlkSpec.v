(** Vocabulary of C53. *)
From Coq Require Import ZArith List Bool.
From Verif Require Import Base Csr SortSpec DoidModel MvModel.
Open Scope Z_scope.

(** The matrices the blocked format is made for: consistent arrays, at least eight columns
    (and so few that column + 8 is still an int), ascending columns in every row, no
    position stored twice. *)
Record blk_input {T} (m n nnz b : Z) (ptr ind : list Z) (val : list T) : Prop := {
  bi_wf : csr_wf m n nnz b ptr ind; bi_val : zlen val = nnz;
  bi_base : b = 0 \/ b = 1;
  bi_n : 8 <= n /\ n + 7 <= 2147483647;
  bi_sorted : rows_sorted m b ptr ind; bi_once : rows_distinct m b ptr ind }.

(** The supported block heights. *)
Definition height (nb : Z) : Prop := nb = 1 \/ nb = 2 \/ nb = 4.

(** Arrays at least as large as [k] blocks of height [nb] need. *)
Definition room {T} (m nnz nb k : Z) (bp bc : list Z) (bv : list T) (bm : list Z) : Prop :=
  m + 1 <= zlen bp /\ k <= zlen bc /\ nnz <= zlen bv /\ k * nb <= zlen bm.
