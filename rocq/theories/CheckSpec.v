(** Specification of the validation verdict: which stored positions are
    offending. *)
From Coq Require Import ZArith List Bool.
From Verif Require Import Base Csr CheckModel.
Open Scope Z_scope.

(** The columns a row may use. *)
Definition col_allowed (sh : shape) (min_dim i j : Z) : Prop :=
  match sh with
  | shape_general => 0 <= j < min_dim
  | shape_lower_triangle => 0 <= j <= i
  | shape_upper_triangle => i <= j < min_dim
  end.

(** Position [k] holds an index outside the allowed range. *)
Definition bad_index (sh : shape) (maj min_dim b : Z) (ptr ind : list Z) (k : Z) : Prop :=
  exists i, 0 <= i < maj /\ in_row ptr b i k /\ ~ col_allowed sh min_dim i (zn ind k - b).

(** Position [k] repeats the diagonal of its row. *)
Definition dup_diag (maj b : Z) (ptr ind : list Z) (k : Z) : Prop :=
  exists i k', 0 <= i < maj /\ in_row ptr b i k /\ in_row ptr b i k' /\ k' < k /\
    zn ind k = i + b /\ zn ind k' = i + b.

(** The whole structure is acceptable. *)
Definition structure_ok (sh : shape) (maj min_dim nnz b : Z) (ptr ind : list Z) : Prop :=
  ptr_ok maj nnz b ptr /\
  (forall k, ~ bad_index sh maj min_dim b ptr ind k) /\
  (forall k, ~ dup_diag maj b ptr ind k).

(** What the recorded classification must say. *)
Definition sort_says (s : msort) (maj b : Z) (ptr ind : list Z) : Prop :=
  match s with
  | fully_sorted => rows_sorted maj b ptr ind
  | partially_sorted => ~ rows_sorted maj b ptr ind /\ rows_grouped maj b ptr ind
  | unsorted => ~ rows_grouped maj b ptr ind
  | unknown_sort => False
  end.

(** Position arrays split row [i]: strictly lower | diagonal | strictly upper. *)
Definition splits_row (b : Z) (ptr ind idiag iurow : list Z) (i : Z) : Prop :=
  zn ptr i <= zn idiag i <= zn iurow i /\ zn iurow i <= zn ptr (i + 1) /\
  (forall k, in_row ptr b i k ->
     (k < zn idiag i - b <-> zn ind k < i + b) /\
     (zn idiag i - b <= k < zn iurow i - b <-> zn ind k = i + b) /\
     (zn iurow i - b <= k <-> zn ind k > i + b)).
