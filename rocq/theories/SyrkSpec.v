(** What the sparse product of a matrix with its own conjugate transpose has to return. *)
From Coq Require Import ZArith List Bool.
From Verif Require Import Base Algebra DoidModel DoidSpec Csr SortSpec HandleModel HandleSpec AddSpec.
Import ListNotations.
Open Scope Z_scope.

Section S.
  Context {T : Type} (O : ops T).
  (** [C] is a new [m] x [m] handle that owns one CSR matrix [c] in base [b].  It stores
      [H_nnz C] elements: there is room for them, they form a valid structure without
      repeated positions, none of them lies below the diagonal, and on and above the
      diagonal they denote [F]. *)
  Record upper_result (m b : Z) (F : Z -> Z -> T) (C : hnd T) (c : cmat T) : Prop := mk_upper_result {
    ur_m : H_m C = m; ur_n : H_n C = m; ur_mats : H_mats C = [Some c];
    ur_cm : c_m c = m; ur_cn : c_n c = m; ur_doid : c_doid c = gn; ur_base : c_b c = b;
    ur_room : H_nnz C <= zlen (c_ind c) /\ H_nnz C <= zlen (c_val c);
    ur_wf : csr_wf m m (H_nnz C) b (c_ptr c) (prefix (H_nnz C) (c_ind c));
    ur_distinct : rows_distinct m b (c_ptr c) (prefix (H_nnz C) (c_ind c));
    ur_upper : forall i k, 0 <= i < m -> in_row (c_ptr c) b i k -> i + b <= zn (c_ind c) k;
    ur_mat : forall i j, 0 <= i <= j -> j < m ->
      csr_mat O b (c_ptr c) (prefix (H_nnz C) (c_ind c)) (prefix (H_nnz C) (c_val c)) i j = F i j }.
End S.
