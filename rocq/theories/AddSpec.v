(** What aoclsparse_?add has to return. *)
From Coq Require Import ZArith List Bool Permutation.
From Verif Require Import Base Algebra DoidModel DoidSpec Csr SortSpec MvModel HandleModel HandleSpec AddModel.
Import ListNotations.
Open Scope Z_scope.

(** Both parallel regions get as many threads as they were given; the threads of
    each finish in any order. *)
Definition threads_ok (te : threads) : Prop :=
  1 <= te_req te /\ Permutation (te_fill te) (zrange 0 (te_req te)) /\
  te_count te <> [] /\ Permutation (te_count te) (zrange 0 (zlen (te_count te))).

(** The first [n] elements of an array. *)
Definition prefix {A} (n : Z) (l : list A) : list A := firstn (Z.to_nat n) l.

Section S.
  Context {T : Type} (O : ops T).

  (** [h] is a handle holding the user's matrix [u] (CSR or CSC), whatever other
      copies it carries. *)
  Definition holds (h : hnd T) (u : cmat T) : Prop := user_mat h u /\ exists rest, H_mats h = Some u :: rest.

  (** The dimensions of op(A) are those of B. *)
  Definition conform (op : operation) (A B : hnd T) : Prop :=
    match op with
    | op_none => H_m A = H_m B /\ H_n A = H_n B
    | _ => H_m A = H_n B /\ H_n A = H_m B
    end.

  (** [C] is a new [m] x [n] handle that owns one CSR matrix [c] in base [b]: its arrays
      have room for the stored elements, their used part is a valid structure and it
      denotes [F]. *)
  Record csr_result (m n b : Z) (F : Z -> Z -> T) (C : hnd T) (c : cmat T) : Prop := mk_csr_result {
    cr_m : H_m C = m; cr_n : H_n C = n; cr_nnz : H_nnz C = c_nnz c; cr_mats : H_mats C = [Some c];
    cr_cm : c_m c = m; cr_cn : c_n c = n; cr_doid : c_doid c = gn; cr_base : c_b c = b;
    cr_room : c_nnz c <= zlen (c_ind c) /\ c_nnz c <= zlen (c_val c);
    cr_wf : csr_wf m n (c_nnz c) b (c_ptr c) (prefix (c_nnz c) (c_ind c));
    cr_mat : forall i j, 0 <= i < m -> 0 <= j < n ->
      csr_mat O b (c_ptr c) (prefix (c_nnz c) (c_ind c)) (prefix (c_nnz c) (c_val c)) i j = F i j }.
End S.
