(** A call of the symmetric triple product into a sparse matrix. *)
From Coq Require Import ZArith List Bool.
From Verif Require Import Base Algebra DoidModel DoidSpec Csr CheckModel CheckSpec SortSpec MvModel CsrmvModel HandleModel HandleSpec AddSpec Csr2mSpec SyrkdSpec.
Import ListNotations.
Open Scope Z_scope.

Section S.
  Context {T : Type} (zero : T).

  (** Every matrix the handle holds has sorted rows: the user's one and copies made of it. *)
  Definition cmat_sorted (c : cmat T) : Prop := rows_sorted (c_m c) (c_b c) (c_ptr c) (c_ind c).
  Definition copies_sorted (h : hnd T) : Prop := forall c, In (Some c) (H_mats h) -> cmat_sorted c.

  (** What the documentation asks for: [A] any matrix in CSR or CSC, [B] a square CSR matrix
      described as symmetric (real) or Hermitian (complex) with a non-unit diagonal, matching
      dimensions, sorted rows of B and of A where the library walks the stored rows; no
      position stored twice. *)
  Record sypr_call (is_real : bool) (op : operation) (A : hnd T) (a : cmat T) (B : hnd T) (b : cmat T) (d : descr) : Prop := mk_sypr_call {
    sc_A : holds A a; sc_op : valid_op op = true; sc_cplx : is_real = false -> op <> op_transpose;
    sc_B : hnd_ok zero B b; sc_csr : c_doid b = gn; sc_base : d_base d = c_b b;
    sc_type : d_type d = if is_real then mt_symmetric else mt_hermitian; sc_diag : d_diag d = dg_non_unit;
    sc_square : H_m B = H_n B; sc_dim : cols_of op A = H_m B;
    sc_Asays : stored_rows op a = true -> H_sort A = fully_sorted;
    sc_Asort : stored_rows op a = true -> rows_sorted (c_m a) (c_b a) (c_ptr a) (c_ind a);
    sc_Adist : rows_distinct (c_m a) (c_b a) (c_ptr a) (c_ind a);
    sc_Bsays : H_sort B = fully_sorted; sc_Bsort : copies_sorted B;
    sc_Bdist : rows_distinct (c_m b) (c_b b) (c_ptr b) (c_ind b) }.

  (** What the first of two stages leaves: an n x n handle with room for its elements. *)
  Definition sized (n : Z) (h : hnd T) (c : cmat T) : Prop :=
    H_m h = n /\ H_n h = n /\ H_mats h = [Some c] /\ c_m c = n /\ c_n c = n /\ c_doid c = gn /\ c_b c = 0 /\
    zlen (c_ptr c) = n + 1 /\ H_nnz h <= zlen (c_ind c) /\ H_nnz h <= zlen (c_val c) /\
    forall i, 0 <= i <= n -> 0 <= zn (c_ptr c) i <= H_nnz h.

  (** Two matrices that store elements at the same positions; values and the way they are
      stored may differ. *)
  Definition same_pattern (h : hnd T) (x : cmat T) (h' : hnd T) (x' : cmat T) : Prop :=
    H_m h' = H_m h /\ H_n h' = H_n h /\ H_nnz h' = H_nnz h /\
    forall i j, 0 <= i < H_m h -> 0 <= j < H_n h -> (stored_at x' i j <-> stored_at x i j).
End S.
