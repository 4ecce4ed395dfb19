(** What the product of a sparse and a dense matrix has to do. *)
From Coq Require Import ZArith List Bool Permutation.
From Verif Require Import Base Algebra DoidModel DoidSpec UtilModel Csr MvModel MvSpec HandleModel HandleSpec CsrmvModel ExpandSpec DenseSpec Csr2mSpec Sp2mdSpec CsrmmModel.
Import ListNotations.
Open Scope Z_scope.

Section S.
  Context {T : Type} (O : ops T).

  (** [c] is a copy made for a hint (C12) of the user's [m] x [n] matrix [A], whose
      diagonal may since have been overwritten by ones or zeros for a descriptor with
      that diagonal type: [c_mdiag c] says which, the original values are kept aside. *)
  Record copy_state (m n : Z) (A : Z -> Z -> T) (c : cmat T) : Prop := mk_copy_state {
    cs_doid : 0 <= c_doid c < 20;
    cs_base : c_b c = 0;
    cs_rows : c_m c = (if swaps (c_doid c) then n else m);
    cs_cols : c_n c = (if swaps (c_doid c) then m else n);
    cs_wf : csr_wf (c_m c) (c_n c) (c_nnz c) 0 (c_ptr c) (c_ind c);
    cs_len : zlen (c_val c) = c_nnz c;
    cs_mat : forall i j, 0 <= i < c_m c -> 0 <= j < c_n c ->
      csr_mat O 0 (c_ptr c) (c_ind c) (c_val c) i j =
      doid_sem O (c_doid c) (if is_one_tri (c_doid c) then with_diag O (c_mdiag c) A else A) i j;
    cs_diag : is_one_tri (c_doid c) = true -> exists idiag dg, c_idiag c = Some idiag /\ c_dval c = Some dg /\
      zlen idiag = c_m c /\ zlen dg = c_m c /\ diag_unique (c_m c) 0 (c_ptr c) (c_ind c) /\
      forall i, 0 <= i < c_m c -> in_row (c_ptr c) 0 i (zn idiag i) /\ zn (c_ind c) (zn idiag i) = i /\
        nthZ (o0 O) dg i = doid_sem O (c_doid c) A i i }.

  (** A handle of the user's matrix [u] with any copies the library may have added. *)
  Definition hinted (h : hnd T) (u : cmat T) : Prop :=
    user_mat h u /\ exists rest, H_mats h = Some u :: rest /\
      Forall (fun e => match e with
                       | None => True
                       | Some c => c_doid c = c_doid u \/ copy_state (H_m h) (H_n h) (hnd_mat O u) c
                       end) rest.

  (** A call the documentation allows, on non-empty operands.  [mm_extent]: with base
      one and row order the code forms offsets one leading dimension beyond the end. *)
  Record mm_pre (w : Z) (op : operation) (h : hnd T) (u : cmat T) (d : descr) (order : Z) (B : list T) (n ldb : Z) (C : list T) (ldc : Z) : Prop := mk_mm_pre {
    mm_hnd : hinted h u;
    mm_op : valid_op op = true;
    mm_type : d_type d <> mt_triangular;
    mm_square : d_type d <> mt_general -> H_m h = H_n h;
    mm_herm : d_type d = mt_hermitian -> d_diag d = dg_non_unit -> real_diag O (hnd_mat O u);
    mm_base : d_base d = c_b u;
    mm_dims : 0 < H_m h /\ 0 < H_n h /\ 0 < n;
    mm_B : dense_ok w order ldb (cols_of op h) n B;
    mm_C : dense_ok w order ldc (rows_of op h) n C;
    mm_extent : d_type d = mt_general -> order = 0 -> d_base d = 1 -> cols_of op h * ldb + n - 1 <= int_max w }.

  (** The environment: fresh arrays, thread team, orders of the parallel loops, kernels. *)
  Record mm_env (fz : Z -> list Z) (ft : Z -> list T) (tm : list Z) (ord : Z -> list Z) (kr : mm_kernel) : Prop := mk_mm_env {
    me_fz : forall n, 0 <= n -> zlen (fz n) = n;
    me_ft : forall n, 0 <= n -> zlen (ft n) = n;
    me_team : team tm;
    me_ord : forall k, 0 <= k -> Permutation (ord k) (zrange 0 k);
    me_kr : match kr with mk_ref => True | mk_kt psz => 0 < psz end }.

  (** Entry (i, j) of alpha * op(A) * B + beta * C *)
  Definition mm_entry (op : operation) (alpha : T) (h : hnd T) (u : cmat T) (d : descr) (order : Z) (B : list T) (ldb : Z) (beta : T) (C : list T) (ldc i j : Z) : T :=
    oadd O
      (omul O alpha (sumz O 0 (cols_of op h) (fun l =>
         omul O (op_sem O op (described O (d_type d) (d_fill d) (d_diag d) (hnd_mat O u)) i l) (nthZ (o0 O) B (dense_at order ldb l j)))))
      (omul O beta (nthZ (o0 O) C (dense_at order ldc i j))).
End S.
