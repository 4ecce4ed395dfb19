(** What it means for a handle to be consistent, and for a stored matrix to hold
    the user's data. *)
From Coq Require Import ZArith List Bool.
From Verif Require Import Base Algebra DoidModel DoidSpec Csr CheckSpec SortSpec MvModel MvSpec CsrmvModel HandleModel.
Import ListNotations.
Open Scope Z_scope.

Section S.
  Context {T : Type}.

  (** Arrays accepted by aoclsparse_create_?csr / ?csc (C01). *)
  Definition arrays_ok (c : cmat T) : Prop :=
    csr_wf (c_m c) (c_n c) (c_nnz c) (c_b c) (c_ptr c) (c_ind c) /\
    diag_unique (c_m c) (c_b c) (c_ptr c) (c_ind c) /\
    zlen (c_val c) = c_nnz c /\ (c_b c = 0 \/ c_b c = 1).

  (** Optimised: every row is split into lower, diagonal and upper part, the
      positions are recorded and no diagonal entry is missing. *)
  Definition opt_ready (c : cmat T) : Prop :=
    exists idiag iurow, c_idiag c = Some idiag /\ c_iurow c = Some iurow /\
      tri_ready (c_m c) (c_n c) (c_nnz c) (c_b c) (c_ptr c) (c_ind c) idiag iurow /\
      full_diag (c_m c) (c_n c) (c_b c) (c_ptr c) (c_ind c).

  (** Stored entries of a matrix object. *)
  Definition centries (c : cmat T) := ents (c_b c) (c_ptr c) (c_ind c) (c_val c).

  (** [c] holds exactly the entries of [u] plus explicit zeros on missing diagonals. *)
  Definition same_entries (zero : T) (u c : cmat T) : Prop :=
    c_m c = c_m u /\ c_n c = c_n u /\ c_doid c = c_doid u /\
    forall i j, 0 <= i < c_m u -> centries c i j =
      match centries u i j with
      | [] => if (i =? j) && (i <? c_n u) then [zero] else []
      | l => l
      end.

  (** The user's matrix [u] of a handle: CSR (doid gn) or CSC (doid gt, dimensions
      exchanged). *)
  Definition user_mat (h : hnd T) (u : cmat T) : Prop :=
    arrays_ok u /\ H_nnz h = c_nnz u /\ c_mdiag u = dg_non_unit /\ c_dval u = None /\
    (c_doid u = gn /\ c_m u = H_m h /\ c_n u = H_n h \/
     c_doid u = gt /\ c_m u = H_n h /\ c_n u = H_m h).

  (** Consistent handle: the user's matrix first, possibly marked optimised; further
      entries are optimised copies of it. *)
  Definition hnd_ok (zero : T) (h : hnd T) (u : cmat T) : Prop :=
    user_mat h u /\ exists rest, H_mats h = Some u :: rest /\
      (c_opt u = true -> opt_ready u) /\
      Forall (fun e => exists c, e = Some c /\ c_opt c = true /\ opt_ready c /\ arrays_ok c /\ same_entries zero u c /\
                          c_mdiag c = dg_non_unit /\ c_dval c = None) rest.

  (** Rows that the library can bring into lower | diagonal | upper order with
      defined behaviour (see finding B9 for the others). *)
  Definition sortable (u : cmat T) : Prop :=
    rows_grouped (c_m u) (c_b u) (c_ptr u) (c_ind u) \/ rows_distinct (c_m u) (c_b u) (c_ptr u) (c_ind u).

  (** Same user data: only the bookkeeping fields may differ. *)
  Definition same_data (u u' : cmat T) : Prop :=
    c_m u' = c_m u /\ c_n u' = c_n u /\ c_nnz u' = c_nnz u /\ c_doid u' = c_doid u /\ c_b u' = c_b u /\
    c_ptr u' = c_ptr u /\ c_ind u' = c_ind u /\ c_val u' = c_val u.
End S.

(** ** Meaning of aoclsparse_?mv on a handle *)
Definition is_none (op : operation) : bool := match op with op_none => true | _ => false end.
Definition one_tri (ty : mat_type) : bool := match ty with mt_symmetric | mt_hermitian => true | _ => false end.
Definition is_gen (ty : mat_type) : bool := match ty with mt_general => true | _ => false end.

(** Requests the library declines: conjugate transpose of a complex CSC matrix. *)
Definition declined (dt : dtype) (ty : mat_type) (op : operation) (d : Z) : bool :=
  is_cplx dt && (d =? gt) && negb (one_tri ty) && match op with op_conjugate_transpose => true | _ => false end.

(** CSC arrays are the CSR arrays of the transpose. *)
Definition stored_as {T} (d : Z) (A : Z -> Z -> T) : Z -> Z -> T := if d =? gt then mT A else A.

Section M.
  Context {T : Type} (O : ops T) (dt : dtype).

  (** The matrix the user supplied. *)
  Definition hnd_mat (u : cmat T) : Z -> Z -> T := stored_as (c_doid u) (csr_mat O (c_b u) (c_ptr u) (c_ind u) (c_val u)).

  (** Number of entries stored right of the diagonal in stored row [i]. *)
  Definition upper_count (u : cmat T) (i : Z) : Z := sumz Zops (i + 1) (c_n u) (fun j => zlen (centries u i j)).

  (** Requests whose result the library is able to deliver (see the findings for
      the others). *)
  Record mv_pre (h : hnd T) (u : cmat T) (d : descr) (op : operation) : Prop := mk_mv_pre {
    mp_base : d_base d = c_b u;
    mp_op : valid_op op = true;
    mp_square : d_type d = mt_symmetric \/ d_type d = mt_hermitian -> H_m h = H_n h;
    mp_cplx : d_type d = mt_hermitian -> is_cplx dt = true;
    mp_herm : d_type d = mt_hermitian -> d_diag d = dg_non_unit -> real_diag O (hnd_mat u);
    mp_general : d_type d = mt_general -> d_diag d = dg_non_unit;
    mp_sort : d_type d <> mt_general -> sortable u;
    mp_wide : d_type d = mt_triangular -> d_diag d <> dg_non_unit -> c_m u <= c_n u;
    mp_unit : dt = dt_d -> d_type d = mt_triangular -> d_diag d = dg_unit ->
      (c_doid u = gn /\ d_fill d = fm_upper /\ op = op_none \/ c_doid u = gt /\ d_fill d = fm_lower /\ op <> op_none) ->
      forall i, 0 <= i < c_m u -> upper_count u i < 4 }.
End M.
