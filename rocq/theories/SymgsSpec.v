(** What symmetric Gauss-Seidel has to compute for A = L + D + U. *)
From Coq Require Import ZArith List Bool.
From Verif Require Import Base Algebra Csr DoidModel DoidSpec MvModel MvSpec HandleModel HandleSpec SortSpec CsrmvModel TrsvSpec.
Import ListNotations.
Open Scope Z_scope.

Section S.
  Context {T : Type} (O : ops T).
  Local Notation tn := (nthZ (o0 O)).
  (** strictly lower, strictly upper, diagonal part *)
  Definition pL (A : Z -> Z -> T) i j : T := if j <? i then A i j else o0 O.
  Definition pU (A : Z -> Z -> T) i j : T := if i <? j then A i j else o0 O.
  Definition pD (A : Z -> Z -> T) i j : T := if i =? j then A i j else o0 O.
  Definition madd (A B : Z -> Z -> T) i j : T := oadd O (A i j) (B i j).
  (** row i of A times x *)
  Definition rowx (n : Z) (A : Z -> Z -> T) (x : list T) (i : Z) : T := sumz O 0 n (fun j => omul O (A i j) (tn x j)).

  (** (L + D) x1 = b - alpha U x0 and (U + D) x = b - L x1 *)
  Definition symgs_sweep (n : Z) (A : Z -> Z -> T) (alpha : T) (b x0 x : list T) : Prop :=
    zlen x = n /\ exists x1, zlen x1 = n /\
      (forall i, 0 <= i < n -> rowx n (madd (pL A) (pD A)) x1 i = osub O (tn b i) (omul O alpha (rowx n (pU A) x0 i))) /\
      (forall i, 0 <= i < n -> rowx n (madd (pU A) (pD A)) x i = osub O (tn b i) (rowx n (pL A) x1 i)).

  (** The matrix of the request. *)
  Definition req_mat (u : cmat T) (d : descr) (op : operation) : Z -> Z -> T :=
    op_sem O op (described O (d_type d) (d_fill d) (d_diag d) (hnd_mat O u)).

  (** Requests covered: a consistent square handle with a complete non-zero diagonal. *)
  Record symgs_pre (dt : dtype) (tsc : Z -> option Z) (w : Z) (h : hnd T) (u : cmat T) (d : descr) (op : operation) (b x : list T) : Prop := mk_symgs_pre {
    sg_hnd : hnd_ok (o0 O) h u; sg_flag : diag_flag_ok h u;
    sg_sort : sortable u; sg_cols : tsc (-1) = Some 0 \/ rows_distinct (c_m u) (c_b u) (c_ptr u) (c_ind u);
    sg_square : H_m h = H_n h; sg_size : 0 < H_m h <= 2 ^ w - 1; sg_w : 0 < w; sg_nnz : 0 < H_nnz h;
    sg_base : d_base d = c_b u; sg_diag : d_diag d = dg_non_unit; sg_op : valid_op op = true;
    sg_full : full_diag (c_m u) (c_n u) (c_b u) (c_ptr u) (c_ind u);
    sg_nz : forall i, 0 <= i < H_m h -> hnd_mat O u i i <> o0 O;
    (** the operation must not change the kind of matrix: see the refutations *)
    sg_general : d_type d = mt_general -> op <> op_conjugate_transpose;
    sg_symm : d_type d = mt_symmetric -> is_cplx dt = true -> op <> op_conjugate_transpose;
    sg_herm : d_type d = mt_hermitian -> is_cplx dt = true /\ op <> op_transpose /\ c_doid u = gn /\ real_diag O (hnd_mat O u);
    sg_tri : d_type d = mt_triangular -> is_cplx dt = true -> c_doid u = gt -> op <> op_conjugate_transpose;
    sg_x : zlen x = H_m h; sg_b : zlen b = H_m h }.
End S.
