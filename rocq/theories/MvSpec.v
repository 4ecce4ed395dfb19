(** Specification of y := alpha * op(A) * x + beta * y over an exact scalar ring,
    independent of storage. *)
From Coq Require Import ZArith List Bool.
From Verif Require Import Base Algebra DoidModel DoidSpec MvModel.
Open Scope Z_scope.

Section S.
  Context {T : Type} (O : ops T).

  (** The matrix after the descriptor's diagonal rule. *)
  Definition with_diag (dg : diag_type) (M : Z -> Z -> T) : Z -> Z -> T :=
    fun i j => if i =? j then
                 match dg with dg_non_unit => M i j | dg_unit => o1 O | dg_zero => o0 O end
               else M i j.

  (** The matrix a user's descriptor denotes, from the stored matrix. The
      diagonal rule does not apply to general matrices. *)
  Definition described (ty : mat_type) (fm : fill_mode) (dg : diag_type) (M : Z -> Z -> T) : Z -> Z -> T :=
    match ty with
    | mt_general => M
    | _ => descr_sem O ty fm (with_diag dg M)
    end.

  (** [y1] is alpha * M * x + beta * y0 where M has [rows] rows and [cols] columns. *)
  Definition mv_spec (rows cols : Z) (alpha beta : T) (M : Z -> Z -> T) (x y0 y1 : list T) : Prop :=
    zlen y1 = rows /\
    forall i, 0 <= i < rows ->
      nthZ (o0 O) y1 i =
        oadd O (omul O alpha (sumz O 0 cols (fun j => omul O (M i j) (nthZ (o0 O) x j))))
               (omul O beta (nthZ (o0 O) y0 i)).
End S.

(** A lower triangle whose diagonal, where stored, comes last in its row. *)
From Verif Require Import Csr CheckSpec.
Definition lower_diag_last (m b : Z) (ptr ind : list Z) : Prop :=
  forall i k, 0 <= i < m -> in_row ptr b i k ->
    zn ind k - b <= i /\ (zn ind k - b = i -> k = zn ptr (i + 1) - b - 1).

(** Compressed rows prepared for triangular access: validated structure plus the
    positions that split every row (C03). *)
Record tri_ready (m n nnz b : Z) (ptr ind idiag iurow : list Z) : Prop := mk_tri_ready {
  tr_wf : csr_wf m n nnz b ptr ind;
  tr_uniq : diag_unique m b ptr ind;
  tr_ld : zlen idiag = m;
  tr_lu : zlen iurow = m;
  tr_split : forall i, 0 <= i < m -> splits_row b ptr ind idiag iurow i
}.
