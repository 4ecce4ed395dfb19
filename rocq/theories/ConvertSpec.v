(** What converting a handle means (C10, C45). *)
From Coq Require Import ZArith List Bool.
From Verif Require Import Base DoidModel Csr MvModel HandleModel.
Import ListNotations.
Open Scope Z_scope.

Section S.
  Context {T : Type} (cj : T -> T) (cplx : bool).

  (** Values stored at row i, column j of the user's matrix: [u] holds its rows, or its
      columns when it was given in CSC form *)
  Definition user_ents (u : cmat T) (i j : Z) : list T :=
    if c_doid u =? gt then ents (c_b u) (c_ptr u) (c_ind u) (c_val u) j i else ents (c_b u) (c_ptr u) (c_ind u) (c_val u) i j.

  (** Values stored at (i, j) of op(A) *)
  Definition op_ents (E : Z -> Z -> list T) (op : operation) (i j : Z) : list T :=
    match op with
    | op_none => E i j
    | op_conjugate_transpose => if cplx then map cj (E j i) else E j i
    | _ => E j i
    end.

  (** [u] is the matrix the handle was created from *)
  Definition made_from (h : hnd T) (u : cmat T) : Prop :=
    (exists rest, H_mats h = Some u :: rest) /\ csr_wf (c_m u) (c_n u) (c_nnz u) (c_b u) (c_ptr u) (c_ind u) /\
    zlen (c_val u) = c_nnz u /\ (c_b u = 0 \/ c_b u = 1) /\ H_nnz h = c_nnz u /\
    (c_doid u = gn /\ c_m u = H_m h /\ c_n u = H_n h \/ c_doid u = gt /\ c_m u = H_n h /\ c_n u = H_m h).

  (** Dimensions of op(A) *)
  Definition op_rows (op : operation) (m n : Z) : Z := match op with op_none => m | _ => n end.
  Definition op_cols (op : operation) (m n : Z) : Z := match op with op_none => n | _ => m end.
End S.
