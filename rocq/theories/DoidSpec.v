(** What each operation id means, as a function from the matrix held in the
    arrays to the matrix the kernel multiplies with.  Independent of the bit
    encodings in the code. *)
From Coq Require Import ZArith Bool List.
From Verif Require Import Base Algebra DoidModel.
Open Scope Z_scope.

Section Sem.
  Context {T : Type} (O : ops T).
  Definition mat := Z -> Z -> T.

  Definition mT (M : mat) : mat := fun i j => M j i.
  Definition mC (M : mat) : mat := fun i j => ocj O (M i j).
  (** lower / upper triangle with diagonal *)
  Definition mL (M : mat) : mat := fun i j => if j <=? i then M i j else o0 O.
  Definition mU (M : mat) : mat := fun i j => if i <=? j then M i j else o0 O.
  (** symmetric / Hermitian matrix given by one triangle *)
  Definition mSL (M : mat) : mat := fun i j => if j <=? i then M i j else M j i.
  Definition mSU (M : mat) : mat := fun i j => if i <=? j then M i j else M j i.
  Definition mHL (M : mat) : mat := fun i j => if j <=? i then M i j else ocj O (M j i).
  Definition mHU (M : mat) : mat := fun i j => if i <=? j then M i j else ocj O (M j i).

  Definition doid_sem (d : Z) (M : mat) : mat :=
    match d with
    | 0 => M | 1 => mC M | 2 => mT M | 3 => mC (mT M)
    | 4 => mSL M | 5 => mC (mSL M) | 6 => mSU M | 7 => mC (mSU M)
    | 8 => mHL M | 9 => mC (mHL M) | 10 => mC (mHU M) | 11 => mHU M
    | 12 => mL M | 13 => mC (mL M) | 14 => mT (mL M) | 15 => mC (mT (mL M))
    | 16 => mU M | 17 => mC (mU M) | 18 => mT (mU M) | 19 => mC (mT (mU M))
    | _ => M
    end.

  (** The matrix a descriptor describes, and an operation applied to it: the
      user-level meaning of (descr, op). *)
  Definition descr_sem (ty : mat_type) (fm : fill_mode) (M : mat) : mat :=
    match ty, fm with
    | mt_general, _ => M
    | mt_symmetric, fm_lower => mSL M
    | mt_symmetric, fm_upper => mSU M
    | mt_hermitian, fm_lower => mHL M
    | mt_hermitian, fm_upper => mHU M
    | mt_triangular, fm_lower => mL M
    | mt_triangular, fm_upper => mU M
    end.
  Definition op_sem (op : operation) (M : mat) : mat :=
    match op with
    | op_none => M
    | op_transpose => mT M
    | op_conjugate_transpose => mC (mT M)
    | op_other _ => M
    end.

  (** A Hermitian matrix has a real diagonal. *)
  Definition real_diag (M : mat) : Prop := forall i, ocj O (M i i) = M i i.

  Definition is_herm_doid (d : Z) : Prop := 8 <= d < 12.
End Sem.
