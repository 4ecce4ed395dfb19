(** What a triangular solve with several right-hand sides computes. *)
From Coq Require Import ZArith List Bool.
From Verif Require Import Base Algebra DenseSpec.
Import ListNotations.
Open Scope Z_scope.

(** M * X = alpha * B, where X and B are m x n dense matrices stored by rows
    ([order] = 0) or columns ([order] = 1) with leading dimensions ldx and ldb. *)
Definition solves_many {T} (O : ops T) (m n : Z) (alpha : T) (M : Z -> Z -> T) (order : Z)
    (B : list T) (ldb : Z) (X : list T) (ldx : Z) : Prop :=
  forall i j, 0 <= i < m -> 0 <= j < n ->
    sumz O 0 m (fun l => omul O (M i l) (nthZ (o0 O) X (dense_at order ldx l j))) =
    omul O alpha (nthZ (o0 O) B (dense_at order ldb i j)).

(** [X1] differs from [X0] only inside the m x n window. *)
Definition only_window {T} (d : T) (order ld m n : Z) (X0 X1 : list T) : Prop :=
  zlen X1 = zlen X0 /\
  forall p, 0 <= p < zlen X0 ->
    (forall i j, 0 <= i < m -> 0 <= j < n -> dense_at order ld i j <> p) -> nthZ d X1 p = nthZ d X0 p.
