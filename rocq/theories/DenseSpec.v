(** What a dense copy of a compressed-row matrix is. *)
From Coq Require Import ZArith List Bool.
From Verif Require Import Base Algebra Csr.
Import ListNotations.
Open Scope Z_scope.

(** The last value stored at (i,j); zero when there is none.  With at most one
    stored element per coordinate this is the matrix element. *)
Definition last_at {T} (O : ops T) (b : Z) (ptr ind : list Z) (val : list T) (i j : Z) : T :=
  last (ents b ptr ind val i j) (o0 O).

(** The matrix a descriptor denotes.  [ty]: 0 general, 1 symmetric, 2 Hermitian,
    3 triangular; [fill]: 0 lower, 1 upper triangle is the stored one;
    [diag]: 0 as stored, 1 all ones, 2 all zeros. *)
Definition descr_mat {T} (O : ops T) (ty fill diag b : Z) (ptr ind : list Z) (val : list T) (i j : Z) : T :=
  let v := last_at O b ptr ind val in
  if ty =? 0 then v i j
  else if i =? j then
    (if diag =? 0 then v i j else if diag =? 1 then o1 O else o0 O)
  else if (if fill =? 0 then j <? i else i <? j) then v i j
  else if ty =? 1 then v j i
  else if ty =? 2 then ocj O (v j i)
  else o0 O.

(** Address of element (i,j): [order] = 1 by columns, otherwise by rows. *)
Definition dense_at (order ld i j : Z) : Z := if order =? 1 then i + ld * j else i * ld + j.

(** [A'] holds the m x n matrix [M]; everything outside the window is as in [A]. *)
Definition holds_window {T} (d : T) (order ld m n : Z) (M : Z -> Z -> T) (A A' : list T) : Prop :=
  zlen A' = zlen A /\
  (forall i j, 0 <= i < m -> 0 <= j < n -> nthZ d A' (dense_at order ld i j) = M i j) /\
  (forall p, 0 <= p < zlen A ->
     (forall i j, 0 <= i < m -> 0 <= j < n -> dense_at order ld i j <> p) -> nthZ d A' p = nthZ d A p).

(** The array is large enough and rows (columns) do not overlap. *)
Definition window_fits {T} (order ld m n : Z) (A : list T) : Prop :=
  (if order =? 1 then m <= ld /\ ld * (n - 1) + m <= zlen A
   else n <= ld /\ ld * (m - 1) + n <= zlen A).
