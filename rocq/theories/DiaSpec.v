(** Diagonal storage, independent of the code. *)
From Coq Require Import ZArith List Bool.
From Verif Require Import Base Csr.
Import ListNotations.
Open Scope Z_scope.

(** Some element is stored on the diagonal [col - row = o]. *)
Definition occupied (m b : Z) (ptr ind : list Z) (o : Z) : Prop :=
  exists i k, 0 <= i < m /\ in_row ptr b i k /\ zn ind k - b - i = o.

(** [L] lists the occupied diagonals in increasing order, each once. *)
Definition diagonals (m b : Z) (ptr ind : list Z) (L : list Z) : Prop :=
  (forall p q, 0 <= p < q -> q < zlen L -> zn L p < zn L q) /\
  (forall o, In o L <-> occupied m b ptr ind o).

(** Element (i, i + offset) of diagonal number [d] of an m-row matrix. *)
Definition dia_at (m i d : Z) : Z := i + m * d.
