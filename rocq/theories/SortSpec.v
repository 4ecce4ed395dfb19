(** Specification of sorting and diagonal insertion. *)
From Coq Require Import ZArith List Bool Permutation.
From Verif Require Import Base Csr.
Import ListNotations.
Open Scope Z_scope.

(** What std::sort guarantees: for a comparator that totally and consistently
    orders different elements, the result is a permutation in that order. *)
Definition sort_contract (srt : (Z -> Z -> bool) -> list Z -> list Z) : Prop :=
  forall cmp l, NoDup l ->
    (forall a c, In a l -> In c l -> a <> c -> cmp a c = negb (cmp c a)) ->
    (forall a c d, In a l -> In c l -> In d l -> a <> c -> c <> d -> a <> d ->
       cmp a c = true -> cmp c d = true -> cmp a d = true) ->
    Permutation (srt cmp l) l /\
    forall i j, 0 <= i < j -> j < zlen l -> cmp (zn (srt cmp l) i) (zn (srt cmp l) j) = true.

(** No column is stored twice in a row. *)
Definition rows_distinct (m b : Z) (ptr ind : list Z) : Prop :=
  forall i k k', 0 <= i < m -> in_row ptr b i k -> in_row ptr b i k' -> k <> k' -> zn ind k <> zn ind k'.
