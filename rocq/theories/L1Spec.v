(** What the level-1 operations should do. *)
From Coq Require Import ZArith List Bool.
From Verif Require Import Base Algebra DispatchModel L1Model.
Import ListNotations.
Open Scope Z_scope.

(** [y'] is [y] with [newv i] stored at position [at_ i], for [i = 0 .. q-1], and
    nothing else changed. *)
Definition stored {T} (d : T) (q : Z) (at_ : Z -> Z) (newv : Z -> T) (y y' : list T) : Prop :=
  zlen y' = zlen y /\
  (forall i, 0 <= i < q -> nthZ d y' (at_ i) = newv i) /\
  (forall p, 0 <= p < zlen y -> (forall i, 0 <= i < q -> at_ i <> p) -> nthZ d y' p = nthZ d y p).

(** The first [q] positions are in range of an array of length [len], no two equal. *)
Definition good_positions (q : Z) (at_ : Z -> Z) (len : Z) : Prop :=
  (forall i, 0 <= i < q -> 0 <= at_ i < len) /\
  (forall i j, 0 <= i < q -> 0 <= j < q -> at_ i = at_ j -> i = j).

(** Position of element [i] for an index array or a stride. *)
Definition pos (xi : index) (i : Z) : Z := match xi with Indexed l => zn l i | Strided s => s * i end.
Definition index_len (xi : index) (n : Z) : Prop := match xi with Indexed l => n <= zlen l | Strided _ => True end.

(** A CPU description: one flag per instruction set, none for "unset". *)
Definition cpu_ok (c : cpu) : Prop := zlen (u_flags c) = isa_length /\ nthZ false (u_flags c) isa_unset = false.
