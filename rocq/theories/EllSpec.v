(** ELL storage, independent of the code: [wd] slots per row. *)
From Coq Require Import ZArith List Bool.
From Verif Require Import Base Csr.
Import ListNotations.
Open Scope Z_scope.

(** Number of elements stored in row [i]. *)
Definition row_len (ptr : list Z) (i : Z) : Z := zn ptr (i + 1) - zn ptr i.

(** [wd] is the length of the longest row (zero when there is none). *)
Definition is_max_row (m : Z) (ptr : list Z) (wd : Z) : Prop :=
  (forall i, 0 <= i < m -> row_len ptr i <= wd) /\
  (wd = 0 \/ exists i, 0 <= i < m /\ row_len ptr i = wd).

(** Where slot [k] of row [i] lives: row by row, or slot by slot. *)
Definition ell_slot (wd : Z) (i k : Z) : Z := i * wd + k.
Definition ellt_slot (m : Z) (i k : Z) : Z := k * m + i.

(** Values an ELL matrix stores at (i,j), in slot order. *)
Definition ell_ents {T} (d : T) (slot : Z -> Z -> Z) (b wd : Z) (col : list Z) (v : list T) (i j : Z) : list T :=
  flat_map (fun k => if zn col (slot i k) =? j + b then [nthZ d v (slot i k)] else []) (zrange 0 wd).

(** Slot contents: the elements of the row in order, then padding with column
    [padc i] and value [z]. *)
Definition ell_row_ok {T} (z : T) (slot : Z -> Z -> Z) (b wd : Z) (ptr ind : list Z) (val : list T)
    (padc : Z) (col : list Z) (v : list T) (i : Z) : Prop :=
  forall k, 0 <= k < wd ->
    if k <? row_len ptr i
    then zn col (slot i k) = zn ind (zn ptr i - b + k) /\ nthZ z v (slot i k) = nthZ z val (zn ptr i - b + k)
    else zn col (slot i k) = padc /\ nthZ z v (slot i k) = z.

(** Rows whose length exceeds the width, in increasing order. *)
Definition long_rows (m wd : Z) (ptr : list Z) : list Z :=
  filter (fun i => wd <? row_len ptr i) (zrange 0 m).

(** The padding of an empty row copies the column index stored just before the row;
    there is one unless all previous rows are empty. *)
Definition pad_source (m b wd : Z) (ptr : list Z) : Prop :=
  forall i, 0 <= i < m -> 0 < wd -> 0 < zn ptr (i + 1) - b.
