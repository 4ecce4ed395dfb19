(** Specification of compressed-row storage, independent of the code.
    [ptr] has one entry per row plus one, [ind] one entry per stored element; both
    are offset by the index base [b].  The same definitions describe compressed
    columns with rows and columns exchanged. *)
From Coq Require Import ZArith List Bool.
From Verif Require Import Base Algebra.
Import ListNotations.
Open Scope Z_scope.

(** Stored position [k] belongs to row [i]. *)
Definition in_row (ptr : list Z) (b i k : Z) : Prop :=
  zn ptr i - b <= k < zn ptr (i + 1) - b.

(** The pointer array of [m] rows and [nnz] stored elements is consistent. *)
Definition ptr_ok (m nnz b : Z) (ptr : list Z) : Prop :=
  zn ptr 0 = b /\ zn ptr m = b + nnz /\
  (forall i, 0 <= i < m -> zn ptr i <= zn ptr (i + 1)).

(** Arrays have the advertised length. *)
Definition lens_ok (m nnz : Z) (ptr ind : list Z) : Prop :=
  zlen ptr = m + 1 /\ zlen ind = nnz.

(** A well-formed structure: what every conversion and kernel relies on. *)
Record csr_wf (m n nnz b : Z) (ptr ind : list Z) : Prop := mk_csr_wf {
  wf_m : 0 <= m;
  wf_n : 0 <= n;
  wf_nnz : 0 <= nnz;
  wf_len : lens_ok m nnz ptr ind;
  wf_ptr : ptr_ok m nnz b ptr;
  wf_ind : forall k, 0 <= k < nnz -> b <= zn ind k < b + n
}.

(** No row stores its diagonal twice. *)
Definition diag_unique (m b : Z) (ptr ind : list Z) : Prop :=
  forall i k k', 0 <= i < m -> in_row ptr b i k -> in_row ptr b i k' ->
    zn ind k = i + b -> zn ind k' = i + b -> k = k'.

(** Columns never decrease along any row. *)
Definition rows_sorted (m b : Z) (ptr ind : list Z) : Prop :=
  forall i k k', 0 <= i < m -> in_row ptr b i k -> in_row ptr b i k' -> k < k' ->
    zn ind k <= zn ind k'.

(** In every row: strictly lower entries, then the diagonal, then strictly upper
    entries; any order inside each group. *)
Definition rows_grouped (m b : Z) (ptr ind : list Z) : Prop :=
  forall i k k', 0 <= i < m -> in_row ptr b i k -> in_row ptr b i k' -> k < k' ->
    (zn ind k > i + b -> zn ind k' > i + b) /\
    (zn ind k = i + b -> zn ind k' >= i + b).

(** Each of the first [min(m,n)] rows stores its diagonal. *)
Definition full_diag (m n b : Z) (ptr ind : list Z) : Prop :=
  forall i, 0 <= i < m -> i < n -> exists k, in_row ptr b i k /\ zn ind k = i + b.

Definition olist {A} (o : option A) : list A := match o with Some v => [v] | None => [] end.

(** Values stored at row [i], column [j] (zero-based), in storage order. *)
Definition ents {T} (b : Z) (ptr ind : list Z) (val : list T) (i j : Z) : list T :=
  flat_map (fun k => if zn ind k =? j + b then olist (rd val k) else [])
           (zrange (zn ptr i - b) (zn ptr (i + 1) - b)).

(** The mathematical matrix: duplicates are summed. *)
Definition csr_mat {T} (O : ops T) (b : Z) (ptr ind : list Z) (val : list T) (i j : Z) : T :=
  suml O (fun v => v) (ents b ptr ind val i j).
