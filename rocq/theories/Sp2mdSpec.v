(** What the dense product of two sparse matrices has to do. *)
From Coq Require Import ZArith List Bool.
From Verif Require Import Base Algebra DoidModel UtilModel DenseSpec MvModel HandleModel AddSpec Csr2mSpec.
Import ListNotations.
Open Scope Z_scope.

(** The [m] x [n] window with leading dimension [ldc] lies inside the array [C], its
    rows (columns) do not overlap, and its extent is an aoclsparse_int. *)
Record dense_ok {T} (w layout ldc m n : Z) (C : list T) : Prop := mk_dense_ok {
  do_w : 0 < w;
  do_layout : layout = 0 \/ layout = 1;
  do_m : 0 <= m <= int_max w; do_n : 0 <= n <= int_max w; do_ldc : 0 <= ldc <= int_max w;
  do_fits : window_fits layout ldc m n C;
  do_extent : (if layout =? 1 then n else m) * ldc <= int_max w }.
