(** Model of the product followed by a dot product,
    /repo/library/src/level2/aoclsparse_dotmv.hpp 31-60. *)
From Coq Require Import ZArith List Bool.
From Verif Require Import Base Algebra DispatchModel DoidModel MvModel CsrmvModel HandleModel L1Model.
Import ListNotations.
Open Scope Z_scope.

Section K.
  Context {T : Type} (O : ops T).
  Variable srt : (Z -> Z -> bool) -> list Z -> list Z.
  Variables (fz : Z -> list Z) (ft : Z -> list T) (sup : Z -> bool) (dt : dtype) (choice : Z -> option Z).
  Variables (nthreads : Z) (team : list Z) (w256 w512 : Z) (c : cpu).

  (** dotmv.hpp 31-60 with kid = -1 (dotmv.cpp 38, 51, 64, 85).  [has_d]: whether the
      result pointer is non-null.  Result: status, y if written, *d if written, handle. *)
  Definition dotmv (op : operation) (alpha : T) (A : option (hnd T)) (d : option descr) (x : option (list T)) (beta : T)
      (y : option (list T)) (has_d : bool) : option (status * option (list T) * option T * option (hnd T)) :=
    match A with
    | Some h =>
      if negb has_d then Some (invalid_pointer, None, None, A)
      else
        let* (st, yr, h') := mv O srt fz ft sup dt choice nthreads team op (Some alpha) A d x (Some beta) y in
        match st with
        | success =>
          (* after a successful product both pointers are valid; when nothing was
             written to y its old content is read *)
          let* x := x in
          let* y1 := (match yr with Some y1 => Some y1 | None => y end) in
          let* h1 := h' in
          let* (st, r) := dense_dot O w256 w512 c (Z.min (H_m h1) (H_n h1)) x y1 (-1) in
          Some (st, yr, r, h')
        | _ => Some (st, yr, None, h')
        end
    | None => Some (invalid_pointer, None, None, A)
    end.
End K.
