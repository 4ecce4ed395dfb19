(** Legacy triangular solve aoclsparse_?csrsv. *)
From Coq Require Import ZArith List Bool.
From Verif Require Import Base Algebra DoidModel MvModel.
Import ListNotations.
Open Scope Z_scope.

Section K.
  Context {T : Type} (O : ops T).
  Local Infix "-!" := (osub O) (at level 50, left associativity).
  Local Infix "*!" := (omul O) (at level 40, left associativity).

  Definition is_nonunit (dg : diag_type) : bool := match dg with dg_non_unit => true | _ => false end.

  (** csrsv.hpp 120-122, 159-161: the inner statement [y[row] -= csr_val[j] * y[csr_col_ind[j] - base]] *)
  Definition sv_sub (val : list T) (j row c : Z) (y : list T) : option (list T) :=
    let* yr := rd y row in
    let* v := rd val j in
    let* yc := rd y c in
    wr y row (yr -! v *! yc).

  (** csrsv.hpp 129-134, 169-174: [y[row] /= csr_val[diag_j]] for a non-unit diagonal *)
  Definition sv_div (dg : diag_type) (val : list T) (dj row : Z) (y : list T) : option (list T) :=
    if is_nonunit dg then
      let* yr := rd y row in let* d := rd val dj in wr y row (odiv O yr d)
    else Some y.

  (** csrsv.hpp 91-134: aoclsparse_csr_lsolve.  State: y and diag_j, which keeps its
      value from row to row. *)
  Definition csr_lsolve (alpha : T) (m : Z) (val : list T) (ind ptr : list Z) (x y : list T) (dg : diag_type) (base : Z)
      : option (list T) :=
    let* (y, _) := for_ 0 m (fun row st =>
      let '(y, dj) := st in
      let* xr := rd x row in
      let* y := wr y row (alpha *! xr) in
      let* s := rd ptr row in
      let* e := rd ptr (row + 1) in
      let* r := forc (R := unit) (s - base) (e - base) (fun j st =>
          let '(y, dj) := st in
          let* c := rd ind j in
          if c - base <? row then
            let* y := sv_sub val j row (c - base) y in Some (Go (y, dj))
          else Some (Brk (y, if is_nonunit dg && (c - base =? row) then j else dj))) (y, dj) in
      match r with
      | inl (y, dj) => let* y := sv_div dg val dj row y in Some (y, dj)
      | inr _ => None
      end) (y, 0) in
    Some y.

  (** csrsv.hpp 136-175: aoclsparse_csr_usolve *)
  Definition csr_usolve (alpha : T) (m : Z) (val : list T) (ind ptr : list Z) (x y : list T) (dg : diag_type) (base : Z)
      : option (list T) :=
    let* (y, _) := for_down 0 m (fun row st =>
      let '(y, dj) := st in
      let* xr := rd x row in
      let* y := wr y row (alpha *! xr) in
      let* s := rd ptr row in
      let* e := rd ptr (row + 1) in
      let* (y, dj) := for_ (s - base) (e - base) (fun j st =>
          let '(y, dj) := st in
          let* c := rd ind j in
          let* y := (if row <? c - base then sv_sub val j row (c - base) y else Some y) in
          Some (y, if is_nonunit dg && (c - base =? row) then j else dj)) (y, dj) in
      let* y := sv_div dg val dj row y in Some (y, dj)) (y, 0) in
    Some y.

  (** csrsv.hpp 28-89: aoclsparse_csrsv_t; a null pointer is [None].  Result: status and
      y if it may have been written. *)
  Definition csrsv (op : operation) (alpha : option T) (m : Z) (val : option (list T)) (ind ptr : option (list Z))
      (d : option descr) (x y : option (list T)) : option (status * option (list T)) :=
    match val, ptr, ind, x, y, d, alpha with
    | Some val, Some ptr, Some ind, Some x, Some y, Some d, Some alpha =>
      if negb (d_base d =? 0) then Some (not_implemented, None)
      else if match d_type d with mt_general | mt_symmetric => false | _ => true end then Some (not_implemented, None)
      else if match op with op_none => false | _ => true end then Some (not_implemented, None)
      else if m <? 0 then Some (invalid_size, None)
      else if m =? 0 then Some (success, Some y)
      else
        let* y := (match d_fill d with
                   | fm_lower => csr_lsolve alpha m val ind ptr x y (d_diag d) (d_base d)
                   | fm_upper => csr_usolve alpha m val ind ptr x y (d_diag d) (d_base d)
                   end) in
        Some (success, Some y)
    | _, _, _, _, _, _, _ => Some (invalid_pointer, None)
    end.
End K.
