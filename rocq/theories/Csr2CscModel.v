(** library/src/conversion/aoclsparse_convert.hpp: conversions by counting sort. *)
From Coq Require Import ZArith List Bool.
From Verif Require Import Base.
Import ListNotations.
Open Scope Z_scope.

(** The loop [for i in 0..cnt: a[i] = v], used by several functions. *)
Definition fill_range {A} (lo hi : Z) (v : A) (a : list A) : option (list A) :=
  for_ lo hi (fun i a => wr a i v) a.

(** [++a[i]] *)
Definition incr (a : list Z) (i : Z) : option (list Z) :=
  let* v := rd a i in wr a i (v + 1).

(** convert.hpp 629-633 and 995-998: running sum [a[i+1] += a[i]] *)
Definition scan (n : Z) (a : list Z) : option (list Z) :=
  for_ 0 n (fun i a =>
    let* x := rd a i in
    let* y := rd a (i + 1) in
    wr a (i + 1) (y + x)) a.

(** convert.hpp 648-653 and 1012-1017: [for (i = n; i > 0; --i) a[i] = a[i-1] + base;
    a[0] = base] *)
Definition shift_ptr (n b : Z) (a : list Z) : option (list Z) :=
  let* a1 := for_down 1 (n + 1) (fun i a =>
     let* x := rd a (i - 1) in
     wr a i (x + b)) a in
  wr a1 0 b.

(** convert.hpp 613-653: the body of aoclsparse_csr2csc_template after the
    argument checks.  Result (csc_col_ptr, csc_row_ind, csc_val). *)
Definition csr2csc_core {T} (m n nnz bR bC : Z) (ptr ind : list Z) (val : list T)
    (colptr rowind : list Z) (cval : list T) : option (list Z * list Z * list T) :=
  let* cp := fill_range 0 (n + 1) 0 colptr in
  let* cp := for_ 0 nnz (fun i cp =>
       let* c := rd ind i in incr cp (c - bR + 1)) cp in
  let* cp := scan n cp in
  let* st := for_ 0 m (fun i st =>
       let* s := rd ptr i in
       let* e := rd ptr (i + 1) in
       for_ (s - bR) (e - bR) (fun j st =>
          let '(cp, ri, cv) := st in
          let* c := rd ind j in
          let col := c - bR in
          let* idx := rd cp col in
          let* ri := wr ri idx (i + bC) in
          let* v := rd val j in
          let* cv := wr cv idx v in
          let* cp := incr cp col in
          Some (cp, ri, cv)) st) (cp, rowind, cval) in
  let '(cp, ri, cv) := st in
  let* cp := shift_ptr n bC cp in
  Some (cp, ri, cv).

(** convert.hpp 552-655: aoclsparse_csr2csc_template.  A null pointer is [None].
    The result carries the output arrays as left behind. *)
Definition csr2csc {T} (m n nnz bR bC : Z) (ptr_p ind_p : option (list Z)) (val_p : option (list T))
    (rowind_p colptr_p : option (list Z)) (cval_p : option (list T))
  : option (status * option (list Z) * option (list Z) * option (list T)) :=
  let ret st := Some (st, colptr_p, rowind_p, cval_p) in
  if (m <? 0) || (n <? 0) || (nnz <? 0) then ret invalid_size
  else if (m =? 0) || (n =? 0) || (nnz =? 0) then
    let* colptr := colptr_p in
    let* cp := fill_range 0 (n + 1) bC colptr in
    Some (success, Some cp, rowind_p, cval_p)
  else if negb (bR =? 0) && negb (bR =? 1) then ret invalid_value
  else if negb (bC =? 0) && negb (bC =? 1) then ret invalid_value
  else match val_p, ptr_p, ind_p, cval_p, rowind_p, colptr_p with
  | Some val, Some ptr, Some ind, Some cval, Some rowind, Some colptr =>
      let* r := csr2csc_core m n nnz bR bC ptr ind val colptr rowind cval in
      let '(cp, ri, cv) := r in
      Some (success, Some cp, Some ri, Some cv)
  | _, _, _, _, _, _ => ret invalid_pointer
  end.

(** convert.hpp 984-1018: the body of aoclsparse_coo2csr_template after the
    checks. Result (csr_row_ptr, csr_col_ind, csr_val). *)
Definition coo2csr_core {T} (M nnz b : Z) (crow ccol : list Z) (cval : list T)
    (ptr ind : list Z) (val : list T) : option (list Z * list Z * list T) :=
  let* rp := fill_range 0 (M + 1) 0 ptr in
  let* rp := for_ 0 nnz (fun i rp =>
       let* r := rd crow i in incr rp (r + 1 - b)) rp in
  let* rp := scan M rp in
  let* st := for_ 0 nnz (fun i st =>
       let '(rp, ci, vv) := st in
       let* r := rd crow i in
       let row := r - b in
       let* idx := rd rp row in
       let* c := rd ccol i in
       let* ci := wr ci idx c in
       let* v := rd cval i in
       let* vv := wr vv idx v in
       let* rp := incr rp row in
       Some (rp, ci, vv)) (rp, ind, val) in
  let '(rp, ci, vv) := st in
  let* rp := shift_ptr M b rp in
  Some (rp, ci, vv).

(** convert.hpp 932-1021: aoclsparse_coo2csr_template. *)
Definition coo2csr {T} (M N nnz b : Z) (crow_p ccol_p : option (list Z)) (cval_p : option (list T))
    (ptr_p ind_p : option (list Z)) (val_p : option (list T))
  : option (status * option (list Z) * option (list Z) * option (list T)) :=
  if (M <? 0) || (N <? 0) || (nnz <? 0) then Some (invalid_size, ptr_p, ind_p, val_p)
  else match cval_p, crow_p, ccol_p, val_p, ptr_p, ind_p with
  | Some cval, Some crow, Some ccol, Some val, Some ptr, Some ind =>
      if (M =? 0) || (N =? 0) || (nnz =? 0) then
        let* rp := fill_range 0 (M + 1) b ptr in
        Some (success, Some rp, Some ind, Some val)
      else
        let* r := coo2csr_core M nnz b crow ccol cval ptr ind val in
        let '(rp, ci, vv) := r in
        Some (success, Some rp, Some ci, Some vv)
  | _, _, _, _, _, _ => Some (invalid_pointer, ptr_p, ind_p, val_p)
  end.
