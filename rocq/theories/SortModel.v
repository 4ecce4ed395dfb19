(** Sorting of row indices (aoclsparse_order_mat) and insertion of missing
    diagonal entries: library/src/analysis/aoclsparse_csr_util.hpp,
    library/src/extra/aoclsparse_auxiliary.cpp. *)
From Coq Require Import ZArith List Bool.
From Verif Require Import Base Vec.
Import ListNotations.
Open Scope Z_scope.

(** std::sort on distinct elements [l]: undefined behaviour when the comparator
    orders two different elements both ways ([cmp a b] and [cmp b a]), as C++
    requires a strict weak ordering.  [srt] stands for the library's algorithm;
    theorems quantify over every [srt] that meets the contract of SortSpec.v.
    (Strictly, a comparator with cmp a a = true is never allowed; we charge the
    program only for comparisons of different elements.) *)
Definition std_sort (srt : (Z -> Z -> bool) -> list Z -> list Z) (cmp : Z -> Z -> bool) (l : list Z)
  : option (list Z) :=
  if forallb (fun a => forallb (fun c => (a =? c) || negb (cmp a c && cmp c a)) l) l
  then Some (srt cmp l) else None.

(** Overwrite [l[i], l[i+1], ...] by the elements of [v]. *)
Fixpoint wr_list {A} (l : list A) (i : Z) (v : list A) : option (list A) :=
  match v with
  | [] => Some l
  | x :: v' => let* l' := wr l i x in wr_list l' (i + 1) v'
  end.

Section S.
  Context {T : Type}.
  Variable srt : (Z -> Z -> bool) -> list Z -> list Z.

  (** csr_util.hpp 99-158: aoclsparse_sort_idx_val.  Pointers are assumed
      non-null (callers pass vectors and validated arrays); allocation failure of
      [perm] is not modelled.  [perm] is filled with 0..nnz-1; std::sort permutes
      the slice of row i. *)
  Definition sort_idx_val (maj nnz sb : Z) (sptr sidx : list Z) (sval : list T)
      (db : Z) (didx : list Z) (dval : list T) : option (list Z * list T) :=
    if (maj =? 0) || (nnz =? 0) then Some (didx, dval)
    else
      let perm := zrange 0 nnz in
      let* (_, didx, dval) := for_ 0 maj (fun i st =>
        let '(perm, didx, dval) := st in
        let* s := rd sptr i in
        let* e := rd sptr (i + 1) in
        let idx := s - sb in
        let nnzrow := e - sb - idx in
        if nnzrow <? 0 then None
        else
          let* slice := mapM (rd perm) (zrange idx (idx + nnzrow)) in
          let* _ := mapM (rd sidx) slice in
          let* sorted := std_sort srt (fun a c => zn sidx a <=? zn sidx c) slice in
          let* perm := wr_list perm idx sorted in
          let* (didx, dval) := for_ idx (idx + nnzrow) (fun j st =>
            let '(didx, dval) := st in
            let* p := rd perm j in
            let* c := rd sidx p in
            let* didx := wr didx j (c - (if sb =? db then 0 else 1)) in
            let* v := rd sval p in
            let* dval := wr dval j v in
            Some (didx, dval)) (didx, dval) in
          Some (perm, didx, dval)) (perm, didx, dval) in
      Some (didx, dval).

  (** auxiliary.cpp 840-878 and 1258-1297: aoclsparse_order_mat on a CSR/CSC handle.
      [m], [n], [nnz]: dimensions of the handle; [sm]: number of rows of the stored
      arrays (csr: m, csc: n).  The sort is called with mat->m whatever the storage
      (finding B4).  The handle's recorded sort classification is not updated. *)
  Definition order_mat (m n nnz b : Z) (ptr ind : list Z) (val : list T)
      : option (status * list Z * list T) :=
    if (m <? 0) || (n <? 0) || (nnz <? 0) then Some (invalid_value, ind, val)
    else if (m =? 0) || (n =? 0) || (nnz =? 0) then Some (success, ind, val)
    else
      let* (ind', val') := sort_idx_val m nnz b ptr ind val b ind val in
      Some (success, ind', val').

  Variable zero : T.

  (** csr_util.hpp 184-207: scan row [i] for its diagonal; result: (found, idx at exit) *)
  Definition find_diag (b i : Z) (ind : list Z) (lo hi : Z) : option (bool * Z) :=
    let* r := forc lo hi (fun idx (_ : Z) =>
      let* c := rd ind idx in
      let j := c - b in
      if i =? j then Some (Ret (true, idx))
      else if i <? j then Some (Ret (false, idx))
      else Some (Go (idx + 1))) lo in
    match r with
    | inl idx => Some (false, idx)
    | inr res => Some res
    end.

  (** csr_util.hpp 178-213: the missing_diag array and the number of missing
      diagonals *)
  Definition find_missing (m n b : Z) (ptr ind : list Z) : option (list Z * Z) :=
    for_ 0 m (fun i st =>
      let '(missing, count) := st in
      let* e := rd ptr (i + 1) in
      let* s := rd ptr i in
      let* (found, idx) := find_diag b i ind (s - b) (e - b) in
      if negb found && (i <? n) then
        let* missing := wr missing i (idx + count) in
        Some (missing, count + 1)
      else Some (missing, count)) (zrep m (-1), 0).

  (** csr_util.hpp 163-279: aoclsparse_csr_csc_fill_diag, non-null arguments.
      icol0, aval0, icrow0 are the fresh arrays with arbitrary content, of sizes
      nnz + count, nnz + count and m + 1.  Allocation failure not modelled. *)
  Definition fill_diag (m n nnz b : Z) (ptr ind : list Z) (val : list T)
      (fresh : Z -> list Z * list T * list Z) : option (list Z * list Z * list T) :=
    let* (missing, count) := find_missing m n b ptr ind in
    if count <=? 0 then Some (ptr, ind, val)
    else
      let nnz_new := nnz + count in
      let '(icol0, aval0, icrow0) := fresh nnz_new in
      let add_diag i st :=
        let '(icol, aval, n_added, nnz_curr) := st in
        let* icol := wr icol nnz_curr i in
        let* aval := wr aval nnz_curr zero in
        Some (icol, aval, n_added + 1, nnz_curr + 1) in
      let* (icrow, icol, aval, _, _) := for_ 0 m (fun i st =>
        let '(icrow, icol, aval, n_added, nnz_curr) := st in
        let* e := rd ptr (i + 1) in
        let* s := rd ptr i in
        let* icrow := wr icrow i (s - b + n_added) in
        let* miss := rd missing i in
        let* (icol, aval, n_added, nnz_curr) := for_ (s - b) (e - b) (fun idx st =>
          let '(icol, aval, n_added, nnz_curr) := st in
          let* (icol, aval, n_added, nnz_curr) :=
            (if nnz_curr =? miss then add_diag i (icol, aval, n_added, nnz_curr)
             else Some (icol, aval, n_added, nnz_curr)) in
          let* v := rd val idx in
          let* aval := wr aval nnz_curr v in
          let* c := rd ind idx in
          let* icol := wr icol nnz_curr (c - b) in
          Some (icol, aval, n_added, nnz_curr + 1)) (icol, aval, n_added, nnz_curr) in
        let* (icol, aval, n_added, nnz_curr) :=
          (if nnz_curr =? miss then add_diag i (icol, aval, n_added, nnz_curr)
           else Some (icol, aval, n_added, nnz_curr)) in
        Some (icrow, icol, aval, n_added, nnz_curr)) (icrow0, icol0, aval0, 0, 0) in
      let* icrow := wr icrow m nnz_new in
      Some (icrow, icol, aval).
End S.
