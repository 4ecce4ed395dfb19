(** library/src/analysis/aoclsparse_csr_util.cpp: input validation and
    classification; library/src/create/aoclsparse_create.cpp and
    library/src/extra/aoclsparse_auxiliary.cpp: matrix creation. *)
From Coq Require Import ZArith List Bool.
From Verif Require Import Base.
Import ListNotations.
Open Scope Z_scope.

(** include/aoclsparse_mat_structures.hpp / types: aoclsparse_matrix_sort *)
Inductive msort := unknown_sort | fully_sorted | partially_sorted | unsorted.
(** analysis/aoclsparse_csr_util.hpp: aoclsparse_shape *)
Inductive shape := shape_general | shape_lower_triangle | shape_upper_triangle.

Definition is_unsorted (s : msort) : bool := match s with unsorted => true | _ => false end.

(** csr_util.cpp 203-216: bounds for the index of row [i].  In C++ jmin/jmax are
    variables overwritten per row; for shape_general they keep 0 and min_dim-1. *)
Definition jbounds (sh : shape) (min_dim i : Z) : Z * Z :=
  match sh with
  | shape_general => (0, min_dim - 1)
  | shape_lower_triangle => (0, i)
  | shape_upper_triangle => (i, min_dim - 1)
  end.

(** csr_util.cpp 221-272: body of the loop over the stored entries of row [i];
    state (sort, diagonal, upper, prev). *)
Definition check_entry (sh : shape) (min_dim b i : Z) (ind : list Z) (idx : Z)
    (st : msort * bool * bool * Z) : option (ctl (msort * bool * bool * Z) status) :=
  let '(sort, diagonal, upper, prev) := st in
  let* c := rd ind idx in
  let j := c - b in
  let '(jmin, jmax) := jbounds sh min_dim i in
  if (j <? jmin) || (jmax <? j) then Some (Ret invalid_index_value)
  else
    let '(sort, prev) :=
      if negb (is_unsorted sort) then
        let '(sort1, prev1) := if j <? prev then (partially_sorted, prev) else (sort, j) in
        let sort2 := if ((j <=? i) && upper) || ((j <? i) && diagonal) then unsorted else sort1 in
        (sort2, prev1)
      else (sort, prev) in
    if i <? j then Some (Go (sort, diagonal, true, prev))
    else if j =? i then
      if diagonal then Some (Ret invalid_value)
      else Some (Go (sort, true, upper, prev))
    else Some (Go (sort, diagonal, upper, prev)).

(** csr_util.cpp 199-275: body of the loop over rows; state (sort, fulldiag). *)
Definition check_row (sh : shape) (min_dim b : Z) (ptr ind : list Z) (i : Z)
    (st : msort * bool) : option (ctl (msort * bool) status) :=
  let '(sort, fulldiag) := st in
  let* e := rd ptr (i + 1) in
  let* s := rd ptr i in
  let* r := forc (s - b) (e - b) (check_entry sh min_dim b i ind) (sort, false, false, -1) in
  match r with
  | inr st => Some (Ret st)
  | inl (sort', diagonal, _, _) =>
      Some (Go (sort', if negb diagonal && (i <? min_dim) then false else fulldiag))
  end.

(** csr_util.cpp 124-279: aoclsparse_mat_check_internal.  A null pointer is
    [None]; [val] is only tested for null.  error_handler (debug callback) and
    overflow of [idx_ptr[0] - base] are not modelled.  The result carries
    (mat_sort, mat_fulldiag) only when they are assigned. *)
Definition mat_check (maj min_dim nnz : Z) (ptr_p ind_p : option (list Z)) (val_null : bool)
    (sh : shape) (b : Z) (fast : bool) : option (status * option (msort * bool)) :=
  match ptr_p, ind_p with
  | None, _ => Some (invalid_pointer, None)
  | _, None => Some (invalid_pointer, None)
  | Some ptr, Some ind =>
    if val_null then Some (invalid_pointer, None)
    else if (min_dim <? 0) || (maj <? 0) || (nnz <? 0) then Some (invalid_size, None)
    else
      let* p0 := rd ptr 0 in
      if negb (p0 - b =? 0) then Some (invalid_value, None)
      else
        let* pm := rd ptr maj in
        if negb (pm - b =? nnz) then Some (invalid_value, None)
        else if fast then Some (success, Some (unknown_sort, false))
        else
          let* r1 := forc 1 (maj + 1) (fun i (_ : unit) =>
                       let* a := rd ptr (i - 1) in
                       let* c := rd ptr i in
                       if c <? a then Some (Ret invalid_value) else Some (Go tt)) tt in
          match r1 with
          | inr st => Some (st, None)
          | inl _ =>
            let* r2 := forc 0 maj (check_row sh min_dim b ptr ind) (fully_sorted, true) in
            match r2 with
            | inr st => Some (st, None)
            | inl res => Some (success, Some res)
            end
          end
  end.

(** csr_util.cpp 322-349: body of the entry loop of check_sort_diag;
    state (sorted, fulldiag, lower, found).  A return carries the status and the
    output arguments (sorted, fulldiag). *)
Definition csd_entry (b i : Z) (ind : list Z) (idx : Z) (st : bool * bool * bool * bool)
  : option (ctl (bool * bool * bool * bool) (status * bool * bool)) :=
  let '(sorted, fulldiag, lower, found) := st in
  let* c := rd ind idx in
  let j := c - b in
  if j =? i then
    if found then Some (Ret (invalid_value, sorted, fulldiag))
    else
      let sorted := lower in
      if negb sorted then Some (Ret (success, sorted, false))
      else Some (Go (sorted, fulldiag, false, true))
  else
    let '(lower', sorted') := if lower then (j <? i, sorted) else (lower, sorted && (i <? j)) in
    if negb sorted' then Some (Ret (success, sorted', false))
    else Some (Go (sorted', fulldiag, lower', found)).

(** csr_util.cpp 290-364: aoclsparse_csr_csc_check_sort_diag.  Result:
    (status, sorted, fulldiag). *)
Definition check_sort_diag (m n b : Z) (ptr_p ind_p : option (list Z))
  : option (status * bool * bool) :=
  if (m <? 0) || (n <? 0) then Some (invalid_size, false, false)
  else match ptr_p, ind_p with
  | Some ptr, Some ind =>
    let* r := forc 0 m (fun i st =>
        let '(sorted, fulldiag) := st in
        let* e := rd ptr (i + 1) in
        let* s := rd ptr i in
        let* r := forc (s - b) (e - b) (csd_entry b i ind) (sorted, fulldiag, true, false) in
        match r with
        | inr res => Some (Ret res)
        | inl (sorted', fulldiag', _, found) =>
            let fulldiag'' := if negb found && (i <? n) then false else fulldiag' in
            if negb sorted' then Some (Ret (success, sorted', false))
            else Some (Go (sorted', fulldiag''))
        end) (true, true) in
    match r with
    | inr res => Some res
    | inl (sorted, fulldiag) => Some (success, sorted, fulldiag)
    end
  | _, _ => Some (invalid_pointer, false, false)
  end.

(** csr_util.cpp 389-458: aoclsparse_csr_csc_indices.  Allocation failure not
    modelled; the fresh arrays have arbitrary content [idiag0], [iurow0] of
    length m. *)
Definition csr_csc_indices (m b : Z) (ptr ind idiag0 iurow0 : list Z)
  : option (list Z * list Z) :=
  for_ 0 m (fun i st =>
    let '(idiag, iurow) := st in
    let* e := rd ptr (i + 1) in
    let* s := rd ptr i in
    let* r := forc (s - b) (e - b) (fun idx (_ : unit) =>
        let* c := rd ind idx in
        let j := c - b in
        if i <=? j then Some (Ret (idx, j)) else Some (Go tt)) tt in
    match r with
    | inr (idx, j) =>
        let adj := idx + b in
        let* idiag' := wr idiag i adj in
        let* iurow' := wr iurow i (if j =? i then adj + 1 else adj) in
        Some (idiag', iurow')
    | inl _ =>
        let* idiag' := wr idiag i (e - b + b) in
        let* iurow' := wr iurow i (e - b + b) in
        Some (idiag', iurow')
    end) (idiag0, iurow0).

(** The object built by aoclsparse_create_?csr / ?csc: dimensions as given by the
    user, the single stored representation (dimensions, base, arrays kept by
    pointer, transposed flag = doid::gt) and the recorded classification.
    create/aoclsparse_create.cpp 34-95, extra/aoclsparse_auxiliary.cpp 1030-1089,
    include/aoclsparse_mat_structures.hpp 147-251, 774-859. *)
Record rep := mkRep { r_m : Z; r_n : Z; r_nnz : Z; r_b : Z; r_ptr : list Z; r_ind : list Z; r_trans : bool }.
Record handle := mkHandle { h_m : Z; h_n : Z; h_nnz : Z; h_rep : rep; h_sort : msort; h_fulldiag : bool }.

(** create/aoclsparse_create.cpp 34-95: aoclsparse::create_csr.  [mat_null]: the
    output argument is null; [alloc_ok]: operator new does not throw. The result
    is the status and the value stored in *mat (None = nullptr or not written). *)
Definition create_csr (mat_null alloc_ok : bool) (b M N nnz : Z)
    (ptr_p ind_p : option (list Z)) (val_null fast : bool) : option (status * option handle) :=
  if mat_null then Some (invalid_pointer, None)
  else
    let* r := mat_check M N nnz ptr_p ind_p val_null shape_general b fast in
    match r with
    | (success, Some (so, fd)) =>
        match ptr_p, ind_p with
        | Some ptr, Some ind =>
            if alloc_ok
            then Some (success, Some (mkHandle M N nnz (mkRep M N nnz b ptr ind false) so fd))
            else Some (memory_error, None)
        | _, _ => None
        end
    | (st, _) => Some (st, None)
    end.

(** extra/aoclsparse_auxiliary.cpp 1030-1089: aoclsparse_create_csc_t *)
Definition create_csc (mat_null alloc_ok : bool) (b M N nnz : Z)
    (ptr_p ind_p : option (list Z)) (val_null : bool) : option (status * option handle) :=
  if mat_null then Some (invalid_pointer, None)
  else
    let* r := mat_check N M nnz ptr_p ind_p val_null shape_general b false in
    match r with
    | (success, Some (so, fd)) =>
        match ptr_p, ind_p with
        | Some ptr, Some ind =>
            if alloc_ok
            then Some (success, Some (mkHandle M N nnz (mkRep N M nnz b ptr ind true) so fd))
            else Some (memory_error, None)
        | _, _ => None
        end
    | (st, _) => Some (st, None)
    end.

(** extra/aoclsparse_auxiliary.cpp 1091-1151: aoclsparse_create_coo_t, the checks. *)
Definition create_coo (mat_null alloc_ok : bool) (b M N nnz : Z)
    (row_p col_p : option (list Z)) (val_null : bool) : option status :=
  if mat_null then Some invalid_pointer
  else if M <? 0 then Some invalid_size
  else if N <? 0 then Some invalid_size
  else if nnz <? 0 then Some invalid_size
  else match row_p, col_p with
  | Some row, Some col =>
    if val_null then Some invalid_pointer
    else
      let* r := forc 0 nnz (fun i (_ : unit) =>
         let* ri := rd row i in
         if (ri <? b) || (M + b <=? ri) then Some (Ret invalid_index_value)
         else
           let* ci := rd col i in
           if (ci <? b) || (N + b <=? ci) then Some (Ret invalid_index_value)
           else Some (Go tt)) tt in
      match r with
      | inr st => Some st
      | inl _ => if alloc_ok then Some success else Some memory_error
      end
  | _, _ => Some invalid_pointer
  end.
