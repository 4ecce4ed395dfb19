(** Matrices stored as two triangles (TCSR): creation, product and triangular solve.
    extra/aoclsparse_auxiliary.hpp, level2/aoclsparse_tcsr.hpp,
    level2/aoclsparse_tcsrmv.cpp, level2/aoclsparse_mv.cpp, level2/aoclsparse_trsv.cpp. *)
From Coq Require Import ZArith List Bool.
From Verif Require Import Base Algebra Vec UtilModel DoidModel CheckModel MvModel CsrmvModel HandleModel TrsvModel.
Import ListNotations.
Open Scope Z_scope.

(** include/aoclsparse_mat_structures.hpp 425-553: class tcsr, together with the fields
    of _aoclsparse_matrix that creation sets (m, n, nnz, sort; fulldiag,
    opt_csr_full_diag and optimized are always true; doid is gn).  The user's arrays
    are kept by reference; they are not changed by the calls modelled here. *)
Record tcsr (T : Type) := mkTcsr {
  t_m : Z; t_n : Z; t_nnz : Z; t_b : Z;
  t_ptrL : list Z; t_ptrU : list Z; t_indL : list Z; t_indU : list Z;
  t_valL : list T; t_valU : list T;
  t_idiag : list Z; t_iurow : list Z; t_sort : msort }.
Arguments mkTcsr {T}. Arguments t_m {T}. Arguments t_n {T}. Arguments t_nnz {T}. Arguments t_b {T}.
Arguments t_ptrL {T}. Arguments t_ptrU {T}. Arguments t_indL {T}. Arguments t_indU {T}.
Arguments t_valL {T}. Arguments t_valU {T}. Arguments t_idiag {T}. Arguments t_iurow {T}. Arguments t_sort {T}.

Section Tcsr.
  Context {T : Type} (O : ops T).
  Local Notation zero := (o0 O).
  Local Infix "+!" := (oadd O) (at level 50, left associativity).
  Local Infix "*!" := (omul O) (at level 40, left associativity).
  Local Infix "==!" := (oeqb O) (at level 70).

  (** auxiliary.hpp 101-120, 122-141: validation of one half and the two tests that
      follow it.  [inr st] is an early return. *)
  Definition check_half (sh : shape) (M N nz b : Z) (ptr ind : list Z) : option (msort + status) :=
    let* r := mat_check M N nz (Some ptr) (Some ind) false sh b false in
    match r with
    | (success, Some (sort, fulldiag)) =>
        if is_unsorted sort then Some (inr unsorted_input)
        else if negb fulldiag then Some (inr invalid_value)
        else Some (inl sort)
    | (success, None) => None
    | (st, _) => Some (inr st)
    end.

  (** auxiliary.hpp 54-193: aoclsparse_create_tcsr_t.  [mat_null]: the handle pointer is
      null; [fz]: content of a fresh array.  Not modelled: allocation failure, overflow
      of lnnz + unnz - M. *)
  Definition create_tcsr (fz : Z -> list Z) (mat_null : bool) (b M N nnz : Z)
      (ptrL ptrU indL indU : option (list Z)) (valL valU : option (list T)) : option (status * option (tcsr T)) :=
    if mat_null then Some (invalid_pointer, None) else
    match ptrL, ptrU, indL, indU, valL, valU with
    | Some ptrL, Some ptrU, Some indL, Some indU, Some valL, Some valU =>
      if negb ((b =? 1) || (b =? 0)) then Some (invalid_value, None)
      else if (M <? 0) || (N <? 0) || (nnz <? 0) then Some (invalid_size, None)
      else if negb (M =? N) then Some (invalid_size, None)
      else
        let* pl := rd ptrL M in
        let* pu := rd ptrU M in
        let lnnz := pl - b in
        let unnz := pu - b in
        if negb (nnz =? lnnz + unnz - M) then Some (invalid_size, None)
        else
          let* rl := check_half shape_lower_triangle M N lnnz b ptrL indL in
          match rl with
          | inr st => Some (st, None)
          | inl sortL =>
            let* ru := check_half shape_upper_triangle M N unnz b ptrU indU in
            match ru with
            | inr st => Some (st, None)
            | inl sortU =>
              let* (idiag, iurow) := for_ 0 M (fun i st =>
                  let '(idiag, iurow) := st in
                  let* e := rd ptrL (i + 1) in
                  let* idiag := wr idiag i (e - 1) in
                  let* s := rd ptrU i in
                  let* iurow := wr iurow i (s + 1) in
                  Some (idiag, iurow)) (fz M, fz M) in
              let sort := match sortL, sortU with
                          | partially_sorted, _ => partially_sorted
                          | _, partially_sorted => partially_sorted
                          | _, _ => fully_sorted
                          end in
              Some (success, Some (mkTcsr M N nnz b ptrL ptrU indL indU valL valU idiag iurow sort))
            end
          end
    | _, _, _, _, _, _ => Some (invalid_pointer, None)
    end.

  (** level2/aoclsparse_tcsrmv.cpp 55-139: one row of aoclsparse_dtcsrmv_avx2; the
      accumulator of the lower half continues through the upper half. *)
  Definition tcsr_row (b : Z) (valL valU : list T) (indL indU ptrL ptrU : list Z) (x : list T) (i : Z) : option T :=
    let* rstart := rd ptrL i in
    let* rend := rd ptrL (i + 1) in
    let k_iterL := Z.quot (rend - rstart) 4 in
    let k_rem := Z.rem (rend - rstart) 4 in
    let* vec_y := vec_loop O 4 b rstart (rend - k_rem) valL indL x (zrep 4 zero) in
    let* result := dot_row O b (rend - k_rem) rend valL indL x zero in
    let* s := rd ptrU i in
    let rstart := s + 1 in
    let* rend := rd ptrU (i + 1) in
    let k_iterU := Z.quot (rend - rstart) 4 in
    let k_rem := Z.rem (rend - rstart) 4 in
    let* vec_y := vec_loop O 4 b rstart (rend - k_rem) valU indU x vec_y in
    let result := if negb (k_iterL =? 0) || negb (k_iterU =? 0) then result +! hsum4 O vec_y else result in
    dot_row O b (rend - k_rem) rend valU indU x result.

  (** tcsrmv.cpp 34-150: aoclsparse_dtcsrmv_avx2, the rows taken in order (C34 treats
      loops of this form under any schedule). *)
  Definition dtcsrmv_avx2 (b : Z) (alpha : T) (m : Z) (valL valU : list T) (indL indU ptrL ptrU : list Z)
      (x : list T) (beta : T) (y : list T) : option (list T) :=
    for_ 0 m (fun i y =>
      let* r := tcsr_row b valL valU indL indU ptrL ptrU x i in
      let result := alpha *! r in
      if negb (beta ==! zero) then
        let* yi := rd y i in wr y i (result +! beta *! yi)
      else wr y i result) y.

  Variables (dt : dtype).
  (** The processor supports AVX2 / AVX-512F (Oracle, C35). *)
  Variables (avx2 avx512 : bool).

  (** The array [row_ptr_U] passed where one index per row is expected: only its first
      M entries may be used (a stricter view than the C++ pointer). *)
  Definition first_rows (m : Z) (l : list Z) : list Z := firstn (Z.to_nat m) l.

  (** level2/aoclsparse_tcsr.hpp 44-191: aoclsparse::tcsrmv *)
  Definition tcsrmv (d : descr) (alpha : T) (t : tcsr T) (x : list T) (beta : T) (y : list T) (d_id : Z)
      : option (status * option (list T)) :=
    let m := t_m t in
    let lower := (d_id <? 6) || ((8 <=? d_id) && (d_id <? 10)) || ((12 <=? d_id) && (d_id <? 16)) in
    let val := if lower then t_valL t else t_valU t in
    let col := if lower then t_indL t else t_indU t in
    let ptr := if lower then t_ptrL t else t_ptrU t in
    (* rstart = row_ptr, rend = row_ptr + 1; the shift is taken on the array for L and on
       the index for U *)
    let rstart := if lower then t_ptrL t else first_rows m (t_ptrU t) in
    let rend := if lower then tl (t_ptrL t) else t_ptrU t in
    let rend_off := if lower then 0 else 1 in
    let diag := if lower then t_idiag t else first_rows m (t_ptrU t) in
    let urow := if lower then tl (t_ptrL t) else t_iurow t in
    let isD := match dt with dt_d => true | _ => false end in
    match d_id with
    | 0 => if isD then
             let* y := dtcsrmv_avx2 (d_base d) alpha m (t_valL t) (t_valU t) (t_indL t) (t_indU t)
                         (t_ptrL t) (t_ptrU t) x beta y in Some (success, Some y)
           else Some (not_implemented, None)
    | 1 | 2 | 3 => Some (not_implemented, None)
    | 4 | 5 | 6 | 7 | 8 | 9 | 10 | 11 =>
        let tsz := if avx512 then tsz512 dt else tsz256 dt in
        let* y := csrmv_symm_kt O true tsz (d_base d) alpha m (d_diag d) (d_fill d) val col ptr diag urow x beta y in
        Some (success, Some y)
    | 12 | 16 =>
        let* y := (if isD then csrmv_vectorized_avx2ptr O d alpha m val col rstart rend_off rend x beta y
                   else ref_csrmv_tri O d alpha m val col rstart rend_off rend x beta y) in
        Some (success, Some y)
    | 14 | 18 =>
        let* y := ref_csrmv_tri_th O false d alpha m (t_n t) val col rstart rend_off rend x beta y in
        Some (success, Some y)
    | 13 | 15 | 17 | 19 => Some (not_implemented, None)
    | _ => Some (internal_error, None)
    end.

  (** include/aoclsparse_magic_box.hpp 107-122: TCSR rows of get_arch_score (a kernel
      exists); real types only *)
  Definition tcsr_scored (d_id : Z) : bool :=
    if d_id =? 0 then (match dt with dt_d => true | _ => false end) && avx2
    else ((4 <=? d_id) && (d_id <? 12)) || (d_id =? 12) || (d_id =? 16) || (d_id =? 14) || (d_id =? 18).

  (** level2/aoclsparse_mv.cpp 41-349 on a handle created by create_tcsr, whose only
      stored matrix is the TCSR one.  Not modelled: value-type test, invalid descriptor
      enumerators, hinted kernel id (ignored by tcsrmv). *)
  Definition tcsr_mv (op : operation) (alpha : option T) (A : option (tcsr T)) (d : option descr)
      (x : option (list T)) (beta : option T) (y : option (list T)) : option (status * option (list T)) :=
    match alpha, beta, A, d, x, y with
    | Some alpha, Some beta, Some t, Some d, Some x, Some y =>
      if negb (t_b t =? d_base d) then Some (invalid_value, None)
      else if negb (valid_op op) then Some (invalid_value, None)
      else if (match d_type d with mt_symmetric | mt_hermitian => true | _ => false end) && negb (t_m t =? t_n t)
      then Some (invalid_size, None)
      else if is_cplx dt then Some (not_implemented, None)
      else
        let op := match op with op_conjugate_transpose => op_transpose | o => o end in
        match d_type d with
        | mt_hermitian => Some (not_implemented, None)
        | _ =>
          let general := match d_type d with mt_general => true | _ => false end in
          if (t_m t =? 0) || (t_n t =? 0) || ((t_nnz t =? 0) && general) then
            let dim := match op with op_none => t_m t | _ => t_n t end in
            let* y := vscale O y beta dim in Some (success, Some y)
          else
            let* d_id := get_doid true (d_type d) (d_fill d) op in
            let* eff := get_effective_doid gn d_id in
            if tcsr_scored eff then
              let exact := d_id =? gn in
              let d_t := if exact then mkDescr mt_general fm_lower dg_non_unit (t_b t)
                         else mkDescr (d_type d) (d_fill d) (d_diag d) (t_b t) in
              tcsrmv d_t alpha t x beta y (if exact then gn else eff)
            else Some (not_implemented, None)
        end
    | _, _, _, _, _, _ => Some (invalid_pointer, None)
    end.

  Variable choice : Z -> option Z.

  (** level2/aoclsparse_trsv.cpp 46-417 on a TCSR handle (branches 117-123, 158-176);
      the rest as in TrsvModel.trsv. *)
  Definition tcsr_trsv (w : Z) (op : operation) (alpha : T) (A : option (tcsr T)) (d : option descr)
      (rhs : option (list T)) (incb : Z) (x : option (list T)) (incx kid : Z) : option (status * option (list T)) :=
    match A, x, rhs, d with
    | Some t, Some x, Some rhs, Some d =>
      let m := t_m t in
      if (m <=? 0) || (t_nnz t <=? 0) then Some (invalid_size, None)
      else if negb (m =? t_n t) || (incb <=? 0) || (incx <=? 0) then Some (invalid_value, None)
      else if negb (t_b t =? d_base d) then Some (invalid_value, None)
      else if negb ((d_base d =? 0) || (d_base d =? 1)) then Some (invalid_value, None)
      else if negb (valid_op op) then Some (not_implemented, None)
      else if match d_type d with mt_symmetric | mt_triangular => false | _ => true end then Some (invalid_value, None)
      else if diag_eqb (d_diag d) dg_zero then Some (invalid_value, None)
      else
        let unit := diag_eqb (d_diag d) dg_unit in
        let* d_id := get_doid (negb (is_cplx dt)) mt_triangular (d_fill d) op in
        let '(a, icol, ilrow, idiag, iurow) :=
          match d_fill d with
          | fm_lower => (t_valL t, t_indL t, t_ptrL t, t_idiag t, tl (t_ptrL t))
          | fm_upper => (t_valU t, t_indU t, t_ptrU t, first_rows m (t_ptrU t), t_iurow t)
          end in
        if (d_id - 12 <? 0) || (7 <? d_id - 12) then Some (internal_error, None)
        else match choice kid with
        | None => Some (invalid_kid, None)
        | Some k =>
          let* o1 := int_product_overflow w (m - 1) incx in
          let* o2 := int_product_overflow w (m - 1) incb in
          if o1 || o2 then Some (invalid_size, None)
          else
            let* x := trsv_kernel O dt k d_id alpha m (t_b t) a icol ilrow idiag iurow rhs incb x incx unit in
            Some (success, Some x)
        end
    | _, _, _, _ => Some (invalid_pointer, None)
    end.
End Tcsr.
