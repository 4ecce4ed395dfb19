(** Matrix handles made from BSR arrays: aoclsparse_create_?bsr and aoclsparse_?mv
    on such a handle. *)
From Coq Require Import ZArith List Bool.
From Verif Require Import Base Algebra UtilModel DoidModel MvModel CheckModel CsrmvModel HandleModel BsrModel BsrmvModel.
Import ListNotations.
Open Scope Z_scope.

(** mat_structures.hpp 260-325: class bsr (with its base class).  The doid is gn, the
    default of the constructor.  The arrays are the user's. *)
Record bmat (T : Type) := mkBmat {
  b_m : Z; b_n : Z; b_nnz : Z; b_doid : Z; b_b : Z; b_bd : Z; b_row : bool;
  b_ptr : list Z; b_ind : list Z; b_val : list T; b_bm : Z; b_bn : Z; b_bnnz : Z }.
Arguments mkBmat {T}. Arguments b_m {T}. Arguments b_n {T}. Arguments b_nnz {T}. Arguments b_doid {T}.
Arguments b_b {T}. Arguments b_bd {T}. Arguments b_row {T}. Arguments b_ptr {T}. Arguments b_ind {T}.
Arguments b_val {T}. Arguments b_bm {T}. Arguments b_bn {T}. Arguments b_bnnz {T}.

(** mat_structures.hpp 774-859: _aoclsparse_matrix after create_bsr: its dimensions, the
    one stored matrix and the recorded classification. *)
Record bhnd (T : Type) := mkBhnd { B_m : Z; B_n : Z; B_nnz : Z; B_mat : bmat T; B_sort : msort; B_full : bool }.
Arguments mkBhnd {T}. Arguments B_m {T}. Arguments B_n {T}. Arguments B_nnz {T}. Arguments B_mat {T}.
Arguments B_sort {T}. Arguments B_full {T}.

Section B.
  Context {T : Type} (O : ops T).

  (** create/aoclsparse_create.cpp 113-188.  [mat_null]: the output argument is null;
      [alloc_ok]: the allocations succeed; [row]: the blocks are row ordered.  The
      dimensions are products of aoclsparse_int.  Simplified: a failed allocation is the
      first one.  Result: status and the handle stored in *mat. *)
  Definition create_bsr (w : Z) (mat_null alloc_ok : bool) (b : Z) (row : bool) (bM bN bd : Z)
      (ptr_p ind_p : option (list Z)) (val_p : option (list T)) (fast : bool) : option (status * option (bhnd T)) :=
    if mat_null then Some (invalid_pointer, None)
    else match ptr_p with
    | None => Some (invalid_pointer, None)
    | Some ptr =>
      if bd <=? 0 then Some (invalid_value, None)
      else if bM <? 0 then Some (invalid_size, None)
      else
        let* pm := rd ptr bM in
        let* bnnz := chk w (pm - b) in
        let* r := mat_check bM bN bnnz ptr_p ind_p (match val_p with None => true | _ => false end) shape_general b fast in
        match r with
        | (success, Some (so, _)) =>
          if alloc_ok then
            match ind_p, val_p with
            | Some ind, Some val =>
              let* m := chk w (bM * bd) in
              let* n := chk w (bN * bd) in
              let* z := chk w (bnnz * bd) in
              let* z := chk w (z * bd) in
              Some (success, Some (mkBhnd m n z (mkBmat m n z gn b bd row ptr ind val bM bN bnnz) so false))
            | _, _ => None
            end
          else Some (memory_error, None)
        | (st, _) => Some (st, None)
        end
    end.

  (** conversion/aoclsparse_convert.cpp 1377-1424: the handle aoclsparse_convert_bsr makes of
      the converted arrays [B] (ConvertModel.convert_bsr); the classification keeps its
      initial values. *)
  Definition converted_handle (B : bsr_mat T) : bhnd T :=
    let z := bs_nnz B * bs_bd B * bs_bd B in
    mkBhnd (bs_m B) (bs_n B) z
      (mkBmat (bs_m B) (bs_n B) z gn (bs_base B) (bs_bd B) (bs_row B) (bs_ptr B) (bs_ind B) (bs_val B)
              (bs_m B / bs_bd B) (bs_n B / bs_bd B) (bs_nnz B)) unknown_sort false.

  Variable sup : Z -> bool.
  Variables (w : Z) (dt : dtype) (a512 : bool).

  (** magic_box.hpp 76-142: get_arch_score for aoclsparse_bsr_mat *)
  Definition bsr_arch_score (e : Z) : Z := if e =? gn then get_supported sup [3; 2; 1] else 0.

  (** magic_box.hpp 245-286: get_best_matrix with the one stored matrix (its matrix score
      is not negative): true when it is chosen. *)
  Definition bsr_best (c : bmat T) (d_id : Z) : option bool :=
    let* eff := get_effective_doid (b_doid c) d_id in
    let* ds := doid_score eff in
    if ds =? 0 then Some false
    else if bsr_arch_score eff =? 0 then Some false
    else Some true.

  (** level2/aoclsparse_mv.cpp 41-345 on a handle made by create_bsr.  The stored matrix
      is not of class csr, so no optimisation step runs; when it is not chosen, mtx_t stays
      uninitialised and the switch reports not_implemented.  Not modelled: the value-type
      test, descriptor types outside the enumeration (the setters reject them).
      Result: status and y if written. *)
  Definition bsr_mv (op : operation) (alpha : option T) (A : option (bhnd T)) (d : option descr)
      (x : option (list T)) (beta : option T) (y : option (list T)) : option (status * option (list T)) :=
    match alpha, beta, A, d, x, y with
    | Some alpha, Some beta, Some h, Some d, Some x, Some y =>
      let c := B_mat h in
      let fail (s : status) := Some (s, None) in
      if negb (b_b c =? d_base d) then fail invalid_value
      else if negb (valid_op op) then fail invalid_value
      else if (match d_type d with mt_symmetric | mt_hermitian => true | _ => false end) && negb (B_m h =? B_n h)
      then fail invalid_size
      else
        let op := if is_cplx dt then op
                  else match op with op_conjugate_transpose => op_transpose | o => o end in
        if negb (is_cplx dt) && (match d_type d with mt_hermitian => true | _ => false end)
        then fail not_implemented
        else
          let general := match d_type d with mt_general => true | _ => false end in
          if (B_m h =? 0) || (B_n h =? 0) || ((B_nnz h =? 0) && general) then
            let dim := match op with op_none => B_m h | _ => B_n h end in
            let* y := vscale O y beta dim in Some (success, Some y)
          else
            let* d_id := get_doid (negb (is_cplx dt)) (d_type d) (d_fill d) op in
            let* best := bsr_best c d_id in
            if negb best then fail not_implemented
            else
              let exact := b_doid c =? d_id in
              let op := if exact then op_none else op in
              let d_t := if exact then mkDescr mt_general fm_lower dg_non_unit (b_b c)
                         else mkDescr (d_type d) (d_fill d) (d_diag d) (b_b c) in
              if b_row c then fail not_implemented
              else bsrmv O w dt a512 op (Some alpha) (b_bm c) (b_bn c) (b_bd c) (Some (b_val c)) (Some (b_ind c)) (Some (b_ptr c))
                     (Some d_t) (Some x) (Some beta) (Some y)
    | _, _, _, _, _, _ => Some (invalid_pointer, None)
    end.
End B.
