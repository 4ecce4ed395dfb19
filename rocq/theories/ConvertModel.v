(** Conversion of matrix handles: conversion/aoclsparse_convert.cpp 1018-1216
    (convert_csr) and 1218-1429 (convert_bsr), for CSR, CSC and COO handles.
    [fz]/[ft]: content of fresh integer/value storage; allocation failure is not
    modelled.  Only sizes and value offsets of the BSR part are checked for overflow. *)
From Coq Require Import ZArith List Bool.
From Verif Require Import Base UtilModel DoidModel CheckModel MvModel Csr2CscModel HandleModel BsrModel.
Import ListNotations.
Open Scope Z_scope.

Section C.
  Context {T : Type} (cj : T -> T) (cplx : bool) (fz : Z -> list Z) (ft : Z -> list T).

  (** Row pointers of a new csr object: mat_structures.hpp 180-187 *)
  Definition fresh_ptr (m nnz b : Z) : list Z := if nnz =? 0 then zrep (m + 1) b else fz (m + 1).

  (** memcpy of the first [n] elements over a buffer; a negative [n] becomes a huge
      unsigned size *)
  Definition copy_n {X} (n : Z) (src dst : list X) : option (list X) :=
    if n <? 0 then None else for_ 0 n (fun i d => let* v := rd src i in wr d i v) dst.

  (** 1146-1155: conjugation of a complex result *)
  Definition conj_result (op : operation) (nnz : Z) (v : list T) : option (list T) :=
    match op with
    | op_conjugate_transpose => if cplx then for_ 0 nnz (fun i v => let* a := rd v i in wr v i (cj a)) v else Some v
    | _ => Some v
    end.

  Definition is_none (op : operation) : bool := match op with op_none => true | _ => false end.

  (** 1157-1161 with init_mat (auxiliary.cpp 1009-1023) *)
  Definition new_handle (m n nnz b : Z) (p i : list Z) (v : list T) : hnd T :=
    mkHnd m n nnz [Some (mkCmat m n nnz gn b p i v None None false dg_non_unit None)] unknown_sort false false false [].

  (** 1018-1165 for a handle whose first matrix is a csr object (CSR or CSC input) *)
  Definition convert_csr (A : option (hnd T)) (op : operation) (dest_ok : bool) : option (status * option (hnd T)) :=
    match A with
    | None => Some (invalid_pointer, None)
    | Some h =>
        if negb dest_ok then Some (invalid_pointer, None)
        else match H_mats h with
        | [] | None :: _ => Some (invalid_pointer, None)
        | Some u :: _ =>
            let m := if is_none op then H_m h else H_n h in
            let n := if is_none op then H_n h else H_m h in
            let nnz := H_nnz h in
            let b := c_b u in
            let csc := c_doid u =? gt in
            let* (st, p, i, v) := (if negb csc && is_none op || csc && negb (is_none op) then
                let* p := copy_n (c_m u + 1) (c_ptr u) (fresh_ptr m nnz b) in
                let* i := copy_n (c_nnz u) (c_ind u) (fz nnz) in
                let* v := copy_n (c_nnz u) (c_val u) (ft nnz) in
                Some (success, Some p, Some i, Some v)
              else csr2csc (c_m u) (c_n u) (c_nnz u) b b (Some (c_ptr u)) (Some (c_ind u)) (Some (c_val u))
                     (Some (fz nnz)) (Some (fresh_ptr m nnz b)) (Some (ft nnz))) in
            match st, p, i, v with
            | success, Some p, Some i, Some v =>
                let* v := conj_result op nnz v in Some (success, Some (new_handle m n nnz b p i v))
            | _, _, _, _ => Some (st, None)
            end
        end
    end.

  (** 1066-1103: the same for a COO handle with [m] rows, [n] columns *)
  Definition convert_coo (m n nnz b : Z) (row col : list Z) (val : list T) (op : operation) : option (status * option (hnd T)) :=
    let m' := if is_none op then m else n in
    let n' := if is_none op then n else m in
    let* (st, p, i, v) := coo2csr m' n' nnz b (Some (if is_none op then row else col)) (Some (if is_none op then col else row)) (Some val)
                            (Some (fresh_ptr m' nnz b)) (Some (fz nnz)) (Some (ft nnz)) in
    match st, p, i, v with
    | success, Some p, Some i, Some v =>
        let* v := conj_result op nnz v in Some (success, Some (new_handle m' n' nnz b p i v))
    | _, _, _, _ => Some (st, None)
    end.

  (** 1218-1429 for the same handles (input_format is csr for CSR and for CSC input:
      auxiliary.cpp 1084) *)
  Definition convert_bsr (w : Z) (zero : T) (A : option (hnd T)) (bd : Z) (row_order : bool) (op : operation) (dest_ok : bool)
      : option (status * option (bsr_mat T)) :=
    match A with
    | None => Some (invalid_pointer, None)
    | Some h =>
        if negb dest_ok then Some (invalid_pointer, None)
        else match H_mats h with
        | [] | None :: _ => Some (invalid_pointer, None)
        | Some u :: _ =>
            match op with
            | op_none => convert_bsr_arrays w zero fz (H_m h) (H_n h) (c_b u) (c_ptr u) (c_ind u) (c_val u) bd row_order
            | op_transpose | op_conjugate_transpose =>
                let* (st, d) := convert_csr A op true in
                match st, d with
                | success, Some d =>
                    match H_mats d with
                    | Some t :: _ => convert_bsr_arrays w zero fz (c_m t) (c_n t) (c_b u) (c_ptr t) (c_ind t) (c_val t) bd row_order
                    | _ => Some (invalid_pointer, None)
                    end
                | _, _ => Some (st, None)
                end
            | op_other _ => Some (not_implemented, None)
            end
        end
    end.
End C.
