(** Dispatch of the CSR matrix-vector product: level2/aoclsparse_csrmv.hpp. *)
From Coq Require Import ZArith List Bool.
From Verif Require Import Base Algebra Vec DoidModel MvModel.
Import ListNotations.
Open Scope Z_scope.

(** The four scalar types the templates are instantiated at:
    float, double, complex float, complex double. *)
Inductive dtype := dt_s | dt_d | dt_c | dt_z.
Definition is_cplx (dt : dtype) : bool := match dt with dt_c | dt_z => true | _ => false end.
(** kernel-templates/kt_common.hpp: tsz_v<SZ, SUF>: elements per register of 32
    (b256) or 64 (b512) bytes. *)
Definition tsz256 (dt : dtype) : Z := match dt with dt_s => 8 | dt_d => 4 | dt_c => 4 | dt_z => 2 end.
Definition tsz512 (dt : dtype) : Z := 2 * tsz256 dt.
(** Register size of table entry [k] of the kernel-template tables (csrmv.hpp
    138-143, 163-168, 190-195 ...): entries 0-2 are b256, entry 3 is b512. *)
Definition tbl_tsz (dt : dtype) (k : Z) : Z := if k =? 3 then tsz512 dt else tsz256 dt.

Section D.
  Context {T : Type} (O : ops T).
  (** [dt]: the instantiation.  [choice kid]: the table index Oracle returns for a
      kernel id, None for a null kernel (property C35).  [nthreads], [team]: the
      OpenMP team of the transposed product (MvModel.csrmvt_kt_omp); nthreads = 1
      is the serial path. *)
  Variables (dt : dtype) (choice : Z -> option Z) (nthreads : Z) (team : list Z).

  Definition ok (y : option (list T)) : option (status * option (list T)) :=
    let* y := y in Some (success, Some y).
  (** An error status: [y] is not written. *)
  Definition err (s : status) : option (status * option (list T)) := Some (s, None).

  (** csrmv_kt.cpp 92-205: csrmvt_kt *)
  Definition csrmvt_kt (tsz b : Z) (alpha : T) (m n : Z) (val : list T) (col row : list Z)
      (x : list T) (beta : T) (y : list T) : option (list T) :=
    if nthreads <=? 1 then csrmvt_kt_seq O tsz b alpha m n val col row x beta y
    else csrmvt_kt_omp O nthreads team tsz b alpha m n val col row x beta y.

  (** csrmv.hpp 108-122: rstart / rend, as (start array, offset of the end array,
      end array).  A null pointer is the empty array. *)
  Definition tri_ptrs (d_id : Z) (row idiag iurow : list Z) : list Z * Z * list Z :=
    if (d_id =? tln) || (d_id =? tlt) || (d_id =? tlh) || (d_id =? tlc) then (row, 0, iurow)
    else if (d_id =? tun) || (d_id =? tut) || (d_id =? tuh) || (d_id =? tuc) then (idiag, 1, row)
    else ([], 0, []).

  (** csrmv.hpp 107-449: the kernel selection of aoclsparse_csrmv_t for a given
      doid.  [do_check] is the template flag (public interface: true).  *)
  Definition csrmv_run (do_check : bool) (d_id kid : Z) (d : descr) (alpha : T) (m n nnz : Z)
      (val : list T) (col row idiag iurow : list Z) (x : list T) (beta : T) (y : list T)
      : option (status * option (list T)) :=
    let b := d_base d in
    let '(rstart, eoff, rend) := tri_ptrs d_id row idiag iurow in
    let with_kernel kid (f : Z -> option (list T)) :=
      match choice kid with None => err invalid_kid | Some k => ok (f k) end in
    if is_cplx dt then
      match d_id with
      | 0 (* gn *) =>
          let kid := if (nnz <=? 4 * m) && (kid =? -1) then 0 else if kid =? -1 then 1 else kid in
          with_kernel kid (fun k =>
            if k =? 0 then ref_csrmv_gn O b alpha m val col row x beta y
            else csrmv_kt O (tbl_tsz dt k) b alpha m val col row x beta y)
      | 2 (* gt *) =>
          let kid := if kid =? -1 then 1 else kid in
          with_kernel kid (fun k => csrmvt_kt (tbl_tsz dt k) b alpha m n val col row x beta y)
      | 3 (* gh *) => ok (ref_csrmv_th O true b alpha m n val col row x beta y)
      | 1 (* gc *) => err not_implemented
      | 4 (* sl *) | 6 (* su *) =>
          with_kernel kid (fun k => csrmv_symm_kt O false (tbl_tsz dt k) b alpha m (d_diag d) (d_fill d)
                                      val col row idiag iurow x beta y)
      | 5 (* slc *) | 7 (* suc *) =>
          ok (csrmv_fg_internal O (ocj O) (ocj O) b alpha m (d_diag d) (d_fill d) val col row idiag x beta y)
      | 8 (* hl *) | 11 (* hu *) =>
          with_kernel kid (fun k => csrmv_symm_kt O true (tbl_tsz dt k) b alpha m (d_diag d) (d_fill d)
                                      val col row idiag iurow x beta y)
      | 9 (* hlc *) | 10 (* huc *) =>
          ok (csrmv_hermt_internal O b alpha m (d_diag d) (d_fill d) val col row idiag x beta y)
      | 12 (* tln *) | 16 (* tun *) => ok (ref_csrmv_tri O d alpha m val col rstart eoff rend x beta y)
      | 14 (* tlt *) | 18 (* tut *) =>
          ok (ref_csrmv_tri_th O false d alpha m n val col rstart eoff rend x beta y)
      | 15 (* tlh *) | 19 (* tuh *) =>
          ok (ref_csrmv_tri_th O true d alpha m n val col rstart eoff rend x beta y)
      | 13 (* tlc *) | 17 (* tuc *) => err not_implemented
      | _ => err internal_error
      end
    else
      match d_id with
      | 0 (* gn *) =>
          match dt with
          | dt_s => ok (csrmv_vectorized O b alpha m val col row x beta y)
          | _ =>
              let kid := if nnz <=? 10 * m then 0 else kid in
              with_kernel kid (fun k =>
                if k =? 0 then ref_csrmv_gn O b alpha m val col row x beta y
                else if k =? 3 then csrmv_vectorized_avx512 O b alpha m val col row x beta y
                else csrmv_vectorized_avx2 O b alpha m val col row x beta y)
          end
      | 2 (* gt *) => with_kernel kid (fun k => csrmvt_kt (tbl_tsz dt k) b alpha m n val col row x beta y)
      | 8 (* hl *) | 11 (* hu *) | 9 (* hlc *) | 10 (* huc *) | 4 (* sl *) | 6 (* su *) | 5 (* slc *) | 7 (* suc *) =>
          if do_check then ok (csrmv_symm O b alpha m val col row x beta y)
          else with_kernel kid (fun k => csrmv_symm_kt O true (tbl_tsz dt k) b alpha m (d_diag d) (d_fill d)
                                           val col row idiag iurow x beta y)
      | 12 (* tln *) | 16 (* tun *) =>
          match dt with
          | dt_d => ok (csrmv_vectorized_avx2ptr O d alpha m val col rstart eoff rend x beta y)
          | _ => ok (ref_csrmv_tri O d alpha m val col rstart eoff rend x beta y)
          end
      | 14 (* tlt *) | 18 (* tut *) =>
          ok (ref_csrmv_tri_th O false d alpha m n val col rstart eoff rend x beta y)
      | _ => err not_implemented
      end.

  (** error_check.hpp: is_valid_op *)
  Definition valid_op (op : operation) : bool := match op with op_other _ => false | _ => true end.

  (** csrmv.hpp 55-106 with do_check = true, then the kernel selection: the public
      aoclsparse_?csrmv.  Pointers are options.  Descriptor type and fill mode are
      always valid enumerators here (the setters reject others, C39); the base may
      be anything.  Sizes are unbounded integers. *)
  Definition csrmv_pub (op : operation) (alpha : option T) (m n nnz : Z) (val : option (list T))
      (col row : option (list Z)) (d : option descr) (x : option (list T)) (beta : option T)
      (y : option (list T)) : option (status * option (list T)) :=
    match alpha, beta with
    | Some alpha, Some beta =>
      match d with
      | None => err invalid_pointer
      | Some d =>
        if negb ((d_base d =? 0) || (d_base d =? 1)) then err invalid_value
        else if negb (valid_op op) then err invalid_value
        else match d_type d with
        | mt_hermitian | mt_triangular => err not_implemented
        | _ =>
          if (match d_type d with mt_symmetric => true | _ => false end) && negb (m =? n) then err invalid_size
          else if (m <? 0) || (n <? 0) || (nnz <? 0) then err invalid_size
          else match val, row, col, x, y with
          | Some val, Some row, Some col, Some x, Some y =>
            let* d_id := get_doid (negb (is_cplx dt)) (d_type d) (d_fill d) op in
            csrmv_run true d_id (-1) d alpha m n nnz val col row [] [] x beta y
          | _, _, _, _, _ => err invalid_pointer
          end
        end
      end
    | _, _ => err invalid_pointer
    end.
End D.
