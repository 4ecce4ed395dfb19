(** Model of the triangular solve with several right-hand sides,
    /repo/library/src/level3/aoclsparse_trsm.hpp 36-158. *)
From Coq Require Import ZArith List Bool.
From Verif Require Import Base Algebra Csr DoidModel MvModel CsrmvModel HandleModel UtilModel TrsvModel.
Import ListNotations.
Open Scope Z_scope.

Section K.
  Context {T : Type} (O : ops T) (dt : dtype) (choice : Z -> option Z).
  Variable srt : (Z -> Z -> bool) -> list Z -> list Z.
  Variable fz : Z -> list Z.
  Variable ft : Z -> list T.

  (** level3/aoclsparse_trsm.hpp 147-153, one iteration: solve with the sub-arrays that
      start at &B[ld*b_offset] and &X[ld*x_offset]; [status] is shared by the threads
      and keeps the last value stored. *)
  Definition trsm_column (w : Z) (op : operation) (alpha : T) (d : descr) (B : list T) (b_off incb x_off incx kid : Z)
      (ld : Z) (s : status * list T * hnd T) : option (status * list T * hnd T) :=
    let '(_, X, h) := s in
    let p := Z.to_nat (ld * x_off) in
    let* (st, xr, h') := trsv O dt choice srt fz ft w op alpha (Some h) (Some d)
                            (Some (skipn (Z.to_nat (ld * b_off)) B)) incb (Some (skipn p X)) incx kid in
    let* h' := h' in
    Some (st, match xr with Some x' => firstn p X ++ x' | None => X end, h').

  (** level3/aoclsparse_trsm.hpp 36-158.  [sched] is the order in which the iterations
      of the parallel loop 144-153 take effect (simplification: one iteration is atomic;
      with non-overlapping columns no iteration reads what another one writes, except the
      handle, which is already optimised).  The result holds the status, X and the handle.
      Not modelled: the input formats other than CSR / CSC / TCSR (59-62, rejected) and
      TCSR (110-113, modelled in TcsrModel). *)
  Definition trsm (w : Z) (sched : list Z) (op : operation) (alpha : T) (A : option (hnd T)) (d : option descr)
      (order : Z) (B : option (list T)) (n ldb : Z) (X : option (list T)) (ldx kid : Z)
      : option (status * option (list T) * option (hnd T)) :=
    match A, X, B, d with
    | Some h, Some X, Some B, Some d =>
      let quit s := Some (s, Some X, Some h) in
      match H_mats h with
      | [] | None :: _ => quit invalid_pointer
      | Some u :: _ =>
        if negb (c_b u =? d_base d) then quit invalid_value
        else if (H_m h <? 0) || (H_nnz h <? 0) || (n <? 0) then quit invalid_size
        else if (H_m h =? 0) || (H_n h =? 0) || (H_nnz h =? 0) || (n =? 0) then quit success
        else if negb (H_m h =? H_n h) then quit invalid_size
        else if (ldb <? 0) || (ldx <? 0) then quit invalid_size
        else if negb ((d_base d =? 0) || (d_base d =? 1)) then quit invalid_value
        else if negb (valid_op op) then quit invalid_value
        else if match d_type d with mt_symmetric | mt_triangular => false | _ => true end then quit invalid_value
        else
          let* (st, h1, r) := csr_csc_optimize O srt fz ft h in
          match st with
          | success =>
            match r with
            | None => Some (internal_error, Some X, Some h1)
            | Some _ =>
              if negb ((order =? 0) || (order =? 1)) then Some (invalid_value, Some X, Some h1)
              else
                let incb := if order =? 0 then ldb else 1 in
                let incx := if order =? 0 then ldx else 1 in
                let b_off := if order =? 0 then 1 else ldb in
                let x_off := if order =? 0 then 1 else ldx in
                let* o1 := int_product_overflow w n b_off in
                let* o2 := int_product_overflow w n x_off in
                if o1 || o2 then Some (invalid_size, Some X, Some h1)
                else
                  let* (st, X1, h2) := foldM (trsm_column w op alpha d B b_off incb x_off incx kid) sched (success, X, h1) in
                  Some (st, Some X1, Some h2)
            end
          | _ => Some (st, Some X, Some h1)
          end
      end
    | _, _, _, _ => Some (invalid_pointer, X, A)
    end.
End K.
