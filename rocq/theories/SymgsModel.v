(** Symmetric Gauss-Seidel: solvers/aoclsparse_symgs.hpp. *)
From Coq Require Import ZArith List Bool.
From Verif Require Import Base Algebra DoidModel CheckModel MvModel CsrmvModel HandleModel TrsvModel.
Import ListNotations.
Open Scope Z_scope.

Section S.
  Context {T : Type} (O : ops T).
  Local Notation zero := (o0 O).
  Variable srt : (Z -> Z -> bool) -> list Z -> list Z.
  Variables (fz : Z -> list Z) (ft : Z -> list T).
  (** as for [mv] and [trsv]; [mvc], [tsc]: their kernel selections *)
  Variables (sup : Z -> bool) (dt : dtype) (mvc : Z -> option Z) (nthreads : Z) (team : list Z) (tsc : Z -> option Z) (w : Z).

  (** aoclsparse::mv / aoclsparse::trsv called inside symgs; an output array that the
      callee does not write keeps its contents *)
  Definition smv (op : operation) (alpha : T) (h : hnd T) (d : descr) (x : list T) (beta : T) (y : list T) : option (status * list T * hnd T) :=
    let* (st, yr, ho) := mv O srt fz ft sup dt mvc nthreads team op (Some alpha) (Some h) (Some d) (Some x) (Some beta) (Some y) in
    let* h := ho in
    Some (st, match yr with Some y' => y' | None => y end, h).
  Definition strsv (op : operation) (alpha : T) (h : hnd T) (d : descr) (rhs x : list T) : option (status * list T * hnd T) :=
    let* (st, xr, ho) := trsv O dt tsc srt fz ft w op alpha (Some h) (Some d) (Some rhs) 1 (Some x) 1 (-1) in
    let* h := ho in
    Some (st, match xr with Some x' => x' | None => x end, h).

  (** symgs.hpp 204-207, 234-237: r[i] = b[i] - q[i] *)
  Definition vdiff (m : Z) (b q r : list T) : option (list T) :=
    for_ 0 m (fun i r => let* bi := rd b i in let* qi := rd q i in wr r i (osub O bi qi)) r.

  (** symgs.hpp 150-190: fill modes and operations that reach U and L; (u_fmode,
      l_fmode, u_trans, l_trans) *)
  Definition symgs_parts (ty : mat_type) (fm : fill_mode) (op : operation) : fill_mode * fill_mode * operation * operation :=
    let u_t := match ty with mt_hermitian => op_conjugate_transpose | _ => op_transpose end in
    match ty, fm, op with
    | mt_symmetric, fm_upper, _ => (fm_upper, fm_upper, op_none, op_transpose)
    | mt_general, _, op_none => (fm_upper, fm_lower, op_none, op_none)
    | mt_general, _, op_transpose => (fm_lower, fm_upper, op_transpose, op_transpose)
    | mt_hermitian, fm_upper, _ => (fm_upper, fm_upper, op_none, op_conjugate_transpose)
    | _, _, _ => (fm_lower, fm_lower, u_t, op_none)
    end.

  Definition tri_descr (fm : fill_mode) (dg : diag_type) (b : Z) : descr := mkDescr mt_triangular fm dg b.

  (** symgs.hpp 86-260: symgs_ref; result: status, x, y, handle.  Not modelled:
      failed allocation of the two work vectors.  The statuses of the two inner
      products are dropped as in lines 201 and 231. *)
  Definition symgs_ref (op : operation) (alpha : T) (h : hnd T) (d : descr) (b x y : list T) (fuse : bool)
      : option (status * list T * list T * hnd T) :=
    let m := H_m h in
    let r := zrep m zero in
    let q := zrep m zero in
    match d_type d with
    | mt_triangular =>
        let* (st, x, h) := strsv op (o1 O) h d b x in
        match st with
        | success => if fuse then let* (st, y, h) := smv op (o1 O) h d x zero y in Some (st, x, y, h) else Some (success, x, y, h)
        | _ => Some (st, x, y, h)
        end
    | _ =>
        let '(uf, lf, ut, lt) := symgs_parts (d_type d) (d_fill d) op in
        let* (_, q, h) := smv ut alpha h (tri_descr uf dg_zero (d_base d)) x zero q in
        let* r := vdiff m b q r in
        let* (st, q, h) := strsv lt (o1 O) h (tri_descr lf dg_non_unit (d_base d)) r q in
        match st with
        | success =>
            let* (_, r, h) := smv lt (o1 O) h (tri_descr lf dg_zero (d_base d)) q zero r in
            let* q := vdiff m b r q in
            let* (st, x, h) := strsv ut (o1 O) h (tri_descr uf dg_non_unit (d_base d)) q x in
            match st with
            | success => if fuse then let* (st, y, h) := smv op (o1 O) h d x zero y in Some (st, x, y, h) else Some (success, x, y, h)
            | _ => Some (st, x, y, h)
            end
        | _ => Some (st, x, y, h)
        end
    end.

  (** symgs.hpp 265-394: aoclsparse_?symgs (fuse = false), aoclsparse_?symgs_mv (fuse =
      true) on handles made from CSR or CSC arrays (both have input_format csr); every
      [kid] ends in the reference implementation.  Not modelled: the value type test and
      invalid descriptor enumerators. *)
  Definition symgs (op : operation) (A : option (hnd T)) (d : option descr) (alpha : T) (b_p x_p y_p : option (list T)) (fuse : bool)
      : option (status * option (list T) * option (list T) * option (hnd T)) :=
    let fail st := Some (st, x_p, y_p, A) in
    match x_p, b_p with
    | Some x, Some b =>
        if fuse && (match y_p with None => true | _ => false end) then fail invalid_pointer
        else
          match A, d with
          | Some h, Some d =>
              match H_mats h with
              | [] | None :: _ => fail invalid_pointer
              | Some u :: _ =>
                  if negb (c_b u =? d_base d) then fail invalid_value
                  else if negb ((d_base d =? 0) || (d_base d =? 1)) then fail invalid_value
                  else if negb (valid_op op) then fail invalid_value
                  else if (match d_diag d with dg_unit => true | _ => false end) then fail not_implemented
                  else if (match d_type d, op with mt_general, op_conjugate_transpose => true | _, _ => false end) then fail not_implemented
                  else if (H_m h <? 0) || (H_nnz h <? 0) || (H_n h <? 0) then fail invalid_size
                  else if (H_m h =? 0) || (H_n h =? 0) || (H_nnz h =? 0) then fail success
                  else if negb (H_m h =? H_n h) then fail invalid_size
                  else
                    let* (st, h, r) := csr_csc_optimize O srt fz ft h in
                    match st with
                    | success =>
                        match r with
                        | None => Some (internal_error, Some x, y_p, Some h)
                        | Some _ =>
                            if negb (H_optfull h) then Some (invalid_value, Some x, y_p, Some h)
                            else
                              let* (st, x, y, h) := symgs_ref op alpha h d b x (match y_p with Some y => y | None => [] end) fuse in
                              Some (st, Some x, match y_p with Some _ => Some y | None => None end, Some h)
                        end
                    | _ => Some (st, Some x, y_p, Some h)
                    end
              end
          | _, _ => fail invalid_pointer
          end
    | _, _ => fail invalid_pointer
    end.
End S.
