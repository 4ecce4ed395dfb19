(** aoclsparse_itsol_?_solve with the conjugate gradient solver on a handle made from
    CSR or CSC arrays: solvers/aoclsparse_itsol_functions.hpp 380-478, 556-624, 1369-1498. *)
From Coq Require Import ZArith List Bool.
From Verif Require Import Base Algebra DoidModel CheckModel MvModel CsrmvModel HandleModel TrsvModel SymgsModel CgModel.
Import ListNotations.
Open Scope Z_scope.

Section S.
  Context {T N : Type} (O : ops T).
  Variable srt : (Z -> Z -> bool) -> list Z -> list Z.
  Variables (fz : Z -> list Z) (ft : Z -> list T).
  Variables (sup : Z -> bool) (dt : dtype) (mvc : Z -> option Z) (nthreads : Z) (team : list Z) (tsc : Z -> option Z) (w : Z).

  (** functions.hpp 455-458: y[i] *= aval[idiag[i]] *)
  Definition scale_diag (m : Z) (aval : list T) (idiag : list Z) (y : list T) : option (list T) :=
    for_ 0 m (fun i y => let* k := rd idiag i in let* a := rd aval k in let* v := rd y i in wr y i (omul O v a)) y.

  (** functions.hpp 380-478: aoclsparse_itsol_symgs; [y]: the work vector.  The type of
      the descriptor copy is set to triangular. *)
  Definition itsol_symgs (h : hnd T) (d : descr) (r y z : list T) : option (status * list T * hnd T) :=
    match first_opt (H_mats h) 0 with
    | None => Some (not_implemented, z, h)
    | Some (_, c) =>
        match d_type d with
        | mt_general | mt_symmetric =>
            if diag_eqb (d_diag d) dg_zero then Some (invalid_value, z, h)
            else
              let gen := match d_type d with mt_general => true | _ => false end in
              let low := match d_fill d with fm_lower => true | fm_upper => false end in
              let '(f1, t1) := if gen || low then (fm_lower, op_none) else (fm_upper, op_transpose) in
              let* (st, y, h) := strsv O srt fz ft dt tsc w t1 (o1 O) h (mkDescr mt_triangular f1 (d_diag d) (d_base d)) r y in
              match st with
              | success =>
                  let* y := (if diag_eqb (d_diag d) dg_non_unit then scale_diag (H_m h) (c_val c) (onull (c_idiag c)) y else Some y) in
                  let '(f2, t2) := if gen || negb low then (fm_upper, op_none) else (fm_lower, op_transpose) in
                  let* (st, z, h) := strsv O srt fz ft dt tsc w t2 (o1 O) h (mkDescr mt_triangular f2 (d_diag d) (d_base d)) y z in
                  Some (st, z, h)
              | _ => Some (st, z, h)
              end
        | _ => Some (invalid_value, z, h)
        end
    end.

  Context (npos : N -> bool) (nle : N -> N -> bool) (nmul : N -> N -> N) (nnan : N -> bool) (n0 : N).
  Context (nrm : list T -> N) (negz : T -> bool) (rz1 : T).
  Context {U : Type} (pc : option (U -> list T -> list T -> Z * list T * U)) (monit : U -> option (list T) -> option (list T) -> Z * U).

  (** functions.hpp 596-604, 1408-1496: the optimised form, the tests of aoclsparse_cg_solve and
      the loop; [c]: the solver data after aoclsparse_itsol_solver_init.  Not modelled: the
      null tests, the clearing of rinfo, failed allocations.  No monitor: one that
      answers zero.  y is shared by the calls of the preconditioner (its content at the
      start of a call is not read: [ft n]). *)
  Definition cg_solve (fuel : nat) (n : Z) (b : list T) (h : hnd T) (d : descr) (ud : U) (c : cg T N) (o : io T N)
      : option (status * (hnd T * U) * cg T N * io T N) :=
    let* (st, h, r) := csr_csc_optimize O srt fz ft h in
    match st, r with
    | success, Some _ =>
        let fail s := Some (s, (h, ud), c, o) in
        if negb (H_m h =? n) || negb (H_n h =? n) then fail invalid_size
        else match d_type d, d_fill d with
        | mt_symmetric, fm_lower =>
            if (g_precond c =? 1) && match pc with None => true | _ => false end then fail invalid_pointer
            else if (g_precond c =? 3) && (negb (H_optfull h) && negb (diag_eqb (d_diag d) dg_unit) || diag_eqb (d_diag d) dg_zero) then fail invalid_value
            else
              cg_loop O npos nle nmul nnan n0 nrm negz rz1
                (fun e u v => let* (st, v, h) := smv O srt fz ft sup dt mvc nthreads team op_none (o1 O) (fst e) d u (o0 O) v in Some (st, v, (h, snd e)))
                (fun e u v => let* (st, v, h) := itsol_symgs (fst e) d u (ft n) v in Some (st, v, (h, snd e)))
                (fun e u v => match pc with Some f => let '(flag, v, ud) := f (snd e) u v in (flag, v, (fst e, ud)) | None => (0, v, e) end)
                (fun e x r => let '(flag, ud) := monit (snd e) x r in (flag, (fst e, ud)))
                fuel n b (h, ud) c o j_start
        | _, _ => fail invalid_value
        end
    | success, None => Some (internal_error, (h, ud), c, o)
    | _, _ => Some (st, (h, ud), c, o)
    end.
End S.
