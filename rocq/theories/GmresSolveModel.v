(** aoclsparse_itsol_?_solve with the GMRES solver on a handle made from CSR or CSC arrays:
    solvers/aoclsparse_itsol_functions.hpp 556-624, 1499-1620. *)
From Coq Require Import ZArith List Bool.
From Verif Require Import Base Algebra DoidModel CheckModel MvModel CsrmvModel HandleModel TrsvModel SymgsModel IluModel CgModel GmresModel.
Import ListNotations.
Open Scope Z_scope.

Section L.
  Context {T : Type} (O : ops T) (e : genv T) (p : gopt T).
  (** The pieces called by the loop, acting on a state [E]: aoclsparse::mv, aoclsparse_ilu_template
      (its status is dropped), the user's preconditioner and monitor *)
  Context {E : Type} (mv : E -> list T -> list T -> option (status * list T * E)) (ilu : E -> list T -> list T -> option (list T * E)).
  Context (pc : E -> list T -> list T -> Z * list T * E) (monit : E -> option (list T) -> option (list T) -> Z * E).

  (** 1552-1618: the loop; [fuel] bounds the number of rounds (None: not finished).  Lines
      1555-1557 never apply: a status other than success comes with the stop signal (545-555).
      The monitor is given io1 and io2 as the last other request left them. *)
  Fixpoint gmres_loop (fuel : nat) (n : Z) (b : list T) (s : E) (w : gwork T) (o : gio T) (jb : job) : option (status * E * gwork T * gio T) :=
    match fuel with
    | 0%nat => None
    | Datatypes.S fuel =>
        let* (st, jb, w, o) := grci_solve O e p n b w o jb in
        match jb with
        | j_stop => Some (st, s, w, o)
        | j_mv =>
            let* u := gget n (i_u o) w o in
            let* v := gget n (i_v o) w o in
            let* (ms, a, s) := mv s u v in
            match ms with
            | success => gmres_loop fuel n b s (gput O n (i_v o) a w) o jb
            | _ => Some (internal_error, s, w, o)
            end
        | j_precond =>
            let* u := gget n (i_u o) w o in
            let* v := gget n (i_v o) w o in
            if p_precond p =? 1 then
              let '(flag, a, s) := pc s u v in
              gmres_loop fuel n b s (gput O n (i_v o) a w) o (if flag =? 0 then jb else j_interrupt)
            else if p_precond p =? 2 then
              let* (a, s) := ilu s u v in
              gmres_loop fuel n b s (gput O n (i_v o) a w) o jb
            else gmres_loop fuel n b s (gput O n (i_v o) u w) o jb
        | j_monitor =>
            let '(flag, s) := monit s (gget n (i_u o) w o) (gget n (i_v o) w o) in
            gmres_loop fuel n b s w o (if flag =? 0 then jb else j_interrupt)
        | j_interrupt | j_start => gmres_loop fuel n b s w o jb
        end
    end.
End L.

Section S.
  Context {T : Type} (O : ops T) (e : genv T) (p : gopt T).
  Variable srt : (Z -> Z -> bool) -> list Z -> list Z.
  Variables (fz : Z -> list Z) (ft : Z -> list T).
  Variables (sup : Z -> bool) (dt : dtype) (mvc : Z -> option Z) (nthreads : Z) (team : list Z).
  Context {U : Type} (pc : option (U -> list T -> list T -> Z * list T * U)) (monit : U -> option (list T) -> option (list T) -> Z * U).

  (** The handle, its ILU data, the user's data *)
  Definition gstate := (hnd T * option (ilu_st (T := T)) * U)%type.

  (** 1568-1575 *)
  Definition g_mv (d : descr) (s : gstate) (u v : list T) : option (status * list T * gstate) :=
    let '(h, il, ud) := s in
    let* (st, v, h) := smv O srt fz ft sup dt mvc nthreads team op_none (o1 O) h d u (o0 O) v in
    Some (st, v, (h, il, ud)).
  (** 1588-1598: x = io2, right-hand side io1; the status is not looked at *)
  Definition g_ilu (d : descr) (s : gstate) (u v : list T) : option (list T * gstate) :=
    let '(h, il, ud) := s in
    let* (_, x, _, il) := ilu_smoother O (e_nz e) fz op_none (Some h) il (Some d) true (Some v) (Some u) in
    Some (match x with Some v' => v' | None => v end, (h, il, ud)).
  Definition g_pc (s : gstate) (u v : list T) : Z * list T * gstate :=
    let '(h, il, ud) := s in
    match pc with Some f => let '(flag, v, ud) := f ud u v in (flag, v, (h, il, ud)) | None => (0, v, s) end.
  Definition g_monit (s : gstate) (x r : option (list T)) : Z * gstate :=
    let '(h, il, ud) := s in let '(flag, ud) := monit ud x r in (flag, (h, il, ud)).

  (** 596-604, 1535-1620: the optimised form, the tests of aoclsparse_gmres_solve and the loop;
      [w]: the solver data after aoclsparse_itsol_solver_init.  Not modelled: the null tests,
      the clearing of rinfo, failed allocations.  No monitor: one that answers zero. *)
  Definition gmres_solve (fuel : nat) (n : Z) (b : list T) (h : hnd T) (il : option ilu_st) (d : descr) (ud : U) (w : gwork T) (o : gio T)
      : option (status * gstate * gwork T * gio T) :=
    let* (st, h, r) := csr_csc_optimize O srt fz ft h in
    match st, r with
    | success, Some _ =>
        let fail s := Some (s, (h, il, ud), w, o) in
        if negb (H_m h =? n) || negb (H_n h =? n) then fail invalid_size
        else if (p_precond p =? 1) && match pc with None => true | _ => false end then fail invalid_pointer
        else gmres_loop O e p (g_mv d) (g_ilu d) g_pc g_monit fuel n b (h, il, ud) w o j_start
    | success, None => Some (internal_error, (h, il, ud), w, o)
    | _, _ => Some (st, (h, il, ud), w, o)
    end.
End S.
