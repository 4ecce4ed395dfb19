(** Concurrent aoclsparse_?mv calls served by one shared copy that was made for a hint. *)
From Coq Require Import ZArith List Bool Arith.
From Verif Require Import Base Algebra Vec DoidModel MvModel CsrmvModel HandleModel.
Import ListNotations.
Open Scope Z_scope.

(** One call: diagonal rule of the descriptor, alpha, x, beta, and the caller's y *)
Record mreq (T : Type) := mkReq { rq_dg : diag_type; rq_alpha : T; rq_x : list T; rq_beta : T; rq_y : list T }.
Arguments mkReq {T}. Arguments rq_dg {T}. Arguments rq_alpha {T}. Arguments rq_x {T}. Arguments rq_beta {T}. Arguments rq_y {T}.

(** Where a call is.  x, y and the accumulator belong to the thread. *)
Inductive mpc (T : Type) :=
| q_flag                                       (* mv.cpp 224: compare with csr_mat->mtx_diag *)
| q_fill (i : Z)                               (* csr_util.hpp 485-487, 501-502: val[idiag[i]] = ... *)
| q_mark                                       (* csr_util.hpp 505: mtx_diag = diag_type *)
| q_row (i : Z) (y : list T)                   (* csrmv_kr.hpp 478-: next row *)
| q_ent (i k : Z) (r : T) (y : list T)         (* csrmv_kr.hpp 488-491: next entry of row i *)
| q_done (y : list T)                          (* returned success *)
| q_fail                                       (* returned invalid_pointer *)
| q_ub.                                        (* undefined behaviour *)
Arguments q_flag {T}. Arguments q_fill {T}. Arguments q_mark {T}. Arguments q_row {T}. Arguments q_ent {T}.
Arguments q_done {T}. Arguments q_fail {T}. Arguments q_ub {T}.

(** The shared copy and the threads *)
Record mcs (T : Type) := mkMcs { g_c : cmat T; g_pc : nat -> mpc T }.
Arguments mkMcs {T}. Arguments g_c {T}. Arguments g_pc {T}.

Section M.
  Context {T : Type} (O : ops T) (m : Z) (rq : nat -> mreq T).

  Definition set_val (c : cmat T) (v : list T) : cmat T :=
    mkCmat (c_m c) (c_n c) (c_nnz c) (c_doid c) (c_b c) (c_ptr c) (c_ind c) v (c_idiag c) (c_iurow c) (c_opt c) (c_mdiag c) (c_dval c).
  Definition set_mark (c : cmat T) (dg : diag_type) : cmat T :=
    mkCmat (c_m c) (c_n c) (c_nnz c) (c_doid c) (c_b c) (c_ptr c) (c_ind c) (c_val c) (c_idiag c) (c_iurow c) (c_opt c) dg (c_dval c).

  (** One step of a call: at most one access to the values or to mtx_diag of the shared
      copy.  mv.cpp 215-250 (exact match, CSR), csr_util.hpp 473-509
      (aoclsparse_set_mat_diag), csrmv_kr.hpp 448-513 (ref_csrmv_gn).  No lock is held.
      Simplified: sequentially consistent memory; reference kernel (the vectorised ones
      read the same entries of a row in groups); ind, ptr, idiag and diag_val are read
      together with the value they lead to, nobody writes them; the rows of one product
      one after the other (their parallel loop: C34). *)
  Definition mstep1 (r : mreq T) (c : cmat T) (p : mpc T) : option (cmat T * mpc T) :=
    match p with
    | q_flag =>
        if diag_eqb (rq_dg r) (c_mdiag c) then Some (c, q_row 0 (rq_y r))
        else match c_dval c, c_idiag c with Some _, Some _ => Some (c, q_fill 0) | _, _ => Some (c, q_fail) end
    | q_fill i =>
        if i <? m then
          match c_dval c, c_idiag c with
          | Some dv, Some idiag =>
              let* p := rd idiag i in
              let* v := match rq_dg r with dg_non_unit => rd dv i | dg_unit => Some (o1 O) | dg_zero => Some (o0 O) end in
              let* val := wr (c_val c) p v in
              Some (set_val c val, q_fill (i + 1))
          | _, _ => None
          end
        else Some (c, q_mark)
    | q_mark => Some (set_mark c (rq_dg r), q_row 0 (rq_y r))
    | q_row i y =>
        if i <? c_m c then let* s := rd (c_ptr c) i in Some (c, q_ent i (s - c_b c) (o0 O) y) else Some (c, q_done y)
    | q_ent i k a y =>
        let* e := rd (c_ptr c) (i + 1) in
        if k <? e - c_b c then
          let* j := rd (c_ind c) k in
          let* v := rd (c_val c) k in
          let* xv := rd (rq_x r) (j - c_b c) in
          Some (c, q_ent i (k + 1) (oadd O a (omul O v xv)) y)
        else
          let* y' := finish_row O (rq_alpha r) (rq_beta r) y i a in
          Some (c, q_row (i + 1) y')
    | q_done _ | q_fail | q_ub => Some (c, p)
    end.

  Definition mstep (t : nat) (s : mcs T) : mcs T :=
    match mstep1 (rq t) (g_c s) (g_pc s t) with
    | Some (c, p) => mkMcs c (fun t' => if Nat.eqb t' t then p else g_pc s t')
    | None => mkMcs (g_c s) (fun t' => if Nat.eqb t' t then q_ub else g_pc s t')
    end.

  (** Any interleaving: the list names the thread that takes the next step. *)
  Definition mrun (sched : list nat) (s : mcs T) : mcs T := fold_left (fun s t => mstep t s) sched s.
  Definition mstart (c : cmat T) : mcs T := mkMcs c (fun _ => q_flag).

  (** Shared memory the next step of a thread touches: a value, or mtx_diag *)
  Inductive mloc := ml_val (k : Z) | ml_mark.
  Definition macc (r : mreq T) (c : cmat T) (p : mpc T) : list (mloc * bool) :=
    match p with
    | q_flag => [(ml_mark, false)]
    | q_fill i => if i <? m then match c_idiag c with Some idiag => [(ml_val (zn idiag i), true)] | None => [] end else []
    | q_mark => [(ml_mark, true)]
    | q_ent i k _ _ => if k <? zn (c_ptr c) (i + 1) - c_b c then [(ml_val k, false)] else []
    | _ => []
    end.
  (** Two threads are about to touch the same memory, at least one of them writing. *)
  Definition mrace (s : mcs T) : Prop :=
    exists t t' l w, t <> t' /\ In (l, true) (macc (rq t) (g_c s) (g_pc s t)) /\ In (l, w) (macc (rq t') (g_c s) (g_pc s t')).
End M.
