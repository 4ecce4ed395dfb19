(** What the forward interface of GMRES owes its user: it ends as the reverse communication
    interface does when its requests are served by the true product and the preconditioner. *)
From Coq Require Import ZArith List Bool.
From Verif Require Import Base Algebra Csr DoidModel CheckModel MvModel HandleModel HandleSpec IluModel IluSpec CgModel CgSpec GmresModel GmresSpec.
Import ListNotations.
Open Scope Z_scope.

Section S.
  Context {T : Type} (O : ops T) (e : genv T) (p : gopt T).
  Context (A : Z -> Z -> T) (n : Z) (b : list T) (prec : list T -> list T -> Prop).

  (** Requests are served: the product of *io1 in *io2, a vector related to *io1 by [prec] in
      *io2, or nothing.  A user's preconditioner or monitor may ask to stop. *)
  Inductive fserved (w : gwork T) (o : gio T) : job -> gwork T -> job -> Prop :=
  | fs_mv : forall u a, gget n (i_u o) w o = Some u -> product O A n a u -> fserved w o j_mv (gput O n (i_v o) a w) j_mv
  | fs_precond : forall u a, gget n (i_u o) w o = Some u -> zlen a = n -> prec u a -> fserved w o j_precond (gput O n (i_v o) a w) j_precond
  | fs_precond_stop : forall a, zlen a = n -> fserved w o j_precond (gput O n (i_v o) a w) j_interrupt
  | fs_monitor : fserved w o j_monitor w j_monitor
  | fs_monitor_stop : fserved w o j_monitor w j_interrupt.

  (** [freaches w o k st jb w' o']: the state after [k] calls of the solver *)
  Inductive freaches (w : gwork T) (o : gio T) : nat -> status -> job -> gwork T -> gio T -> Prop :=
  | fr_first : forall st jb' w' o', grci_solve O e p n b w o j_start = Some (st, jb', w', o') -> freaches w o 1 st jb' w' o'
  | fr_next : forall k st jb w1 o1 w2 jb2 st' jb' w' o',
      freaches w o k st jb w1 o1 -> jb <> j_stop -> fserved w1 o1 jb w2 jb2 ->
      grci_solve O e p n b w2 o1 jb2 = Some (st', jb', w', o') ->
      freaches w o (Datatypes.S k) st' jb' w' o'.
End S.

Section I.
  Context {T : Type} (O : ops T) (near0 : T -> bool).
  (** The ILU(0) factorisation of the user's matrix meets no pivot close to zero *)
  Definition pivots_ok (u : cmat T) : Prop := forall v i, zlen v = c_nnz u -> 0 <= i < c_m u ->
    let F := csr_mat O (c_b u) (c_ptr u) (c_ind u) v in
    ilu_rows O (c_m u) (c_b u) (c_ptr u) (c_ind u) F (csr_mat O (c_b u) (c_ptr u) (c_ind u) (c_val u)) (i + 1) ->
    (forall r, 0 <= r < i -> near0 (F r r) = false) -> near0 (F i i) = false.
  (** The ILU preconditioner can be applied: a matrix the smoother accepts, never factorised or
      with its factors at hand *)
  Definition ilu_good (h : hnd T) (u : cmat T) (d : descr) (il : option (ilu_st (T := T))) : Prop :=
    ilu_pre h u d /\ (il = None /\ pivots_ok u \/ exists lu v, il = Some (mkIlu true lu v) /\ factored O near0 u lu v).
  (** z is the solution of L U z = r for ILU(0) factors of the matrix *)
  Definition ilu_applied (u : cmat T) (r z : list T) : Prop :=
    exists lu v, factored O near0 u lu v /\ lu_solves O (c_m u) (csr_mat O (c_b u) (c_ptr u) (c_ind u) v) z r.
End I.
