(** What a user of the GMRES solver relies on: the norm it reports is that of the residual
    b - A x for the x it returns, and success means that this norm meets a tolerance. *)
From Coq Require Import ZArith List Bool.
From Verif Require Import Base Algebra CgModel CgSpec GmresModel.
Import ListNotations.
Open Scope Z_scope.

Section S.
  Context {T : Type} (O : ops T) (e : genv T) (p : gopt T).
  (** The linear system: matrix, size, right-hand side *)
  Context (A : Z -> Z -> T) (n : Z) (b : list T).

  (** b - A x *)
  Definition resid (x : list T) : list T := map (fun i => osub O (nthZ (o0 O) b i) (times O A n x i)) (zrange 0 n).

  (** The work arrays have the sizes of aoclsparse_gmres_data_init (functions.hpp 123-131) *)
  Definition gsizes (w : gwork T) (o : gio T) : Prop :=
    let m := p_restart p in
    zlen (w_v w) = (m + 1) * n /\ zlen (w_z w) = (m + 1) * n /\ zlen (w_h w) = m * m /\ zlen (w_g w) = m + 1 /\
    zlen (w_c w) = m /\ zlen (w_s w) = m /\ zlen (i_x o) = n.
  (** The first solve with these arrays, any content, any start vector *)
  Definition gfresh (w : gwork T) (o : gio T) : Prop := w_task w = q_start /\ w_j w = 0 /\ w_niter w = 0 /\ gsizes w o.

  (** The user does what is requested: the product of *io1 in *io2, any vector as
      preconditioned one, or nothing *)
  Inductive gserved (w : gwork T) (o : gio T) : job -> gwork T -> Prop :=
  | gs_mv : forall u a, gget n (i_u o) w o = Some u -> product O A n a u -> gserved w o j_mv (gput O n (i_v o) a w)
  | gs_precond : forall a, zlen a = n -> gserved w o j_precond (gput O n (i_v o) a w)
  | gs_monitor : gserved w o j_monitor w.
  (** Or asks to stop, whatever was done with *io2 *)
  Definition gstopped (w : gwork T) (o : gio T) (w2 : gwork T) : Prop := w2 = w \/ exists a, zlen a = n /\ w2 = gput O n (i_v o) a w.
  Definition ganswer (w : gwork T) (o : gio T) (jb : job) (w2 : gwork T) (jb2 : job) : Prop :=
    (jb2 = jb /\ gserved w o jb w2) \/ (jb2 = j_interrupt /\ gstopped w o w2).

  (** [greaches w o k st jb w' o']: the state after [k] calls of the solver *)
  Inductive greaches (w : gwork T) (o : gio T) : nat -> status -> job -> gwork T -> gio T -> Prop :=
  | gr_first : forall jb st jb' w' o', grci_solve O e p n b w o jb = Some (st, jb', w', o') -> greaches w o 1 st jb' w' o'
  | gr_next : forall k st jb w1 o1 w2 jb2 st' jb' w' o',
      greaches w o k st jb w1 o1 -> jb <> j_stop -> ganswer w1 o1 jb w2 jb2 ->
      grci_solve O e p n b w2 o1 jb2 = Some (st', jb', w', o') ->
      greaches w o (Datatypes.S k) st' jb' w' o'.

  (** The stopping test for a residual norm, from the tolerances *)
  Definition gconverged (rn : T) : Prop :=
    e_le e rn (p_atol p) = true \/ e_le e rn (omul O (p_rtol p) (e_nrm e b)) = true.
End S.

(** Exact arithmetic in a field of real numbers: the 2-norm, absolute values and the plane
    rotation computed by lartg *)
Record gexact {T} (O : ops T) (e : genv T) : Prop := mk_gexact {
  gx_laws : laws O; gx_div : div_law O; gx_real : forall a, ocj O a = a;
  gx_nrm : forall l, omul O (e_nrm e l) (e_nrm e l) = suml O (fun a => omul O a a) l;
  gx_abs : forall a, omul O (e_abs e a) (e_abs e a) = omul O a a;
  gx_root : forall l a, omul O (e_nrm e l) (e_nrm e l) = omul O (e_abs e a) (e_abs e a) -> e_nrm e l = e_abs e a;
  gx_lt_le : forall a b, e_lt e a b = true -> e_le e a b = true;
  gx_nz : e_nz e (o0 O) = true;
  gx_lartg : forall f g c s r, e_lartg e f g = (c, s, r) ->
    oadd O (omul O c f) (omul O s g) = r /\ osub O (omul O c g) (omul O s f) = o0 O /\ oadd O (omul O c c) (omul O s s) = o1 O }.
