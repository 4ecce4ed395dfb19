(** What a user of the conjugate gradient solver relies on: the vector and norm it
    reports are those of the residual A x - b for the x it returns. *)
From Coq Require Import ZArith List Bool.
From Verif Require Import Base Algebra CgModel.
Import ListNotations.
Open Scope Z_scope.

Section S.
  Context {T N : Type} (O : ops T).
  Context (npos : N -> bool) (nle : N -> N -> bool) (nmul : N -> N -> N) (nnan : N -> bool) (n0 : N).
  Context (nrm : list T -> N) (negz : T -> bool) (rz1 : T).
  (** The linear system: matrix, size, right-hand side *)
  Context (A : Z -> Z -> T) (n : Z) (b : list T).

  Definition times (x : list T) (i : Z) : T := sumz O 0 n (fun j => omul O (A i j) (nthZ (o0 O) x j)).
  Definition product (w u : list T) : Prop := zlen w = n /\ forall i, 0 <= i < n -> nthZ (o0 O) w i = times u i.
  Definition residual (r x : list T) : Prop :=
    zlen r = n /\ forall i, 0 <= i < n -> nthZ (o0 O) r i = osub O (times x i) (nthZ (o0 O) b i).

  (** One symmetric Gauss-Seidel step z for r: (L + D) y = r and (D + U) z = D y, where
      A = L + D + U *)
  Definition gauss_seidel (r z : list T) : Prop :=
    zlen z = n /\ exists y, zlen y = n /\ forall i, 0 <= i < n ->
      sumz O 0 n (fun j => omul O (if j <=? i then A i j else o0 O) (nthZ (o0 O) y j)) = nthZ (o0 O) r i /\
      sumz O 0 n (fun j => omul O (if i <=? j then A i j else o0 O) (nthZ (o0 O) z j)) = omul O (A i i) (nthZ (o0 O) y i).

  (** A new solve: work vectors of size n with any content, any start vector *)
  Definition fresh (c : cg T N) (o : io T N) : Prop :=
    g_task c = t_start /\ zlen (g_r c) = n /\ zlen (g_z c) = n /\ zlen (g_p c) = n /\ zlen (g_q c) = n /\ zlen (o_x o) = n.

  (** The stopping test for a residual [r], from the tolerances *)
  Definition converged (c : cg T N) (r : list T) : Prop :=
    (npos (g_atol c) = true /\ nle (nrm r) (g_atol c) = true) \/
    (npos (g_rtol c) = true /\ nle (nrm r) (nmul (g_rtol c) (nrm b)) = true).

  (** [prec u w]: the preconditioner may answer [w] for [u] *)
  Context (prec : list T -> list T -> Prop).
  (** The user does what is requested: the product of the vector *u into *v, the
      preconditioned vector into *v, or nothing *)
  Inductive served (o : io T N) (c : cg T N) : job -> cg T N -> Prop :=
  | sv_mv : forall u w, get_buf (o_u o) c = Some u -> product w u -> served o c j_mv (set_buf (o_v o) w c)
  | sv_precond : forall u w, get_buf (o_u o) c = Some u -> zlen w = n -> prec u w -> served o c j_precond (set_buf (o_v o) w c)
  | sv_monitor : served o c j_monitor c.

  (** Or asks to stop, whatever was done with *v *)
  Definition interrupted (o : io T N) (c c2 : cg T N) : Prop :=
    c2 = c \/ exists w, zlen w = n /\ c2 = set_buf (o_v o) w c.
  (** State and job the next call starts from *)
  Definition answered (o : io T N) (c : cg T N) (jb : job) (c2 : cg T N) (jb2 : job) : Prop :=
    (jb2 = jb /\ served o c jb c2) \/ (jb2 = j_interrupt /\ interrupted o c c2).

  (** [reaches c o k st jb c' o']: state after [k] calls of the solver; between calls the
      user serves the request or asks to stop *)
  Inductive reaches (c : cg T N) (o : io T N) : nat -> status -> job -> cg T N -> io T N -> Prop :=
  | r_first : forall jb st jb' c' o',
      rci_solve O npos nle nmul nnan n0 nrm negz rz1 n b c o jb = Some (st, jb', c', o') -> reaches c o 1 st jb' c' o'
  | r_next : forall k st jb c1 o1 c2 jb2 st' jb' c' o',
      reaches c o k st jb c1 o1 -> jb <> j_stop -> answered o1 c1 jb c2 jb2 ->
      rci_solve O npos nle nmul nnan n0 nrm negz rz1 n b c2 o1 jb2 = Some (st', jb', c', o') ->
      reaches c o (Datatypes.S k) st' jb' c' o'.
End S.

(** Handles whose matrix the built-in preconditioner can work on: zero-based, with a
    complete non-zero diagonal.  [tsc]: kernel selection of the triangular solve, [w]:
    width of the index type. *)
From Verif Require Import Csr SortSpec MvModel HandleModel HandleSpec TrsvSpec.
Record gs_ready {T} (O : ops T) (tsc : Z -> option Z) (w : Z) (h : hnd T) (u : cmat T) (d : descr) : Prop := mk_gs_ready {
  gr_flag : diag_flag_ok h u;
  gr_base : forall c, In (Some c) (H_mats h) -> c_b c = 0;
  gr_size : 0 < H_m h <= 2 ^ w - 1; gr_w : 0 < w; gr_nnz : 0 < H_nnz h;
  gr_kid : tsc (-1) <> None;
  gr_cols : tsc (-1) = Some 0 \/ rows_distinct (c_m u) (c_b u) (c_ptr u) (c_ind u);
  gr_full : full_diag (c_m u) (c_n u) (c_b u) (c_ptr u) (c_ind u);
  gr_nz : forall i, 0 <= i < H_m h -> hnd_mat O u i i <> o0 O;
  gr_diag : d_diag d = dg_non_unit }.
