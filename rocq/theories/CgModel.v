(** The conjugate gradient solver: solvers/aoclsparse_itsol_functions.hpp 632-861
    (aoclsparse_cg_rci_solve), 485-556 (the stop handling of aoclsparse_itsol_rci_solve),
    1369-1498 (aoclsparse_cg_solve), include/aoclsparse_itsol_data.hpp 86-125.
    Arithmetic is that of [O]; the 2-norm (cblas_nrm2), the type of norms with its
    comparisons and aoclsparse_is_negative_or_nearzero are parameters.  Work vectors of
    the solver and x are distinct buffers. *)
From Coq Require Import ZArith List Bool.
From Verif Require Import Base Algebra.
Import ListNotations.
Open Scope Z_scope.

(** solvers.h 113-134 *)
Inductive job := j_interrupt | j_stop | j_start | j_mv | j_precond | j_monitor.
(** itsol_data.hpp 86-94 *)
Inductive cg_task := t_start | t_init_res | t_check_conv | t_start_iter | t_compute_beta | t_take_step.
(** The buffers that *u and *v can point to *)
Inductive buf := b_null | b_r | b_z | b_p | b_q.

Section CG.
  Context {T N : Type} (O : ops T).
  (** 0 < a, a <= b, a * b, isnan of norms *)
  Context (npos : N -> bool) (nle : N -> N -> bool) (nmul : N -> N -> N) (nnan : N -> bool) (n0 : N).
  Context (nrm : list T -> N) (negz : T -> bool) (rz1 : T).

  (** itsol_data.hpp 112-125 *)
  Record cg := mkCg {
    g_r : list T; g_z : list T; g_p : list T; g_q : list T;
    g_alpha : T; g_rz : T; g_beta : T;
    g_rnorm : N; g_bnorm : N; g_brtol : N;
    g_task : cg_task; g_niter : Z;
    g_rtol : N; g_atol : N; g_maxit : Z; g_precond : Z }.
  (** What the caller sees: x, entries 0, 1 and 30 of rinfo (the counter before its cast
      to a floating-point number), *u and *v *)
  Record io := mkIo { o_x : list T; o_res : N; o_rhs : N; o_iter : Z; o_u : buf; o_v : buf }.

  Definition with_task (c : cg) (t : cg_task) : cg :=
    mkCg (g_r c) (g_z c) (g_p c) (g_q c) (g_alpha c) (g_rz c) (g_beta c) (g_rnorm c) (g_bnorm c) (g_brtol c) t (g_niter c) (g_rtol c) (g_atol c) (g_maxit c) (g_precond c).
  Definition uv (o : io) (u v : buf) : io := mkIo (o_x o) (o_res o) (o_rhs o) (o_iter o) u v.

  (** for(i = 0; i < n; i++) out[i] = f(i) *)
  Definition fill (n : Z) (f : Z -> option T) (out : list T) : option (list T) :=
    for_ 0 n (fun i l => let* v := f i in wr l i v) out.
  Definition dot (n : Z) (a b : list T) : option T :=
    for_ 0 n (fun i s => let* x := rd a i in let* y := rd b i in Some (oadd O s (omul O x y))) (o0 O).

  Definition result := (status * job * cg * io)%type.

  (** 668-695; the loop writes r and p side by side (two loops here) *)
  Definition do_start (n : Z) (b : list T) (c : cg) (o : io) (jb : job) : option result :=
    let* r := fill n (fun i => let* x := rd b i in Some (oopp O x)) (g_r c) in
    let* p := fill n (fun i => rd (o_x o) i) (g_p c) in
    let bn := nrm b in
    if nnan bn then
      Some (invalid_value, jb,
            mkCg r (g_z c) p (g_q c) (g_alpha c) (g_rz c) (g_beta c) (g_rnorm c) bn (g_brtol c) (g_task c) 0 (g_rtol c) (g_atol c) (g_maxit c) (g_precond c),
            mkIo (o_x o) n0 n0 0 (o_u o) (o_v o))
    else
      Some (success, j_mv,
            mkCg r (g_z c) p (g_q c) (g_alpha c) (g_rz c) (g_beta c) (g_rnorm c) bn (nmul (g_rtol c) bn) t_init_res 0 (g_rtol c) (g_atol c) (g_maxit c) (g_precond c),
            mkIo (o_x o) n0 bn 0 b_p b_q).

  (** 727-762 *)
  Definition do_check (c : cg) (o : io) : result :=
    let o := uv o b_r b_null in
    if npos (g_atol c) && nle (g_rnorm c) (g_atol c) then (success, j_stop, c, o)
    else if npos (g_rtol c) && nle (g_rnorm c) (g_brtol c) then (success, j_stop, c, o)
    else if (0 <? g_maxit c) && (g_maxit c <? g_niter c) then (maxit, j_stop, c, o)
    else (success, j_monitor, with_task c t_start_iter, o).

  (** 697-725, falling through to the convergence check *)
  Definition do_init_res (n : Z) (c : cg) (o : io) (jb : job) : option result :=
    let* r := fill n (fun i => let* x := rd (g_r c) i in let* y := rd (g_q c) i in Some (oadd O x y)) (g_r c) in
    let rn := nrm r in
    if nnan rn then
      Some (numerical_error, jb,
            mkCg r (g_z c) (g_p c) (g_q c) (g_alpha c) (g_rz c) (g_beta c) rn (g_bnorm c) (g_brtol c) (g_task c) (g_niter c) (g_rtol c) (g_atol c) (g_maxit c) (g_precond c), o)
    else
      let* p := fill n (fun _ => Some (o0 O)) (g_p c) in
      Some (do_check (mkCg r (g_z c) p (g_q c) (g_alpha c) rz1 (g_beta c) rn (g_bnorm c) (g_brtol c) t_check_conv (g_niter c) (g_rtol c) (g_atol c) (g_maxit c) (g_precond c))
                     (mkIo (o_x o) rn (o_rhs o) (o_iter o) (o_u o) (o_v o))).

  (** 787-817 *)
  Definition do_beta (n : Z) (c : cg) (o : io) (jb : job) : option result :=
    let* rz_new := dot n (g_r c) (g_z c) in
    if negz (g_rz c) then Some (numerical_error, jb, c, o)
    else
      let beta := odiv O rz_new (g_rz c) in
      let* p := fill n (fun i => let* x := rd (g_p c) i in let* z := rd (g_z c) i in Some (osub O (omul O beta x) z)) (g_p c) in
      Some (success, j_mv,
            mkCg (g_r c) (g_z c) p (g_q c) (g_alpha c) rz_new beta (g_rnorm c) (g_bnorm c) (g_brtol c) t_take_step (g_niter c) (g_rtol c) (g_atol c) (g_maxit c) (g_precond c),
            uv o b_p b_q).

  (** 764-785, falling through without preconditioner *)
  Definition do_start_iter (n : Z) (c : cg) (o : io) (jb : job) : option result :=
    let k := g_niter c + 1 in
    let o := mkIo (o_x o) (o_res o) (o_rhs o) k (o_u o) (o_v o) in
    let c := mkCg (g_r c) (g_z c) (g_p c) (g_q c) (g_alpha c) (g_rz c) (g_beta c) (g_rnorm c) (g_bnorm c) (g_brtol c) t_compute_beta k (g_rtol c) (g_atol c) (g_maxit c) (g_precond c) in
    if g_precond c =? 0 then
      let* z := fill n (fun i => rd (g_r c) i) (g_z c) in
      do_beta n (mkCg (g_r c) z (g_p c) (g_q c) (g_alpha c) (g_rz c) (g_beta c) (g_rnorm c) (g_bnorm c) (g_brtol c) t_compute_beta k (g_rtol c) (g_atol c) (g_maxit c) (g_precond c)) o jb
    else Some (success, j_precond, c, uv o b_r b_z).

  (** 819-856; the loop updates x and r side by side (two loops here); [loop = true]
      continues with the convergence check *)
  Definition do_take_step (n : Z) (c : cg) (o : io) (jb : job) : option result :=
    let* pq := dot n (g_p c) (g_q c) in
    if negz pq || oeqb O pq (o0 O) then Some (numerical_error, jb, c, o)
    else
      let alpha := odiv O (g_rz c) pq in
      let* x := fill n (fun i => let* a := rd (o_x o) i in let* b := rd (g_p c) i in Some (oadd O a (omul O alpha b))) (o_x o) in
      let* r := fill n (fun i => let* a := rd (g_r c) i in let* b := rd (g_q c) i in Some (oadd O a (omul O alpha b))) (g_r c) in
      let rn := nrm r in
      let c' t := mkCg r (g_z c) (g_p c) (g_q c) alpha (g_rz c) (g_beta c) rn (g_bnorm c) (g_brtol c) t (g_niter c) (g_rtol c) (g_atol c) (g_maxit c) (g_precond c) in
      if nnan rn then Some (numerical_error, jb, c' (g_task c), mkIo x (o_res o) (o_rhs o) (o_iter o) (o_u o) (o_v o))
      else Some (do_check (c' t_check_conv) (mkIo x rn (o_rhs o) (o_iter o) (o_u o) (o_v o))).

  (** 632-861; [jb] is *ircomm on entry *)
  Definition cg_rci (n : Z) (b : list T) (c : cg) (o : io) (jb : job) : option result :=
    match jb, g_task c with
    | j_interrupt, t_init_res | j_interrupt, t_check_conv | j_interrupt, t_start_iter
    | j_interrupt, t_compute_beta | j_interrupt, t_take_step => Some (user_stop, j_stop, c, o)
    | _, t_start => do_start n b c o jb
    | _, t_init_res => do_init_res n c o jb
    | _, t_check_conv => Some (do_check c o)
    | _, t_start_iter => do_start_iter n c o jb
    | _, t_compute_beta => do_beta n c o jb
    | _, t_take_step => do_take_step n c o jb
    end.

  (** 545-555: any error stops *)
  Definition rci_solve (n : Z) (b : list T) (c : cg) (o : io) (jb : job) : option result :=
    let* (st, jb, c, o) := cg_rci n b c o jb in
    Some (match st with success => (st, jb, c, o) | _ => (st, j_stop, c, o) end).

  Definition get_buf (u : buf) (c : cg) : option (list T) :=
    match u with b_null => None | b_r => Some (g_r c) | b_z => Some (g_z c) | b_p => Some (g_p c) | b_q => Some (g_q c) end.
  Definition set_buf (v : buf) (w : list T) (c : cg) : cg :=
    let mk r z p q := mkCg r z p q (g_alpha c) (g_rz c) (g_beta c) (g_rnorm c) (g_bnorm c) (g_brtol c) (g_task c) (g_niter c) (g_rtol c) (g_atol c) (g_maxit c) (g_precond c) in
    match v with
    | b_null => c
    | b_r => mk w (g_z c) (g_p c) (g_q c) | b_z => mk (g_r c) w (g_p c) (g_q c)
    | b_p => mk (g_r c) (g_z c) w (g_q c) | b_q => mk (g_r c) (g_z c) (g_p c) w
    end.

  (** 1433-1496, the loop of the forward interface.  [e]: matrix handle and user data.
      [mv e u v]: aoclsparse::mv with alpha one, beta zero; [pc e u v]: the user's
      preconditioner, its flag and the new v; [symgs]: the built-in one; [monit e x r]:
      the user's monitor with the two pointers it is given; [fuel] bounds the number of
      RCI calls. *)
  Context {E : Type}.
  Context (mv symgs : E -> list T -> list T -> option (status * list T * E)).
  Context (pc : E -> list T -> list T -> Z * list T * E).
  Context (monit : E -> option (list T) -> option (list T) -> Z * E).
  Fixpoint cg_loop (fuel : nat) (n : Z) (b : list T) (e : E) (c : cg) (o : io) (jb : job) : option (status * E * cg * io) :=
    match fuel with
    | 0%nat => None
    | Datatypes.S fuel =>
        let* (st, jb, c, o) := rci_solve n b c o jb in
        match jb with
        | j_stop => Some (st, e, c, o)
        | j_mv =>
            let* u := get_buf (o_u o) c in
            let* v := get_buf (o_v o) c in
            let* (ms, w, e) := mv e u v in
            match ms with
            | success => cg_loop fuel n b e (set_buf (o_v o) w c) o jb
            | _ => Some (internal_error, e, c, o)
            end
        | j_precond =>
            let* u := get_buf (o_u o) c in
            let* v := get_buf (o_v o) c in
            if g_precond c =? 1 then
              let '(flag, w, e) := pc e u v in
              cg_loop fuel n b e (set_buf (o_v o) w c) o (if flag =? 0 then jb else j_interrupt)
            else if g_precond c =? 3 then
              let* (ms, w, e) := symgs e u v in
              match ms with
              | success => cg_loop fuel n b e (set_buf (o_v o) w c) o jb
              | _ => Some (internal_error, e, c, o)
              end
            else if g_precond c =? 2 then cg_loop fuel n b e c o jb
            else
              let* w := fill n (fun i => rd u i) v in
              cg_loop fuel n b e (set_buf (o_v o) w c) o jb
        | j_monitor =>
            let '(flag, e) := monit e (get_buf (o_u o) c) (get_buf (o_v o) c) in
            cg_loop fuel n b e c o (if flag =? 0 then jb else j_interrupt)
        | j_interrupt | j_start => cg_loop fuel n b e c o jb
        end
    end.
End CG.
Arguments cg : clear implicits.
Arguments io : clear implicits.
