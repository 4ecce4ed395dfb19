(** The GMRES solver, reverse communication: solvers/aoclsparse_itsol_functions.hpp 873-903
    (aoclsparse_backward_solve), 903-1366 (aoclsparse_gmres_rci_solve), 545-555 (the stop
    handling of aoclsparse_itsol_rci_solve), 83-144 (sizes of the work arrays), 363-376 (what a
    new solve resets), include/aoclsparse_itsol_data.hpp 93-143.
    Arithmetic is that of [O]; numbers of type tolerance_t<T> are values of T (for the complex
    types those without imaginary part).  cblas_nrm2, libflame's lartg, std::abs, isnan, the
    comparisons and aoclsparse_is_nearzero are parameters.  The work arrays, b and x are
    distinct buffers. *)
From Coq Require Import ZArith List Bool.
From Verif Require Import Base Algebra CgModel.
Import ListNotations.
Open Scope Z_scope.

(** itsol_data.hpp 93-103 *)
Inductive gtask := q_start | q_init_res | q_init_precond | q_start_iter | q_end_iter | q_x_update | q_restart | q_check.
(** What *io1 and *io2 can point to: x, row k of v (v + k*n), row k of z *)
Inductive gbuf := p_null | p_x | p_v (k : Z) | p_z (k : Z).

(** isnan, a < b, a <= b, is_nearzero, abs, cblas_nrm2, lartg f g = (c, s, r) *)
Record genv (T : Type) := mkGenv {
  e_nan : T -> bool; e_lt : T -> T -> bool; e_le : T -> T -> bool; e_nz : T -> bool;
  e_abs : T -> T; e_nrm : list T -> T; e_lartg : T -> T -> T * T * T }.
Arguments e_nan {T} _ _. Arguments e_lt {T} _ _ _. Arguments e_le {T} _ _ _. Arguments e_nz {T} _ _.
Arguments e_abs {T} _ _. Arguments e_nrm {T} _ _. Arguments e_lartg {T} _ _ _.

(** itsol_data.hpp 126-143: the options (locked during a solve) and the rest *)
Record gopt (T : Type) := mkGopt { p_restart : Z; p_rtol : T; p_atol : T; p_maxit : Z; p_precond : Z }.
Arguments mkGopt {T} _ _ _ _ _. Arguments p_restart {T} _. Arguments p_rtol {T} _. Arguments p_atol {T} _. Arguments p_maxit {T} _. Arguments p_precond {T} _.
Record gwork (T : Type) := mkGw {
  w_v : list T; w_z : list T; w_h : list T; w_g : list T; w_c : list T; w_s : list T;
  w_rnorm : T; w_bnorm : T; w_brtol : T; w_task : gtask; w_niter : Z; w_j : Z }.
Arguments mkGw {T} _ _ _ _ _ _ _ _ _ _ _ _.
Arguments w_v {T} _. Arguments w_z {T} _. Arguments w_h {T} _. Arguments w_g {T} _. Arguments w_c {T} _. Arguments w_s {T} _.
Arguments w_rnorm {T} _. Arguments w_bnorm {T} _. Arguments w_brtol {T} _. Arguments w_task {T} _. Arguments w_niter {T} _. Arguments w_j {T} _.
(** What the caller sees: x, entries 0, 1 and 30 of rinfo (the counter before its cast to a
    floating-point number), *io1 and *io2 *)
Record gio (T : Type) := mkGio { i_x : list T; i_res : T; i_rhs : T; i_iter : Z; i_u : gbuf; i_v : gbuf }.
Arguments mkGio {T} _ _ _ _ _ _.
Arguments i_x {T} _. Arguments i_res {T} _. Arguments i_rhs {T} _. Arguments i_iter {T} _. Arguments i_u {T} _. Arguments i_v {T} _.

Section GMRES.
  Context {T : Type} (O : ops T) (e : genv T).

  Definition gresult := (status * job * gwork T * gio T)%type.

  (** cblas_dot / cblas_dotc of [cnt] elements, from the offsets [oa], [ob] with the strides [sa], [sb] *)
  Definition sdot (cnt : Z) (a : list T) (oa sa : Z) (b : list T) (ob sb : Z) : option T :=
    for_ 0 cnt (fun i s => let* x := rd a (oa + i * sa) in let* y := rd b (ob + i * sb) in Some (oadd O s (omul O (ocj O x) y))) (o0 O).
  (** for(i = 0; i < n; i++) l[off + i] = f(l, i) *)
  Definition map_row (n off : Z) (f : list T -> Z -> option T) (l : list T) : option (list T) :=
    for_ 0 n (fun i l => let* y := f l i in wr l (off + i) y) l.
  (** cblas_scal *)
  Definition scal (n : Z) (a : T) (off : Z) (l : list T) : option (list T) :=
    map_row n off (fun l i => let* x := rd l (off + i) in Some (omul O a x)) l.
  (** The n elements from [off], the argument of cblas_nrm2 *)
  Definition get_row (n off : Z) (l : list T) : option (list T) :=
    for_ 0 n (fun i acc => let* x := rd l (off + i) in Some (acc ++ [x])) [].

  (** 873-903; [nn]: the row length of r *)
  Definition back_row (m nn : Z) (r g y : list T) (j : Z) : option (list T) :=
    let* gj := rd g j in
    let* y := wr y j gj in
    for_ (j + 1) m (fun i y => let* yj := rd y j in let* a := rd r (j * nn + i) in let* yi := rd y i in wr y j (osub O yj (omul O a yi))) y.
  Definition backward_solve (m nn : Z) (r g y : list T) : option (status * list T) :=
    let* q := forc 0 m (fun k y =>
        let j := m - 1 - k in
        let* y := back_row m nn r g y j in
        let* d := rd r (j * nn + j) in
        if e_nz e d then Some (Ret y)
        else let* yj := rd y j in let* y := wr y j (odiv O yj d) in Some (Go y)) y in
    Some (match q with inl y => (success, y) | inr y => (numerical_error, y) end).

  Variable p : gopt T.
  Let m := p_restart p.
  Definition at_task (w : gwork T) (t : gtask) : gwork T :=
    mkGw (w_v w) (w_z w) (w_h w) (w_g w) (w_c w) (w_s w) (w_rnorm w) (w_bnorm w) (w_brtol w) t (w_niter w) (w_j w).
  Definition giv (o : gio T) (u v : gbuf) : gio T := mkGio (i_x o) (i_res o) (i_rhs o) (i_iter o) u v.

  (** 1062-1077, 1226-1241: the next product *)
  Definition ask_mv (w : gwork T) (o : gio T) : gresult :=
    (success, j_mv, at_task w q_start_iter, giv o (if p_precond p =? 0 then p_v (w_j w) else p_z (w_j w)) (p_v (w_j w + 1))).
  (** 1045-1060, 1207-1224: the next basis vector is ready; without preconditioner the loop
      goes on to the product *)
  Definition ask_precond (w : gwork T) (o : gio T) (t : gtask) : gresult :=
    let w := at_task w t in
    if p_precond p =? 0 then ask_mv w o else (success, j_precond, w, giv o (p_v (w_j w)) (p_z (w_j w))).

  (** 980-1060; line 999 is overwritten by line 1001 *)
  Definition do_init_res (n : Z) (b : list T) (w : gwork T) (o : gio T) (jb : job) : option gresult :=
    let bn := e_nrm e b in
    if e_nan e bn then
      Some (invalid_value, jb, mkGw (w_v w) (w_z w) (w_h w) (w_g w) (w_c w) (w_s w) (w_rnorm w) bn (w_brtol w) (w_task w) (w_niter w) (w_j w), o)
    else
      let brtol := omul O (p_rtol p) bn in
      if e_nz e (p_atol p) && e_nz e brtol then
        Some (invalid_value, j_stop, mkGw (w_v w) (w_z w) (w_h w) (w_g w) (w_c w) (w_s w) (w_rnorm w) bn brtol (w_task w) (w_niter w) (w_j w),
              mkGio (i_x o) (i_res o) brtol (i_iter o) (i_u o) (i_v o))
      else
        let* v := map_row n 0 (fun l i => let* x := rd b i in let* y := rd l i in Some (osub O x y)) (w_v w) in
        let* r := get_row n 0 v in
        let rn := e_nrm e r in
        let* g := wr (w_g w) 0 rn in
        let w' v t := mkGw v (w_z w) (w_h w) g (w_c w) (w_s w) rn bn brtol t (w_niter w) (w_j w) in
        if e_lt e (o0 O) rn && e_le e rn (p_atol p) || e_lt e (o0 O) rn && e_le e rn brtol then
          Some (success, j_stop, w' v (w_task w), mkGio (i_x o) rn brtol (w_niter w) (i_u o) (i_v o))
        else
          let* v := scal n (odiv O (o1 O) rn) 0 v in
          Some (ask_precond (w' v (w_task w)) (mkGio (i_x o) rn brtol (i_iter o) (i_u o) (i_v o)) q_init_precond).

  (** 1243-1340 *)
  Definition do_x_update (n : Z) (w : gwork T) (o : gio T) (jb : job) : option gresult :=
    let j := w_j w in
    let* (st, s) := backward_solve j m (w_h w) (w_g w) (w_s w) in
    match st with
    | success =>
        let basis := if p_precond p =? 0 then w_v w else w_z w in
        let* x := map_row n 0 (fun l i => let* d := sdot m basis i n s 0 1 in let* a := rd l i in Some (oadd O a d)) (i_x o) in
        let* gj := rd (w_g w) j in
        let rn := e_abs e gj in
        let k := w_niter w + j in
        let stop := e_lt e (o0 O) (p_atol p) && e_le e rn (p_atol p) || e_lt e (o0 O) rn && e_le e rn (w_brtol w) || (0 <? p_maxit p) && (p_maxit p <=? k) in
        Some (success, j_monitor,
              mkGw (w_v w) (w_z w) (w_h w) (w_g w) (w_c w) s rn (w_bnorm w) (w_brtol w) (if stop then q_check else q_restart) k (if m <=? j then 0 else j),
              mkGio x rn (i_rhs o) k (i_u o) (i_v o))
    | _ => Some (st, jb, mkGw (w_v w) (w_z w) (w_h w) (w_g w) (w_c w) s (w_rnorm w) (w_bnorm w) (w_brtol w) (w_task w) (w_niter w) (w_j w), o)
    end.

  (** 1085-1097, 1139-1145: the new column of h, and the rotations of the earlier columns *)
  Definition hess_col (n j : Z) (v h : list T) : option (list T) :=
    for_ 0 (j + 1) (fun i h => let* d := sdot n v ((j + 1) * n) 1 v (i * n) 1 in wr h (i * m + j) d) h.
  Definition rotate_col (j : Z) (c s h : list T) : option (list T) :=
    for_ 0 j (fun i h =>
      let* r1 := rd h (i * m + j) in let* r2 := rd h ((i + 1) * m + j) in
      let* ci := rd c i in let* si := rd s i in
      let* h := wr h (i * m + j) (osub O (omul O ci r1) (omul O si r2)) in
      wr h ((i + 1) * m + j) (oadd O (omul O si r1) (omul O ci r2))) h.

  (** 1079-1224 *)
  Definition do_start_iter (n : Z) (w : gwork T) (o : gio T) (jb : job) : option gresult :=
    let j := w_j w in
    let* h := hess_col n j (w_v w) (w_h w) in
    let* v := map_row n ((j + 1) * n) (fun l k => let* hv := sdot (j + 1) h j m l k n in let* x := rd l ((j + 1) * n + k) in Some (osub O x hv)) (w_v w) in
    let* r := get_row n ((j + 1) * n) v in
    let hh := e_nrm e r in
    if e_lt e hh (p_atol p) || e_lt e hh (w_brtol w) then
      let k := w_niter w + (j + 1) in
      Some (success, j_stop, mkGw v (w_z w) h (w_g w) (w_c w) (w_s w) (w_rnorm w) (w_bnorm w) (w_brtol w) (w_task w) k (w_j w),
            mkGio (i_x o) hh (i_rhs o) k (i_u o) (i_v o))
    else
      let* v := scal n (odiv O (o1 O) hh) ((j + 1) * n) v in
      let* h := rotate_col j (w_c w) (w_s w) h in
      let* rr := rd h (j * m + j) in
      let '(cj, sj, hj) := e_lartg e rr (oopp O hh) in
      let* c := wr (w_c w) j cj in
      let* s := wr (w_s w) j sj in
      let* h := wr h (j * m + j) hj in
      let* g0 := rd (w_g w) j in
      let* g := wr (w_g w) j (omul O cj g0) in
      let* g := wr g (j + 1) (omul O sj g0) in
      let rn := e_abs e (omul O cj g0) in
      let w' t := mkGw v (w_z w) h g c s rn (w_bnorm w) (w_brtol w) t (w_niter w) (j + 1) in
      let o := mkGio (i_x o) rn (i_rhs o) (w_niter w) (i_u o) (i_v o) in
      if m <=? j + 1 then do_x_update n (w' q_x_update) o jb
      else Some (ask_precond (w' (w_task w)) o q_end_iter).

  (** 1348-1378: nothing changes if no test holds *)
  Definition do_check_conv (w : gwork T) (o : gio T) (jb : job) : gresult :=
    if e_lt e (o0 O) (p_atol p) && e_le e (w_rnorm w) (p_atol p) || e_lt e (o0 O) (w_rnorm w) && e_le e (w_rnorm w) (w_brtol w) then (success, j_stop, w, o)
    else if (0 <? p_maxit p) && (p_maxit p <=? w_niter w) then (maxit, j_stop, w, o)
    else (success, jb, w, o).

  (** 903-1366; [jb] is *ircomm on entry *)
  Definition gmres_rci (n : Z) (b : list T) (w : gwork T) (o : gio T) (jb : job) : option gresult :=
    match w_task w, jb with
    | q_start, _ => Some (success, j_mv, at_task w q_init_res, giv o p_x (p_v 0))
    | _, j_interrupt => Some (user_stop, j_stop, w, o)
    | q_init_res, _ => do_init_res n b w o jb
    | q_init_precond, _ | q_end_iter, _ => Some (ask_mv w o)
    | q_start_iter, _ => do_start_iter n w o jb
    | q_x_update, _ => do_x_update n w o jb
    | q_restart, _ => Some (success, j_mv, at_task w q_init_res, giv o p_x (p_v 0))
    | q_check, _ => Some (do_check_conv w o jb)
    end.

  (** 545-555: any error stops *)
  Definition grci_solve (n : Z) (b : list T) (w : gwork T) (o : gio T) (jb : job) : option gresult :=
    let* (st, jb, w, o) := gmres_rci n b w o jb in
    Some (match st with success => (st, jb, w, o) | _ => (st, j_stop, w, o) end).

  (** The vectors behind *io1 and *io2: [n] elements *)
  Definition gget (n : Z) (u : gbuf) (w : gwork T) (o : gio T) : option (list T) :=
    match u with
    | p_null => None
    | p_x => Some (i_x o)
    | p_v k => get_row n (k * n) (w_v w)
    | p_z k => get_row n (k * n) (w_z w)
    end.
  (** The caller stores the n elements [a] in *io2 *)
  Definition put_row (n k : Z) (a l : list T) : list T :=
    map (fun q => if (k * n <=? q) && (q <? (k + 1) * n) then nthZ (o0 O) a (q - k * n) else nthZ (o0 O) l q) (zrange 0 (zlen l)).
  Definition gput (n : Z) (v : gbuf) (a : list T) (w : gwork T) : gwork T :=
    match v with
    | p_v k => mkGw (put_row n k a (w_v w)) (w_z w) (w_h w) (w_g w) (w_c w) (w_s w) (w_rnorm w) (w_bnorm w) (w_brtol w) (w_task w) (w_niter w) (w_j w)
    | p_z k => mkGw (w_v w) (put_row n k a (w_z w)) (w_h w) (w_g w) (w_c w) (w_s w) (w_rnorm w) (w_bnorm w) (w_brtol w) (w_task w) (w_niter w) (w_j w)
    | _ => w
    end.
End GMRES.
