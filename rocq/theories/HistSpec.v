(** Client programs: any sequence of preparations, products and solves on one handle. *)
From Coq Require Import ZArith List Bool Permutation.
From Verif Require Import Base Algebra Csr CheckModel CheckSpec SortSpec DoidModel DoidSpec DenseSpec UtilModel MvModel MvSpec CsrmvModel HandleModel HandleSpec
  ExpandModel ExpandSpec CsrmmSpec HintMvSpec TrsvModel TrsvSpec TrsmModel TrsmSpec SymgsModel SymgsSpec Props_Trsv Props_Trsm Props_Symgs Props_HintMv.
Import ListNotations.
Open Scope Z_scope.

Section S.
  Context {T : Type} (O : ops T).

  (** The calls, with the arguments of the C interface. *)
  Inductive call :=
  | call_prepare (hs : list mhint)
  | call_mv (op : operation) (alpha : T) (d : descr) (x : list T) (beta : T) (y : list T)
  | call_trsv (op : operation) (alpha : T) (d : descr) (rhs : list T) (incb : Z) (x : list T) (incx kid : Z)
  | call_trsm (op : operation) (alpha : T) (d : descr) (order : Z) (B : list T) (n ldb : Z) (X : list T) (ldx kid : Z) (sched : list Z)
  | call_symgs (op : operation) (d : descr) (alpha : T) (b x y : list T).

  (** What the caller sees: the status and the output arrays, if written. *)
  Definition outcome := (status * option (list T) * option (list T))%type.

  Variable re : T -> T.
  Variable srt : (Z -> Z -> bool) -> list Z -> list Z.
  Variables (fz : Z -> list Z) (ft : Z -> list T) (sup : Z -> bool) (dt : dtype) (mvc tsc : Z -> option Z) (nthreads : Z) (team : list Z) (w : Z).

  (** One call: the modelled functions of analysis/aoclsparse_csr_util.hpp 512-756
      (preparation for hints), level2/aoclsparse_mv.cpp 41-349, level2/aoclsparse_trsv.cpp
      46-417, level3/aoclsparse_trsm.hpp 36-158 and solvers/aoclsparse_symgs.hpp 265-394
      (symgs_mv).  A preparation gets its list of hints directly; what has been done of
      an earlier list is marked in the hints. *)
  Definition do_call (c : call) (h : hnd T) : option (outcome * hnd T) :=
    match c with
    | call_prepare hs => let* (st, h', _) := matrix_transform O re fz ft (Some h) hs in let* h' := h' in Some ((st, None, None), h')
    | call_mv op alpha d x beta y => let* (st, y', h') := mv O srt fz ft sup dt mvc nthreads team op (Some alpha) (Some h) (Some d) (Some x) (Some beta) (Some y) in
        let* h' := h' in Some ((st, y', None), h')
    | call_trsv op alpha d rhs incb x incx kid => let* (st, x', h') := trsv O dt tsc srt fz ft w op alpha (Some h) (Some d) (Some rhs) incb (Some x) incx kid in
        let* h' := h' in Some ((st, x', None), h')
    | call_trsm op alpha d order B n ldb X ldx kid sched => let* (st, X', h') := trsm O dt tsc srt fz ft w sched op alpha (Some h) (Some d) order (Some B) n ldb (Some X) ldx kid in
        let* h' := h' in Some ((st, X', None), h')
    | call_symgs op d alpha b x y => let* (st, x', y', h') := symgs O srt fz ft sup dt mvc nthreads team tsc w op (Some h) (Some d) alpha (Some b) (Some x) (Some y) true in
        let* h' := h' in Some ((st, x', y'), h')
    end.
  (** A program: one call after the other. *)
  Fixpoint history (cs : list call) (h : hnd T) : option (list outcome * hnd T) :=
    match cs with
    | [] => Some ([], h)
    | c :: cs' => let* (o, h1) := do_call c h in let* (os, h2) := history cs' h1 in Some (o :: os, h2)
    end.

  (** Calls that are valid for the user's matrix: the conditions of C58, C21, C46 and
      C30, stated for the handle as it was before the program, of which only the
      dimensions and the user's matrix are kept. *)
  Definition fresh (h : hnd T) (u : cmat T) : hnd T := set_mats h [Some u].
  Definition col_ok (u : cmat T) (op : operation) (alpha : T) (kid : Z) : Prop :=
    tsc kid = Some 0 \/ (if c_doid u =? gt then is_none op else negb (is_none op)) = false \/
    alpha <> o0 O /\ rows_distinct (c_m u) (c_b u) (c_ptr u) (c_ind u).
  Definition valid_call (h : hnd T) (u : cmat T) (c : call) : Prop :=
    match c with
    | call_prepare hs => forall e, In e hs -> exists d op, hint_of O dt h u e d op
    | call_mv op alpha d x beta y => hint_pre O dt (fresh h u) u d op /\
        zlen x = match op with op_none => H_n h | _ => H_m h end /\ zlen y = match op with op_none => H_m h | _ => H_n h end
    | call_trsv op alpha d rhs incb x incx kid => trsv_request O w (fresh h u) u d op rhs incb x incx /\ col_ok u op alpha kid
    | call_trsm op alpha d order B n ldb X ldx kid sched => trsm_request O w (fresh h u) u d op order B n ldb X ldx /\ Permutation sched (zrange 0 n) /\ col_ok u op alpha kid
    | call_symgs op d alpha b x y => symgs_env sup mvc tsc nthreads team /\ symgs_pre O dt tsc w (fresh h u) u d op b x /\ zlen y = H_m h
    end.

  (** What the caller must get: the mathematical result for the user's matrix. *)
  Definition right_outcome (h : hnd T) (u : cmat T) (c : call) (o : outcome) : Prop :=
    let full := full_diag (c_m u) (c_n u) (c_b u) (c_ptr u) (c_ind u) in
    let tri op d := op_sem O op (described O mt_triangular (d_fill d) (d_diag d) (hnd_mat O u)) in
    let '(st, v1, v2) := o in
    match c with
    | call_prepare _ => st = success
    | call_mv op alpha d x beta y =>
        st = success /\ (exists y', v1 = Some y' /\
          mv_spec O (match op with op_none => H_m h | _ => H_n h end) (match op with op_none => H_n h | _ => H_m h end) alpha beta
            (op_sem O op (described O (d_type d) (d_fill d) (d_diag d) (hnd_mat O u))) x y y') \/
        st = invalid_kid /\ v1 = None /\ (exists k, mvc k = None) \/
        st = not_implemented /\ v1 = None /\ declined dt (d_type d) op (c_doid u) = true
    | call_trsv op alpha d rhs incb x incx kid =>
        st = success /\ (exists x1, v1 = Some x1 /\ only_strided O (H_m h) incx x x1 /\ solves O (H_m h) alpha (tri op d) rhs incb x1 incx) \/
        st = invalid_value /\ v1 = None /\ d_diag d = dg_non_unit /\ ~ full \/
        st = invalid_kid /\ v1 = None /\ tsc kid = None \/
        st = invalid_size /\ v1 = None /\ (2 ^ w - 1 < (H_m h - 1) * incx \/ 2 ^ w - 1 < (H_m h - 1) * incb)
    | call_trsm op alpha d order B n ldb X ldx kid sched => exists X1, v1 = Some X1 /\
        (st = success /\ only_window (o0 O) order ldx (H_m h) n X X1 /\ solves_many O (H_m h) n alpha (tri op d) order B ldb X1 ldx \/
         X1 = X /\
         (st = invalid_value /\ d_diag d = dg_non_unit /\ ~ full \/
          st = invalid_kid /\ tsc kid = None \/
          st = invalid_size /\ (2 ^ w - 1 < (if order =? 0 then H_m h - 1 else n) * ldx \/ 2 ^ w - 1 < (if order =? 0 then H_m h - 1 else n) * ldb)))
    | call_symgs op d alpha b x y => st = success /\ exists x' y', v1 = Some x' /\ v2 = Some y' /\
        symgs_sweep O (H_m h) (req_mat O u d op) alpha b x x' /\
        zlen y' = H_m h /\ forall i, 0 <= i < H_m h -> nthZ (o0 O) y' i = rowx O (H_m h) (req_mat O u d op) x' i
    end.
End S.
