(** Hint functions: analysis/aoclsparse_analysis.cpp 568-747 with
    analysis/aoclsparse_csr_util.cpp 47-100.  Enumeration arguments are arbitrary
    integers, as C callers can pass. *)
From Coq Require Import ZArith List Bool.
From Verif Require Import Base DoidModel DescrModel.
Import ListNotations.
Open Scope Z_scope.

(** mat_structures.hpp 53-68: one recorded hint *)
Record hint_rec := mkHR { hr_act : Z; hr_trans : Z; hr_type : Z; hr_fill : Z; hr_kid : Z; hr_doid : Z; hr_nop : Z; hr_done : bool }.

(** The part of a handle the hint functions use: the matrix itself ([M], never
    inspected), the base of the first stored matrix ([None]: there is none), real or
    complex values, the memory policy and the recorded hints, newest first (the
    linked list optim_data) *)
Record hhnd (M : Type) := mkHH { hh_mat : M; hh_base : option Z; hh_real : bool; hh_policy : Z; hh_hints : list hint_rec }.
Arguments mkHH {M}. Arguments hh_mat {M}. Arguments hh_base {M}. Arguments hh_real {M}. Arguments hh_policy {M}. Arguments hh_hints {M}.

(** mat_structures.hpp 32-48: hinted actions *)
Definition act_mv := 1. Definition act_sv := 2. Definition act_mm := 3. Definition act_2m := 4. Definition act_ilu0 := 5.
Definition act_sm_row := 6. Definition act_sm_col := 7. Definition act_dotmv := 8. Definition act_symgs := 9.
Definition act_sorv_forward := 10. Definition act_sorv_backward := 11. Definition act_sorv_symm := 12. Definition act_max := 13.

Definition op_of (v : Z) : operation := if v =? 111 then op_none else if v =? 112 then op_transpose else if v =? 113 then op_conjugate_transpose else op_other v.
Definition type_of (v : Z) : mat_type := if v =? 0 then mt_general else if v =? 1 then mt_symmetric else if v =? 2 then mt_hermitian else mt_triangular.
Definition fill_of (v : Z) : fill_mode := if v =? 0 then fm_lower else fm_upper.

Section H.
  Context {M : Type}.

  (** csr_util.cpp 47-100; [ok]: the allocation succeeds.  [None]: undefined doid. *)
  Definition add_hint (h : hhnd M) (act : Z) (d : mdescr) (trans nop kid : Z) (ok : bool) : option (status * hhnd M) :=
    if negb ok then Some (memory_error, h)
    else
      let* e := get_doid (hh_real h) (type_of (md_type d)) (fill_of (md_fill d)) (op_of trans) in
      Some (success, mkHH (hh_mat h) (hh_base h) (hh_real h) (hh_policy h)
        (mkHR act trans (md_type d) (md_fill d) kid e nop false :: hh_hints h)).

  (** analysis.cpp 568-625 *)
  Definition set_hint (A : option (hhnd M)) (act trans : Z) (d : option mdescr) (nop kid : Z) (ok : bool) : option (status * option (hhnd M)) :=
    match A with
    | None => Some (invalid_pointer, None)
    | Some h =>
        let fail st := Some (st, Some h) in
        match hh_base h with
        | None => fail invalid_pointer
        | Some b =>
            match d with
            | None => fail invalid_pointer
            | Some d =>
                if negb (md_base d =? 0) && negb (md_base d =? 1) then fail invalid_value
                else if negb (b =? md_base d) then fail invalid_value
                else if negb (trans =? 111) && negb (trans =? 112) && negb (trans =? 113) then fail invalid_value
                else if negb (md_fill d =? 0) && negb (md_fill d =? 1) then fail invalid_value
                else if negb (md_diag d =? 0) && negb (md_diag d =? 1) && negb (md_diag d =? 2) then fail invalid_value
                else if negb (md_type d =? 0) && negb (md_type d =? 1) && negb (md_type d =? 3) && negb (md_type d =? 2) then fail invalid_value
                else if (nop <? 0) || ((nop =? 0) && (kid =? -1)) then fail invalid_value
                else if (act <=? 0) || (act_max <=? act) then fail invalid_operation
                else let* (st, h) := add_hint h act d trans nop kid ok in Some (st, Some h)
            end
        end
    end.

  (** 627-747: the public functions; the default kernel id is -1 *)
  Inductive hint_call :=
  | set_mv_hint (trans : Z) (d : option mdescr) (nop : Z)
  | set_mv_hint_kid (trans : Z) (d : option mdescr) (nop kid : Z)
  | set_dotmv_hint (trans : Z) (d : option mdescr) (nop : Z)
  | set_sv_hint (trans : Z) (d : option mdescr) (nop : Z)
  | set_mm_hint (trans : Z) (d : option mdescr) (nop : Z)
  | set_2m_hint (trans : Z) (d : option mdescr) (nop : Z)
  | set_lu_smoother_hint (trans : Z) (d : option mdescr) (nop : Z)
  | set_sm_hint (trans : Z) (d : option mdescr) (order nop : Z)
  | set_symgs_hint (trans : Z) (d : option mdescr) (nop : Z)
  | set_sorv_hint (d : option mdescr) (type nop : Z)
  | set_memory_hint (policy : Z).

  Definition do_hint (A : option (hhnd M)) (c : hint_call) (ok : bool) : option (status * option (hhnd M)) :=
    match c with
    | set_mv_hint t d n => set_hint A act_mv t d n (-1) ok
    | set_mv_hint_kid t d n k => set_hint A act_mv t d n k ok
    | set_dotmv_hint t d n => set_hint A act_dotmv t d n (-1) ok
    | set_sv_hint t d n => set_hint A act_sv t d n (-1) ok
    | set_mm_hint t d n => set_hint A act_mm t d n (-1) ok
    | set_2m_hint t d n => set_hint A act_2m t d n (-1) ok
    | set_lu_smoother_hint t d n => set_hint A act_ilu0 t d n (-1) ok
    | set_sm_hint t d o n =>
        if negb (o =? 0) && negb (o =? 1) then Some (invalid_value, A)
        else set_hint A (if o =? 0 then act_sm_row else act_sm_col) t d n (-1) ok
    | set_symgs_hint t d n => set_hint A act_symgs t d n (-1) ok
    | set_sorv_hint d ty n =>
        if negb (ty =? 0) && negb (ty =? 1) && negb (ty =? 2) then Some (invalid_value, A)
        else set_hint A (if ty =? 0 then act_sorv_forward else if ty =? 1 then act_sorv_backward else act_sorv_symm) 111 d n (-1) ok
    | set_memory_hint p =>
        match A with
        | None => Some (invalid_pointer, None)
        | Some h => if negb (p =? 0) && negb (p =? 1) then Some (invalid_value, A)
                    else Some (success, Some (mkHH (hh_mat h) (hh_base h) (hh_real h) p (hh_hints h)))
        end
    end.

  (** A sequence of calls, with the success of each allocation *)
  Fixpoint do_hints (A : option (hhnd M)) (l : list (hint_call * bool)) : option (list status * option (hhnd M)) :=
    match l with
    | [] => Some ([], A)
    | (c, ok) :: l => let* (st, A) := do_hint A c ok in let* (sts, A) := do_hints A l in Some (st :: sts, A)
    end.

  (** analysis.cpp 471-507: the walk over the hint list in aoclsparse_optimize: every
      pending hint is marked before the work is done *)
  Definition mark_hints (h : hhnd M) : hhnd M :=
    mkHH (hh_mat h) (hh_base h) (hh_real h) (hh_policy h)
      (map (fun e => mkHR (hr_act e) (hr_trans e) (hr_type e) (hr_fill e) (hr_kid e) (hr_doid e) (hr_nop e) true) (hh_hints h)).
  Definition all_marked (h : hhnd M) : bool := forallb hr_done (hh_hints h).
  (** 426-566: aoclsparse_optimize for the minimal memory policy on a CSR or CSC matrix;
      [work] is the chosen preparation with its result *)
  Definition optimize (h : hhnd M) (work : hhnd M -> status * hhnd M) : status * hhnd M :=
    if all_marked h then (success, h) else work (mark_hints h).
End H.
Arguments hint_call : clear implicits.
