(** The matrix handle: its list of stored matrices, the shared analysis step
    aoclsparse_csr_csc_optimize, the choice of a stored matrix and
    aoclsparse_?mv. *)
From Coq Require Import ZArith List Bool.
From Verif Require Import Base Algebra Vec DoidModel MvModel CheckModel SortModel CsrmvModel.
Import ListNotations.
Open Scope Z_scope.

Definition diag_eqb (a c : diag_type) : bool :=
  match a, c with
  | dg_non_unit, dg_non_unit | dg_unit, dg_unit | dg_zero, dg_zero => true
  | _, _ => false
  end.

(** include/aoclsparse_mat_structures.hpp 90-251: class csr (with its base class).
    [None] for idiag, iurow or diag_val is the null pointer.  ptr, ind and val are
    never null in an object held by a handle: creation rejects null arrays. *)
Record cmat (T : Type) := mkCmat {
  c_m : Z; c_n : Z; c_nnz : Z; c_doid : Z; c_b : Z;
  c_ptr : list Z; c_ind : list Z; c_val : list T;
  c_idiag : option (list Z); c_iurow : option (list Z);
  c_opt : bool; c_mdiag : diag_type; c_dval : option (list T) }.
Arguments mkCmat {T}. Arguments c_m {T}. Arguments c_n {T}. Arguments c_nnz {T}.
Arguments c_doid {T}. Arguments c_b {T}. Arguments c_ptr {T}. Arguments c_ind {T}.
Arguments c_val {T}. Arguments c_idiag {T}. Arguments c_iurow {T}. Arguments c_opt {T}.
Arguments c_mdiag {T}. Arguments c_dval {T}.

(** mat_structures.hpp 774-859: _aoclsparse_matrix.  Modelled: dimensions, mats
    (a nulled slot is [None]; every non-null slot is of class csr and mat_type
    aoclsparse_csr_mat: the ELL, blocked, TCSR and BSR classes have their own
    models), the recorded classification and the optimised flags.  Locks are
    modelled separately (ConcModel). *)
Record hnd (T : Type) := mkHnd {
  H_m : Z; H_n : Z; H_nnz : Z; H_mats : list (option (cmat T));
  H_sort : msort; H_full : bool; H_optfull : bool; H_optimized : bool;
  H_hints : list (Z * Z) (* get_kid's view of optim_data: (doid, kid) of the mv hints *) }.
Arguments mkHnd {T}. Arguments H_m {T}. Arguments H_n {T}. Arguments H_nnz {T}.
Arguments H_mats {T}. Arguments H_sort {T}. Arguments H_full {T}. Arguments H_optfull {T}.
Arguments H_optimized {T}. Arguments H_hints {T}.

Section H.
  Context {T : Type} (O : ops T).
  Variable srt : (Z -> Z -> bool) -> list Z -> list Z.
  (** Content of freshly allocated arrays of a given size (arbitrary). *)
  Variables (fz : Z -> list Z) (ft : Z -> list T).

  (** First entry of class csr with is_optimized, with its position:
      csr_util.hpp 785-799, 812-823. *)
  Fixpoint first_opt (l : list (option (cmat T))) (i : Z) : option (Z * cmat T) :=
    match l with
    | [] => None
    | Some c :: l' => if c_opt c then Some (i, c) else first_opt l' (i + 1)
    | None :: l' => first_opt l' (i + 1)
    end.
  Fixpoint first_csr (l : list (option (cmat T))) (i : Z) : option (Z * cmat T) :=
    match l with
    | [] => None
    | Some c :: _ => Some (i, c)
    | None :: l' => first_csr l' (i + 1)
    end.

  Definition set_mats (h : hnd T) l : hnd T :=
    mkHnd (H_m h) (H_n h) (H_nnz h) l (H_sort h) (H_full h) (H_optfull h) (H_optimized h) (H_hints h).
  Definition set_class (h : hnd T) so fd : hnd T :=
    mkHnd (H_m h) (H_n h) (H_nnz h) (H_mats h) so fd (H_optfull h) (H_optimized h) (H_hints h).
  Definition set_opt (h : hnd T) fd : hnd T :=
    mkHnd (H_m h) (H_n h) (H_nnz h) (H_mats h) (H_sort h) (H_full h) fd true (H_hints h).

  Definition with_indices (c : cmat T) idiag iurow : cmat T :=
    mkCmat (c_m c) (c_n c) (c_nnz c) (c_doid c) (c_b c) (c_ptr c) (c_ind c) (c_val c)
      (Some idiag) (Some iurow) true (c_mdiag c) (c_dval c).

  (** csr_util.hpp 869-940: the optimised copy of [src]; [sorted], [fulldiag]: verdict
      on the source.  The copy loops 885-894 are written as one checked map. Returns
      the copy and the final fulldiag flag; an error status keeps the handle. *)
  Definition build_copy (src : cmat T) (A_nnz : Z) (sorted fulldiag : bool)
      : option (status * option (cmat T * bool)) :=
    let b := c_b src in
    let m := c_m src in
    let* ptr := mapM (fun i => let* p := rd (c_ptr src) i in Some (p - b)) (zrange 0 (m + 1)) in
    let* ind := mapM (fun i => let* p := rd (c_ind src) i in Some (p - b)) (zrange 0 (c_nnz src)) in
    let* val := mapM (rd (c_val src)) (zrange 0 (c_nnz src)) in
    let* (st, ind, val, fulldiag) :=
      (if negb sorted then
         let* (ind, val) := sort_idx_val srt m A_nnz b (c_ptr src) (c_ind src) (c_val src) 0 ind val in
         let* (st, _, fulldiag) := check_sort_diag m (c_n src) 0 (Some ptr) (Some ind) in
         Some (st, ind, val, fulldiag)
       else Some (success, ind, val, fulldiag)) in
    match st with
    | success =>
        let* (ptr, ind, val) :=
          (if negb fulldiag
           then fill_diag (o0 O) m (c_n src) A_nnz 0 ptr ind val (fun z => (fz z, ft z, fz (m + 1)))
           else Some (ptr, ind, val)) in
        let* (idiag, iurow) := csr_csc_indices m 0 ptr ind (fz m) (fz m) in
        let* nnz := rd ptr m in
        Some (success, Some (mkCmat m (c_n src) nnz (c_doid src) 0 ptr ind val
                               (Some idiag) (Some iurow) true dg_non_unit None, fulldiag))
    | _ => Some (st, None)
    end.

  (** csr_util.hpp 826-965: under the write lock, no optimised matrix present:
      analyse source [src] at position [i0] and add the optimised form. *)
  Definition optimize_slow (h : hnd T) (i0 : Z) (src : cmat T) : option (status * hnd T * option Z) :=
    let* r := mat_check (c_m src) (c_n src) (H_nnz h) (Some (c_ptr src)) (Some (c_ind src)) false
                shape_general (c_b src) false in
    match r with
    | (success, Some (so, fd)) =>
        let h := set_class h so fd in
        let* (st, sorted, fulldiag) :=
          check_sort_diag (c_m src) (c_n src) (c_b src) (Some (c_ptr src)) (Some (c_ind src)) in
        match st with
        | success =>
          if sorted && fulldiag then
            let* (idiag, iurow) := csr_csc_indices (c_m src) (c_b src) (c_ptr src) (c_ind src)
                                     (fz (c_m src)) (fz (c_m src)) in
            Some (success, set_opt (set_mats h (upd (H_mats h) i0 (Some (with_indices src idiag iurow)))) fulldiag,
                  Some i0)
          else
            let* (st, r) := build_copy src (H_nnz h) sorted fulldiag in
            match r with
            | Some (c, fulldiag) =>
                Some (success, set_opt (set_mats h (H_mats h ++ [Some c])) fulldiag, Some (zlen (H_mats h)))
            | None => Some (st, h, None)
            end
        | _ => Some (internal_error, h, None)
        end
    | (st, _) => Some (st, h, None)
    end.

  (** csr_util.hpp 765-967: aoclsparse_csr_csc_optimize, run without interference (the
      re-scan 812-823 then finds what the first scan found).  Result: status, handle,
      position of the optimised matrix.  Allocation failure and the value type test
      are not modelled. *)
  Definition csr_csc_optimize (h : hnd T) : option (status * hnd T * option Z) :=
    match H_mats h with
    | [] | None :: _ => Some (invalid_pointer, h, None)
    | _ =>
      match first_opt (H_mats h) 0 with
      | Some (i, _) => Some (success, h, Some i)
      | None =>
        match first_csr (H_mats h) 0 with
        | None => Some (not_implemented, h, None)
        | Some (i0, src) =>
            if negb ((c_b src =? 0) || (c_b src =? 1)) then Some (invalid_value, h, None)
            else optimize_slow h i0 src
        end
      end
    end.

  (** Whether an ISA is usable: [sup 1] (generic) is always true, context.hpp 303-311.
      Builds without AVX512 have [sup] false above 2. *)
  Variable sup : Z -> bool.
  (** cntx_dispatcher.hpp 71-99: get_supported *)
  Definition get_supported (l : list Z) : Z :=
    fold_left (fun score isa => if sup isa then if score <=? isa then isa else score else score) l 0.

  Variables (dt : dtype) (choice : Z -> option Z) (nthreads : Z) (team : list Z).

  (** magic_box.hpp 76-142: get_arch_score for aoclsparse_csr_mat *)
  Definition arch_score (e : Z) : Z :=
    if (e =? gn) || (e =? gt) then get_supported [3; 2; 1]
    else if (e =? gh) && is_cplx dt then get_supported [1]
    else if (Z.shiftr e 2 =? 1) || (Z.shiftr e 2 =? 2) then get_supported [3; 2; 1]
    else if (e =? tln) || (e =? tun) then get_supported [2; 1]
    else if (e =? tlt) || (e =? tut) then get_supported [1]
    else if ((e =? tlh) || (e =? tuh)) && is_cplx dt then get_supported [1]
    else 0.

  (** magic_box.hpp 160-199: get_doid_score *)
  Definition doid_score (e : Z) : option Z :=
    if dlen <=? e then Some 0
    else
      let grp := Z.shiftr e 2 in
      let op := Z.land e 3 in
      if grp =? 0 then rd [100; 80; 70; 60] op
      else if 3 <=? grp then rd [40; 35; 32; 30] op
      else
        let cj := if grp =? 1 then Z.land op 1 else Z.lxor (Z.land op 1) (Z.shiftr op 1) in
        Some (if negb (cj =? 0) then 35 else 40).

  (** magic_box.hpp 207-227: get_matrix_score for aoclsparse_csr_mat *)
  Definition matrix_score (c : cmat T) : Z := if c_opt c then 10 else 0.

  (** magic_box.hpp 245-286: get_best_matrix; state (max_score, best).  A null slot
      is dereferenced (finding B1). *)
  Definition get_best_matrix (mats : list (option (cmat T))) (d_id : Z) : option (option (Z * cmat T)) :=
    let* (_, best) := for_ 0 (zlen mats) (fun i st =>
      let '(max_score, best) := st in
      let* e := rd mats i in
      let* c := e in
      let* eff := get_effective_doid (c_doid c) d_id in
      let* ds := doid_score eff in
      if ds =? 0 then Some (max_score, best)
      else
        let a := arch_score eff in
        if a =? 0 then Some (max_score, best)
        else
          let score := ds + matrix_score c + a in
          if max_score <? score then Some (score, Some (i, c)) else Some (max_score, best)) (0, None) in
    Some best.

  (** magic_box.hpp 34-53: get_kid *)
  Fixpoint get_kid (hints : list (Z * Z)) (d_id : Z) : Z :=
    match hints with
    | [] => -1
    | (d, k) :: l => if d =? d_id then k else get_kid l d_id
    end.

  (** csr_util.hpp 473-509: aoclsparse_set_mat_diag *)
  Definition set_mat_diag (m : Z) (dg : diag_type) (c : cmat T) : option (status * cmat T) :=
    match c_dval c, c_idiag c with
    | Some dv, Some idiag =>
        let* val := for_ 0 m (fun i val =>
          let* p := rd idiag i in
          match dg with
          | dg_non_unit => let* v := rd dv i in wr val p v
          | dg_unit => wr val p (o1 O)
          | dg_zero => wr val p (o0 O)
          end) (c_val c) in
        Some (success, mkCmat (c_m c) (c_n c) (c_nnz c) (c_doid c) (c_b c) (c_ptr c) (c_ind c) val
                         (c_idiag c) (c_iurow c) (c_opt c) dg (c_dval c))
    | _, _ => Some (invalid_pointer, c)
    end.

  Definition onull (o : option (list Z)) : list Z := match o with Some l => l | None => [] end.
  Definition flip_fill (f : fill_mode) : fill_mode := match f with fm_lower => fm_upper | fm_upper => fm_lower end.

  (** level2/aoclsparse_mv.cpp 41-349: aoclsparse_?mv on a handle created from CSR or
      CSC arrays, whose stored matrices are all of class csr.  Not modelled: the
      value-type test (wrong_type), invalid descriptor enumerators (setters reject
      them, C39).  Result: status, y if written, and the handle after the call. *)
  Definition mv (op : operation) (alpha : option T) (A : option (hnd T)) (d : option descr)
      (x : option (list T)) (beta : option T) (y : option (list T))
      : option (status * option (list T) * option (hnd T)) :=
    match alpha, beta, A, d, x, y with
    | Some alpha, Some beta, Some h, Some d, Some x, Some y =>
      let fail s := Some (s, None, Some h) in
      match H_mats h with
      | [] | None :: _ => fail invalid_pointer
      | Some u :: _ =>
        if negb (c_b u =? d_base d) then fail invalid_value
        else if negb (valid_op op) then fail invalid_value
        else if (match d_type d with mt_symmetric | mt_hermitian => true | _ => false end) && negb (H_m h =? H_n h)
        then fail invalid_size
        else
          let op := if is_cplx dt then op
                    else match op with op_conjugate_transpose => op_transpose | o => o end in
          if negb (is_cplx dt) && (match d_type d with mt_hermitian => true | _ => false end)
          then fail not_implemented
          else
            let general := match d_type d with mt_general => true | _ => false end in
            if (H_m h =? 0) || (H_n h =? 0) || ((H_nnz h =? 0) && general) then
              let dim := match op with op_none => H_m h | _ => H_n h end in
              let* y := vscale O y beta dim in Some (success, Some y, Some h)
            else
              let* d_id := get_doid (negb (is_cplx dt)) (d_type d) (d_fill d) op in
              let kid := get_kid (H_hints h) d_id in
              let* best := get_best_matrix (H_mats h) d_id in
              let* (st, h, best) :=
                match best with
                | Some (i, c) =>
                    if negb general && negb (c_opt c) && negb (c_doid c =? d_id) then
                      let* (st, h, r) := csr_csc_optimize h in
                      match st, r with
                      | success, Some i => let* e := rd (H_mats h) i in let* c := e in Some (success, h, Some (i, c))
                      | success, None => None
                      | _, _ => Some (st, h, None)
                      end
                    else Some (success, h, Some (i, c))
                | None => Some (success, h, None)
                end in
              match st with
              | success =>
                match best with
                | None => Some (not_implemented, None, Some h)
                | Some (i, c) =>
                  let exact := c_doid c =? d_id in
                  let* eff := (if exact then Some gn else get_effective_doid (c_doid c) d_id) in
                  let d_t := if exact then mkDescr mt_general fm_lower dg_non_unit (c_b c)
                             else mkDescr (d_type d)
                                    (if (c_doid c =? gt) || (c_doid c =? gh) then flip_fill (d_fill d) else d_fill d)
                                    (d_diag d) (c_b c) in
                  let* (st, c, h) :=
                    (if exact && negb (diag_eqb (d_diag d) (c_mdiag c)) then
                       let* (st, c') := set_mat_diag (H_m h) (d_diag d) c in
                       Some (st, c', set_mats h (upd (H_mats h) i (Some c')))
                     else Some (success, c, h)) in
                  match st with
                  | success =>
                      let* (st, y) := csrmv_run O dt choice nthreads team false eff kid d_t alpha
                                        (c_m c) (c_n c) (c_nnz c) (c_val c) (c_ind c) (c_ptr c)
                                        (onull (c_idiag c)) (onull (c_iurow c)) x beta y in
                      Some (st, y, Some h)
                  | _ => Some (st, None, Some h)
                  end
                end
              | _ => Some (st, None, Some h)
              end
      end
    | _, _, _, _, _, _ => Some (invalid_pointer, None, A)
    end.
End H.
