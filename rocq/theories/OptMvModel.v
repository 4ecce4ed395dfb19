(** aoclsparse_optimize for products with double CSR matrices: the choice of a second
    storage format (aoclsparse_optimize_mv), and aoclsparse_dmv on the handle afterwards. *)
From Coq Require Import ZArith List Bool.
From Verif Require Import Base Algebra UtilModel DoidModel CheckModel MvModel CsrmvModel HandleModel EllModel FmtMvModel BlkModel Br4Model.
Import ListNotations.
Open Scope Z_scope.

(** The object optimize_mv appends to A->mats: class blk_csr (mat_structures.hpp 330-430),
    class ell_csr_hyb (600-700; csr_col_ptr and csr_val are the user's arrays), or class csr
    with mat_type aoclsparse_csr_mat_br4 (analysis.cpp 291-292, nnz = -1). *)
Inductive copy (T : Type) :=
| cp_blk (nb : Z) (bp bc : list Z) (bv : list T) (bm : list Z)
| cp_hyb (wd em : Z) (col : list Z) (val : list T) (rmap : list Z)
| cp_br4 (c : cmat T).
Arguments cp_blk {T}. Arguments cp_hyb {T}. Arguments cp_br4 {T}.

(** analysis.cpp 70-93: the width of the ELL part.  nnza = (double)nnz / m: for int
    operands comparing an int with the rounded quotient is comparing it with the exact one. *)
Definition om_width (m nnz : Z) (ptr : list Z) : option Z :=
  let* (mx, mn, cmx, cmn) := for_ 0 m (fun i '(mx, mn, cmx, cmn) =>
    let* q := rd ptr (i + 1) in
    let* p := rd ptr i in
    let nnzi := q - p in
    let mx := if (mx <? nnzi) && (nnzi * m <=? nnz) then nnzi else mx in
    let mn := if (nnzi <? mn) && negb (nnzi * m <=? nnz) then nnzi else mn in
    Some (if nnzi * m <=? nnz then (mx, mn, cmx + 1, cmn) else (mx, mn, cmx, cmn + 1)))
    (0, nnz, 0, 0) in
  Some (if cmn <=? cmx then mx else mn).

(** analysis.cpp 95-109: elements of the longer rows, and how many of these rows have at
    most ten and more than ten elements (ell_m is not used) *)
Definition om_long (m wd : Z) (ptr : list Z) : option (Z * Z * Z) :=
  for_ 0 m (fun i '(cn, l10, g10) =>
    let* q := rd ptr (i + 1) in
    let* p := rd ptr i in
    let row_nnz := q - p in
    Some (if row_nnz <=? wd then (cn, l10, g10)
          else if row_nnz <=? 10 then (cn + row_nnz, l10 + 1, g10) else (cn + row_nnz, l10, g10 + 1)))
    (0, 0, 0).

(** analysis.cpp 111-130: elements of the 4-row format *)
Definition om_tnnz (m : Z) (ptr : list Z) : option Z :=
  let* tnnz := for_ 0 (m / 4) (fun q tnnz =>
    let i := 4 * q in
    let* p0 := rd ptr i in
    let* p1 := rd ptr (i + 1) in
    let* p2 := rd ptr (i + 2) in
    let* p3 := rd ptr (i + 3) in
    let* p4 := rd ptr (i + 4) in
    Some (tnnz + 4 * Z.max (Z.max (p1 - p0) (p2 - p1)) (Z.max (p3 - p2) (p4 - p3)))) 0 in
  for_ (m / 4 * 4) m (fun j tnnz =>
    let* q := rd ptr (j + 1) in
    let* p := rd ptr j in
    Some (tnnz + (q - p))) tnnz.

Section O.
  Context {T : Type} (O : ops T).
  Variables (fz : Z -> list Z) (ft : Z -> list T).
  (** as in HandleModel: whether an instruction set is usable (3 is AVX512, 2 is AVX2) *)
  Variable sup : Z -> bool.
  (** the floating-point conclusions of opt_blksize (BlkModel), and of lines 131-135 and
      197-206 here: fill_ratio is below -0.1 [Lt], strictly between -0.1 and 0.1 [Eq], or
      neither [Gt], given tnnz <> 0 and ell_nnz *)
  Variable low : Z -> Z -> Z -> bool.
  Variable pick : Z -> Z -> Z -> Z -> Z -> blk_choice.
  Variable ratio : Z -> Z -> comparison.

  (** analysis.cpp 228-275: conversion to the ELL-CSR hybrid.  new[] gives the arrays of
      the constructor (mat_structures.hpp 625-646) their sizes.  The statuses of the two
      conversions are ignored by the code. *)
  Definition build_hyb (m nnz b : Z) (ptr ind : list Z) (val : list T) : option (option (copy T)) :=
    let* (_, em, wd) := csr2ellthyb_width m nnz (Some ptr) (Some 0) (Some 0) in
    let* em := em in
    let* wd := wd in
    if wd =? 0 then Some None
    else
      let* (_, em', rmap, col, v) := csr2ellthybrid (o0 O) m b (Some em) (Some ptr) (Some ind) (Some val)
          (Some (fz (m - em))) (Some (fz (wd * m))) (Some (ft (wd * m))) wd in
      match rmap, col, v with
      | Some rmap, Some col, Some v => Some (Some (cp_hyb wd em col v rmap))
      | _, _, _ => None
      end.

  (** analysis.cpp 35-381: aoclsparse_optimize_mv on the handle of a double matrix made
      from CSR arrays, first call (mat_type is still aoclsparse_csr_mat).  Result: status
      and the object appended to A->mats.  Simplified: allocations succeed, the element
      counts ell_nnz and tnnz do not overflow. *)
  Definition optimize_mv (h : hnd T) : option (status * option (copy T)) :=
    if (H_m h <=? 1) || (H_n h <=? 1) then Some (success, None)
    else match H_mats h with
    | [] | None :: _ => Some (not_implemented, None)
    | Some u :: _ =>
      if H_optimized h then Some (success, None)
      else
        let m := H_m h in
        let nnz := H_nnz h in
        let ptr := c_ptr u in
        let* wd := om_width m nnz ptr in
        let* (cn, l10, g10) := om_long m wd ptr in
        let ell_nnz := wd * m + cn in
        let* tnnz := om_tnnz m ptr in
        let* blk :=
          (if sup 3 && (match H_sort h with fully_sorted => true | _ => false end) && (10 * m <=? nnz) then
             let* (nb, t) := opt_blksize low pick m nnz (c_b u) (Some ptr) (Some (c_ind u)) (Some 0) in
             let* t := t in
             if nb =? 0 then Some None
             else
               let* (_, r) := csr2blkcsr m (H_n h) nnz (Some ptr) (Some (c_ind u)) (Some (c_val u))
                   (Some (fz (m + 1))) (Some (fz nnz)) (Some (ft (nnz + nb * 8))) (Some (fz (t * nb))) nb (c_b u) in
               let* (bp, bc, bv, bm) := r in
               Some (Some (cp_blk nb bp bc bv bm))
           else Some None) in
        match blk with
        | Some k => Some (success, Some k)
        | None =>
          if wd <=? 30 then
            let fill := if tnnz =? 0 then Eq else ratio tnnz ell_nnz in
            let hyb := match fill with Lt => false | Eq => true | Gt => l10 <? g10 end in
            if hyb then
              let* k := build_hyb m nnz (c_b u) ptr (c_ind u) (c_val u) in Some (success, k)
            else
              let* (bp, i4, v4) := br4_build O fz ft m (c_b u) ptr (c_ind u) (c_val u) in
              Some (success, Some (cp_br4 (mkCmat m (H_n h) (-1) gn (c_b u) bp i4 v4 None None false dg_non_unit None)))
          else Some (success, None)
        end
    end.

  Variable srt : (Z -> Z -> bool) -> list Z -> list Z.
  Variables (choice : Z -> option Z) (nthreads : Z) (team : list Z).

  (** magic_box.hpp 76-142: get_arch_score for the three formats, double *)
  Definition copy_arch (k : copy T) (e : Z) : Z :=
    if e =? gn then
      match k with
      | cp_blk _ _ _ _ _ => get_supported sup [3]
      | cp_hyb _ _ _ _ _ => get_supported sup [3; 2]
      | cp_br4 _ => get_supported sup [2]
      end
    else 0.

  (** magic_box.hpp 255-272: the total score of one candidate, 0 when it is skipped.  The
      copies are stored with the doid gn and have a matrix score of 11. *)
  Definition total (doid : Z) (bonus : Z) (arch : Z -> Z) (d_id : Z) : option Z :=
    let* eff := get_effective_doid doid d_id in
    let* ds := doid_score eff in
    if ds =? 0 then Some 0 else if arch eff =? 0 then Some 0 else Some (ds + bonus + arch eff).

  (** magic_box.hpp 245-286: whether get_best_matrix returns the copy, which comes second
      in A->mats, behind the user's matrix and before optimised copies made later: the
      first of the candidates with the highest score wins. *)
  Definition copy_wins (h : hnd T) (k : copy T) (d_id : Z) : option bool :=
    let* cs := total gn 11 (copy_arch k) d_id in
    if cs =? 0 then Some false
    else for_ 0 (zlen (H_mats h)) (fun i w =>
      let* e := rd (H_mats h) i in
      let* c := e in
      let* s := total (c_doid c) (matrix_score c) (arch_score sup dt_d) d_id in
      Some (w && (if i =? 0 then s <? cs else s <=? cs))) true.

  (** level2/aoclsparse_mv.cpp 54-116: whether the call gets past the argument checks and
      the quick return, and then selects the copy *)
  Definition copy_used (op : operation) (h : hnd T) (k : copy T) (d : descr) : option bool :=
    match H_mats h with
    | [] | None :: _ => Some false
    | Some u :: _ =>
      if negb (c_b u =? d_base d) then Some false
      else if negb (valid_op op) then Some false
      else if (match d_type d with mt_symmetric | mt_hermitian => true | _ => false end) && negb (H_m h =? H_n h) then Some false
      else
        let op := match op with op_conjugate_transpose => op_transpose | o => o end in
        if (match d_type d with mt_hermitian => true | _ => false end) then Some false
        else if (H_m h =? 0) || (H_n h =? 0) || ((H_nnz h =? 0) && match d_type d with mt_general => true | _ => false end) then Some false
        else
          let* d_id := get_doid true (d_type d) (d_fill d) op in
          copy_wins h k d_id
    end.

  (** level2/aoclsparse_mv.cpp 167-180, 245-303: the kernel of the copy.  It is used for
      requests equal to its doid, so op becomes none and the descriptor general. *)
  Definition copy_kernel (h : hnd T) (u : cmat T) (k : copy T) (al : T) (x : list T) (be : T) (y : list T)
      : option (status * option (list T)) :=
    let d_t := mkDescr mt_general fm_lower dg_non_unit (c_b u) in
    match k with
    | cp_blk nb bp bc bv bm =>
        blkcsrmv O (sup 3) op_none (Some al) (H_m h) (H_n h) (H_nnz h) (Some bm) (Some bv) (Some bc) (Some bp)
          (Some d_t) (Some x) (Some be) (Some y) nb
    | cp_hyb wd em col v rmap =>
        ellthybmv O true (sup 3) al (H_m h) v col wd em (c_val u) (c_ptr u) (c_ind u) rmap d_t x be y
    | cp_br4 c =>
        let* y := br4_mv O al (H_m h) (c_b c) (c_ptr c) (c_ind c) (c_val c) x be y in
        Some (success, Some y)
    end.

  (** level2/aoclsparse_mv.cpp 41-310: aoclsparse_dmv on a handle [h] (the stored objects
      of plain CSR type) that also stores the copy [k].  When another object is selected
      the call is the one on [h]: csr_csc_optimize looks for optimised csr objects and
      takes the first csr object as source, and the copy is neither. *)
  Definition dmv (op : operation) (alpha : option T) (A : option (hnd T)) (k : option (copy T)) (d : option descr)
      (x : option (list T)) (beta : option T) (y : option (list T))
      : option (status * option (list T) * option (hnd T)) :=
    let plain := mv O srt fz ft sup dt_d choice nthreads team op alpha A d x beta y in
    match alpha, beta, A, k, d, x, y with
    | Some al, Some be, Some h, Some k, Some d, Some x, Some y =>
      let* used := copy_used op h k d in
      if used then
        match H_mats h with
        | Some u :: _ => let* (st, y) := copy_kernel h u k al x be y in Some (st, y, Some h)
        | _ => None
        end
      else plain
    | _, _, _, _, _, _, _ => plain
    end.

  (** The handle as functions see it that look at all objects of class csr: the 4-row copy
      is one, the blocked and the hybrid one are not. *)
  Definition with_copy (h : hnd T) (k : copy T) : hnd T :=
    set_mats h (match H_mats h with
                | u :: rest => u :: match k with cp_br4 c => Some c | _ => None end :: rest
                | [] => []
                end).
End O.
