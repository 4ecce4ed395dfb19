(** Matrix-vector kernels on CSR data.

    The C++ kernels shift the base addresses (col_fix = col - base etc.); here the
    shift is applied to the index.  [y] is the in/out vector; kernels return its
    final content (they always return aoclsparse_status_success).  Loops marked
    "omp parallel for" write only y[i] in iteration i; they are modelled in
    sequential order (schedule independence is C34). *)
From Coq Require Import ZArith List Bool.
From Verif Require Import Base Algebra Vec DoidModel.
Import ListNotations.
Open Scope Z_scope.

(** library/include/aoclsparse_types.h: aoclsparse_diag_type *)
Inductive diag_type := dg_non_unit | dg_unit | dg_zero.

(** The descriptor fields the kernels read.
    include/aoclsparse_descr.h: _aoclsparse_mat_descr *)
Record descr := mkDescr { d_type : mat_type; d_fill : fill_mode; d_diag : diag_type; d_base : Z }.

Section K.
  Context {T : Type} (O : ops T).
  Local Notation zero := (o0 O).
  Local Notation one := (o1 O).
  Local Infix "+!" := (oadd O) (at level 50, left associativity).
  Local Infix "*!" := (omul O) (at level 40, left associativity).
  Local Notation "a ==! b" := (oeqb O a b) (at level 70).

  (** [y[i] += t] *)
  Definition acc (y : list T) (i : Z) (t : T) : option (list T) :=
    let* v := rd y i in wr y i (v +! t).

  (** The "Perform (beta * y)" prologue, e.g. csrmv_kr.hpp 535-548 *)
  Definition beta_scale (beta : T) (n : Z) (y : list T) : option (list T) :=
    if beta ==! zero then for_ 0 n (fun i y => wr y i zero) y
    else if negb (beta ==! one) then
      for_ 0 n (fun i y => let* v := rd y i in wr y i (beta *! v)) y
    else Some y.

  (** mv_helpers.hpp 30-53: vscale, non-null [v] *)
  Definition vscale (v : list T) (c : T) (sz : Z) : option (list T) :=
    if negb (c ==! zero) then for_ 0 sz (fun i v => let* a := rd v i in wr v i (c *! a)) v
    else for_ 0 sz (fun i v => wr v i zero) v.

  (** The inner dot product, csrmv_kr.hpp 488-491 *)
  Definition dot_row (b lo hi : Z) (val : list T) (col : list Z) (x : list T) (r : T) : option T :=
    for_ lo hi (fun j r =>
      let* v := rd val (j - b) in
      let* c := rd col (j - b) in
      let* xv := rd x (c - b) in
      Some (r +! v *! xv)) r.

  (** The epilogue "alpha * A * x", "(beta * y) + ...", csrmv_kr.hpp 494-506 *)
  Definition finish_row (alpha beta : T) (y : list T) (i : Z) (result : T) : option (list T) :=
    let result := if negb (alpha ==! one) then alpha *! result else result in
    if negb (beta ==! zero) then
      let* yi := rd y i in wr y i (result +! beta *! yi)
    else wr y i result.

  (** csrmv_kr.hpp 448-513: ref_csrmv_gn *)
  Definition ref_csrmv_gn (b : Z) (alpha : T) (m : Z) (val : list T) (col row : list Z)
      (x : list T) (beta : T) (y : list T) : option (list T) :=
    for_ 0 m (fun i y =>
      let* s := rd row i in
      let* e := rd row (i + 1) in
      let* result := dot_row b s e val col x zero in
      finish_row alpha beta y i result) y.

  (** [y_fix[col_idx] += f(val[j]) * axi] over one row, csrmv_kr.hpp 557-564 *)
  Definition scatter_row (f : T -> T) (b lo hi : Z) (val : list T) (col : list Z) (axi : T)
      (y : list T) : option (list T) :=
    for_ lo hi (fun j y =>
      let* c := rd col (j - b) in
      let* v := rd val (j - b) in
      acc y (c - b) (f v *! axi)) y.

  Definition cjh (is_herm : bool) (v : T) : T := if is_herm then ocj O v else v.

  (** csrmv_kr.hpp 520-567: ref_csrmv_th<T, is_herm> *)
  Definition ref_csrmv_th (is_herm : bool) (b : Z) (alpha : T) (m n : Z) (val : list T)
      (col row : list Z) (x : list T) (beta : T) (y : list T) : option (list T) :=
    let* y := beta_scale beta n y in
    for_ 0 m (fun i y =>
      let* s := rd row i in
      let* e := rd row (i + 1) in
      let* xi := rd x i in
      scatter_row (cjh is_herm) b s e val col (alpha *! xi) y) y.

  (** csrmv_kr.hpp 588-604, 675-690, 858-873: start_offset and end_offset *)
  Definition tri_offsets (d : descr) : Z * Z :=
    match d_type d, d_diag d with
    | mt_general, _ => (0, 0)
    | _, dg_non_unit => (0, 0)
    | _, _ => match d_fill d with fm_lower => (0, -1) | fm_upper => (1, 0) end
    end.
  Definition is_unit (d : descr) : bool := match d_diag d with dg_unit => true | _ => false end.

  (** csrmv_kr.hpp 657-728: ref_csrmv_tri.  [crend] is read at [i + eoff]: the
      caller passes the address of row[1] when the end pointers are row (csrmv.hpp
      117-122), so eoff is 0 for iurow and 1 for row. *)
  Definition ref_csrmv_tri (d : descr) (alpha : T) (m : Z) (val : list T) (col crstart : list Z)
      (eoff : Z) (crend : list Z) (x : list T) (beta : T) (y : list T) : option (list T) :=
    let b := d_base d in
    let '(start_offset, end_offset) := tri_offsets d in
    let diag_first := negb (start_offset =? 0) && is_unit d in
    let diag_last := negb (end_offset =? 0) && is_unit d in
    let* y := beta_scale beta m y in
    for_ 0 m (fun i y =>
      let* cs := rd crstart i in
      let* ce := rd crend (i + eoff) in
      let* r0 := (if diag_first then let* xi := rd x (i + b - b) in Some (zero +! xi) else Some zero) in
      let* r1 := dot_row b (cs + start_offset) (ce + end_offset) val col x r0 in
      let* r2 := (if diag_last then let* xi := rd x (i + b - b) in Some (r1 +! xi) else Some r1) in
      acc y i (alpha *! r2)) y.

  (** csrmv_kr.hpp 576-649: ref_csrmv_tri_th<T, is_herm> *)
  Definition ref_csrmv_tri_th (is_herm : bool) (d : descr) (alpha : T) (m n : Z) (val : list T)
      (col crstart : list Z) (eoff : Z) (crend : list Z) (x : list T) (beta : T) (y : list T)
      : option (list T) :=
    let b := d_base d in
    let '(start_offset, end_offset) := tri_offsets d in
    let diag_first := negb (start_offset =? 0) && is_unit d in
    let diag_last := negb (end_offset =? 0) && is_unit d in
    let* y := beta_scale beta n y in
    for_ 0 m (fun i y =>
      let* cs := rd crstart i in
      let* ce := rd crend (i + eoff) in
      let* xi := rd x i in
      let axi := alpha *! xi in
      let* y := (if diag_first then acc y (i + b - b) axi else Some y) in
      let* y := scatter_row (cjh is_herm) b (cs + start_offset) (ce + end_offset) val col axi y in
      if diag_last then acc y (i + b - b) axi else Some y) y.

  (** csrmv_kr.hpp 41-92: aoclsparse_csrmv_symm (public ?csrmv on symmetric
      matrices, lower triangle with the diagonal last).  [!((col - base) ^ i)] is
      1 exactly when the column equals i; an integer times a value is 0 or the
      value. *)
  Definition csrmv_symm (b : Z) (alpha : T) (m : Z) (val : list T) (col row : list Z)
      (x : list T) (beta : T) (y : list T) : option (list T) :=
    let* y := beta_scale beta m y in
    for_ 0 m (fun i y =>
      let* e := rd row (i + 1) in
      let diag_idx := e - b - 1 in
      let* cd := rd col diag_idx in
      let last := cd - b =? i in
      let* vd := rd val diag_idx in
      let* xi := rd x i in
      let lst := if last then one else zero in
      let* y := acc y i (lst *! alpha *! vd *! xi) in
      let* s := rd row i in
      for_ (s - b) (e - b - (if last then 1 else 0)) (fun j y =>
        let* v := rd val j in
        let* c := rd col j in
        let* xc := rd x (c - b) in
        let* y := acc y i (alpha *! v *! xc) in
        acc y (c - b) (alpha *! v *! xi)) y) y.

  (** csrmv_kr.hpp 183-269: aoclsparse_csrmvh_symm_internal (f = g = conj) and
      275-359: aoclsparse_csrmv_herm_internal (f = id, g = conj; not called in this
      commit).  [f] is applied to a stored value in the row product and on the
      diagonal, [g] in the transposed product.  The upper variant starts at
      idiag[i] + 1 instead of iurow[i]. *)
  Definition symm_body (f g : T -> T) (b : Z) (alpha : T) (val : list T) (col : list Z)
      (x : list T) (lo hi i : Z) (sum : T) (y : list T) : option (T * list T) :=
    for_ lo hi (fun idx st =>
      let '(sum, y) := st in
      let* v := rd val idx in
      let* c := rd col idx in
      let* xj := rd x (c - b) in
      let* xi := rd x i in
      let sum := sum +! alpha *! f v *! xj in
      let* y := acc y (c - b) (alpha *! g v *! xi) in
      Some (sum, y)) (sum, y).

  Definition diag_term (f : T -> T) (dg : diag_type) (alpha : T) (val : list T) (p : Z) (xi : T)
      (sum : T) : option T :=
    match dg with
    | dg_non_unit => let* v := rd val p in Some (sum +! alpha *! f v *! xi)
    | dg_unit => Some (sum +! alpha *! xi)
    | dg_zero => Some sum
    end.

  Definition csrmv_fg_internal (f g : T -> T) (b : Z) (alpha : T) (m : Z) (dg : diag_type) (fm : fill_mode)
      (val : list T) (icol icrow idiag : list Z) (x : list T) (beta : T) (y : list T)
      : option (list T) :=
    let* y := beta_scale beta m y in
    match fm with
    | fm_lower =>
        for_ 0 m (fun i y =>
          let* s := rd icrow i in
          let* d := rd idiag i in
          let* (sum, y) := symm_body f g b alpha val icol x (s - b) (d - b) i zero y in
          let* xi := rd x i in
          let* sum := diag_term f dg alpha val (d - b) xi sum in
          acc y i sum) y
    | fm_upper =>
        for_ 0 m (fun i y =>
          let* d := rd idiag i in
          let* xi := rd x i in
          let* sum := diag_term f dg alpha val (d - b) xi zero in
          let* e := rd icrow (i + 1) in
          let* (sum, y) := symm_body f g b alpha val icol x (d - b + 1) (e - b) i sum y in
          acc y i sum) y
    end.

  Definition csrmvh_symm_internal := csrmv_fg_internal (ocj O) (ocj O).
  Definition csrmv_herm_internal := csrmv_fg_internal (fun v => v) (ocj O).

  (** csrmv_kr.hpp 364-444: aoclsparse_csrmv_hermt_internal.  Accumulates directly
      in y[i]; the diagonal is not conjugated. *)
  Definition csrmv_hermt_internal (b : Z) (alpha : T) (m : Z) (dg : diag_type) (fm : fill_mode)
      (val : list T) (icol icrow idiag : list Z) (x : list T) (beta : T) (y : list T)
      : option (list T) :=
    let body (lo hi i : Z) (y : list T) :=
      for_ lo hi (fun idx y =>
        let* v := rd val idx in
        let* c := rd icol idx in
        let* xj := rd x (c - b) in
        let* y := acc y i (alpha *! ocj O v *! xj) in
        let* xi := rd x i in
        acc y (c - b) (alpha *! v *! xi)) y in
    let diag (p : Z) (i : Z) (y : list T) :=
      match dg with
      | dg_non_unit => let* v := rd val p in let* xi := rd x i in acc y i (alpha *! v *! xi)
      | dg_unit => let* xi := rd x i in acc y i (alpha *! xi)
      | dg_zero => Some y
      end in
    let* y := beta_scale beta m y in
    match fm with
    | fm_lower =>
        for_ 0 m (fun i y =>
          let* s := rd icrow i in
          let* d := rd idiag i in
          let* y := body (s - b) (d - b) i y in
          diag (d - b) i y) y
    | fm_upper =>
        for_ 0 m (fun i y =>
          let* d := rd idiag i in
          let* y := diag (d - b) i y in
          let* e := rd icrow (i + 1) in
          body (d - b + 1) (e - b) i y) y
    end.

  (** Gather x[col[j]], x[col[j+1]], ...: _mm256_set_pd(...) / kt_set_p *)
  Definition vgather (k b : Z) (col : list Z) (x : list T) (j : Z) : option (list T) :=
    mapM (fun t => let* c := rd col (j + t - b) in rd x (c - b)) (zrange 0 k).

  (** [vec_y = fmadd(vals, xs, vec_y)] over full groups of [k] elements from lo to
      hi - k_rem, e.g. csrmv_kr.hpp 892-904.  Lane t of a register is the t-th list
      element. *)
  Definition vec_loop (k b lo hi : Z) (val : list T) (col : list Z) (x : list T) (v0 : list T)
      : option (list T) :=
    for_step lo hi k (fun j vy =>
      let* va := vload k val (j - b) in
      let* vx := vgather k b col x j in
      Some (map2 (fun p s => p +! s) (map2 (fun a c => a *! c) va vx) vy)) v0.

  Definition lane (v : list T) (i : Z) : T := nthZ zero v i.

  (** csrmv_kr.hpp 907-925: hadd_pd, then low plus high half *)
  Definition hsum4 (v : list T) : T := (lane v 0 +! lane v 1) +! (lane v 2 +! lane v 3).
  (** csrmv_kr.hpp 781-804 *)
  Definition hsum8f (v : list T) : T :=
    ((lane v 0 +! lane v 4) +! (lane v 2 +! lane v 6)) +! ((lane v 1 +! lane v 5) +! (lane v 3 +! lane v 7)).
  (** csrmv_avx512.cpp: add halves of the 512-bit register, then as hsum4 *)
  Definition hsum8d (v : list T) : T :=
    ((lane v 0 +! lane v 4) +! (lane v 1 +! lane v 5)) +! ((lane v 2 +! lane v 6) +! (lane v 3 +! lane v 7)).
  (** kt_hsum_B of the accumulator pair.  Simplified: lanes are added left to right
      and the second accumulator (a layout detail of complex products) is merged
      into the first. *)
  Definition hsum_kt (v : list T) : T := suml O (fun a => a) v.

  (** One row of the vectorised kernels; [r0] is the scalar accumulated before
      the vector loop. The horizontal sum *overwrites* it ([result = ...]) when at
      least one full group was processed. C's / and % truncate. *)
  Definition vec_row (k : Z) (hsum : list T -> T) (b lo hi : Z) (val : list T) (col : list Z)
      (x : list T) (r0 : T) : option T :=
    let nnz := hi - lo in
    let k_iter := Z.quot nnz k in
    let k_rem := Z.rem nnz k in
    let* vy := vec_loop k b lo (hi - k_rem) val col x (zrep k zero) in
    let r1 := if negb (k_iter =? 0) then hsum vy else r0 in
    dot_row b (hi - k_rem) hi val col x r1.

  (** csrmv_kr.hpp 734-831 (k = 8, hsum8f), 949-1040 (k = 4, hsum4),
      csrmv_avx512.cpp (k = 8, hsum8d) *)
  Definition csrmv_vec (k : Z) (hsum : list T -> T) (b : Z) (alpha : T) (m : Z) (val : list T)
      (col row : list Z) (x : list T) (beta : T) (y : list T) : option (list T) :=
    for_ 0 m (fun i y =>
      let* e := rd row (i + 1) in
      let* s := rd row i in
      let* result := vec_row k hsum b s e val col x zero in
      finish_row alpha beta y i result) y.
  Definition csrmv_vectorized := csrmv_vec 8 hsum8f.
  Definition csrmv_vectorized_avx2 := csrmv_vec 4 hsum4.
  Definition csrmv_vectorized_avx512 := csrmv_vec 8 hsum8d.

  (** csrmv_kr.hpp 833-947: aoclsparse_csrmv_vectorized_avx2ptr (triangular, double).
      Note that [diag_first] is added to [result] before the horizontal sum. *)
  Definition csrmv_vectorized_avx2ptr (d : descr) (alpha : T) (m : Z) (val : list T) (col crstart : list Z)
      (eoff : Z) (crend : list Z) (x : list T) (beta : T) (y : list T) : option (list T) :=
    let b := d_base d in
    let '(start_offset, end_offset) := tri_offsets d in
    let diag_first := negb (start_offset =? 0) && is_unit d in
    let diag_last := negb (end_offset =? 0) && is_unit d in
    for_ 0 m (fun i y =>
      let* cs := rd crstart i in
      let* ce := rd crend (i + eoff) in
      let* r0 := (if diag_first then let* xi := rd x (i + b - b) in Some (zero +! xi) else Some zero) in
      let* r1 := vec_row 4 hsum4 b (cs + start_offset) (ce + end_offset) val col x r0 in
      let* r2 := (if diag_last then let* xi := rd x (i + b - b) in Some (r1 +! xi) else Some r1) in
      let result := alpha *! r2 in
      if negb (beta ==! zero) then
        let* yi := rd y i in wr y i (result +! beta *! yi)
      else wr y i result) y.

  (** csrmv_kt.cpp 30-90: csrmv_kt with tsz lanes.  [result = kt_hsum_B(...)] is
      unconditional. *)
  Definition csrmv_kt (tsz : Z) (b : Z) (alpha : T) (m : Z) (val : list T)
      (col row : list Z) (x : list T) (beta : T) (y : list T) : option (list T) :=
    for_ 0 m (fun i y =>
      let* e := rd row (i + 1) in
      let* s := rd row i in
      let k_rem := (e - s) mod tsz in
      let* vb := vec_loop tsz b s (e - k_rem) val col x (zrep tsz zero) in
      let* r := dot_row b (e - k_rem) e val col x (hsum_kt vb) in
      let result := r *! alpha in
      if beta ==! zero then wr y i result
      else let* yi := rd y i in
        if beta ==! one then wr y i (yi +! result) else wr y i (yi *! beta +! result)) y.

  (** Scatter of a register: [y_fix[icol_fix[j + k]] += vy[k]], csrmv_kt.cpp 170-175 *)
  Definition vscatter (k b : Z) (col : list Z) (j : Z) (vy : list T) (y : list T) : option (list T) :=
    for_ 0 k (fun t y =>
      let* c := rd col (j + t - b) in
      let* v := rd vy t in
      acc y (c - b) v) y.

  (** csrmv_kt.cpp 145-188: rows [start, end) scattered into [ybuf] *)
  Definition csrmvt_rows (tsz b : Z) (alpha : T) (start stop : Z) (val : list T) (col row : list Z)
      (x : list T) (ybuf : list T) : option (list T) :=
    for_ start stop (fun i yb =>
      let* s := rd row i in
      let* e := rd row (i + 1) in
      let k_rem := (e - s) mod tsz in
      let* xi := rd x i in
      let* yb := for_step s (e - k_rem) tsz (fun j yb =>
          let* va := vload tsz val (j - b) in
          vscatter tsz b col j (map (fun a => a *! (alpha *! xi)) va) yb) yb in
      for_ (e - k_rem) e (fun j yb =>
          let* c := rd col (j - b) in
          let* v := rd val (j - b) in
          acc yb (c - b) (v *! alpha *! xi)) yb) ybuf.

  (** csrmv_kt.cpp 92-205 without OpenMP *)
  Definition csrmvt_kt_seq (tsz b : Z) (alpha : T) (m n : Z) (val : list T) (col row : list Z)
      (x : list T) (beta : T) (y : list T) : option (list T) :=
    let* y := beta_scale beta n y in
    csrmvt_rows tsz b alpha 0 m val col row x y.

  (** csrmv_kt.cpp 92-205 with OpenMP: [nthreads] is the requested team size used in
      the partition, [team] the ids of the threads that actually run, in the order
      in which they enter the critical section.  Allocation failure not modelled. *)
  Definition csrmvt_kt_omp (nthreads : Z) (team : list Z) (tsz b : Z) (alpha : T) (m n : Z)
      (val : list T) (col row : list Z) (x : list T) (beta : T) (y : list T) : option (list T) :=
    let* y := beta_scale beta n y in
    foldM (fun tid y =>
      let start := Z.quot (m * tid) nthreads in
      let stop := Z.quot (m * (tid + 1)) nthreads in
      let* yb := csrmvt_rows tsz b alpha start stop val col row x (zrep n zero) in
      for_ 0 n (fun i y => let* v := rd yb i in acc y i v) y) team y.

  (** csrmv_kt.cpp 209-310: csrmv_symm_kt<SZ, SUF, HERM>.  Used for sl/su (HERM =
      false), hl/hu (HERM = true) and, for real types, with HERM = true where conj
      is the identity. *)
  Definition csrmv_symm_kt (herm : bool) (tsz : Z) (b : Z) (alpha : T) (m : Z) (dg : diag_type) (fm : fill_mode)
      (val : list T) (icol icrow idiag iurow : list Z) (x : list T) (beta : T) (y : list T)
      : option (list T) :=
    let* y := beta_scale beta m y in
    for_ 0 m (fun i y =>
      let* lo := (match fm with fm_lower => rd icrow i | fm_upper => rd iurow i end) in
      let* hi := (match fm with fm_lower => rd idiag i | fm_upper => rd icrow (i + 1) end) in
      let* xi := rd x i in
      let k_rem := (hi - lo) mod tsz in
      let* (vy1, y) := for_step lo (hi - k_rem) tsz (fun j st =>
          let '(vy1, y) := st in
          let* va := vload tsz val (j - b) in
          let* vx1 := vgather tsz b icol x j in
          let vy1 := map2 (fun p s => p +! s) (map2 (fun a c => a *! c) va vx1) vy1 in
          let vy2 := map (fun a => cjh herm a *! (alpha *! xi)) va in
          let* y := vscatter tsz b icol j vy2 y in
          Some (vy1, y)) (zrep tsz zero, y) in
      let* (result, y) := for_ (hi - k_rem) hi (fun j st =>
          let '(result, y) := st in
          let* c := rd icol (j - b) in
          let* v := rd val (j - b) in
          let* xc := rd x (c - b) in
          let* y := acc y (c - b) (alpha *! cjh herm v *! xi) in
          Some (result +! v *! xc, y)) (hsum_kt vy1, y) in
      let* result := (match dg with
        | dg_non_unit => let* d := rd idiag i in let* v := rd val (d - b) in Some (result +! v *! xi)
        | dg_unit => Some (result +! xi)
        | dg_zero => Some result
        end) in
      acc y i (result *! alpha)) y.
End K.
