(** The 4-row interleaved CSR storage chosen by aoclsparse_optimize for products with
    double matrices, and its product kernel. *)
From Coq Require Import ZArith List Bool.
From Verif Require Import Base Algebra Vec MvModel FmtMvModel.
Import ListNotations.
Open Scope Z_scope.

Section B.
  Context {T : Type} (O : ops T).
  Local Notation zero := (o0 O).
  Local Notation one := (o1 O).
  Local Infix "+!" := (oadd O) (at level 50, left associativity).
  Local Infix "*!" := (omul O) (at level 40, left associativity).
  Local Notation "a ==! b" := (oeqb O a b) (at level 70).

  (** analysis.cpp 283-318: padded row lengths row_ptr, row pointers of the new matrix
      and its size.  The loop over i = 0, 4, 8, ... leaves at the first incomplete block,
      i.e. it runs over the m / 4 complete ones.  [bp0] is the uninitialised new[m + 1]. *)
  Definition br4_sizes (m b : Z) (ptr bp0 : list Z) : option (list Z * list Z * Z) :=
    let* bp := wr bp0 0 b in
    let* (rp, bp, tnnz) := for_ 0 (m / 4) (fun q st =>
        let '(rp, bp, tnnz) := st in
        let i := 4 * q in
        let* p0 := rd ptr i in
        let* p1 := rd ptr (i + 1) in
        let* p2 := rd ptr (i + 2) in
        let* p3 := rd ptr (i + 3) in
        let* p4 := rd ptr (i + 4) in
        let m1 := Z.max (p1 - p0) (p2 - p1) in
        let m2 := Z.max (p3 - p2) (p4 - p3) in
        let row_nnz := Z.max m1 m2 in
        let* (rp, bp) := for_ 0 4 (fun k st =>
            let '(rp, bp) := st in
            let* rp := wr rp (i + k) row_nnz in
            let* v := rd bp (i + k) in
            let* bp := wr bp (i + k + 1) (v + row_nnz) in
            Some (rp, bp)) (rp, bp) in
        Some (rp, bp, tnnz + 4 * row_nnz)) (zrep m 0, bp, 0) in
    for_ (m / 4 * 4) m (fun j st =>
        let '(rp, bp, tnnz) := st in
        let* p0 := rd ptr j in
        let* p1 := rd ptr (j + 1) in
        let row_nnz := p1 - p0 in
        let* rp := wr rp j row_nnz in
        let* v := rd bp j in
        let* bp := wr bp (j + 1) (v + row_nnz) in
        Some (rp, bp, tnnz + row_nnz)) (rp, bp, tnnz).

  (** analysis.cpp 320-348: copy the rows one after the other, padding with zero values in
      the last column seen; state (ind, val, tc, last_col_idx) *)
  Definition br4_fill (m b : Z) (ptr ind : list Z) (val : list T) (rp : list Z) (ind4 : list Z) (val4 : list T)
      : option (list Z * list T * Z * Z) :=
    for_ 0 m (fun i st =>
        let* p0 := rd ptr i in
        let* p1 := rd ptr (i + 1) in
        let nz := p1 - p0 in
        let* st := for_ 0 nz (fun j st =>
            let '(ind4, val4, tc, last) := st in
            let* v := rd val (p0 - b + j) in
            let* val4 := wr val4 tc v in
            let* c := rd ind (p0 - b + j) in
            let* ind4 := wr ind4 tc c in
            Some (ind4, val4, tc + 1, c)) st in
        let* w := rd rp i in
        if nz <? w then
          for_ nz w (fun j st =>
              let '(ind4, val4, tc, last) := st in
              let* ind4 := wr ind4 tc last in
              let* val4 := wr val4 tc zero in
              Some (ind4, val4, tc + 1, last)) st
        else Some st) (ind4, val4, 0, 0).

  (** analysis.cpp 358-367: transposing one block of 4 rows through an auxiliary buffer;
      std::vector is zero-initialised *)
  Definition br4_block {X} (d : X) (nnz tc : Z) (a : list X) : option (list X) :=
    let* buf := for_ 0 nnz (fun ii buf => for_ 0 4 (fun jj buf =>
        let* v := rd a (tc + (ii + jj * nnz)) in
        wr buf (jj + ii * 4) v) buf) (zrep (nnz * 4) d) in
    for_ 0 (nnz * 4) (fun k a => let* v := rd buf k in wr a (tc + k) v) a.

  (** analysis.cpp 349-370 *)
  Definition br4_interleave (m : Z) (rp : list Z) (ind4 : list Z) (val4 : list T) : option (list Z * list T) :=
    let* (ind4, val4, tc) := for_ 0 (m / 4) (fun q st =>
        let '(ind4, val4, tc) := st in
        let* nnz := rd rp (4 * q) in
        let* val4 := br4_block zero nnz tc val4 in
        let* ind4 := br4_block 0 nnz tc ind4 in
        Some (ind4, val4, tc + nnz * 4)) (ind4, val4, 0) in
    Some (ind4, val4).

  (** analysis.cpp 278-373: the whole conversion; [fz], [ft] give fresh uninitialised
      arrays.  Result: row pointers, columns, values; same base as the user's matrix. *)
  Definition br4_build (fz : Z -> list Z) (ft : Z -> list T) (m b : Z) (ptr ind : list Z) (val : list T)
      : option (list Z * list Z * list T) :=
    let* (rp, bp, tnnz) := br4_sizes m b ptr (fz (m + 1)) in
    let* (ind4, val4, tc, last) := br4_fill m b ptr ind val rp (fz tnnz) (ft tnnz) in
    let* (ind4, val4) := br4_interleave m rp ind4 val4 in
    Some (bp, ind4, val4).

  (** csrmv_kr.hpp 1090-1126: one block of 4 rows, one lane per row *)
  Definition br4_rows (alpha : T) (b : Z) (bp ind4 : list Z) (val4 x : list T) (beta : T) (i : Z) (y : list T) : option (list T) :=
    let* r := rd bp (i * 4) in
    let* r1 := rd bp (i * 4 + 1) in
    let* res := for_ 0 (r1 - r) (fun j res =>
        let off := r - b + j * 4 in
        let* vvals := vload 4 val4 off in
        let* vx := vgather 4 b ind4 x (off + b) in
        Some (map2 (fun p s => p +! s) (map2 (fun a c => a *! c) vvals vx) res)) (zrep 4 zero) in
    let res := if negb (alpha ==! one) then map (fun r => alpha *! r) res else res in
    let* res := (if negb (beta ==! zero) then
                   let* vy := vload 4 y (i * 4) in Some (map2 (fun v r => beta *! v +! r) vy res)
                 else Some res) in
    vstore 4 res y (i * 4).

  (** csrmv_kr.hpp 1045-1164: aoclsparse_dcsr_mat_br4 on the copy found in the handle; the
      parallel loops are run in order (see C34) *)
  Definition br4_mv (alpha : T) (m b : Z) (bp ind4 : list Z) (val4 x : list T) (beta : T) (y : list T) : option (list T) :=
    let* y := for_ 0 (m / 4) (br4_rows alpha b bp ind4 val4 x beta) y in
    for_ (m / 4 * 4) m (fun k y =>
      let* s := rd bp k in
      let* e := rd bp (k + 1) in
      let* r := for_ (s - b) (e - b) (fun j r =>
          let* v := rd val4 j in
          let* c := rd ind4 j in
          let* xv := rd x (c - b) in
          Some (r +! v *! xv)) zero in
      finish_row O alpha beta y k r) y.
End B.
