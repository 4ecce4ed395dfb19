(** Blocked CSR: aoclsparse_opt_blksize, aoclsparse_csr2blkcsr (conversion/
    aoclsparse_convert.cpp 36-315) and the blocked product aoclsparse_dblkcsrmv
    (level2/aoclsparse_blkcsrmv.hpp 32-152, aoclsparse_blkcsrmv_avx512.cpp,
    aoclsparse_blkcsrmv.cpp 35-64).  Indices are unbounded integers except where an int
    overflow is checked below; std::bad_alloc is not modelled. *)
From Coq Require Import ZArith List Bool.
From Verif Require Import Base Algebra DoidModel UtilModel Vec MvModel FmtMvModel.
Import ListNotations.
Open Scope Z_scope.

(** climits: INT_MAX *)
Definition int_max : Z := 2147483647.
(** convert.cpp 54, 186: blk_width *)
Definition blk_width : Z := 8.

(** convert.cpp 91-104 and 213-227: the rows of a group that are not finished and the
    smallest column at their heads.  [re] is the array the row ends are read from:
    csr_row_ptr in opt_blksize, blk_row_ptr_local in csr2blkcsr. *)
Definition heads (nb m b : Z) (re ind : list Z) (iRow : Z) (iv : list Z) : option (bool * Z) :=
  for_ 0 (Z.min nb (m - iRow)) (fun s st =>
    let '(complete, c) := st in
    let* p := rd iv s in
    let* e := rd re (iRow + s + 1) in
    if p <? e - b then
      let* col := rd ind p in
      Some (false, Z.min c (col - b))
    else Some (complete, c)) (true, int_max).

(** convert.cpp 78-84 and 205-211: iVal, one position per row of the group; entries of
    rows past the last one stay zero *)
Definition starts (nb m b : Z) (ptr : list Z) (iRow : Z) : option (list Z) :=
  for_ 0 (Z.min nb (m - iRow)) (fun s iv =>
    let* p := rd ptr (iRow + s) in wr iv s (p - b)) (zrep nb 0).

(** [iCol + blk_width] on int *)
Definition blk_end (c : Z) : option Z :=
  if c + blk_width <=? int_max then Some (c + blk_width) else None.

(** convert.cpp 106-109: one row of a block in opt_blksize *)
Definition skip_row (b : Z) (ind : list Z) (c e p : Z) : option Z :=
  forb p e (fun q _ =>
    let* col := rd ind q in
    let* lim := blk_end c in
    if col - b <? lim then Some (Go (q + 1)) else Some (Brk q)) p.

(** convert.cpp 86-112: the loop over the blocks of one group.  [fuel] bounds the
    iterations; running out of it is [None]. *)
Fixpoint count_loop (fuel : nat) (nb m b : Z) (ptr ind : list Z) (iRow : Z) (iv : list Z) (cnt : Z) : option Z :=
  match fuel with
  | O => None
  | S fuel' =>
      let* (complete, c) := heads nb m b ptr ind iRow iv in
      if complete : bool then Some cnt
      else
        let* iv := for_ 0 (Z.min nb (m - iRow)) (fun s iv =>
            let* p := rd iv s in
            let* e := rd ptr (iRow + s + 1) in
            let* q := skip_row b ind c (e - b) p in
            wr iv s q) iv in
        count_loop fuel' nb m b ptr ind iRow iv (cnt + 1)
  end.

(** convert.cpp 71-116: the number of blocks of height [nb] *)
Definition count_blocks (nb m b : Z) (ptr ind : list Z) : option Z :=
  for_step 0 m nb (fun iRow total =>
    let* iv := starts nb m b ptr iRow in
    let* k := count_loop (S (length ind)) nb m b ptr ind iRow iv 0 in
    Some (total + k)) 0.

(** What the floating-point heuristics of opt_blksize conclude. *)
Inductive blk_choice := use_none | use_2 | use_4.

(** convert.cpp 36-147.  Abstract: the ratios of lines 121-140 are computed in double;
    [low] stands for the test of line 124 (m, nnz, number of 1x8 blocks), [pick] for the
    tests of lines 138-150 (m, nnz, numbers of blocks).  The result is the block height
    and the new *total_blks. *)
Definition opt_blksize (low : Z -> Z -> Z -> bool) (pick : Z -> Z -> Z -> Z -> Z -> blk_choice)
    (m nnz b : Z) (ptr ind : option (list Z)) (total_blks : option Z) : option (Z * option Z) :=
  if (m <=? 0) || (nnz <=? 0) then Some (0, total_blks) else
  match ptr, ind, total_blks with
  | Some ptr, Some ind, Some _ =>
      let* t1 := count_blocks 1 m b ptr ind in
      if (t1 =? 0) || low m nnz t1 then Some (0, total_blks) else
      let* t2 := count_blocks 2 m b ptr ind in
      if t2 =? 0 then Some (0, total_blks) else
      let* t4 := count_blocks 4 m b ptr ind in
      if t4 =? 0 then Some (0, total_blks) else
      match pick m nnz t1 t2 t4 with
      | use_4 => Some (4, Some t4)
      | use_2 => Some (2, Some t2)
      | use_none => Some (0, total_blks)
      end
  | _, _, _ => Some (0, total_blks)
  end.

(** [1u << k] and [mask << k]: undefined for negative and for too large counts *)
Definition shl (a k : Z) : option Z :=
  if (0 <=? k) && (k <? 32) then Some (Z.shiftl a k) else None.
(** the conversion to uint8_t *)
Definition u8 (a : Z) : Z := a mod 256.

(** std::copy / std::transform into a caller's array of length [zlen dst] *)
Definition copy_into {A} (src dst : list A) : option (list A) :=
  if zlen src <=? zlen dst then Some (src ++ skipn (length src) dst) else None.

Section M.
  Context {T : Type} (O : ops T).
  Local Notation zero := (o0 O).
  Local Notation one := (o1 O).
  Local Infix "+!" := (oadd O) (at level 50, left associativity).
  Local Infix "*!" := (omul O) (at level 40, left associativity).

  (** convert.cpp 236-255: one row of a block.  State: position, mask, newmask, values
      appended to blk_csr_val_local. *)
  Definition take_row (n b : Z) (ind : list Z) (val : list T) (c e p : Z) (vals : list T)
      : option (Z * Z * Z * list T) :=
    forb p e (fun q st =>
      let '(_, mask, newmask, vals) := st in
      let* col := rd ind q in
      let* lim := blk_end c in
      if col - b <? lim then
        let* v := rd val q in
        let* bit := shl 1 (col - b - c) in
        let mask := u8 (Z.lor mask bit) in
        let* newmask := (if n <? lim then
                           let* w := shl mask (blk_width - (n - c)) in Some (u8 w)
                         else Some newmask) in
        Some (Go (q + 1, mask, newmask, vals ++ [v]))
      else Some (Brk st)) (p, 0, 0, vals).

  (** blk_col_ind_local, blk_csr_val_local, masks_local *)
  Definition blk_out : Type := (list Z * list T * list Z)%type.

  (** convert.cpp 212-272: the blocks of one group *)
  Fixpoint blk_loop (fuel : nat) (nb m n b : Z) (re ind : list Z) (val : list T) (iRow : Z) (iv : list Z)
      (cnt : Z) (out : blk_out) : option (Z * blk_out) :=
    match fuel with
    | Datatypes.O => None
    | S fuel' =>
        let* (complete, c) := heads nb m b re ind iRow iv in
        if complete : bool then Some (cnt, out)
        else
          let '(cols, vals, masks) := out in
          let* (iv, mask, newmask, vals) :=
            for_ 0 (Z.min nb (m - iRow)) (fun s st =>
              let '(iv, mask, newmask, vals) := st in
              let* p := rd iv s in
              let* e := rd re (iRow + s + 1) in
              let* (q, mk, nmk, vals) := take_row n b ind val c (e - b) p vals in
              let* iv := wr iv s q in
              let* mask := wr mask s mk in
              let* newmask := wr newmask s nmk in
              Some (iv, mask, newmask, vals)) (iv, zrep nb 0, zrep nb 0, vals) in
          let* lim := blk_end c in
          let out := (if n <? lim then (cols ++ [n - blk_width], vals, masks ++ newmask)
                      else (cols ++ [c], vals, masks ++ mask)) in
          blk_loop fuel' nb m n b re ind val iRow iv (cnt + 1) out
    end.

  (** convert.cpp 203-285: all groups.  State: blk_row_ptr_local, total_num_blks, the
      other local arrays.  The row ends of a group are read from blk_row_ptr_local, whose
      earlier entries have been overwritten with block offsets. *)
  Definition blk_groups (nb m n b : Z) (ptr ind : list Z) (val : list T) : option (list Z * Z * blk_out) :=
    for_step 0 m nb (fun iRow st =>
      let '(rp, total, out) := st in
      let* iv := starts nb m b ptr iRow in
      let* (k, out) := blk_loop (S (length ind)) nb m n b rp ind val iRow iv 0 out in
      let* rp := wr rp iRow total in
      let total := total + k in
      let* rp := for_ 1 (Z.min nb (m - iRow)) (fun s rp => wr rp (iRow + s) total) rp in
      Some (rp, total, out)) (ptr, 0, ([], [], [])).

  (** The four output arrays: blk_row_ptr, blk_col_ind, blk_csr_val, masks. *)
  Definition blk_arrays : Type := (list Z * list Z * list T * list Z)%type.

  (** convert.cpp 149-306: aoclsparse_csr2blkcsr.  [None] as second component: the
      caller's arrays are unchanged. *)
  Definition csr2blkcsr (m n nnz : Z) (ptr ind : option (list Z)) (val : option (list T))
      (bptr bind : option (list Z)) (bval : option (list T)) (masks : option (list Z)) (nb b : Z)
      : option (status * option blk_arrays) :=
    if (m <? 0) || (n <? 8) || (nnz <? 0) then Some (invalid_size, None) else
    match ptr, ind, val with
    | Some ptr, Some ind, Some val =>
        match bptr, bind, bval, masks with
        | Some bptr, Some bind, Some bval, Some masks =>
            if negb (nb =? 1) && negb (nb =? 2) && negb (nb =? 4) then Some (invalid_size, None) else
            let* (rp, total, (cols, vals, mks)) := blk_groups nb m n b (firstn (Z.to_nat (m + 1)) ptr) ind val in
            let* rp := wr rp m total in
            let* bptr := copy_into (map (fun d => d + b) rp) bptr in
            let* bind := copy_into (map (fun d => d + b) cols) bind in
            let* bval := copy_into vals bval in
            let* masks := copy_into mks masks in
            Some (success, Some (bptr, bind, bval, masks))
        | _, _, _, _ => Some (invalid_pointer, None)
        end
    | _, _, _ => Some (invalid_pointer, None)
    end.

  (** blkcsrmv_avx512.cpp 31-38: bits_set (population count of a byte) *)
  Definition bits_set (msk : Z) : Z :=
    zlen (filter (fun l => Z.testbit msk l) (zrange 0 8)).

  (** _mm512_mask_expandloadu_pd(zero, msk, &val[p]): consecutive values go to the lanes
      whose mask bit is set; only those values are read *)
  Definition expandload (msk : Z) (val : list T) (p : Z) : option (list T) :=
    let* (_, r) := for_ 0 8 (fun l st =>
        let '(q, r) := st in
        if Z.testbit msk l then let* v := rd val q in Some (q + 1, r ++ [v])
        else Some (q, r ++ [zero])) (p, []) in
    Some r.

  (** blkcsrmv_avx512.cpp 61-79 (1x8), 140-164 (2x8), 255-291 (4x8): one block.
      State: iVal and the accumulators vec_y_512.  Simplified: the fused multiply-adds
      that follow the loads of all rows are done row by row. *)
  Definition blk_step (nb b : Z) (masks : list Z) (val : list T) (col : list Z) (x : list T) (iBlk : Z)
      (st : Z * list (list T)) : option (Z * list (list T)) :=
    let* c := rd col iBlk in
    let* vx := vload 8 x (c - b) in
    for_ 0 nb (fun s st =>
      let '(iVal, vy) := st in
      let* msk := rd masks (iBlk * nb + s) in
      let* vv := expandload msk val iVal in
      let* a := rd vy s in
      let* vy := wr vy s (map2 (fun p r => p +! r) (map2 (fun p r => p *! r) vv vx) a) in
      Some (iVal + bits_set msk, vy)) st.

  (** blkcsrmv_avx512.cpp 40-113, 115-227, 229-370: the kernels for nb = 1, 2, 4.  The
      sums of rows past the last one are computed and dropped. *)
  Definition blk_kernel (nb b : Z) (alpha : T) (m : Z) (masks : list Z) (val : list T) (col ptr : list Z)
      (x : list T) (beta : T) (y : list T) : option (list T) :=
    let* (_, y) := for_step 0 m nb (fun iRow st =>
        let '(iVal, y) := st in
        let* lo := rd ptr iRow in
        let* hi := rd ptr (iRow + 1) in
        let* (iVal, vy) := for_ (lo - b) (hi - b) (fun iBlk st => blk_step nb b masks val col x iBlk st)
                             (iVal, zrep nb (zrep 8 zero)) in
        let* y := for_ 0 (Z.min nb (m - iRow)) (fun s y =>
            let* v := rd vy s in
            finish_row O alpha beta y (iRow + s) (zero +! hsum8d O v)) y in
        Some (iVal, y)) (0, y) in
    Some y.

  (** blkcsrmv.hpp 32-152 behind aoclsparse_dblkcsrmv; [can_exec] is AVX512F and AVX512VL
      support.  alpha and beta are dereferenced without a check. *)
  Definition blkcsrmv (can_exec : bool) (op : operation) (alpha : option T) (m n nnz : Z) (masks : option (list Z))
      (val : option (list T)) (col ptr : option (list Z)) (d : option descr) (x : option (list T)) (beta : option T)
      (y : option (list T)) (nb : Z) : option (status * option (list T)) :=
    if negb can_exec then Some (not_implemented, None) else
    match d with
    | None => Some (invalid_pointer, None)
    | Some d =>
        if negb (d_base d =? 0) && negb (d_base d =? 1) then Some (invalid_value, None) else
        if negb (match d_type d with mt_general | mt_symmetric => true | _ => false end) then Some (not_implemented, None) else
        if negb (match op with op_none => true | _ => false end) then Some (not_implemented, None) else
        if (m <? 0) || (n <? 8) || (nnz <? 0) then Some (invalid_size, None) else
        if (m =? 0) || (n =? 0) || (nnz =? 0) then Some (success, None) else
        match val, ptr, col, masks, x, y with
        | Some val, Some ptr, Some col, Some masks, Some x, Some y =>
            if (nb =? 1) || (nb =? 2) || (nb =? 4) then
              let* alpha := alpha in
              let* beta := beta in
              let* y := blk_kernel nb (d_base d) alpha m masks val col ptr x beta y in
              Some (success, Some y)
            else Some (invalid_size, None)
        | _, _, _, _, _, _ => Some (invalid_pointer, None)
        end
    end.
End M.
