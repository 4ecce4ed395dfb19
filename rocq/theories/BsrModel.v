(** CSR to BSR: conversion/aoclsparse_convert.cpp 596-729 (csr2bsr_nnz), 731-829 with
    conversion/aoclsparse_convert.hpp 387-550 (csr2bsr), convert.cpp 1218-1429
    (convert_bsr).  [w]: bits of aoclsparse_int without sign; sizes and value offsets
    are checked for overflow, other index arithmetic is bounded by array lengths.
    Allocation failure is not modelled.  The descriptor is used for its base only
    ([None]: null pointer, which is not checked). *)
From Coq Require Import ZArith List Bool.
From Verif Require Import Base UtilModel DoidModel Csr2CscModel.
Import ListNotations.
Open Scope Z_scope.

(** static_cast<aoclsparse_int> of a 64-bit sum *)
Definition to_int (w v : Z) : Z := (v - int_min w) mod (2 ^ (w + 1)) + int_min w.

(** Loop [for(i = 0; i < block_dim; ++i) { if(i >= m - csr_i) break; ... }] over the
    rows of a block row *)
Definition block_rows {S} (m bd csr_i : Z) (f : Z -> S -> option S) (s : S) : option S :=
  let* r := forc 0 bd (fun i s => if m - csr_i <=? i then Some (Brk s) else let* s := f i s in Some (Go s)) s in
  match r with inl s => Some s | inr r => match r : Empty_set with end end.

(** convert.cpp 683-693: one entry *)
Definition nnz_step (b bd : Z) (ind : list Z) (j : Z) (st : list bool * list Z * Z) : option (list bool * list Z * Z) :=
  let '(bc, er, cnt) := st in
  let* c := rd ind j in
  let J := (c - b) / bd in
  let* seen := rd bc J in
  if seen : bool then Some st
  else let* bc := wr bc J true in let* er := wr er cnt J in Some (bc, er, cnt + 1).

(** convert.cpp 646-728: the body of csr2bsr_nnz after the checks *)
Definition nnz_core (w m n b : Z) (ptr ind : list Z) (bd : Z) (bptr : list Z) : option (status * list Z * option Z) :=
  let* mb := chk w (m + bd - 1) in let mb := mb / bd in
  let* nb := chk w (n + bd - 1) in let nb := nb / bd in
  let* st := for_ 0 mb (fun I st =>
      let '(bc, er, bptr) := st in
      let csr_i := I * bd in
      let* (bc, er, cnt) := block_rows m bd csr_i (fun i st =>
          let* s := rd ptr (csr_i + i) in let* e := rd ptr (csr_i + i + 1) in
          for_ (s - b) (e - b) (nnz_step b bd ind) st) (bc, er, 0) in
      let* bptr := wr bptr (I + 1) cnt in
      let* bc := for_ 0 cnt (fun i bc => let* J := rd er i in wr bc J false) bc in
      Some (bc, er, bptr)) (zrep nb false, zrep nb 0, bptr) in
  let '(_, _, bptr) := st in
  let* bptr := wr bptr 0 b in
  let* (bptr, sum) := for_ 0 mb (fun i st =>
      let '(bptr, sum) := st in
      let* v := rd bptr (i + 1) in
      let* sum := chk 63 (sum + v) in
      let* bptr := wr bptr (i + 1) (to_int w sum) in Some (bptr, sum)) (bptr, b) in
  if int_sum_overflow 63 w sum then Some (invalid_size, bptr, None)
  else let* e := rd bptr mb in Some (success, bptr, Some (e - b)).

(** convert.cpp 596-729: csr2bsr_nnz; result: status, row pointer, *bsr_nnz ([None]: not
    written) *)
Definition csr2bsr_nnz (w m n : Z) (d : option Z) (ptr_p ind_p : option (list Z)) (bd : Z) (bptr_p : option (list Z)) (nnz_ok : bool)
    : option (status * option (list Z) * option Z) :=
  let ret st := Some (st, bptr_p, None) in
  if (m <? 0) || (n <? 0) || (bd <=? 0) then ret invalid_size
  else match ptr_p, ind_p, bptr_p with
  | Some ptr, Some ind, Some bptr =>
      if negb nnz_ok then ret invalid_pointer
      else if (m =? 0) || (n =? 0) || (bd =? 0) then Some (success, bptr_p, Some 0)
      else
        let* b := d in
        if negb (b =? 0) && negb (b =? 1) then ret invalid_value
        else let* (st, bptr, c) := nnz_core w m n b ptr ind bd bptr in Some (st, Some bptr, c)
  | _, _, _ => ret invalid_pointer
  end.

Section B.
  Context {T : Type}.

  (** convert.hpp 387 and 508-511: place of row [i], column [j] of a block *)
  Definition cell (row_order : bool) (bd i j : Z) : Z := if row_order then j + i * bd else i + j * bd.

  (** convert.hpp 482-511: one entry of row [i] of the block row *)
  Definition fill_step (w b : Z) (ind : list Z) (val : list T) (bd : Z) (row_order : bool) (i k : Z) (st : list Z * list Z * list T * Z)
      : option (list Z * list Z * list T * Z) :=
    let '(bc, bind, bval, idx) := st in
    let* c := rd ind k in
    let J := (c - b) / bd in
    let j := (c - b) mod bd in
    let* old := rd bc J in
    let* (bc, bind, idx) := (if old =? -1 then
        let* off := chk w (idx * bd * bd) in
        let* bc := wr bc J off in
        let* bind := wr bind idx (J + b) in Some (bc, bind, idx + 1)
      else Some (bc, bind, idx)) in
    let* off := rd bc J in
    let* v := rd val k in
    let* bval := wr bval (off + cell row_order bd i j) v in
    Some (bc, bind, bval, idx).

  (** convert.hpp 456-520: one block row *)
  Definition fill_block_row (w m b : Z) (ptr ind : list Z) (val : list T) (bd : Z) (row_order : bool) (bptr : list Z) (I : Z)
      (st : list Z * list Z * list T) : option (list Z * list Z * list T) :=
    let '(bc, bind, bval) := st in
    let csr_i := I * bd in
    let* rb := rd bptr I in let rb := rb - b in
    let* re := rd bptr (I + 1) in let re := re - b in
    let* (bc, bind, bval, _) := block_rows m bd csr_i (fun i st =>
        let* s := rd ptr (csr_i + i) in let* e := rd ptr (csr_i + i + 1) in
        for_ (s - b) (e - b) (fill_step w b ind val bd row_order i) st) (bc, bind, bval, rb) in
    let* bc := for_ rb re (fun i bc => let* c := rd bind i in wr bc (c - b) (-1)) bc in
    Some (bc, bind, bval).

  (** convert.hpp 533-541: exchange of two adjacent blocks *)
  Definition swap_blocks (w bd k : Z) (bind : list Z) (bval : list T) : option (list Z * list T) :=
    let* sz := chk w (bd * bd) in
    let* bval := for_ 0 sz (fun t bval =>
        let* i1 := chk w (sz * k + t) in
        let* i2 := chk w (sz * (k + 1) + t) in
        let* x := rd bval i1 in let* y := rd bval i2 in
        let* bval := wr bval i1 y in wr bval i2 x) bval in
    let* x := rd bind k in let* y := rd bind (k + 1) in
    let* bind := wr bind k y in let* bind := wr bind (k + 1) x in
    Some (bind, bval).
  (** 523-546: bubble sort of one block row *)
  Definition sort_block_row (w b bd : Z) (bptr : list Z) (I : Z) (st : list Z * list T) : option (list Z * list T) :=
    let* rb := rd bptr I in let rb := rb - b in
    let* re := rd bptr (I + 1) in let re := re - b in
    for_ rb re (fun _ st => for_ rb (re - 1) (fun k st =>
        let '(bind, bval) := st in
        let* x := rd bind k in let* y := rd bind (k + 1) in
        if y <? x then swap_blocks w bd k bind bval else Some st) st) st.

  (** convert.hpp 438-549: the body after the checks *)
  Definition csr2bsr_core (w m n b : Z) (row_order : bool) (val : list T) (ptr ind : list Z) (bd : Z) (bval : list T) (bptr bind : list Z)
      : option (list T * list Z) :=
    let* mb := chk w (m + bd - 1) in let mb := mb / bd in
    let* nb := chk w (n + bd - 1) in let nb := nb / bd in
    let* (_, bind, bval) := for_ 0 mb (fill_block_row w m b ptr ind val bd row_order bptr) (zrep nb (-1), bind, bval) in
    let* (bind, bval) := for_ 0 mb (sort_block_row w b bd bptr) (bind, bval) in
    Some (bval, bind).

  (** convert.hpp 389-550 *)
  Definition csr2bsr (w m n : Z) (d : option Z) (row_order : bool) (val_p : option (list T)) (ptr_p ind_p : option (list Z)) (bd : Z)
      (bval_p : option (list T)) (bptr_p bind_p : option (list Z)) : option (status * option (list T) * option (list Z)) :=
    let ret st := Some (st, bval_p, bind_p) in
    if (m <? 0) || (n <? 0) then ret invalid_size
    else if (m =? 0) || (n =? 0) then ret success
    else if bd <=? 0 then ret invalid_value
    else
      let* b := d in
      if negb (b =? 0) && negb (b =? 1) then ret invalid_value
      else match val_p, ptr_p, ind_p, bval_p, bptr_p, bind_p with
      | Some val, Some ptr, Some ind, Some bval, Some bptr, Some bind =>
          let* (bval, bind) := csr2bsr_core w m n b row_order val ptr ind bd bval bptr bind in
          Some (success, Some bval, Some bind)
      | _, _, _, _, _, _ => ret invalid_pointer
      end.

  (** A BSR matrix: mat_structures.hpp 260-325 *)
  Record bsr_mat := mkBsr { bs_m : Z; bs_n : Z; bs_nnz : Z; bs_base : Z; bs_bd : Z; bs_row : bool; bs_ptr : list Z; bs_ind : list Z; bs_val : list T }.

  (** convert.cpp 1218-1429 from the choice of the CSR arrays on (1306-1429): rows, columns,
      base and arrays of the source or its transposed copy; [fz]: content of fresh
      integer storage *)
  Definition convert_bsr_arrays (w : Z) (zero : T) (fz : Z -> list Z) (m n b : Z) (ptr ind : list Z) (val : list T) (bd : Z) (row_order : bool)
      : option (status * option bsr_mat) :=
    if bd =? 0 then None (* division by zero in 1262-1263 *)
    else
    let* mb := chk w (m + bd - 1) in let mb := Z.quot mb bd in
    let* nb := chk w (n + bd - 1) in let nb := Z.quot nb bd in
    let* (st, bptr, bnnz) := csr2bsr_nnz w m n (Some b) (Some ptr) (Some ind) bd (Some (fz (mb + 1))) true in
    match st, bptr, bnnz with
    | success, Some bptr, Some bnnz =>
        let* tot := chk w (bnnz * bd * bd) in
        let* (st, bval, bind) := csr2bsr w m n (Some b) row_order (Some val) (Some ptr) (Some ind) bd (Some (zrep tot zero)) (Some bptr) (Some (fz bnnz)) in
        match st, bval, bind with
        | success, Some bval, Some bind => Some (success, Some (mkBsr (mb * bd) (nb * bd) bnnz b bd row_order bptr bind bval))
        | _, _, _ => Some (st, None)
        end
    | _, _, _ => Some (st, None)
    end.
End B.
Arguments bsr_mat : clear implicits.
