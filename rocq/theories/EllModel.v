(** ELL conversions: conversion/aoclsparse_convert.hpp 40-288 and
    conversion/aoclsparse_convert.cpp 311-408. *)
From Coq Require Import ZArith List Bool.
From Verif Require Import Base DescrModel.
Import ListNotations.
Open Scope Z_scope.

(** convert.cpp 311-342: aoclsparse_csr2ell_width; [out] is *ell_width (none: null). *)
Definition csr2ell_width (m nnz : Z) (ptr_p : option (list Z)) (out : option Z) : option (status * option Z) :=
  if m <? 0 then Some (invalid_size, out)
  else match out with
  | None => Some (invalid_pointer, out)
  | Some _ =>
      match ptr_p with
      | None => Some (invalid_pointer, out)
      | Some ptr =>
          let* wd := for_ 0 m (fun i wd =>
            let* q := rd ptr (i + 1) in
            let* p := rd ptr i in
            let row_nnz := q - p in
            Some (if wd <? row_nnz then row_nnz else wd)) 0 in
          Some (success, Some wd)
      end
  end.

Section Ell.
  Context {T : Type} (z : T).

  (** convert.hpp 84-106: row [i] of csr2ell. *)
  Definition csr2ell_row (b wd : Z) (ptr ind : list Z) (val : list T) (i : Z) (cv : list Z * list T)
      : option (list Z * list T) :=
    let '(c, v) := cv in
    let p := i * wd in
    let* rb := rd ptr i in
    let* re := rd ptr (i + 1) in
    let row_begin := rb - b in
    let row_end := re - b in
    let row_nnz := row_end - row_begin in
    let* (p, c, v) := for_ row_begin row_end (fun j '(p, c, v) =>
        let* cj := rd ind j in
        let* c := wr c p cj in
        let* vj := rd val j in
        let* v := wr v p vj in
        Some (p + 1, c, v)) (p, c, v) in
    let* (p, c, v) := for_ row_nnz wd (fun j '(p, c, v) =>
        let* c := wr c p (-1) in
        let* v := wr v p z in
        Some (p + 1, c, v)) (p, c, v) in
    Some (c, v).

  (** 40-107: aoclsparse_csr2ell_template.  The descriptor is dereferenced unchecked. *)
  Definition csr2ell (m : Z) (d_p : option mdescr) (ptr_p ind_p : option (list Z)) (val_p : option (list T))
      (c_p : option (list Z)) (v_p : option (list T)) (wd : Z)
      : option (status * option (list Z) * option (list T)) :=
    if (m <? 0) || (wd <? 0) then Some (invalid_size, c_p, v_p)
    else if (m =? 0) || (wd =? 0) then Some (success, c_p, v_p)
    else match val_p, ptr_p, ind_p, v_p, c_p with
    | Some val, Some ptr, Some ind, Some v, Some c =>
        let* d := d_p in
        let* (c, v) := for_ 0 m (csr2ell_row (md_base d) wd ptr ind val) (c, v) in
        Some (success, Some c, Some v)
    | _, _, _, _, _ => Some (invalid_pointer, c_p, v_p)
    end.

  (** Copy of one row with stride [m] and padding that repeats the last column
      index: 151-172 (csr2ellt) and 264-280 (csr2ellthybrid). *)
  Definition ellt_row (b m wd : Z) (ptr ind : list Z) (val : list T) (i : Z) (cv : list Z * list T)
      : option (list Z * list T) :=
    let '(c, v) := cv in
    let* rb := rd ptr i in
    let* re := rd ptr (i + 1) in
    let row_begin := rb - b in
    let row_end := re - b in
    let* (k, c, v) := for_ row_begin row_end (fun j '(k, c, v) =>
        let* cj := rd ind j in
        let* c := wr c (k * m + i) cj in
        let* vj := rd val j in
        let* v := wr v (k * m + i) vj in
        Some (k + 1, c, v)) (0, c, v) in
    for_ k wd (fun k '(c, v) =>
        let* cl := rd ind (row_end - 1) in
        let* c := wr c (k * m + i) cl in
        let* v := wr v (k * m + i) z in
        Some (c, v)) (c, v).

  (** 109-175: aoclsparse_csr2ellt_template *)
  Definition csr2ellt (m : Z) (d_p : option mdescr) (ptr_p ind_p : option (list Z)) (val_p : option (list T))
      (c_p : option (list Z)) (v_p : option (list T)) (wd : Z)
      : option (status * option (list Z) * option (list T)) :=
    if (m <? 0) || (wd <? 0) then Some (invalid_size, c_p, v_p)
    else if (m =? 0) || (wd =? 0) then Some (success, c_p, v_p)
    else match val_p, ptr_p, ind_p, v_p, c_p with
    | Some val, Some ptr, Some ind, Some v, Some c =>
        let* d := d_p in
        let* (c, v) := for_ 0 m (ellt_row (md_base d) m wd ptr ind val) (c, v) in
        Some (success, Some c, Some v)
    | _, _, _, _, _ => Some (invalid_pointer, c_p, v_p)
    end.

  (** 238-282: one row of the hybrid; state: t_csr_ridx, csr_row_idx_map, arrays.
      t_ridx equals i throughout (incremented once per iteration). *)
  Definition hyb_row (b m wd : Z) (ptr ind : list Z) (val : list T) (i : Z)
      (s : Z * list Z * list Z * list T) : option (Z * list Z * list Z * list T) :=
    let '(t, rmap, c, v) := s in
    let* rb := rd ptr i in
    let* re := rd ptr (i + 1) in
    let row_begin := rb - b in
    let row_end := re - b in
    if wd <? row_end - row_begin then
      let* rmap := wr rmap t i in
      let* (c, v) := for_ 0 wd (fun j '(c, v) =>
          let* cl := rd ind (row_end - 1) in
          let* c := wr c (j * m + i) cl in
          let* v := wr v (j * m + i) z in
          Some (c, v)) (c, v) in
      Some (t + 1, rmap, c, v)
    else
      let* (c, v) := ellt_row b m wd ptr ind val i (c, v) in
      Some (t, rmap, c, v).

  (** 177-288: aoclsparse_csr2ellthybrid_template; [em] is *ell_m (none: null). *)
  Definition csr2ellthybrid (m b : Z) (em : option Z) (ptr_p ind_p : option (list Z)) (val_p : option (list T))
      (map_p c_p : option (list Z)) (v_p : option (list T)) (wd : Z)
      : option (status * option Z * option (list Z) * option (list Z) * option (list T)) :=
    if (m <? 0) || (wd <? 0) then Some (invalid_size, em, map_p, c_p, v_p)
    else if m =? 0 then Some (success, em, map_p, c_p, v_p)
    else match val_p, ptr_p, ind_p, v_p, c_p, map_p, em with
    | Some val, Some ptr, Some ind, Some v, Some c, Some rmap, Some _ =>
        let* me := for_ 0 m (fun k me =>
          let* q := rd ptr (k + 1) in
          let* p := rd ptr k in
          Some (if q - p <=? wd then me + 1 else me)) 0 in
        let* (_, rmap, c, v) := for_ 0 m (hyb_row b m wd ptr ind val) (0, rmap, c, v) in
        Some (success, Some me, Some rmap, Some c, Some v)
    | _, _, _, _, _, _, _ => Some (invalid_pointer, em, map_p, c_p, v_p)
    end.
End Ell.

(** convert.cpp 344-408: aoclsparse_csr2ellthyb_width; outputs *ell_m, *ell_width. *)
Definition csr2ellthyb_width (m nnz : Z) (ptr_p : option (list Z)) (em wd : option Z)
    : option (status * option Z * option Z) :=
  if m <? 0 then Some (invalid_size, em, wd)
  else if m =? 0 then
    match wd, em with Some _, Some _ => Some (success, Some 0, Some 0) | _, _ => None end
  else match wd with
  | None => Some (invalid_pointer, em, wd)
  | Some _ =>
      match ptr_p with
      | None => Some (invalid_pointer, em, wd)
      | Some ptr =>
          let nnza := Z.quot nnz m in
          let* (mx, mn, cmx, cmn) := for_ 0 m (fun i '(mx, mn, cmx, cmn) =>
            let* q := rd ptr (i + 1) in
            let* p := rd ptr i in
            let nnzi := q - p in
            let mx := if (mx <? nnzi) && (nnzi <=? nnza) then nnzi else mx in
            let mn := if (nnzi <? mn) && (nnza <? nnzi) then nnzi else mn in
            Some (if nnzi <=? nnza then (mx, mn, cmx + 1, cmn) else (mx, mn, cmx, cmn + 1)))
            (0, nnz, 0, 0) in
          let width := if cmn <=? cmx then mx else mn in
          match em with
          | None => None
          | Some _ =>
              let* me := for_ 0 m (fun i me =>
                let* q := rd ptr (i + 1) in
                let* p := rd ptr i in
                Some (if q - p <=? width then me + 1 else me)) 0 in
              Some (success, Some me, Some width)
          end
      end
  end.
