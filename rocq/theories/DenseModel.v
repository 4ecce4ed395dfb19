(** conversion/aoclsparse_convert.hpp 657-925: aoclsparse_csr2dense_template. *)
From Coq Require Import ZArith List Bool.
From Verif Require Import Base Algebra UtilModel DescrModel.
Import ListNotations.
Open Scope Z_scope.

Section Dense.
  Context {T : Type} (O : ops T).

  (** The loop shared by every case (e.g. 745-757): for each row, [pre row], then
      one [ent row col value] per stored element.  The source repeats the loop
      text in each case. *)
  Definition dense_rows (m b : Z) (ptr ind : list Z) (val : list T)
      (pre : Z -> list T -> option (list T)) (ent : Z -> Z -> T -> list T -> option (list T))
      (A : list T) : option (list T) :=
    for_ 0 m (fun row A =>
      let* A := pre row A in
      let* p := rd ptr row in
      let* q := rd ptr (row + 1) in
      for_ (p - b) (q - b) (fun at_ A =>
        let* c := rd ind at_ in
        let* v := rd val at_ in
        ent row (c - b) v A) A) A.

  (** 763-767 (and 829-832, 887-890): the diagonal written before the row. *)
  Definition dense_diag (diag ld row : Z) (A : list T) : option (list T) :=
    if diag =? 1 then wr A (row * ld + row) (o1 O)
    else if diag =? 2 then wr A (row * ld + row) (o0 O)
    else Some A.

  (** 771-798 (symmetric, column order), 836-876 (symmetric or Hermitian, row order)
      and 894-915 (triangular, row order): one stored element.  [dpos] is the address
      expression of the diagonal, [mirror] the value written on the other side
      (none for the triangular case). *)
  Definition dense_half (fill diag ld : Z) (dpos : Z -> Z -> Z) (mirror : T -> option T)
      (row col : Z) (v : T) (A : list T) : option (list T) :=
    if row =? col then
      if diag =? 0 then wr A (dpos row col) v else Some A
    else if (if fill =? 0 then col <? row else row <? col) then
      let* A := wr A (row * ld + col) v in
      match mirror v with
      | Some v' => wr A (col * ld + row) v'
      | None => Some A
      end
    else Some A.

  (** 733-922: the part after the argument checks. *)
  Definition csr2dense_core (m n : Z) (d : mdescr) (ptr ind : list Z) (val A : list T) (ld order : Z)
      : option (list T) :=
    let b := md_base d in
    if order =? 1 then
      let* A := for_ 0 n (fun col A => for_ 0 m (fun row A => wr A (row + ld * col) (o0 O)) A) A in
      if md_type d =? 0 then
        dense_rows m b ptr ind val (fun _ A => Some A) (fun row col v A => wr A (col * ld + row) v) A
      else if md_type d =? 1 then
        dense_rows m b ptr ind val (dense_diag (md_diag d) ld)
          (dense_half (md_fill d) (md_diag d) ld (fun row col => row + col * ld) Some) A
      else Some A
    else
      let* A := for_ 0 m (fun row A => for_ 0 n (fun col A => wr A (col + ld * row) (o0 O)) A) A in
      if md_type d =? 0 then
        dense_rows m b ptr ind val (fun _ A => Some A) (fun row col v A => wr A (row * ld + col) v) A
      else if (md_type d =? 1) || (md_type d =? 2) then
        dense_rows m b ptr ind val (dense_diag (md_diag d) ld)
          (dense_half (md_fill d) (md_diag d) ld (fun row col => row * ld + col)
             (fun v => Some (if md_type d =? 2 then ocj O v else v))) A
      else if md_type d =? 3 then
        dense_rows m b ptr ind val (dense_diag (md_diag d) ld)
          (dense_half (md_fill d) (md_diag d) ld (fun row col => row * ld + col) (fun _ => None)) A
      else Some A.

  (** 668-732: argument checks.  [w] is the number of value bits of aoclsparse_int. *)
  Definition csr2dense (w m n : Z) (d_p : option mdescr) (val_p : option (list T))
      (ptr_p ind_p : option (list Z)) (A_p : option (list T)) (ld order : Z)
      : option (status * option (list T)) :=
    match d_p with
    | None => Some (invalid_pointer, A_p)
    | Some d =>
        if negb (md_base d =? 0) && negb (md_base d =? 1) then Some (invalid_value, A_p)
        else if negb (md_type d =? 0) && negb (md_type d =? 1) && negb (md_type d =? 3) && negb (md_type d =? 2)
        then Some (invalid_value, A_p)
        else if (order =? 1) && ((md_type d =? 3) || (md_type d =? 2)) then Some (not_implemented, A_p)
        else if negb (md_type d =? 0) && (negb (md_fill d =? 0) && negb (md_fill d =? 1)) then Some (invalid_value, A_p)
        else if negb (md_type d =? 0) && (negb (md_diag d =? 0) && negb (md_diag d =? 1) && negb (md_diag d =? 2))
        then Some (invalid_value, A_p)
        else if (m <? 0) || (n <? 0) then Some (invalid_size, A_p)
        else if (m =? 0) || (n =? 0) then Some (success, A_p)
        else
          match val_p, ptr_p, ind_p, A_p with
          | Some val, Some ptr, Some ind, Some A =>
              let* ov := int_product_overflow w (if order =? 1 then n else m) ld in
              if ov then Some (invalid_size, A_p)
              else let* A' := csr2dense_core m n d ptr ind val A ld order in Some (success, Some A')
          | _, _, _, _ => Some (invalid_pointer, A_p)
          end
    end.
End Dense.
