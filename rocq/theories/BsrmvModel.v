(** Model of products with BSR matrices given by their arrays:
    /repo/library/src/level2/aoclsparse_bsrmv.cpp 28-215, aoclsparse_bsrmv_kr.hpp 32-150,
    aoclsparse_bsrmv_bldr.hpp 30-262, aoclsparse_bsrmv_kt.cpp 29-106.
    [w]: value bits of aoclsparse_int; products computed in that type are checked,
    products computed in size_t are not.  [b] is the base, [bd] the block dimension. *)
From Coq Require Import ZArith List Bool.
From Verif Require Import Base Algebra Vec UtilModel DoidModel MvModel CsrmvModel HandleModel FmtMvModel.
Import ListNotations.
Open Scope Z_scope.

Section K.
  Context {T : Type} (O : ops T).
  Local Notation zero := (o0 O).
  Local Infix "+!" := (oadd O) (at level 50, left associativity).
  Local Infix "*!" := (omul O) (at level 40, left associativity).

  (** kr.hpp 32-88: any block dimension; [alpha_s], [beta_s]: template flags *)
  Definition bsrmv_gn (w : Z) (alpha_s beta_s : bool) (alpha : T) (mb bd b : Z) (val : list T) (ind ptr : list Z)
      (x : list T) (beta : T) (y : list T) : option (list T) :=
    for_ 0 mb (fun ai y =>
      let* s := rd ptr ai in
      let* e := rd ptr (ai + 1) in
      for_ 0 bd (fun bi y =>
        let* sum := for_ (s - b) (e - b) (fun aj sum =>
          let* c := rd ind aj in
          let* sq := chk w (bd * bd) in
          let* vo := chk w (sq * aj) in
          let* xo := chk w (bd * (c - b)) in
          for_ 0 bd (fun bj sum =>
            let* v := rd val (vo + bi + bd * bj) in
            let* xv := rd x (xo + bj) in
            Some (sum +! v *! xv)) sum) zero in
        let sum := if alpha_s then sum *! alpha else sum in
        let* sum := (if beta_s then let* yv := rd y (ai * bd + bi) in Some (sum +! beta *! yv) else Some sum) in
        wr y (ai * bd + bi) sum) y) y.

  (** bldr.hpp 157-166 (row_compute) and 214-224 (compute): the columns of the block at
      [vo] from the last to the first, all rows of a column in ascending order *)
  Definition compute (bd : Z) (val : list T) (vo : Z) (x : list T) (xo : Z) (sum : list T) : option (list T) :=
    for_down 0 bd (fun bj sum =>
      for_ 0 bd (fun r sum =>
        let* v := rd val (vo + bd * bj + r) in
        let* xv := rd x (xo + bj) in
        let* s := rd sum r in
        wr sum r (v *! xv +! s)) sum) sum.

  (** bldr.hpp 226-262 (compute_column_chunks, compute_v): columns from the last to the
      first, each in chunks of [tsz] elements from the last to the first.  The array of
      vectors sum_v is kept as one list. *)
  Definition compute_v (tsz bd : Z) (val : list T) (vo : Z) (x : list T) (xo : Z) (sum : list T) : option (list T) :=
    for_down 0 bd (fun bj sum =>
      for_down 0 (bd / tsz) (fun c sum =>
        let* cv := vload tsz val (vo + bj * bd + c * tsz) in
        let* xv := rd x (xo + bj) in
        let* sv := vload tsz sum (c * tsz) in
        vstore tsz (map2 (fun a s => a *! xv +! s) cv sv) sum (c * tsz)) sum) sum.

  (** kr.hpp 90-150 with [tsz] = [None], kt.cpp 29-106 with [tsz] = [Some] vector length:
      compile-time block dimension.  kt.cpp 52, 86 multiply in aoclsparse_int, kr.hpp in
      size_t.  alpha_scal, beta_scal and store_res (bldr.hpp 45-140) treat the elements of
      a block row one by one or in vectors; the elements are independent, and they are
      run in ascending order here. *)
  Definition bsrmv_nxn (w : Z) (tsz : option Z) (alpha_s beta_s : bool) (alpha : T) (mb bd b : Z) (val : list T) (ind ptr : list Z)
      (x : list T) (beta : T) (y : list T) : option (list T) :=
    for_ 0 mb (fun ai y =>
      let* s := rd ptr ai in
      let* e := rd ptr (ai + 1) in
      let* sum := for_ (s - b) (e - b) (fun aj sum =>
        let* c := rd ind aj in
        match tsz with
        | None => compute bd val (bd * bd * aj) x (bd * (c - b)) sum
        | Some t => let* vo := chk w (bd * bd * aj) in compute_v t bd val vo x (bd * (c - b)) sum
        end) (zrep bd zero) in
      let sum := if alpha_s then map (fun v => v *! alpha) sum else sum in
      let* sum := (if beta_s then for_ 0 bd (fun r sum =>
          let* yv := rd y (ai * bd + r) in
          let* s := rd sum r in wr sum r (s +! beta *! yv)) sum else Some sum) in
      for_ 0 bd (fun r y => let* s := rd sum r in wr y (ai * bd + r) s) y) y.

  (** bsrmv.cpp 31-68 (get_kernel): vector length of the kernel for a block dimension;
      [a512]: the AVX-512 kernels are selected *)
  Definition bsr_tsz (dt : dtype) (a512 : bool) (bd : Z) : option Z :=
    match dt with
    | dt_d => if bd =? 4 then Some 4 else if (bd =? 8) || (bd =? 16) then Some (if a512 then 8 else 4) else None
    | dt_s => if bd =? 8 then Some 8 else if bd =? 16 then Some (if a512 then 16 else 8) else None
    | _ => None
    end.

  (** bsrmv.cpp 71-170 and 173-215.  Result: status and y if written. *)
  Definition bsrmv (w : Z) (dt : dtype) (a512 : bool) (op : operation) (alpha : option T) (mb nb bd : Z)
      (val : option (list T)) (ind ptr : option (list Z)) (d : option descr) (x : option (list T)) (beta : option T)
      (y : option (list T)) : option (status * option (list T)) :=
    match alpha, beta with
    | Some alpha, Some beta =>
      let alpha_s := negb (oeqb O alpha (o1 O)) in
      let beta_s := negb (oeqb O beta zero) in
      match d with
      | None => Some (invalid_pointer, None)
      | Some d =>
        if negb ((d_base d =? 0) || (d_base d =? 1)) then Some (invalid_value, None)
        else if negb (match d_type d with mt_general => true | _ => false end) then Some (not_implemented, None)
        else if negb (match op with op_none => true | _ => false end) then Some (not_implemented, None)
        else if (mb <? 0) || (nb <? 0) || (bd <=? 0) then Some (invalid_size, None)
        else if (mb =? 0) || (nb =? 0) then Some (success, None)
        else match val, ptr, ind, x, y with
        | Some val, Some ptr, Some ind, Some x, Some y =>
          let* y := (if (1 <? bd) && (bd <=? 8) || (bd =? 16)
                     then bsrmv_nxn w (bsr_tsz dt a512 bd) alpha_s beta_s alpha mb bd (d_base d) val ind ptr x beta y
                     else bsrmv_gn w alpha_s beta_s alpha mb bd (d_base d) val ind ptr x beta y) in
          Some (success, Some y)
        | _, _, _, _, _ => Some (invalid_pointer, None)
        end
      end
    | _, _ => Some (invalid_pointer, None)
    end.
End K.
