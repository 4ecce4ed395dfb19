(** Product of a sparse matrix with its own (conjugate) transpose into the upper triangle
    of a dense matrix: level3/aoclsparse_syrkd.hpp, level3/aoclsparse_syrkd.cpp. *)
From Coq Require Import ZArith List Bool.
From Verif Require Import Base Algebra DoidModel UtilModel Csr CheckModel Csr2CscModel MvModel CsrmvModel HandleModel Csr2mModel Sp2mdModel OftModel.
Import ListNotations.
Open Scope Z_scope.

Section K.
  Context {T : Type} (O : ops T).
  (** [is_real]: T is float or double; [w]: value bits of aoclsparse_int.  Leaving the
      range of that type is undefined (None).  Allocation failure is not modelled. *)
  Variables (is_real : bool) (w : Z).

  (** syrkd.hpp 42-76: compute_output_row *)
  Definition compute_output_row (conjleft : bool) (order ldc i : Z) (va : T) (s e : Z) (ind : list Z) (val : list T) (b : Z) (C : list T) : option (list T) :=
    for_ s e (fun k C =>
      let* c := rd ind k in
      let j := c - b in
      if j <? i then Some C
      else
        let* v := rd val k in
        let* p := addr w order ldc i j 0 in
        let* x := rd C p in
        wr C p (oadd O x (omul O va (if conjleft then v else ocj O v)))) C.

  (** syrkd.hpp 78-160: aoclsparse_syrkd_online_atb for arrays that are not null *)
  Definition syrkd_atb (conjleft : bool) (m k b : Z) (ptr ind : list Z) (val : list T) (alpha : T) (order ldc : Z) (C : list T) : option (status * list T) :=
    let irend := skipn 1 ptr in
    let* o := oft_init irend b ind b m k ptr b in
    let* (_, C) := for_ 0 k (fun i oC =>
      oft_column irend b ind b m (fun row idx C =>
        let* v := rd val idx in
        let va := omul O alpha (if conjleft then ocj O v else v) in
        let* s := rd ptr row in
        let* e := rd ptr (row + 1) in
        compute_output_row conjleft order ldc i va (s - b) (e - b) ind val b C) i oC) (o, C) in
    Some (success, C).

  (** syrkd.hpp 252-304: the scaling of the upper triangle by beta *)
  Definition upper_scale (order ldc mC : Z) (beta : T) (C : list T) : option (list T) :=
    for_ 0 mC (fun i C => for_ i mC (fun j C =>
      let* p := addr w order ldc i j 0 in
      if oeqb O beta (o0 O) then wr C p (o0 O)
      else let* x := rd C p in wr C p (omul O beta x)) C) C.

  (** syrkd.hpp 162-404: aoclsparse_syrkd_t for handles of the right value type whose
      input format is CSR / CSC.  [layout]: 0 by rows, 1 by columns. *)
  Definition syrkd (op : operation) (A : option (hnd T)) (alpha beta : T) (C_p : option (list T)) (layout ldc : Z) : option (status * option (list T)) :=
    match A, C_p with
    | Some A, Some C =>
        if negb (valid_op op) then Some (invalid_value, C_p)
        else if negb (layout =? 0) && negb (layout =? 1) then Some (invalid_value, C_p)
        else if negb is_real && match op with op_transpose => true | _ => false end then Some (not_implemented, C_p)
        else
          match get_mtx (H_mats A) with
          | None => Some (not_implemented, C_p)
          | Some a =>
              let m := c_m a in
              let n := c_n a in
              let is_gt := c_doid a =? gt in
              if negb is_gt && negb (c_doid a =? gn) then Some (not_implemented, C_p)
              else
                (* eff_none: eff_op is aoclsparse_operation_none *)
                let op_is_none := match op with op_none => true | _ => false end in
                let eff_none := if is_gt then negb op_is_none else op_is_none in
                let conj_flip := is_gt in
                if negb (match H_sort A with fully_sorted => true | _ => false end) && negb eff_none then Some (unsorted_input, C_p)
                else
                  let mC := if eff_none then m else n in
                  if ldc <? mC then Some (invalid_value, C_p)
                  else
                    let* o := int_product_overflow w mC ldc in
                    if o then Some (invalid_size, C_p)
                    else
                      let* C := upper_scale layout ldc mC beta C in
                      if (H_m A =? 0) || (H_n A =? 0) || (H_nnz A =? 0) then Some (success, Some C)
                      else if eff_none then
                        let nnz := H_nnz A in
                        let* r := csr2csc m n nnz (c_b a) (c_b a) (Some (c_ptr a)) (Some (c_ind a)) (Some (c_val a))
                                    (Some (zrep nnz 0)) (Some (zrep (n + 1) 0)) (Some (zrep nnz (o0 O))) in
                        match r with
                        | (success, Some cp, Some ri, Some cv) =>
                            let* (st, C) := syrkd_atb conj_flip n m (c_b a) cp ri cv alpha layout ldc C in
                            Some (st, Some C)
                        | (st, _, _, _) => Some (st, Some C)
                        end
                      else
                        let* (st, C) := syrkd_atb (negb conj_flip) m n (c_b a) (c_ptr a) (c_ind a) (c_val a) alpha layout ldc C in
                        Some (st, Some C)
          end
    | _, _ => Some (invalid_pointer, C_p)
    end.
End K.
