(** Symmetric triple product with a dense matrix: level3/aoclsparse_syprd.hpp. *)
From Coq Require Import ZArith List Bool.
From Verif Require Import Base Algebra DoidModel UtilModel Csr CheckModel Csr2CscModel MvModel CsrmvModel HandleModel Csr2mModel Sp2mdModel SyrkdModel.
Import ListNotations.
Open Scope Z_scope.

Section K.
  Context {T : Type} (O : ops T).
  (** [is_real]: T is float or double; [w]: value bits of aoclsparse_int.  Leaving the
      range of that type is undefined (None).  Allocation failure is not modelled. *)
  Variables (is_real : bool) (w : Z).

  (** syprd.hpp 119-143: row [i] of alpha*M*B (alpha*conj(M)*B) for B stored by rows;
      [s], [e]: the bounds of the row *)
  Definition temp_row (conjleft : bool) (b n ldb : Z) (ind : list Z) (val : list T) (alpha : T) (B : list T) (s e : Z) : option (list T) :=
    for_ s e (fun k temp =>
      let* c := rd ind k in
      let cm := c - b in
      let* v := rd val k in
      let vm := omul O alpha (if conjleft then ocj O v else v) in
      let* temp := for_ 0 cm (fun j temp =>
        let* p := addr w 0 ldb j cm 0 in
        let* x := rd B p in
        let* t := rd temp j in
        wr temp j (oadd O t (omul O (ocj O x) vm))) temp in
      for_ cm n (fun j temp =>
        let* p := addr w 0 ldb cm j 0 in
        let* x := rd B p in
        let* t := rd temp j in
        wr temp j (oadd O t (omul O x vm))) temp) (zrep n (o0 O)).

  (** syprd.hpp 239-261: the same for B stored by columns *)
  Definition temp_col (conjleft : bool) (b n ldb : Z) (ind : list Z) (val : list T) (alpha : T) (B : list T) (s e : Z) : option (list T) :=
    for_ 0 n (fun j temp =>
      let* temp := wr temp j (o0 O) in
      let* temp := for_ s e (fun k temp =>
        let* c := rd ind k in
        let cm := c - b in
        let* x := if j <? cm then let* p := addr w 1 ldb j cm 0 in let* x := rd B p in Some (ocj O x)
                  else let* p := addr w 1 ldb cm j 0 in rd B p in
        let* v := rd val k in
        let vm := if conjleft then ocj O v else v in
        let* t := rd temp j in
        wr temp j (oadd O t (omul O vm x))) temp in
      let* t := rd temp j in
      wr temp j (omul O t alpha)) (zrep n (o0 O)).

  (** syprd.hpp 43-163 (order 0) and 165-283 (order 1): aoclsparse_syprd_row_ref,
      aoclsparse_syprd_col_ref.  The work array is created afresh for every row here; the
      code clears it.  The scaling loops differ from those of syrkd only in where beta is
      tested. *)
  Definition syprd_ref (conjleft : bool) (order b m n : Z) (ptr ind : list Z) (val : list T) (B : list T) (ldb : Z) (alpha beta : T) (C : list T) (ldc : Z) : option (list T) :=
    let* C := upper_scale O w order ldc m beta C in
    if oeqb O alpha (o0 O) then Some C
    else for_ 0 m (fun i C =>
      let* s := rd ptr i in
      let* e := rd ptr (i + 1) in
      let* temp := if order =? 1 then temp_col conjleft b n ldb ind val alpha B (s - b) (e - b) else temp_row conjleft b n ldb ind val alpha B (s - b) (e - b) in
      for_ i m (fun j C =>
        let* s := rd ptr j in
        let* e := rd ptr (j + 1) in
        let* p := addr w order ldc i j 0 in
        for_ (s - b) (e - b) (fun k C =>
          let* c := rd ind k in
          let* t := rd temp (c - b) in
          let* v := rd val k in
          let* x := rd C p in
          wr C p (oadd O x (omul O t (if conjleft then v else ocj O v)))) C) C) C.

  (** syprd.hpp 285-576: aoclsparse_syprd for handles of the right value type.  Orders: 0
      by rows, 1 by columns. *)
  Definition syprd (op : operation) (A : option (hnd T)) (B_p : option (list T)) (orderB ldb : Z) (alpha beta : T) (C_p : option (list T)) (orderC ldc : Z) : option (status * option (list T)) :=
    match A, B_p, C_p with
    | Some A, Some B, Some C =>
        if negb (valid_op op) then Some (invalid_value, C_p)
        else if negb (orderB =? 0) && negb (orderB =? 1) then Some (invalid_value, C_p)
        else if negb (orderC =? 0) && negb (orderC =? 1) then Some (invalid_value, C_p)
        else if negb (orderB =? orderC) then Some (invalid_operation, C_p)
        else
          match get_mtx (H_mats A) with
          | None => Some (invalid_pointer, C_p)
          | Some a =>
              let is_gt := c_doid a =? gt in
              if negb is_gt && negb (c_doid a =? gn) then Some (not_implemented, C_p)
              else if negb is_real && match op with op_transpose => true | _ => false end then Some (not_implemented, C_p)
              else
                let op_is_none := match op with op_none => true | _ => false end in
                let eff_none := if is_gt then negb op_is_none else op_is_none in
                if (H_m A <? 0) || (H_n A <? 0) then Some (invalid_size, C_p)
                else if H_m A =? 0 then Some (success, C_p)
                else if oeqb O alpha (o0 O) && oeqb O beta (o1 O) then Some (success, C_p)
                else
                  let check_ldb := if op_is_none then H_n A else H_m A in
                  if ldb <? Z.max 1 check_ldb then Some (invalid_size, C_p)
                  else
                    let check_ldc := if op_is_none then H_m A else H_n A in
                    if ldc <? Z.max 1 check_ldc then Some (invalid_size, C_p)
                    else
                      let* o1 := int_product_overflow w check_ldc ldc in
                      let* o2 := if o1 then Some true else int_product_overflow w check_ldb ldb in
                      if o2 then Some (invalid_size, C_p)
                      else
                        let conjleft := negb is_real && match op with op_conjugate_transpose => true | _ => false end in
                        if eff_none then
                          let* C := syprd_ref conjleft orderB (c_b a) (c_m a) (c_n a) (c_ptr a) (c_ind a) (c_val a) B ldb alpha beta C ldc in
                          Some (success, Some C)
                        else
                          let nnz := H_nnz A in
                          let* r := csr2csc (c_m a) (c_n a) nnz (c_b a) (c_b a) (Some (c_ptr a)) (Some (c_ind a)) (Some (c_val a))
                                      (Some (zrep nnz 0)) (Some (zrep (c_n a + 1) 0)) (Some (zrep nnz (o0 O))) in
                          match r with
                          | (success, Some cp, Some ri, Some cv) =>
                              let* C := syprd_ref conjleft orderB (c_b a) (c_n a) (c_m a) cp ri cv B ldb alpha beta C ldc in
                              Some (success, Some C)
                          | _ => Some (internal_error, C_p)
                          end
          end
    | _, _, _ => Some (invalid_pointer, C_p)
    end.
End K.
