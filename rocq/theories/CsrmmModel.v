(** Product of a sparse and a dense matrix: level3/aoclsparse_csrmm.hpp,
    level3/aoclsparse_csrmm_kt.cpp. *)
From Coq Require Import ZArith List Bool.
From Verif Require Import Base Algebra DoidModel UtilModel Csr CheckModel Csr2CscModel Vec MvModel CsrmvModel HandleModel RowProg Sp2mdModel.
Import ListNotations.
Open Scope Z_scope.

Section P.
  Context {T : Type} (O : ops T).
  (** [is_real], [fz], [ft], [w] as in Sp2mdModel.  [team]: the threads of a parallel
      region in the order in which they finish; [ord k]: the order in which the k
      iterations of an omp parallel for are done.  A parallel region without data
      races is one of its sequential orders (C34).  The products n * thread_num of the
      partitions are taken in Z. *)
  Variables (is_real : bool) (fz : Z -> list Z) (ft : Z -> list T) (w : Z) (team : list Z) (ord : Z -> list Z).
  Local Notation nt := (zlen team).
  Local Notation "a +! b" := (oadd O a b) (at level 50, left associativity).
  Local Notation "a *! b" := (omul O a b) (at level 40, left associativity).

  (** aoclsparse::conj under if constexpr(CONJ_VAL) *)
  Definition cval (cj : bool) (v : T) : T := if cj then ocj O v else v.

  (** Offset in B of row (column index c in base b), column j.  csrmm.hpp 80: B_fix[c +
      j * ldb] with B_fix = B - base; 132-137: B_fix[c * ldb + k], B_fix = B - base * ldb. *)
  Definition baddr (order ldb b c j : Z) : option Z :=
    if order =? 1 then
      let* p := chk w (j * ldb) in
      let* q := chk w (c + p) in
      Some (q - b)
    else
      let* p := chk w (c * ldb) in
      let* q := chk w (p + j) in
      Some (q - b * ldb).

  (** csrmm.hpp 36-88: aoclsparse_csrmm_col_major_ref *)
  Definition col_ref (cj : bool) (alpha : T) (b m : Z) (ptr ind : list Z) (val B : list T) (n ldb : Z) (beta : T) (ldc : Z) (C : list T) : option (list T) :=
    foldM (fun t C => for_ (blo n nt t) (blo n nt (t + 1)) (fun j C =>
      for_ 0 m (fun i C =>
        let* s := rd ptr i in
        let* e := rd ptr (i + 1) in
        let* p := addr w 1 ldc i j 0 in
        let* sum := for_ (s - b) (e - b) (fun k sum =>
          let* c := rd ind k in
          let* q := baddr 1 ldb b c j in
          let* v := rd val k in
          let* bv := rd B q in
          Some (cval cj v *! bv +! sum)) (o0 O) in
        let* c := rd C p in
        wr C p (beta *! c +! alpha *! sum)) C) C) team C.

  (** csrmm.hpp 89-143: aoclsparse_csrmm_row_major_ref *)
  Definition row_ref (cj : bool) (alpha : T) (b m : Z) (ptr ind : list Z) (val B : list T) (n ldb : Z) (beta : T) (ldc : Z) (C : list T) : option (list T) :=
    foldM (fun t C => for_ (blo m nt t) (blo m nt (t + 1)) (fun i C =>
      let* s := rd ptr i in
      let* e := rd ptr (i + 1) in
      let* C := for_ 0 n (fun k C =>
        let* p := addr w 0 ldc i k 0 in
        let* c := rd C p in
        wr C p (c *! beta)) C in
      for_ (s - b) (e - b) (fun q C =>
        let* c := rd ind q in
        let* v := rd val q in
        for_ 0 n (fun k C =>
          let* p := addr w 0 ldc i k 0 in
          let* x := baddr 0 ldb b c k in
          let* bv := rd B x in
          let* c := rd C p in
          wr C p (c +! cval cj v *! bv *! alpha)) C) C) C) team C.

  (** csrmm_kt.cpp 69-74: thread bounds rounded up to a multiple of 4, at most n *)
  Definition rup (n x : Z) : Z := Z.min (if Z.rem x 4 =? 0 then x else x + 4 - Z.rem x 4) n.
  (** csrmm_kt.cpp 83-114: [blkr] after the tests (the last branch leaves it) and the
      four columns read *)
  Definition col_block (n j blkr : Z) : Z * list Z :=
    if j =? n - 1 then (1, [j; j; j; j])
    else if j =? n - 2 then (2, [j; j + 1; j; j])
    else if j =? n - 3 then (3, [j; j + 1; j + 2; j])
    else (blkr, [j; j + 1; j + 2; j + 3]).
  (** csrmm_kt.cpp 116-169: one row against one column of B, given from its first
      element on ([bcol]).  The four columns are independent; here one after the other.
      Conjugating a register is taken as loading from conjugated values. *)
  Definition kt_dot (psz : Z) (cj : bool) (b s e : Z) (val : list T) (ind : list Z) (bcol : list T) : option T :=
    let vals := if cj then map (ocj O) val else val in
    let nnz := e - s in
    let mul := Z.quot nnz psz in
    let rem := nnz - psz * mul in
    let* cij := (if negb (mul =? 0) then
                   let* v := vec_loop O psz b s (e - rem) vals ind bcol (zrep psz (o0 O)) in Some (o0 O +! hsum_kt O v)
                 else Some (o0 O)) in
    if negb (rem =? 0) then dot_row O b (e - rem) e vals ind bcol cij else Some cij.
  (** csrmm_kt.cpp 31-203: csrmm_col_kt with [psz] lanes *)
  Definition col_kt (psz : Z) (cj : bool) (alpha : T) (b m : Z) (ptr ind : list Z) (val B : list T) (n ldb : Z) (beta : T) (ldc : Z) (C : list T) : option (list T) :=
    foldM (fun t C =>
      let* (_, C) := for_step (rup n (blo n nt t)) (rup n (blo n nt (t + 1))) 4 (fun j '(blkr, C) =>
        let '(blkr, cols) := col_block n j blkr in
        let* _ := chk w (j * ldb) in
        let* C := for_ 0 m (fun i C =>
          let* e := rd ptr (i + 1) in
          let* s := rd ptr i in
          let* dots := mapM (fun q => kt_dot psz cj b s e val ind (skipn (Z.to_nat (q * ldb)) B)) cols in
          (* 171-197: the switch falls through from column blkr - 1 down to 0 *)
          for_down 0 blkr (fun q C =>
            let* p := addr w 1 ldc i (j + q) 0 in
            let* d := rd dots q in
            let* c := rd C p in
            wr C p (beta *! c +! d *! alpha)) C) C in
        Some (blkr, C)) (4, C) in
      Some C) team C.

  (** csrmm_kt.cpp 258-292: how many elements of the row a block takes *)
  Definition row_block_len (e idx : Z) : Z := if idx =? e - 1 then 1 else if idx =? e - 2 then 2 else if idx =? e - 3 then 3 else 4.
  (** csrmm_kt.cpp 205-370: csrmm_row_kt with [psz] lanes.  A register of C is loaded,
      updated and stored lane by lane (lanes do not interact); unused duplicates of the
      first element are not loaded again. *)
  Definition row_kt (psz : Z) (cj : bool) (alpha : T) (b m : Z) (ptr ind : list Z) (val B : list T) (n ldb : Z) (beta : T) (ldc : Z) (C : list T) : option (list T) :=
    foldM (fun t C => for_ (blo m nt t) (blo m nt (t + 1)) (fun i C =>
      let* C := for_ 0 n (fun j C =>
        let* p := addr w 0 ldc i j 0 in
        let* c := rd C p in
        wr C p (c *! beta)) C in
      let* s := rd ptr i in
      let* e := rd ptr (i + 1) in
      for_step s e 4 (fun idx C =>
        let* blk := mapM (fun q =>
          let* c := rd ind (q - b) in
          let* v := rd val (q - b) in
          Some (c, cval cj v)) (zrange idx (idx + row_block_len e idx)) in
        let mul := Z.quot n psz in
        let rem := n - psz * mul in
        let* C := for_step 0 (n - rem) psz (fun j C =>
          for_ 0 psz (fun l C =>
            let* p := addr w 0 ldc i (j + l) 0 in
            let* c := rd C p in
            let* c := foldM (fun '(cb, sv) c =>
              let* x := baddr 0 ldb b cb (j + l) in
              let* bv := rd B x in
              Some (alpha *! sv *! bv +! c)) blk c in
            wr C p c) C) C in
        if negb (rem =? 0) then
          for_ (n - rem) n (fun j C =>
            foldM (fun '(cb, sv) C =>
              let* p := addr w 0 ldc i j 0 in
              let* x := baddr 0 ldb b cb j in
              let* bv := rd B x in
              let* c := rd C p in
              wr C p (c +! sv *! bv *! alpha)) blk C) C
        else Some C) C) C) team C.

  (** csrmm.hpp 176, 191, 211, 279, 293, ...: C(i,j) += v * B(r,j) * alpha *)
  Definition add_cell (order : Z) (alpha : T) (B : list T) (ldb ldc : Z) (v : T) (i r j : Z) (C : list T) : option (list T) :=
    let* p := addr w order ldc i j 0 in
    let* x := baddr order ldb 0 r j in
    let* bv := rd B x in
    let* c := rd C p in
    wr C p (c +! v *! bv *! alpha).
  (** csrmm.hpp 145-345: aoclsparse_csrmm_sym_row_ref, aoclsparse_csrmm_sym_col_ref.
      They differ in the addresses only. *)
  Definition sym_ref (herm cj : bool) (fill : fill_mode) (diag : diag_type) (order : Z) (alpha : T) (b m : Z) (ptr ind : list Z) (val B : list T) (n ldb ldc : Z)
      (C : list T) : option (list T) :=
    let upd1 v i r j C := add_cell order alpha B ldb ldc v i r j C in
    for_ 0 m (fun i C =>
      let* s := rd ptr i in
      let* e := rd ptr (i + 1) in
      let* C := (if match diag with dg_unit => true | _ => false end then for_ 0 n (fun j C => upd1 (o1 O) i i j C) C else Some C) in
      for_ (s - b) (e - b) (fun k C =>
        let* v0 := rd val k in
        let v := cval cj v0 in
        let* cb := rd ind k in
        let c := cb - b in
        if (i =? c) && (match diag with dg_non_unit => true | _ => false end) then for_ 0 n (fun j C => upd1 v i c j C) C
        else
          for_ 0 n (fun j C =>
            if (match fill with fm_lower => c <? i | fm_upper => i <? c end) then
              let* C := upd1 v i c j C in
              upd1 (if herm then ocj O v else v) c i j C
            else Some C) C) C) C.

  (** csrmm.hpp 349-428: scale_dense_matrix *)
  Definition scale_dense (order ldc m n : Z) (beta : T) (C : list T) : option (list T) :=
    let body i j C :=
      if oeqb O beta (o0 O) then
        let* p := addr w order ldc i j 0 in
        wr C p (o0 O)
      else
        let* p := addr w order ldc i j 0 in
        let* c := rd C p in
        wr C p (beta *! c) in
    if order =? 1 then foldM (fun j C => for_ 0 m (fun i C => body i j C) C) (ord n) C
    else foldM (fun i C => for_ 0 n (fun j C => body i j C) C) (ord m) C.

  (** csrmm.hpp 773-838: the kernel the dispatcher picked: reference, or vectorised with
      [psz] lanes *)
  Inductive mm_kernel := mk_ref | mk_kt (psz : Z).
  Definition run_kernel (kr : mm_kernel) (order : Z) (cj : bool) (alpha : T) (b m : Z) (ptr ind : list Z) (val B : list T) (n ldb : Z) (beta : T) (ldc : Z)
      (C : list T) : option (list T) :=
    match kr with
    | mk_ref => if order =? 1 then col_ref cj alpha b m ptr ind val B n ldb beta ldc C else row_ref cj alpha b m ptr ind val B n ldb beta ldc C
    | mk_kt psz => if order =? 1 then col_kt psz cj alpha b m ptr ind val B n ldb beta ldc C else row_kt psz cj alpha b m ptr ind val B n ldb beta ldc C
    end.

  (** csrmm.hpp 622-656: the first stored matrix with the requested operation id *)
  Fixpoint find_doid (l : list (option (cmat T))) (d i : Z) : option (Z * cmat T) :=
    match l with
    | [] => None
    | Some c :: l' => if c_doid c =? d then Some (i, c) else find_doid l' d (i + 1)
    | None :: l' => find_doid l' d (i + 1)
    end.

  (** csrmm.hpp 430-839: aoclsparse_csrmm_t for handles of the right value type whose
      stored matrices are all of class csr (input format CSR / CSC).  [kern]: what the
      dispatcher returns for the table (None: no suitable kernel).  [order]: 0 by rows,
      1 by columns.  Result: status, C and the handle after the call.  Not modelled:
      allocation failure. *)
  Definition csrmm (kern : option mm_kernel) (op : operation) (alpha : T) (A : option (hnd T)) (d : option descr) (order : Z) (B_p : option (list T)) (n ldb : Z)
      (beta : T) (C_p : option (list T)) (ldc : Z) : option (status * option (list T) * option (hnd T)) :=
    match A, B_p, C_p, d with
    | Some h, Some B, Some C, Some d =>
        let fail s := Some (s, Some C, Some h) in
        let general := match d_type d with mt_general => true | _ => false end in
        let none := match op with op_none => true | _ => false end in
        let m := H_m h in
        let k := H_n h in
        if negb (valid_op op) then fail invalid_value
        else if match d_type d with mt_triangular => true | _ => false end then fail not_implemented
        else if negb general && negb (m =? k) then fail invalid_size
        else if negb (order =? 0) && negb (order =? 1) then fail invalid_value
        else
          match H_mats h with
          | [] | None :: _ => fail invalid_value
          | Some u :: _ =>
              if negb (c_b u =? d_base d) then fail invalid_value
              else if negb ((c_doid u =? gt) || (c_doid u =? gn)) then fail not_implemented
              else if (m <? 0) || (n <? 0) || (k <? 0) then fail invalid_size
              else if (m =? 0) || (n =? 0) || (k =? 0) then fail success
              else if oeqb O alpha (o0 O) && oeqb O beta (o1 O) then fail success
              else
                let* req := get_doid is_real (d_type d) (d_fill d) op in
                let is_gt := c_doid u =? gt in
                let eff := if is_gt then trans_doid req else req in
                let fill := if is_gt && negb general then flip_fill (d_fill d) else d_fill d in
                let check_ldb := if none then (if order =? 1 then k else n) else (if order =? 1 then m else n) in
                if ldb <? Z.max 1 check_ldb then fail invalid_size
                else
                  let check_ldc := if none then (if order =? 1 then m else n) else (if order =? 1 then k else n) in
                  if ldc <? Z.max 1 check_ldc then fail invalid_size
                  else
                    let m_c := if none then m else k in
                    let b_rows := if none then k else m in
                    let* o1 := int_product_overflow w (if order =? 1 then n else m_c) ldc in
                    let* o2 := (if o1 then Some true else int_product_overflow w (if order =? 1 then n else b_rows) ldb) in
                    if o1 || o2 then fail invalid_size
                    else if oeqb O alpha (o0 O) then
                      let* C := scale_dense order ldc m_c n beta C in Some (success, Some C, Some h)
                    else
                      let kernel h cj b mb ptr ind val :=
                        match kern with
                        | None => Some (invalid_kid, Some C, Some h)
                        | Some kr => let* C := run_kernel kr order cj alpha b mb ptr ind val B n ldb beta ldc C in Some (success, Some C, Some h)
                        end in
                      match find_doid (H_mats h) req 0 with
                      | Some (i, c) =>
                          let* (st, h, c) :=
                            (if negb (match d_diag d, c_mdiag c with
                                      | dg_non_unit, dg_non_unit | dg_unit, dg_unit | dg_zero, dg_zero => true | _, _ => false end) && negb general then
                               let* (st, c') := set_mat_diag O m (d_diag d) c in
                               Some (st, set_mats h (upd (H_mats h) i (Some c')), c')
                             else Some (success, h, c)) in
                          match st with
                          | success => kernel h false (c_b c) (c_m c) (c_ptr c) (c_ind c) (c_val c)
                          | _ => Some (st, Some C, Some h)
                          end
                      | None =>
                          let sym herm :=
                            let conj_sym := (eff =? slc) || (eff =? suc) || (eff =? hlc) || (eff =? huc) in
                            let* C := scale_dense order ldc m_c n beta C in
                            let* C := sym_ref herm conj_sym fill (d_diag d) order alpha (d_base d) k (c_ptr u) (c_ind u) (c_val u) B n ldb ldc C in
                            Some (success, Some C, Some h) in
                          if (eff =? sl) || (eff =? su) || (eff =? slc) || (eff =? suc) then sym false
                          else if (eff =? hl) || (eff =? hu) || (eff =? hlc) || (eff =? huc) then sym true
                          else if (eff =? gc) || (eff =? gn) then kernel h (eff =? gc) (d_base d) (c_m u) (c_ptr u) (c_ind u) (c_val u)
                          else if (eff =? gt) || (eff =? gh) then
                            let* r := csr2csc (c_m u) (c_n u) (H_nnz h) (d_base d) (d_base d) (Some (c_ptr u)) (Some (c_ind u)) (Some (c_val u))
                                        (Some (fz (H_nnz h))) (Some (fz (c_n u + 1))) (Some (ft (H_nnz h))) in
                            match r with
                            | (success, Some cp, Some ri, Some cv) => kernel h (eff =? gh) (d_base d) (c_n u) cp ri cv
                            | _ => fail internal_error
                            end
                          else fail not_implemented
                      end
          end
    | _, _, _, _ => Some (invalid_pointer, C_p, A)
    end.
End P.
