(** Product of two sparse matrices into a dense one: level3/aoclsparse_sp2md.hpp,
    level3/aoclsparse_spmmd.cpp. *)
From Coq Require Import ZArith List Bool.
From Verif Require Import Base Algebra DoidModel UtilModel Csr CheckModel Csr2CscModel MvModel HandleModel Csr2mModel.
Import ListNotations.
Open Scope Z_scope.

Section P.
  Context {T : Type} (O : ops T).
  (** [is_real]: T is float or double; [fz n], [ft n]: n freshly allocated elements;
      [w]: value bits of aoclsparse_int.  Address arithmetic is signed: leaving the
      range of the type is undefined (None). *)
  Variables (is_real : bool) (fz : Z -> list Z) (ft : Z -> list T) (w : Z).

  (** Offset of row i, index c in base b.  sp2md.hpp 391, 410: C[i * ldc + j],
      C[i + j * ldc]; 151, 175: C[ci + colidx_b[k] - base_b] with ci = i * ldc; 85, 104:
      C[ci + (colidx_b[k] - base_b) * ldc].  [order]: 1 by columns, otherwise by rows. *)
  Definition addr (order ldc i c b : Z) : option Z :=
    if order =? 1 then
      let* d := chk w (c - b) in
      let* p := chk w (d * ldc) in
      chk w (i + p)
    else
      let* ci := chk w (i * ldc) in
      let* p := chk w (ci + c) in
      chk w (p - b).

  (** sp2md.hpp 384-396, 408-420: the scaling of C by beta *)
  Definition dense_scale (order ldc m n : Z) (beta : T) (C : list T) : option (list T) :=
    let body i j C :=
      if oeqb O beta (o0 O) then
        let* p := addr order ldc i j 0 in
        wr C p (o0 O)
      else
        let* p := addr order ldc i j 0 in
        let* c := rd C p in
        wr C p (omul O beta c) in
    if negb (oeqb O beta (o0 O)) && oeqb O beta (o1 O) then Some C
    else if order =? 1 then for_ 0 n (fun j C => for_ 0 m (fun i C => body i j C) C) C
    else for_ 0 m (fun i C => for_ 0 n (fun j C => body i j C) C) C.

  (** sp2md.hpp 82-86, 101-105, 149-152, 173-176: row [r] of B is added, times [v], to
      row [i] of C *)
  Definition add_row (order ldc bB : Z) (Bptr Bind : list Z) (Bval : list T) (v : T) (i r : Z) (C : list T) : option (list T) :=
    let* s := rd Bptr r in
    let* e := rd Bptr (r + 1) in
    for_ (s - bB) (e - bB) (fun k C =>
      let* cb := rd Bind k in
      let* vb := rd Bval k in
      let* p := addr order ldc i cb bB in
      let* c := rd C p in
      wr C p (oadd O c (omul O v vb))) C.

  (** sp2md.hpp 39-109 and 111-180: aoclsparse_sp2md_ref_col, aoclsparse_sp2md_ref_row.
      [tA]: opA is not none; [cA]: the template argument CONJ_A. *)
  Definition sp2md_ref (tA cA : bool) (order ldc m_a bA bB : Z) (Aptr Aind : list Z) (Aval : list T) (Bptr Bind : list Z) (Bval : list T)
      (alpha : T) (C : list T) : option (list T) :=
    for_ 0 m_a (fun i C =>
      let* s := rd Aptr i in
      let* e := rd Aptr (i + 1) in
      for_ (s - bA) (e - bA) (fun j C =>
        let* ca := rd Aind j in
        let* va := rd Aval j in
        let v := omul O alpha (if cA then ocj O va else va) in
        if tA then add_row order ldc bB Bptr Bind Bval v (ca - bA) i C
        else add_row order ldc bB Bptr Bind Bval v i (ca - bA) C) C) C.

  (** sp2md.hpp 315-377: the matrix used for op(B).  Allocation failure is not modelled. *)
  Definition b_operand (b : cmat T) (tB cB : bool) : option (status * cmat T) :=
    if negb tB && negb cB then Some (success, b)
    else if tB then
      let* (st, b') := make_transposed fz ft b in
      match st with
      | success =>
          let* v := (if cB then for_ 0 (c_nnz b) (fun i v => let* x := rd v i in wr v i (ocj O x)) (c_val b') else Some (c_val b')) in
          Some (success, set_arrays b' (c_ptr b') (c_ind b') v)
      | _ => Some (st, b')
      end
    else
      let* v := for_ 0 (c_nnz b) (fun i v => let* x := rd (c_val b) i in wr v i (ocj O x)) (ft (c_nnz b)) in
      Some (success, set_arrays b (c_ptr b) (c_ind b) v).

  (** sp2md.hpp 193-433: aoclsparse_sp2md_t for handles of the right value type whose
      input format is CSR / CSC.  A null descriptor is dereferenced (None).  [layout]:
      0 by rows, 1 by columns. *)
  Definition sp2md (opA : operation) (dA : option descr) (A : option (hnd T)) (opB : operation) (dB : option descr) (B : option (hnd T))
      (alpha beta : T) (C_p : option (list T)) (layout ldc : Z) : option (status * option (list T)) :=
    match dA, dB with
    | Some dA, Some dB =>
        if negb (match d_type dA, d_type dB with mt_general, mt_general => true | _, _ => false end) then Some (not_implemented, C_p)
        else if negb (layout =? 0) && negb (layout =? 1) then Some (invalid_value, C_p)
        else
          match A, B, C_p with
          | Some A, Some B, Some C =>
              match get_mtx (H_mats A), get_mtx (H_mats B) with
              | Some a, Some b =>
                  if negb ((c_doid a =? gn) || (c_doid a =? gt)) || negb ((c_doid b =? gn) || (c_doid b =? gt)) then Some (not_implemented, C_p)
                  else
                    let tA := match opA with op_none => false | _ => true end in
                    let tB := match opB with op_none => false | _ => true end in
                    let m_c := if tA then H_n A else H_m A in
                    let k_a := if tA then H_m A else H_n A in
                    let k_b := if tB then H_n B else H_m B in
                    let n_c := if tB then H_m B else H_n B in
                    if negb (k_a =? k_b) then Some (invalid_size, C_p)
                    else if ldc <? (if layout =? 0 then n_c else m_c) then Some (invalid_size, C_p)
                    else
                      let* o := int_product_overflow w (if layout =? 0 then m_c else n_c) ldc in
                      if o then Some (invalid_size, C_p)
                      else if negb (c_b a =? d_base dA) || negb (c_b b =? d_base dB) then Some (invalid_value, C_p)
                      else
                        let* rA := get_doid is_real (d_type dA) (d_fill dA) opA in
                        let* eA := get_effective_doid (c_doid a) rA in
                        let* rB := get_doid is_real (d_type dB) (d_fill dB) opB in
                        let* eB := get_effective_doid (c_doid b) rB in
                        let* (st, b') := b_operand b (Z.testbit eB 1) (Z.testbit eB 0) in
                        match st with
                        | success =>
                            let* C := dense_scale layout ldc m_c n_c beta C in
                            if oeqb O alpha (o0 O) then Some (success, Some C)
                            else
                              let* C := sp2md_ref (Z.testbit eA 1) (Z.testbit eA 0) layout ldc (c_m a) (c_b a) (c_b b')
                                          (c_ptr a) (c_ind a) (c_val a) (c_ptr b') (c_ind b') (c_val b') alpha C in
                              Some (success, Some C)
                        | _ => Some (st, C_p)
                        end
              | _, _ => Some (not_implemented, C_p)
              end
          | _, _, _ => Some (invalid_pointer, C_p)
          end
    | _, _ => None
    end.

  (** spmmd.cpp 37-66 (and the d, c, z copies): aoclsparse_?spmmd *)
  Definition spmmd (op : operation) (A B : option (hnd T)) (layout : Z) (C_p : option (list T)) (ldc : Z) : option (status * option (list T)) :=
    match A, B with
    | Some A, Some B =>
        match get_mtx (H_mats A), get_mtx (H_mats B) with
        | Some a, Some b =>
            let d x := mkDescr mt_general fm_lower dg_non_unit (c_b x) in
            sp2md op (Some (d a)) (Some A) op_none (Some (d b)) (Some B) (o1 O) (o0 O) C_p layout ldc
        | _, _ => Some (not_implemented, C_p)
        end
    | _, _ => Some (invalid_pointer, C_p)
    end.
End P.
