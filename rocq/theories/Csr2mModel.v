(** Sparse products C = op(A)*op(B): level3/aoclsparse_csr2m.cpp. *)
From Coq Require Import ZArith List Bool.
From Verif Require Import Base Algebra DoidModel Csr CheckModel Csr2CscModel MvModel HandleModel Vec RowProg.
Import ListNotations.
Open Scope Z_scope.

(** aoclsparse_request *)
Inductive request := rq_count | rq_finalize | rq_full | rq_other.

Section P.
  Context {T : Type} (O : ops T).
  (** [is_real]: T is float or double; [fz n], [ft n]: n freshly allocated elements;
      [imax]: largest aoclsparse_int; [tc], [tf]: the threads of the parallel regions
      of the two stages in the order in which they finish (see AddModel.threads; both
      partitions use the actual team size). *)
  Variables (is_real : bool) (fz : Z -> list Z) (ft : Z -> list T) (imax : Z) (tc tf : list Z).

  (** csr2m.cpp 131-142: one stored element of B is looked at *)
  Definition mark (bB : Z) (Bind : list Z) (i pos : Z) (st : list Z * Z) : option (list Z * Z) :=
    let '(nnz, c) := st in
    let* cb := rd Bind pos in
    let col := cb - bB in
    let* k := rd nnz col in
    if negb (k =? i) then let* nnz := wr nnz col i in Some (nnz, c + 1) else Some (nnz, c).

  (** csr2m.cpp 104-209: one row of the count; the loop over B's row is unrolled by four *)
  Definition pcount_row (bA bB : Z) (Aptr Aind Bptr Bind : list Z) (i : Z) (st : list Z * list Z) : option (list Z * list Z) :=
    let '(nnz, cptr) := st in
    let* s := rd Aptr i in
    let* e := rd Aptr (i + 1) in
    let* (nnz, c) := for_ (s - bA) (e - bA) (fun j st =>
        let* ca := rd Aind j in
        let col := ca - bA in
        let* p1 := rd Bptr (col + 1) in
        let* p0 := rd Bptr col in
        let nrow := p1 - p0 in
        let kit := Z.quot nrow 4 in
        let krem := Z.rem nrow 4 in
        let row := p0 - bB in
        let* st := for_step 0 (kit * 4) 4 (fun k st =>
            let* st := mark bB Bind i (row + k) st in
            let* st := mark bB Bind i (row + k + 1) st in
            let* st := mark bB Bind i (row + k + 2) st in
            mark bB Bind i (row + k + 3) st) st in
        for_ 0 krem (fun k st => mark bB Bind i (row + kit * 4 + k) st) st) (nnz, 0) in
    let* cptr := wr cptr (i + 1) c in
    Some (nnz, cptr).

  Definition mk_csr (m n nnz : Z) (doid : Z) (ptr ind : list Z) (val : list T) : cmat T :=
    mkCmat m n nnz doid 0 ptr ind val None None false dg_non_unit None.

  (** csr2m.cpp 46-302: aoclsparse_csr2m_nnz_count; the input arrays are not null.
      Allocation failure and the overflow of m * thread_num are not modelled. *)
  Definition nnz_count (m n bA bB : Z) (Aptr Aind Bptr Bind : list Z) (opflag : Z) : option (status * option (hnd T)) :=
    let* ptr := wr (fz (m + 1)) 0 0 in
    let* ptr := run_team m (zlen tc) tc (zrep n (-1)) (pcount_row bA bB Aptr Aind Bptr Bind) ptr in
    let* (ptr, sum) := for_ 1 (m + 1) (fun i st =>
        let '(ptr, sum) := st in
        let* v := rd ptr i in
        let sum := sum + v in
        let* ptr := wr ptr i sum in
        Some (ptr, sum)) (ptr, 0) in
    if imax <? sum then Some (invalid_size, None)
    else
      let* nnz := rd ptr m in
      let c d := mk_csr m n nnz d ptr (fz nnz) (ft nnz) in
      if opflag =? 3 then
        let* ptr' := (if nnz =? 0 then fill_range 0 (n + 1) 0 (fz (n + 1)) else Some (fz (n + 1))) in
        Some (success, Some (mkHnd n m nnz [Some (c gt); Some (mk_csr n m nnz gn ptr' (fz nnz) (ft nnz))] unknown_sort false false false []))
      else Some (success, Some (mkHnd m n nnz [Some (c gn)] unknown_sort false false false [])).

  (** csr2m.cpp 441-513: one row of the second stage.  Private: acc (its idx and sum
      fields as two arrays); shared: ind, val and the status (true: internal_error). *)
  Definition final_row (conjA conjB : bool) (bA bB : Z) (Aptr Aind : list Z) (Aval : list T) (Bptr Bind : list Z) (Bval : list T) (ptr : list Z)
      (i : Z) (st : (list Z * list T) * (list Z * list T * bool)) : option ((list Z * list T) * (list Z * list T * bool)) :=
    let '((aidx, asum), (ind, val, bad)) := st in
    let* s := rd Aptr i in
    let* e := rd Aptr (i + 1) in
    let* c0 := rd ptr i in
    let* (aidx, asum, ind, idxC) := for_ (s - bA) (e - bA) (fun j st =>
        let* ca := rd Aind j in
        let col := ca - bA in
        let* va := rd Aval j in
        let va := if conjA then ocj O va else va in
        let* p0 := rd Bptr col in
        let* p1 := rd Bptr (col + 1) in
        for_ (p0 - bB) (p1 - bB) (fun k st =>
            let '(aidx, asum, ind, idxC) := st in
            let* cb := rd Bind k in
            let* vb := rd Bval k in
            let vb := if conjB then ocj O vb else vb in
            let* x := rd aidx cb in
            let v := omul O va vb in
            if negb (x =? i) then
              let* ind := wr ind idxC cb in
              let* aidx := wr aidx cb i in
              let* asum := wr asum cb v in
              Some (aidx, asum, ind, idxC + 1)
            else
              let* w := rd asum cb in
              let* asum := wr asum cb (oadd O w v) in
              Some (aidx, asum, ind, idxC)) st) (aidx, asum, ind, c0) in
    let* c1 := rd ptr (i + 1) in
    if negb (idxC =? c1) then Some ((aidx, asum), (ind, val, true))
    else
      let* (ind, val) := for_ c0 c1 (fun q st =>
          let '(ind, val) := st in
          let* cb := rd ind q in
          let* w := rd asum cb in
          let* val := wr val q w in
          let* ind := wr ind q (cb - bB) in
          Some (ind, val)) (ind, val) in
      Some ((aidx, asum), (ind, val, bad)).

  (** csr2m.cpp 344-358: the first CSR and the first CSC matrix of C, by position *)
  Fixpoint find_pos (csc : bool) (k : nat) (l : list (option (cmat T))) : option (nat * cmat T) :=
    match l with
    | [] => None
    | Some c :: l' => if Bool.eqb (c_doid c =? gt) csc then Some (k, c) else find_pos csc (S k) l'
    | None :: l' => find_pos csc (S k) l'
    end.
  Definition set_arrays (c : cmat T) (ptr ind : list Z) (val : list T) : cmat T :=
    mkCmat (c_m c) (c_n c) (c_nnz c) (c_doid c) (c_b c) ptr ind val (c_idiag c) (c_iurow c) (c_opt c) (c_mdiag c) (c_dval c).
  Definition put (h : hnd T) (k : nat) (c : cmat T) : hnd T :=
    mkHnd (H_m h) (H_n h) (H_nnz h) (upd_nat (H_mats h) k (Some c)) (H_sort h) (H_full h) (H_optfull h) (H_optimized h) (H_hints h).

  (** csr2m.cpp 310-543: aoclsparse_csr2m_finalize.  The arrays of a matrix in C are
      never null. *)
  Definition finalize (m_a n_b : Z) (conjA conjB : bool) (bA bB : Z) (Aptr Aind : list Z) (Aval : list T) (Bptr Bind : list Z) (Bval : list T)
      (C : option (hnd T)) (opflag : Z) : option (status * option (hnd T)) :=
    match C with
    | None => Some (invalid_pointer, C)
    | Some h =>
        match H_mats h with
        | Some _ :: _ =>
            match find_pos false 0 (H_mats h) with
            | None => Some (invalid_pointer, C)
            | Some (kr, cr) =>
                match (if opflag =? 3 then find_pos true 0 (H_mats h) else Some (kr, cr)) with
                | None => Some (invalid_pointer, C)
                | Some (kc, c) =>
                    let m := if opflag =? 3 then H_n h else H_m h in
                    let n := if opflag =? 3 then H_m h else H_n h in
                    if negb (m =? m_a) || negb (n =? n_b) then Some (invalid_size, C)
                    else
                      let* (ind, val, bad) := run_team m (zlen tf) tf (zrep (n + bB) (-1), zrep (n + bB) (o0 O))
                          (final_row conjA conjB bA bB Aptr Aind Aval Bptr Bind Bval (c_ptr c)) (c_ind c, c_val c, false) in
                      let h := put h kc (set_arrays c (c_ptr c) ind val) in
                      if bad then Some (internal_error, Some h)
                      else if opflag =? 3 then
                        let* r := csr2csc m n (H_nnz h) (c_b c) (c_b c) (Some (c_ptr c)) (Some ind) (Some val) (Some (c_ind cr)) (Some (c_ptr cr)) (Some (c_val cr)) in
                        match r with
                        | (st, Some cp, Some ri, Some cv) =>
                            Some (match st with success => success | _ => internal_error end, Some (put h kr (set_arrays cr cp ri cv)))
                        | _ => None
                        end
                      else Some (success, Some h)
                end
            end
        | _ => Some (invalid_pointer, C)
        end
    end.

  (** csr2m.cpp 547-590: sp2m_dispatch and the choice of BASEA / BASEB (824-848) *)
  Definition dispatch (conjA conjB : bool) (a b : cmat T) (C : option (hnd T)) (opflag : Z) (rq : request) : option (status * option (hnd T)) :=
    let count := nnz_count (c_m a) (c_n b) (c_b a) (c_b b) (c_ptr a) (c_ind a) (c_ptr b) (c_ind b) opflag in
    let final C := finalize (c_m a) (c_n b) conjA conjB (c_b a) (c_b b) (c_ptr a) (c_ind a) (c_val a) (c_ptr b) (c_ind b) (c_val b) C opflag in
    match rq with
    | rq_count => count
    | rq_finalize => final C
    | rq_full => let* (st, C) := count in match st with success => final C | _ => Some (st, C) end
    | rq_other => Some (invalid_value, C)
    end.

  (** mat_structures.hpp 841-851: get_mtx<csr> *)
  Fixpoint get_mtx (l : list (option (cmat T))) : option (cmat T) :=
    match l with [] => None | Some c :: _ => Some c | None :: l' => get_mtx l' end.

  (** csr2m.cpp 745-778: make_transposed *)
  Definition make_transposed (u : cmat T) : option (status * cmat T) :=
    let* p0 := (if c_nnz u =? 0 then fill_range 0 (c_n u + 1) (c_b u) (fz (c_n u + 1)) else Some (fz (c_n u + 1))) in
    let* r := csr2csc (c_m u) (c_n u) (c_nnz u) (c_b u) (c_b u) (Some (c_ptr u)) (Some (c_ind u)) (Some (c_val u))
                (Some (fz (c_nnz u))) (Some p0) (Some (ft (c_nnz u))) in
    match r with
    | (st, Some cp, Some ri, Some cv) => Some (st, mkCmat (c_n u) (c_m u) (c_nnz u) gn (c_b u) cp ri cv None None false dg_non_unit None)
    | _ => None
    end.

  (** csr2m.cpp 592-855: aoclsparse::sp2m for handles of the right value type whose
      input format is CSR / CSC.  [dA], [dB]: descriptors (None: null); [Cptr]: None is a
      null pointer to the output, Some C0 its previous content. *)
  Definition sp2m (opA : operation) (dA : option descr) (A : option (hnd T)) (opB : operation) (dB : option descr) (B : option (hnd T))
      (rq : request) (Cptr : option (option (hnd T))) : option (status * option (hnd T)) :=
    match dA, dB, A, B, Cptr with
    | Some dA, Some dB, Some A, Some B, Some C0 =>
        let C := match rq with rq_finalize => C0 | _ => None end in
        match get_mtx (H_mats A), get_mtx (H_mats B) with
        | Some a, Some b =>
            if negb ((d_base dA =? 0) || (d_base dA =? 1)) || negb ((d_base dB =? 0) || (d_base dB =? 1)) then Some (invalid_value, C)
            else if negb (c_b a =? d_base dA) || negb (c_b b =? d_base dB) then Some (invalid_value, C)
            else if negb (match d_type dA, d_type dB with mt_general, mt_general => true | _, _ => false end) then Some (not_implemented, C)
            else
              match opA, opB with
              | op_other _, _ => Some (invalid_value, C)
              | _, op_other _ => Some (invalid_value, C)
              | _, _ =>
                  let tA := match opA with op_none => false | _ => true end in
                  let tB := match opB with op_none => false | _ => true end in
                  let m_a := if tA then H_n A else H_m A in
                  let n_a := if tA then H_m A else H_n A in
                  let m_b := if tB then H_n B else H_m B in
                  let n_b := if tB then H_m B else H_n B in
                  if negb (n_a =? m_b) then Some (invalid_size, C)
                  else if (m_a =? 0) || (n_a =? 0) || (n_b =? 0) || (H_nnz A =? 0) || (H_nnz B =? 0) then
                    match C with
                    | Some _ => Some (success, C)
                    | None =>
                        let* ptr := fill_range 0 (m_a + 1) 0 (fz (m_a + 1)) in
                        Some (success, Some (mkHnd m_a n_b 0 [Some (mk_csr m_a n_b 0 gn ptr (fz 0) (ft 0))] unknown_sort false false false []))
                    end
                  else if negb ((c_doid a =? gn) || (c_doid a =? gt)) || negb ((c_doid b =? gn) || (c_doid b =? gt)) then Some (not_implemented, C)
                  else
                    let* rA := get_doid is_real (d_type dA) (d_fill dA) opA in
                    let* rB := get_doid is_real (d_type dB) (d_fill dB) opB in
                    let* eA := get_effective_doid (c_doid a) rA in
                    let* eB := get_effective_doid (c_doid b) rB in
                    let sA := Z.testbit eA 1 in
                    let sB := Z.testbit eB 1 in
                    let conjA := Z.testbit eA 0 in
                    let conjB := Z.testbit eB 0 in
                    let opflag := (if sA then 1 else 0) + (if sB then 2 else 0) in
                    if opflag =? 3 then dispatch conjB conjA b a C opflag rq
                    else
                      let* (st1, a') := (if sA then make_transposed a else Some (success, a)) in
                      match st1 with
                      | success =>
                          let* (st2, b') := (if sB then make_transposed b else Some (success, b)) in
                          match st2 with
                          | success => dispatch conjA conjB a' b' C opflag rq
                          | _ => Some (st2, C)
                          end
                      | _ => Some (st1, C)
                      end
              end
        | _, _ => Some (invalid_pointer, C)
        end
    | _, _, _, _, Some C0 => Some (invalid_pointer, C0)
    | _, _, _, _, None => Some (invalid_pointer, None)
    end.

  (** level3/aoclsparse_spmm.cpp 27-68: aoclsparse_spmm for handles of one value type;
      the local descriptors have the default fill mode and diagonal type *)
  Definition spmm (opA : operation) (A B : option (hnd T)) (Cptr : option (option (hnd T))) : option (status * option (hnd T)) :=
    match A, B, Cptr with
    | Some A, Some B, Some C0 =>
        match H_mats A, H_mats B with
        | Some a :: _, Some b :: _ =>
            sp2m opA (Some (mkDescr mt_general fm_lower dg_non_unit (c_b a))) (Some A) op_none (Some (mkDescr mt_general fm_lower dg_non_unit (c_b b))) (Some B) rq_full Cptr
        | _, _ => Some (invalid_pointer, C0)
        end
    | _, _, Some C0 => Some (invalid_pointer, C0)
    | _, _, None => Some (invalid_pointer, None)
    end.
End P.
