(** Sparse addition C = alpha*op(A) + B: level3/aoclsparse_csradd.hpp. *)
From Coq Require Import ZArith List Bool.
From Verif Require Import Base Algebra DoidModel Csr CheckModel Csr2CscModel MvModel HandleModel RowProg.
Import ListNotations.
Open Scope Z_scope.

(** The threads of the two parallel regions: the number requested (context), the
    order in which the threads of the count region finish (its partition uses the
    actual team size [length te_count]) and the ids of the threads of the fill
    region in finishing order (its partition uses the requested number).  A thread's
    rows are run as one unit: threads write disjoint rows.  Without OpenMP both
    regions are the single thread 0. *)
Record threads := mkThreads { te_req : Z; te_count : list Z; te_fill : list Z }.

Section A.
  Context {T : Type} (O : ops T).
  (** [fz n], [ft n]: n freshly allocated elements; [imax]: largest aoclsparse_int *)
  Variables (fz : Z -> list Z) (ft : Z -> list T) (imax : Z).

  (** csradd.hpp 77-101: one row of the count *)
  Definition count_row (bA bB : Z) (Aptr Aind Bptr Bind : list Z) (i : Z) (st : list Z * list Z) : option (list Z * list Z) :=
    let '(nnz, cptr) := st in
    let* s := rd Aptr i in
    let* e := rd Aptr (i + 1) in
    let* (nnz, c) := for_ (s - bA) (e - bA) (fun j st =>
        let '(nnz, c) := st in
        let* col := rd Aind j in
        let* nnz := wr nnz col i in
        Some (nnz, c + 1)) (nnz, 0) in
    let* s := rd Bptr i in
    let* e := rd Bptr (i + 1) in
    let* (nnz, c) := for_ (s - bB) (e - bB) (fun j st =>
        let '(nnz, c) := st in
        let* cb := rd Bind j in
        let col := cb - bB + bA in
        let* k := rd nnz col in
        if negb (k =? i) then let* nnz := wr nnz col i in Some (nnz, c + 1) else Some (nnz, c)) (nnz, c) in
    let* cptr := wr cptr (i + 1) c in
    Some (nnz, cptr).

  (** csradd.hpp 32-123: aoclsparse_add_csr_count_nnz.  Sums are taken in 64 bits; on
      overflow the truncated pointers are discarded by the caller, so they are not
      modelled.  Allocation failure is not modelled; neither is the overflow of
      M * thread_num. *)
  Definition count_nnz (te : threads) (M N bA bB : Z) (Aptr Aind Bptr Bind cptr : list Z) : option (status * Z * list Z) :=
    let* cptr := wr cptr 0 bA in
    let* cptr := run_team M (zlen (te_count te)) (te_count te) (zrep (N + 1) (-1)) (count_row bA bB Aptr Aind Bptr Bind) cptr in
    let* (cptr, sum) := for_ 1 (M + 1) (fun i st =>
        let '(cptr, sum) := st in
        let* v := rd cptr i in
        let sum := sum + v in
        let* cptr := wr cptr i sum in
        Some (cptr, sum)) (cptr, bA) in
    if imax <? sum then Some (invalid_size, 0, cptr)
    else let* e := rd cptr M in Some (success, e - bA, cptr).

  (** csradd.hpp 253-292: one row of the computation.  Private: nnz, col_rec, C_idx;
      shared: C_row_ptr, C_col_ptr, C_val. *)
  Definition fill_row (conjA computed : bool) (bA bB : Z) (Aptr Aind : list Z) (Aval : list T) (alpha : T)
      (Bptr Bind : list Z) (Bval : list T) (i : Z) (st : (list Z * list Z * Z) * (list Z * list Z * list T))
      : option ((list Z * list Z * Z) * (list Z * list Z * list T)) :=
    let '((nnz, rec, idx), (cptr, ind, val)) := st in
    let* s := rd Aptr i in
    let* e := rd Aptr (i + 1) in
    let* idx := (if computed then let* p := rd cptr i in Some (p - bA) else Some idx) in
    let* (nnz, rec, idx, ind, val) := for_ (s - bA) (e - bA) (fun j st =>
        let '(nnz, rec, idx, ind, val) := st in
        let* col := rd Aind j in
        let* nnz := wr nnz col i in
        let* rec := wr rec col idx in
        let* ind := wr ind idx col in
        let* v := rd Aval j in
        let* val := wr val idx (omul O alpha (if conjA then ocj O v else v)) in
        Some (nnz, rec, idx + 1, ind, val)) (nnz, rec, idx, ind, val) in
    let* s := rd Bptr i in
    let* e := rd Bptr (i + 1) in
    let* (nnz, idx, ind, val) := for_ (s - bB) (e - bB) (fun j st =>
        let '(nnz, idx, ind, val) := st in
        let* cb := rd Bind j in
        let col := cb - bB + bA in
        let* k := rd nnz col in
        let* v := rd Bval j in
        if negb (k =? i) then
          let* ind := wr ind idx col in
          let* val := wr val idx v in
          let* nnz := wr nnz col i in
          Some (nnz, idx + 1, ind, val)
        else
          let* p := rd rec col in
          let* w := rd val p in
          let* val := wr val p (oadd O w v) in
          Some (nnz, idx, ind, val)) (nnz, idx, ind, val) in
    let* cptr := (if computed then Some cptr else wr cptr (i + 1) (idx + bA)) in
    Some ((nnz, rec, idx), (cptr, ind, val)).

  (** csradd.hpp 126-311: aoclsparse_add_csr_ref<T, CONJ_A>; the input arrays and C are
      not null.  mat_structures.hpp 174-211: with nnz = 0 the constructor fills ptr. *)
  Definition add_csr_ref (te : threads) (conjA : bool) (M N bA bB A_nnz B_nnz : Z) (Aptr Aind : list Z) (Aval : list T) (alpha : T)
      (Bptr Bind : list Z) (Bval : list T) : option (status * option (cmat T)) :=
    let mk nnz ptr ind val := mkCmat M N nnz gn bA ptr ind val None None false dg_non_unit None in
    if (M =? 0) || (N =? 0) || ((A_nnz =? 0) && (B_nnz =? 0)) then
      let* ptr := fill_range 0 (M + 1) bA (fz (M + 1)) in
      Some (success, Some (mk 0 ptr (fz 0) (ft 0)))
    else
      let computed := negb (te_req te =? 1) || (imax <? A_nnz + B_nnz) in
      let* (st, nnz, ptr, ind, val) := (if computed then
          let* (st, nnz, ptr) := count_nnz te M N bA bB Aptr Aind Bptr Bind (fz (M + 1)) in
          Some (st, nnz, ptr, fz nnz, ft nnz)
        else
          let n0 := A_nnz + B_nnz in
          let* ptr := (if n0 =? 0 then fill_range 0 (M + 1) bA (fz (M + 1)) else Some (fz (M + 1))) in
          let* ptr := wr ptr 0 bA in
          Some (success, n0, ptr, fz n0, ft n0)) in
      match st with
      | success =>
          let* (ptr, ind, val) := run_team M (te_req te) (te_fill te) (zrep (N + 1) (-1), zrep (N + 1) (-1), 0)
              (fill_row conjA computed bA bB Aptr Aind Aval alpha Bptr Bind Bval) (ptr, ind, val) in
          let* nnz := (if computed then Some nnz else let* p := rd ptr M in Some (p - bA)) in
          Some (success, Some (mk nnz ptr ind val))
      | _ => Some (internal_error, None)
      end.

  (** csradd.hpp 374-403, 411-440: the transposed arrays of a stored matrix *)
  Definition transposed (u : cmat T) : option (status * (list Z * list Z * list T)) :=
    let* r := csr2csc (c_m u) (c_n u) (c_nnz u) (c_b u) (c_b u) (Some (c_ptr u)) (Some (c_ind u)) (Some (c_val u))
                (Some (zrep (c_nnz u) 0)) (Some (zrep (c_n u + 1) 0)) (Some (zrep (c_nnz u) (o0 O))) in
    match r with
    | (st, Some cp, Some ri, Some cv) => Some (st, (cp, ri, cv))
    | _ => None
    end.

  (** csradd.hpp 313-530: aoclsparse_add_t for handles of the right value type whose
      input format is CSR / CSC.  [Cnull]: the output pointer is null.  The new handle
      has no optimisation data; its mat_type field stays uninitialised (finding B35). *)
  Definition add_t (te : threads) (op : operation) (A : option (hnd T)) (alpha : T) (B : option (hnd T)) (Cnull : bool)
      : option (status * option (hnd T)) :=
    match A, B, Cnull with
    | Some A, Some B, false =>
        let none := match op with op_none => true | _ => false end in
        if (if none then negb (H_m A =? H_m B) || negb (H_n A =? H_n B)
            else negb (H_m A =? H_n B) || negb (H_n A =? H_m B)) then Some (invalid_size, None)
        else match H_mats A, H_mats B with
        | Some a :: _, Some b :: _ =>
            if negb (c_doid a =? gn) && negb (c_doid a =? gt) then Some (not_implemented, None)
            else if negb (c_doid b =? gn) && negb (c_doid b =? gt) then Some (not_implemented, None)
            else
              let tA := Bool.eqb (c_doid a =? gt) none in
              let tB := c_doid b =? gt in
              let M := if tA then c_n a else c_m a in
              let N := if tA then c_m a else c_n a in
              let* (sA, (ap, ai, av)) := (if tA then transposed a else Some (success, (c_ptr a, c_ind a, c_val a))) in
              match sA with
              | success =>
                  let* (sB, (bp, bi, bv)) := (if tB then transposed b else Some (success, (c_ptr b, c_ind b, c_val b))) in
                  match sB with
                  | success =>
                      let conjA := match op with op_conjugate_transpose => true | _ => false end in
                      let* (st, C) := add_csr_ref te conjA M N (c_b a) (c_b b) (H_nnz A) (H_nnz B) ap ai av alpha bp bi bv in
                      match st, C with
                      | success, Some c => Some (success, Some (mkHnd (H_m B) (H_n B) (c_nnz c) [Some c] unknown_sort false false false []))
                      | _, _ => Some (st, None)
                      end
                  | _ => Some (sB, None)
                  end
              | _ => Some (sA, None)
              end
        | _, _ => Some (not_implemented, None)
        end
    | _, _, _ => Some (invalid_pointer, None)
    end.
End A.
