(** ILU(0) smoother: solvers/aoclsparse_ilu0.hpp, solvers/aoclsparse_ilu.hpp,
    analysis/aoclsparse_analysis.cpp aoclsparse_optimize_ilu. *)
From Coq Require Import ZArith List Bool.
From Verif Require Import Base Algebra DoidModel CheckModel MvModel HandleModel.
Import ListNotations.
Open Scope Z_scope.

(** Conversion of an aoclsparse_int to int (ilu0.hpp 73-74, 101): modulo 2^32. *)
Definition narrow (v : Z) : Z := (v + 2147483648) mod 4294967296 - 2147483648.

Section I.
  Context {T : Type} (O : ops T).
  (** aoclsparse_is_nearzero (extra/aoclsparse_utils.hpp 609-613) *)
  Variable near0 : T -> bool.
  (** contents of freshly allocated integer arrays *)
  Variable fz : Z -> list Z.

  (** ilu0.hpp 53-57 *)
  Definition set_map (b j1 j2 : Z) (ind mp : list Z) : option (list Z) :=
    for_ j1 j2 (fun j mp => let* c := rd ind j in wr mp (c - b) j) mp.

  (** ilu0.hpp 71-79: subtract a multiple of row k *)
  Definition sub_row (b lo hi j : Z) (ind mp : list Z) (val : list T) : option (list T) :=
    for_ lo hi (fun jj val =>
      let* c := rd ind jj in
      let* jw := rd mp (narrow (c - b)) in
      let jw := narrow jw in
      if jw =? 0 then Some val
      else
        let* x := rd val jw in
        let* y := rd val j in
        let* z := rd val jj in
        wr val jw (osub O x (omul O y z))) val.

  (** ilu0.hpp 60-85: the k-loop of row i; state (val, j, k); a near-zero pivot returns val *)
  Definition elim_row (b i : Z) (ptr ind lu mp : list Z) (j1 j2 : Z) (st : list T * Z * option Z) : option ((list T * Z * option Z) + list T) :=
    forc j1 j2 (fun j st =>
      let '(val, _, _) := st in
      let* c := rd ind j in
      let k := c - b in
      if k <? i then
        let* dk := rd lu k in
        let* de := rd val dk in
        if near0 de then Some (Ret val)
        else
          let* vj := rd val j in
          let* val := wr val j (odiv O vj de) in
          let* pk := rd ptr (k + 1) in
          let* val := sub_row b (dk + 1) (pk - b) j ind mp val in
          Some (Go (val, j + 1, Some k))
      else Some (Brk (val, j, Some k))) st.

  (** ilu0.hpp 99-103 *)
  Definition reset_map (b j1 j2 : Z) (ind mp : list Z) : option (list Z) :=
    for_ j1 j2 (fun j mp => let* c := rd ind j in wr mp (narrow (c - b)) 0) mp.

  (** ilu0.hpp 48-104: aoclsparse_ilu0_factorization; state (lu_diag_ptr, csr_val,
      mapper, k).  [k] is declared outside the loops and uninitialised at first (None). *)
  Definition ilu0_fact (n b : Z) (ptr ind lu : list Z) (val : list T) : option (status * list Z * list T) :=
    let* r := forc 0 n (fun i st =>
      let '(lu, val, mp, ko) := st in
      let* p1 := rd ptr i in
      let* p2 := rd ptr (i + 1) in
      let j1 := p1 - b in
      let j2 := p2 - b in
      let* mp := set_map b j1 j2 ind mp in
      let* r := elim_row b i ptr ind lu mp j1 j2 (val, j1, ko) in
      match r with
      | inr val => Some (Ret (numerical_error, lu, val))
      | inl (val, j, ko) =>
          let* lu := wr lu i j in
          match ko with
          | None => None
          | Some k =>
              if negb (k =? i) then Some (Ret (numerical_error, lu, val))
              else
                let* d := rd val j in
                if near0 d then Some (Ret (numerical_error, lu, val))
                else
                  let* mp := reset_map b j1 j2 ind mp in
                  Some (Go (lu, val, mp, ko))
          end
      end) (lu, val, zrep n 0, None) in
    match r with
    | inl (lu, val, _, _) => Some (success, lu, val)
    | inr r => Some r
    end.

  (** ilu0.hpp 121-132 *)
  Definition ilu_fwd (n b : Z) (ptr ind lu : list Z) (val bv x : list T) : option (list T) :=
    for_ 0 n (fun i x =>
      let* bi := rd bv i in
      let* p := rd ptr i in
      let* d := rd lu i in
      let* s := for_ (p - b) d (fun k s =>
        let* c := rd ind k in
        let* v := rd val k in
        let* xc := rd x (c - b) in
        Some (osub O s (omul O v xc))) bi in
      wr x i s) x.
  (** ilu0.hpp 136-153 *)
  Definition ilu_bwd (n b : Z) (ptr ind lu : list Z) (val x : list T) : option (list T) :=
    for_down 0 n (fun i x =>
      let* d := rd lu i in
      let* p := rd ptr (i + 1) in
      let* x := for_ (d + 1) (p - b) (fun k x =>
        let* c := rd ind k in
        let* v := rd val k in
        let* xc := rd x (c - b) in
        let* xi := rd x i in
        wr x i (osub O xi (omul O v xc))) x in
      let* de := rd val d in
      if near0 de then Some x
      else let* xi := rd x i in wr x i (odiv O xi de)) x.
  (** ilu0.hpp 107-155: aoclsparse_ilu_solve *)
  Definition ilu_solve (n b : Z) (ptr ind lu : list Z) (val bv x : list T) : option (list T) :=
    let* x := ilu_fwd n b ptr ind lu val bv x in
    ilu_bwd n b ptr ind lu val x.

  (** mat_structures.hpp 759-767: _aoclsparse_ilu; None: ilu_ready = false *)
  Record ilu_st := mkIlu { il_fact : bool; il_diag : list Z; il_val : list T }.

  (** analysis.cpp 390-425: aoclsparse_optimize_ilu *)
  Definition optimize_ilu (h : hnd T) (u : cmat T) (s : option ilu_st) : ilu_st :=
    match s with
    | Some s => s
    | None => mkIlu false (fz (H_m h)) (firstn (Z.to_nat (H_nnz h)) (c_val u))
    end.

  (** What *precond_csr_val is after the call. *)
  Inductive out_ptr := untouched | null_ptr | factors.

  (** ilu.hpp 32-140 with ilu0.hpp 157-198: aoclsparse_?ilu_smoother on a handle made
      from CSR or CSC arrays (both have input_format csr).  Not modelled: the value
      type test, allocation failure.  Result: status, x, *precond_csr_val and the ILU
      data of the handle. *)
  Definition ilu_smoother (op : operation) (A : option (hnd T)) (s : option ilu_st) (d : option descr) (pre : bool) (x_p b_p : option (list T))
      : option (status * option (list T) * out_ptr * option ilu_st) :=
    match d, A, x_p, b_p with
    | Some d, Some h, Some x, Some bv =>
        let fail st := Some (st, Some x, untouched, s) in
        if negb pre then fail invalid_pointer
        else
          match H_mats h with
          | [] | None :: _ => fail invalid_pointer
          | Some u :: _ =>
              if negb (c_b u =? d_base d) then fail invalid_value
              else if negb (match op with op_none => true | _ => false end) then fail not_implemented
              else if negb (match d_type d with mt_general => true | _ => false end) then fail not_implemented
              else if negb (match H_sort h with fully_sorted | partially_sorted => true | _ => false end) then fail unsorted_input
              else if negb (H_full h) then fail numerical_error
              else if (H_m h <? 0) || (H_n h <? 0) || negb (H_m h =? H_n h) then fail invalid_size
              else if (H_m h =? 0) || (H_n h =? 0) then fail success
              else
                let s := optimize_ilu h u s in
                let* (st, s) :=
                  (if il_fact s then Some (success, s)
                   else
                     let* (st, lu, val) := ilu0_fact (H_n h) (c_b u) (c_ptr u) (c_ind u) (il_diag s) (il_val s) in
                     Some (st, mkIlu (match st with success => true | _ => false end) lu val)) in
                match st with
                | success =>
                    let* x := ilu_solve (H_n h) (c_b u) (c_ptr u) (c_ind u) (il_diag s) (il_val s) bv x in
                    Some (success, Some x, factors, Some s)
                | _ => Some (st, Some x, null_ptr, Some s)
                end
          end
    | _, _, _, _ => Some (invalid_pointer, x_p, untouched, s)
    end.
End I.
Arguments mkIlu {T}. Arguments il_fact {T}. Arguments il_diag {T}. Arguments il_val {T}.
