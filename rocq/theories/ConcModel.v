(** Concurrent calls that need the prepared copy of one shared handle:
    aoclsparse_csr_csc_optimize (analysis/aoclsparse_csr_util.hpp 765-967) cut into its
    accesses to the shared handle, with the reader/writer lock mats_guard.  One step of one
    thread is one access (or one lock operation); steps of different threads interleave in
    any order.  A caller that calls several times is several threads, since a thread may
    start at any time. *)
From Coq Require Import ZArith List Bool Arith.
From Verif Require Import Base Algebra Vec DoidModel MvModel CheckModel SortModel CsrmvModel HandleModel SorModel.
Import ListNotations.
Open Scope Z_scope.

(** One store to the shared handle *)
Inductive wop (T : Type) :=
| w_sort (so : msort) | w_full (b : bool)             (* A->sort, A->fulldiag *)
| w_idiag_new (i : Z) (a : list Z)                    (* mats[i]->idiag = new ... *)
| w_iurow_new (i : Z) (a : list Z)
| w_idiag (i k v : Z) | w_iurow (i k v : Z)           (* mats[i]->idiag[k] = v *)
| w_flag (i : Z)                                      (* mats[i]->is_optimized = true *)
| w_push (c : cmat T)                                 (* mats.push_back *)
| w_optfull (b : bool) | w_optimized.
Arguments w_sort {T}. Arguments w_full {T}. Arguments w_idiag_new {T}. Arguments w_iurow_new {T}.
Arguments w_idiag {T}. Arguments w_iurow {T}. Arguments w_flag {T}. Arguments w_push {T}.
Arguments w_optfull {T}. Arguments w_optimized {T}.

(** Where a thread is.  A matrix object is named by its position in mats: objects never
    move, only the vector of pointers does. *)
Inductive pc (T : Type) :=
| p_start                                      (* csr_util.hpp 782: about to lock *)
| p_first                                      (* mat_structures.hpp 822-825 *)
| p_first_out (ok : bool)
| p_want_shared                                (* csr_util.hpp 785 *)
| p_scan (i : Z) (src : option Z)              (* 787-801 *)
| p_scan_out (found src : option Z)            (* 802: unlock, or return 795 *)
| p_check (src : option Z)                     (* 805-811, no lock held *)
| p_want_excl (src : Z)                        (* 814 *)
| p_rescan (i src : Z)                         (* 818-826 *)
| p_compute (src : Z)                          (* 828-: reading the source *)
| p_store (l : list (wop T)) (st : status) (r : option Z)
| p_excl_out (st : status) (r : option Z)
| p_done (st : status) (r : option Z)          (* returned; the caller reads the result *)
| p_mv (d_id : Z)                              (* mv.cpp 126: get_best_matrix, about to lock *)
| p_mv_best (d_id : Z)
| p_mv_best_out (d_id : Z) (best : option Z)
| p_mv_flag (d_id : Z) (best : option Z)       (* mv.cpp 130-136, no lock held *)
| p_ilu                                        (* ilu.hpp 72, no lock held *)
| p_sor                                        (* sorv.hpp 197, no lock held *)
| p_sor_set                                    (* sorv.hpp 209, no lock held *)
| p_ub.                                        (* undefined behaviour *)
Arguments p_start {T}. Arguments p_first {T}. Arguments p_first_out {T}. Arguments p_want_shared {T}.
Arguments p_scan {T}. Arguments p_scan_out {T}. Arguments p_check {T}. Arguments p_want_excl {T}.
Arguments p_rescan {T}. Arguments p_compute {T}. Arguments p_store {T}. Arguments p_excl_out {T}.
Arguments p_done {T}. Arguments p_mv {T}. Arguments p_mv_best {T}. Arguments p_mv_best_out {T}.
Arguments p_mv_flag {T}. Arguments p_ilu {T}. Arguments p_sor {T}. Arguments p_sor_set {T}. Arguments p_ub {T}.

(** Shared handle, owners of the lock, threads *)
Record cst (T : Type) := mkCst { s_h : hnd T; s_rd : list nat; s_wr : option nat; s_pc : nat -> pc T }.
Arguments mkCst {T}. Arguments s_h {T}. Arguments s_rd {T}. Arguments s_wr {T}. Arguments s_pc {T}.

(** Memory a step may touch: the vector mats, the flag, arrays (with sizes and base) and
    index arrays of an object, the fields of the handle *)
Inductive loc := l_vec | l_flag (i : Z) | l_arr (i : Z) | l_idx (i : Z) | l_class | l_optfull | l_optimized.

Section C.
  Context {T : Type} (O : ops T).
  Variable srt : (Z -> Z -> bool) -> list Z -> list Z.
  Variables (fz : Z -> list Z) (ft : Z -> list T).
  Variables (sup : Z -> bool) (dt : dtype).

  Definition set_obj (h : hnd T) (i : Z) (f : cmat T -> cmat T) : hnd T :=
    match rd (H_mats h) i with Some (Some c) => set_mats h (upd (H_mats h) i (Some (f c))) | _ => h end.
  Definition set_ix (c : cmat T) idiag iurow fl : cmat T :=
    mkCmat (c_m c) (c_n c) (c_nnz c) (c_doid c) (c_b c) (c_ptr c) (c_ind c) (c_val c) idiag iurow fl (c_mdiag c) (c_dval c).
  Definition oupd (a : option (list Z)) k v : option (list Z) := match a with Some a => Some (upd a k v) | None => None end.

  (** Effect of one store *)
  Definition apply_w (w : wop T) (h : hnd T) : hnd T :=
    match w with
    | w_sort so => set_class h so (H_full h)
    | w_full b => set_class h (H_sort h) b
    | w_idiag_new i a => set_obj h i (fun c => set_ix c (Some a) (c_iurow c) (c_opt c))
    | w_iurow_new i a => set_obj h i (fun c => set_ix c (c_idiag c) (Some a) (c_opt c))
    | w_idiag i k v => set_obj h i (fun c => set_ix c (oupd (c_idiag c) k v) (c_iurow c) (c_opt c))
    | w_iurow i k v => set_obj h i (fun c => set_ix c (c_idiag c) (oupd (c_iurow c) k v) (c_opt c))
    | w_flag i => set_obj h i (fun c => set_ix c (c_idiag c) (c_iurow c) true)
    | w_push c => set_mats h (H_mats h ++ [Some c])
    | w_optfull b => mkHnd (H_m h) (H_n h) (H_nnz h) (H_mats h) (H_sort h) (H_full h) b (H_optimized h) (H_hints h)
    | w_optimized => mkHnd (H_m h) (H_n h) (H_nnz h) (H_mats h) (H_sort h) (H_full h) (H_optfull h) true (H_hints h)
    end.

  Definition w_loc (w : wop T) : loc :=
    match w with
    | w_sort _ | w_full _ => l_class
    | w_idiag_new i _ | w_iurow_new i _ | w_idiag i _ _ | w_iurow i _ _ => l_idx i
    | w_flag i => l_flag i
    | w_push _ => l_vec
    | w_optfull _ => l_optfull
    | w_optimized => l_optimized
    end.

  (** csr_util.cpp 403-456: csr_csc_indices writing into object [i0]; every element is
      stored once *)
  Definition index_stores (i0 m : Z) (idiag iurow : list Z) : list (wop T) :=
    [w_idiag_new i0 (fz m); w_iurow_new i0 (fz m)] ++
    flat_map (fun k => [w_idiag i0 k (zn idiag k); w_iurow i0 k (zn iurow k)]) (zrange 0 m).

  (** csr_util.hpp 828-966: what the holder of the write lock does, as its sequence of
      stores to the shared handle; the new copy is private until push_back.  Same
      decisions as HandleModel.optimize_slow. *)
  Definition slow_stores (h : hnd T) (i0 : Z) (src : cmat T) : option (status * list (wop T) * option Z) :=
    let* r := mat_check (c_m src) (c_n src) (H_nnz h) (Some (c_ptr src)) (Some (c_ind src)) false shape_general (c_b src) false in
    match r with
    | (success, Some (so, fd)) =>
        let* (st, sorted, fulldiag) := check_sort_diag (c_m src) (c_n src) (c_b src) (Some (c_ptr src)) (Some (c_ind src)) in
        match st with
        | success =>
          if sorted && fulldiag then
            let* (idiag, iurow) := csr_csc_indices (c_m src) (c_b src) (c_ptr src) (c_ind src) (fz (c_m src)) (fz (c_m src)) in
            Some (success, [w_sort so; w_full fd] ++ index_stores i0 (c_m src) idiag iurow ++ [w_flag i0; w_optfull fulldiag; w_optimized], Some i0)
          else
            let* (st, r) := build_copy O srt fz ft src (H_nnz h) sorted fulldiag in
            match r with
            | Some (c, fulldiag) => Some (success, [w_sort so; w_full fd; w_push c; w_optfull fulldiag; w_optimized], Some (zlen (H_mats h)))
            | None => Some (st, [w_sort so; w_full fd], None)
            end
        | _ => Some (internal_error, [w_sort so; w_full fd], None)
        end
    | (st, _) => Some (st, [], None)
    end.

  (** [prefer]: whether std::shared_mutex holds back new readers while a writer waits;
      the standard leaves this open. *)
  Variable prefer : bool.
  Variable N : nat.
  Definition waiting (p : pc T) : bool := match p with p_want_excl _ => true | _ => false end.
  Definition may_share (s : cst T) : bool :=
    match s_wr s with Some _ => false | None => negb (prefer && existsb (fun t => waiting (s_pc s t)) (seq 0 N)) end.
  Definition may_own (s : cst T) : bool := match s_wr s, s_rd s with None, [] => true | _, _ => false end.
  Definition go (t : nat) (s : cst T) h rs w (p : pc T) : cst T :=
    mkCst h rs w (fun t' => if Nat.eqb t' t then p else s_pc s t').

  (** One scan step at position [i]: [found], or the next position *)
  Definition look (mats : list (option (cmat T))) (i : Z) : option bool :=
    let* e := rd mats i in Some (match e with Some c => c_opt c | None => false end).
  Definition is_csr (mats : list (option (cmat T))) (i : Z) : bool := match rd mats i with Some (Some _) => true | _ => false end.

  (** The next step of thread [t]; [None]: blocked, or nothing left to do *)
  Definition tstep (t : nat) (s : cst T) : option (cst T) :=
    let h := s_h s in
    let stay p := Some (go t s h (s_rd s) (s_wr s) p) in
    let lock_s p := if may_share s then Some (go t s h (t :: s_rd s) (s_wr s) p) else None in
    let unlock_s p := Some (go t s h (remove Nat.eq_dec t (s_rd s)) (s_wr s) p) in
    match s_pc s t with
    | p_start => lock_s p_first
    | p_first => stay (p_first_out (match H_mats h with Some _ :: _ => true | _ => false end))
    | p_first_out ok => unlock_s (if ok then p_want_shared else p_done invalid_pointer None)
    | p_want_shared => lock_s (p_scan 0 None)
    | p_scan i src =>
        if i <? zlen (H_mats h) then
          match look (H_mats h) i with
          | None => stay p_ub
          | Some true => stay (p_scan_out (Some i) None)
          | Some false => stay (p_scan (i + 1) (match src with None => if is_csr (H_mats h) i then Some i else None | _ => src end))
          end
        else stay (p_scan_out None src)
    | p_scan_out (Some i) _ => unlock_s (p_done success (Some i))
    | p_scan_out None src => unlock_s (p_check src)
    | p_check None => stay (p_done not_implemented None)
    | p_check (Some i) =>
        match rd (H_mats h) i with
        | Some (Some c) => stay (if (c_b c =? 0) || (c_b c =? 1) then p_want_excl i else p_done invalid_value None)
        | _ => stay p_ub
        end
    | p_want_excl i => if may_own s then Some (go t s h (s_rd s) (Some t) (p_rescan 0 i)) else None
    | p_rescan j i =>
        if j <? zlen (H_mats h) then
          match look (H_mats h) j with
          | None => stay p_ub
          | Some true => stay (p_excl_out success (Some j))
          | Some false => stay (p_rescan (j + 1) i)
          end
        else stay (p_compute i)
    | p_compute i =>
        match rd (H_mats h) i with
        | Some (Some src) => match slow_stores h i src with Some (st, l, r) => stay (p_store l st r) | None => stay p_ub end
        | _ => stay p_ub
        end
    | p_store [] st r => stay (p_excl_out st r)
    | p_store (w :: l) st r => Some (go t s (apply_w w h) (s_rd s) (s_wr s) (p_store l st r))
    | p_excl_out st r => Some (go t s h (s_rd s) None (p_done st r))
    | p_mv d => lock_s (p_mv_best d)
    | p_mv_best d =>
        match get_best_matrix sup dt (H_mats h) d with
        | Some (Some (i, _)) => stay (p_mv_best_out d (Some i))
        | Some None => stay (p_mv_best_out d None)
        | None => stay p_ub
        end
    | p_mv_best_out d b => unlock_s (p_mv_flag d b)
    | p_mv_flag d None => stay (p_done not_implemented None)
    | p_mv_flag d (Some i) =>
        match rd (H_mats h) i with
        | Some (Some c) => stay (if negb (c_opt c) && negb (c_doid c =? d) then p_start else p_done success (Some i))
        | _ => stay p_ub
        end
    | p_ilu => stay (p_done success None)
    | p_sor =>  (* sorv.hpp 197-211; the descriptor's base is that of the matrix *)
        if H_optfull h then stay (p_done success None)
        else match H_mats h with
             | Some u :: _ =>
                 match check_full_diag O (H_m h) (c_b u) (c_ptr u) (c_ind u) (c_val u) with
                 | Some true => stay p_sor_set
                 | Some false => stay (p_done invalid_value None)
                 | None => stay p_ub
                 end
             | _ => stay (p_done not_implemented None)
             end
    | p_sor_set => Some (go t s (apply_w (w_optfull true) h) (s_rd s) (s_wr s) (p_done success None))
    | p_done _ _ | p_ub => None
    end.

  (** A schedule: which thread gets the next turn; a blocked thread loses its turn *)
  Fixpoint run (sched : list nat) (s : cst T) : cst T :=
    match sched with
    | [] => s
    | t :: l => run l (if Nat.ltb t N then match tstep t s with Some s' => s' | None => s end else s)
    end.

  (** What the next step of a thread reads (false) or writes (true).  After a successful
      return the caller reads the arrays and index arrays of the result and
      opt_csr_full_diag (trsv.cpp 134, symgs.hpp 363). *)
  Definition acc (h : hnd T) (p : pc T) : list (loc * bool) :=
    match p with
    | p_first => [(l_vec, false)]
    | p_scan i _ | p_rescan i _ => [(l_vec, false); (l_flag i, false)]
    | p_check (Some i) | p_compute i => [(l_arr i, false)]
    | p_store (w :: _) _ _ => [(w_loc w, true)]
    | p_done success (Some i) => [(l_arr i, false); (l_idx i, false); (l_optfull, false)]
    | p_mv_best _ => (l_vec, false) :: map (fun i => (l_flag i, false)) (zrange 0 (zlen (H_mats h)))
    | p_mv_flag _ (Some i) => [(l_flag i, false)]
    | p_ilu => [(l_class, false)]
    | p_sor => [(l_optfull, false)]
    | p_sor_set => [(l_optfull, true)]
    | _ => []
    end.

  (** Two threads are about to touch the same memory, at least one of them writing *)
  Definition race (s : cst T) : Prop :=
    exists t t' l w, (t < N)%nat /\ (t' < N)%nat /\ t <> t' /\ In (l, true) (acc (s_h s) (s_pc s t)) /\ In (l, w) (acc (s_h s) (s_pc s t')).

  Definition init (h : hnd T) (ps : nat -> pc T) : cst T := mkCst h [] None ps.
End C.
