(** Memory of matrix handles: who allocates, frees and keeps which block.  All blocks of
    the program live in one heap; reading, writing or freeing a dead block is undefined
    behaviour ([None]).  Every allocation may fail.

    Simplifications: the storage of std::vector members is released with its owner
    and not modelled (a failing push_back is an argument of the operations); which
    way the validation and sorting of the arrays goes is an argument, too, so the
    results hold for every outcome. *)
From Coq Require Import ZArith List Bool.
From Verif Require Import Base DoidModel.
Import ListNotations.
Open Scope Z_scope.

(** include/aoclsparse_mat_structures.hpp 90-165: base_mtx and csr; pointers are
    addresses, 0 is null *)
Record csr_obj := mkCO { o_internal : bool; o_m : Z; o_n : Z; o_nnz : Z; o_doid : Z; o_base : Z;
  o_ptr : Z; o_ind : Z; o_val : Z; o_idiag : Z; o_iurow : Z; o_dval : Z; o_opt : bool }.
(** 53-68: aoclsparse_optimize_data; the recorded request is [hn_what] *)
Record hint_obj := mkHN { hn_what : Z; hn_done : bool; hn_next : Z }.
(** 759-858: _aoclsparse_matrix with the ilu_info members *)
Record mat_obj := mkMO { M_m : Z; M_n : Z; M_nnz : Z; M_mats : list Z; M_hints : Z; M_ludiag : Z; M_luval : Z; M_iluready : bool }.

Section M.
  Context {T : Type}.

  Inductive blk := B_ints (l : list Z) | B_vals (l : list T) | B_csr (c : csr_obj) | B_hint (n : hint_obj) | B_mat (a : mat_obj).
  Definition heap := Z -> option blk.
  Record mem := mkMem { tick : Z; hp : heap }.

  (** operator new: an address that is not in use, or failure; may depend on anything *)
  Variable pick : Z -> heap -> option Z.

  Definition put (h : heap) (p : Z) (b : option blk) : heap := fun q => if q =? p then b else h q.
  Definition alloc (b : blk) (s : mem) : mem * option Z :=
    match pick (tick s) (hp s) with
    | Some p => (mkMem (tick s + 1) (put (hp s) p (Some b)), Some p)
    | None => (mkMem (tick s + 1) (hp s), None)
    end.
  (** delete: null is ignored, anything dead is undefined *)
  Definition delete (p : Z) (s : mem) : option mem :=
    if p =? 0 then Some s else match hp s p with Some _ => Some (mkMem (tick s) (put (hp s) p None)) | None => None end.
  Definition store (p : Z) (b : blk) (s : mem) : option mem :=
    match hp s p with Some _ => Some (mkMem (tick s) (put (hp s) p (Some b))) | None => None end.
  Definition get_csr (s : mem) (p : Z) : option csr_obj := match hp s p with Some (B_csr c) => Some c | _ => None end.
  Definition get_mat (s : mem) (p : Z) : option mat_obj := match hp s p with Some (B_mat a) => Some a | _ => None end.
  Definition get_hint (s : mem) (p : Z) : option hint_obj := match hp s p with Some (B_hint n) => Some n | _ => None end.
  Definition get_ints (s : mem) (p : Z) : option (list Z) := match hp s p with Some (B_ints l) => Some l | _ => None end.
  Definition get_vals (s : mem) (p : Z) : option (list T) := match hp s p with Some (B_vals l) => Some l | _ => None end.

  Definition with_mats (a : mat_obj) (l : list Z) : mat_obj := mkMO (M_m a) (M_n a) (M_nnz a) l (M_hints a) (M_ludiag a) (M_luval a) (M_iluready a).
  Definition with_hints (a : mat_obj) (p : Z) : mat_obj := mkMO (M_m a) (M_n a) (M_nnz a) (M_mats a) p (M_ludiag a) (M_luval a) (M_iluready a).
  Definition with_ilu (a : mat_obj) (p v : Z) (r : bool) : mat_obj := mkMO (M_m a) (M_n a) (M_nnz a) (M_mats a) (M_hints a) p v r.
  Definition with_index (c : csr_obj) (p q : Z) (o : bool) : csr_obj :=
    mkCO (o_internal c) (o_m c) (o_n c) (o_nnz c) (o_doid c) (o_base c) (o_ptr c) (o_ind c) (o_val c) p q (o_dval c) o.
  Definition with_arrays (c : csr_obj) (p i v : Z) : csr_obj :=
    mkCO (o_internal c) (o_m c) (o_n c) (o_nnz c) (o_doid c) (o_base c) p i v (o_idiag c) (o_iurow c) (o_dval c) (o_opt c).
  Definition with_diag (c : csr_obj) (p d : Z) : csr_obj :=
    mkCO (o_internal c) (o_m c) (o_n c) (o_nnz c) (o_doid c) (o_base c) (o_ptr c) (o_ind c) (o_val c) p (o_iurow c) d (o_opt c).

  (** mat_structures.hpp 235-249: ~csr, then the object itself *)
  Definition delete_csr (p : Z) (s : mem) : option mem :=
    let* c := get_csr s p in
    let* s := (if o_internal c then
                 let* s := delete (o_ptr c) s in let* s := delete (o_ind c) s in delete (o_val c) s
               else Some s) in
    let* s := delete (o_idiag c) s in
    let* s := delete (o_iurow c) s in
    let* s := delete (o_dval c) s in
    delete p s.

  (** mat_structures.hpp 173-211: the constructor for internally created matrices, with
      any initial contents; [None] as address: bad_alloc was thrown.  The object's own
      memory is obtained first and given back when the constructor throws; the pointers
      of the object are set when it is complete.  nnz < 0: no index and value array. *)
  Definition new_csr (c0 : csr_obj) (pi ii : list Z) (vi : list T) (s : mem) : option (mem * option Z) :=
    let (s, q) := alloc (B_csr c0) s in
    match q with
    | None => Some (s, None)
    | Some q =>
        if (o_m c0 <? 0) || (o_n c0 <? 0) then let* s := delete q s in Some (s, None)
        else
          let (s, p) := alloc (B_ints pi) s in
          match p with
          | None => let* s := delete q s in Some (s, None)
          | Some p =>
              if o_nnz c0 <? 0 then let* s := store q (B_csr (with_arrays c0 p 0 0)) s in Some (s, Some q)
              else
                let (s, i) := alloc (B_ints ii) s in
                match i with
                | None => let* s := delete p s in let* s := delete q s in Some (s, None)
                | Some i =>
                    let (s, v) := alloc (B_vals vi) s in
                    match v with
                    | None => let* s := delete p s in let* s := delete i s in let* s := delete q s in Some (s, None)
                    | Some v => let* s := store q (B_csr (with_arrays c0 p i v)) s in Some (s, Some q)
                    end
                end
          end
    end.

  (** push_back on A->mats; failure throws bad_alloc and the caller deletes the copy *)
  Definition push (a q : Z) (fails : bool) (s : mem) : option (mem * status) :=
    if fails then let* s := delete_csr q s in Some (s, memory_error)
    else
      let* A := get_mat s a in
      let* s := store a (B_mat (with_mats A (M_mats A ++ [q]))) s in
      Some (s, success).

  (** create/aoclsparse_create.cpp 34-95, extra/aoclsparse_auxiliary.cpp 1030-1089:
      create_csr / create_csc after successful validation, on user arrays at [p], [i],
      [v]; for CSC [o_m] is the number of columns.  Result: status and *mat. *)
  Definition create (m n nnz : Z) (c : csr_obj) (push_fails : bool) (s : mem) : option (mem * (status * Z)) :=
    let (s, a) := alloc (B_mat (mkMO m n nnz [] 0 0 0 false)) s in
    match a with
    | None => Some (s, (memory_error, 0))
    | Some a =>
        let (s, q) := alloc (B_csr c) s in
        match q with
        | None => let* s := delete a s in Some (s, (memory_error, 0))
        | Some q =>
            if push_fails then let* s := delete_csr q s in let* s := delete a s in Some (s, (memory_error, 0))
            else
              let* s := store a (B_mat (mkMO m n nnz [q] 0 0 0 false)) s in
              Some (s, (success, a))
        end
    end.

  (** analysis/aoclsparse_csr_util.cpp 47-100: aoclsparse_add_hint *)
  Definition add_hint (a what : Z) (s : mem) : option (mem * status) :=
    let* A := get_mat s a in
    let (s, n) := alloc (B_hint (mkHN what false (M_hints A))) s in
    match n with
    | None => Some (s, memory_error)
    | Some n => let* s := store a (B_mat (with_hints A n)) s in Some (s, success)
    end.

  (** analysis/aoclsparse_csr_util.cpp 389-458: aoclsparse_csr_csc_indices on the
      members of the csr object at [q], with results [di], [ui] *)
  Definition new_indices (q : Z) (di ui : list Z) (opt : bool) (s : mem) : option (mem * bool) :=
    let* c := get_csr s q in
    let (s, p) := alloc (B_ints di) s in
    match p with
    | None => (* delete[] of both members, which then are null *)
        let* s := delete (o_idiag c) s in let* s := delete (o_iurow c) s in
        let* s := store q (B_csr (with_index c 0 0 (o_opt c))) s in Some (s, false)
    | Some p =>
        let (s, r) := alloc (B_ints ui) s in
        match r with
        | None =>
            let* s := delete p s in let* s := delete (o_iurow c) s in
            let* s := store q (B_csr (with_index c 0 0 (o_opt c))) s in Some (s, false)
        | Some r => let* s := store q (B_csr (with_index c p r opt)) s in Some (s, true)
        end
    end.

  (** First optimised csr in the list / first csr (csr_util.hpp 785-799); null slots
      fail the dynamic_cast *)
  Fixpoint scan_opt (s : mem) (l : list Z) : option bool :=
    match l with
    | [] => Some false
    | q :: l => if q =? 0 then scan_opt s l else let* c := get_csr s q in if o_opt c then Some true else scan_opt s l
    end.
  Fixpoint scan_src (l : list Z) : Z := match l with [] => 0 | q :: l => if q =? 0 then scan_src l else q end.

  (** The course of the content dependent part of csr_csc_optimize *)
  Inductive course :=
  | co_refused (st : status)                       (* validation failed *)
  | co_in_place (di ui : list Z)                   (* rows in order, full diagonal *)
  | co_copy (pi ii : list Z) (vi : list T) (resort_fails : bool) (fill : option (bool * (list Z * list Z * list T))) (di ui : list Z) (push_fails : bool).

  (** csr_util.hpp 163-279: memory of fill_diag on the arrays of the object at [q] when
      entries are missing; [vec_fails]: the temporary vector cannot be allocated *)
  Definition fill_mem (q : Z) (vec_fails : bool) (pi ii : list Z) (vi : list T) (s : mem) : option (mem * bool) :=
    if vec_fails then Some (s, false)
    else
      let* c := get_csr s q in
      let (s, p) := alloc (B_ints pi) s in
      match p with
      | None => Some (s, false)
      | Some p =>
          let (s, i) := alloc (B_ints ii) s in
          match i with
          | None => let* s := delete p s in Some (s, false)
          | Some i =>
              let (s, v) := alloc (B_vals vi) s in
              match v with
              | None => let* s := delete p s in let* s := delete i s in Some (s, false)
              | Some v =>
                  let* s := delete (o_ind c) s in let* s := delete (o_ptr c) s in let* s := delete (o_val c) s in
                  let* s := store q (B_csr (with_arrays c p i v)) s in Some (s, true)
              end
          end
      end.

  (** csr_util.hpp 765-967: aoclsparse_csr_csc_optimize *)
  Definition optimize_mem (a : Z) (k : course) (s : mem) : option (mem * status) :=
    let* A := get_mat s a in
    let* found := scan_opt s (M_mats A) in
    if found then Some (s, success)
    else
      let src := scan_src (M_mats A) in
      if src =? 0 then Some (s, not_implemented)
      else
        let* c := get_csr s src in
        match k with
        | co_refused st => Some (s, match st with success => internal_error | _ => st end)
        | co_in_place di ui =>
            let* (s, ok) := new_indices src di ui true s in
            Some (s, if ok then success else memory_error)
        | co_copy pi ii vi resort_fails fill di ui push_fails =>
            let* (s, q) := new_csr (mkCO true (o_m c) (o_n c) (o_nnz c) (o_doid c) 0 0 0 0 0 0 0 false) pi ii vi s in
            match q with
            | None => Some (s, memory_error)
            | Some q =>
                if resort_fails then let* s := delete_csr q s in Some (s, internal_error)
                else
                  let* (s, ok) := match fill with None => Some (s, true) | Some (vf, (pi, ii, vi)) => fill_mem q vf pi ii vi s end in
                  if negb ok then let* s := delete_csr q s in Some (s, memory_error)
                  else
                    let* (s, ok) := new_indices q di ui true s in
                    if negb ok then let* s := delete_csr q s in Some (s, memory_error)
                    else push a q push_fails s
            end
        end.

  (** csr_util.hpp 512-756: one hinted copy made by aoclsparse_matrix_transform: a
      transposed copy (560-621) or a full-storage copy (622-750 with
      convert_mat_to_general 311-457) *)
  Inductive hcourse :=
  | hc_transposed (pi ii : list Z) (vi : list T) (fails push_fails : bool)
  | hc_full (vec1_fails vec2_fails : bool) (pi ii di : list Z) (vi dvi : list T) (push_fails : bool).

  Definition hinted_mem (a doid : Z) (k : hcourse) (s : mem) : option (mem * status) :=
    let* A := get_mat s a in
    let* src := match M_mats A with q :: _ => Some q | [] => None end in
    if src =? 0 then Some (s, not_implemented)
    else
      let* c := get_csr s src in
      match k with
      | hc_transposed pi ii vi fails push_fails =>
          let* (s, q) := new_csr (mkCO true (o_n c) (o_m c) (o_nnz c) doid 0 0 0 0 0 0 0 false) pi ii vi s in
          match q with
          | None => Some (s, memory_error)
          | Some q => if fails then let* s := delete_csr q s in Some (s, memory_error) else push a q push_fails s
          end
      | hc_full vec1_fails vec2_fails pi ii di vi dvi push_fails =>
          if negb (M_m A =? M_n A) then Some (s, invalid_size)
          else
            let* (s, q) := new_csr (mkCO true (M_m A) (M_n A) (-1) doid 0 0 0 0 0 0 0 false) pi [] [] s in
            match q with
            | None => Some (s, memory_error)
            | Some q =>
                if vec1_fails then let* s := delete_csr q s in Some (s, memory_error)
                else
                  let* c := get_csr s q in
                  let (s, d) := alloc (B_ints di) s in
                  match d with
                  | None => let* s := delete_csr q s in Some (s, memory_error)
                  | Some d =>
                      let* s := store q (B_csr (with_diag c d 0)) s in
                      let (s, e) := alloc (B_vals dvi) s in
                      match e with
                      | None => let* s := delete_csr q s in Some (s, memory_error)
                      | Some e =>
                          let* s := store q (B_csr (with_diag c d e)) s in
                          if vec2_fails then let* s := delete_csr q s in Some (s, memory_error)
                          else
                            let (s, v) := alloc (B_vals vi) s in
                            match v with
                            | None => let* s := delete_csr q s in Some (s, memory_error)
                            | Some v =>
                                let* s := store q (B_csr (with_arrays (with_diag c d e) (o_ptr c) 0 v)) s in
                                let (s, i) := alloc (B_ints ii) s in
                                match i with
                                | None => let* s := delete_csr q s in Some (s, memory_error)
                                | Some i =>
                                    let* s := store q (B_csr (with_arrays (with_diag c d e) (o_ptr c) i v)) s in
                                    push a q push_fails s
                                end
                            end
                      end
                  end
            end
      end.

  (** memcpy of the first [n] elements into a fresh block of [n] elements *)
  Definition memcpy_new {A} (n : Z) (src : list A) : option (list A) :=
    if (0 <=? n) && (n <=? zlen src) then Some (firstn (Z.to_nat n) src) else None.

  (** analysis/aoclsparse_analysis.cpp 390-425: aoclsparse_optimize_ilu *)
  Definition optimize_ilu_mem (a : Z) (di : list Z) (s : mem) : option (mem * status) :=
    let* A := get_mat s a in
    let* src := match M_mats A with q :: _ => Some q | [] => None end in
    if src =? 0 then Some (s, not_implemented)
    else
      let* c := get_csr s src in
      if M_iluready A then Some (s, success)
      else
        let (s, p) := alloc (B_ints di) s in
        match p with
        | None => let* s := delete (M_ludiag A) s in Some (s, memory_error)
        | Some p =>
            let* vals := get_vals s (o_val c) in
            let* vals := memcpy_new (M_nnz A) vals in
            let* s := store a (B_mat (with_ilu A p (M_luval A) false)) s in
            let (s, v) := alloc (B_vals vals) s in
            match v with
            | None => let* s := delete p s in Some (s, memory_error)
            | Some v => let* s := store a (B_mat (with_ilu A p v true)) s in Some (s, success)
            end
        end.

  (** extra/aoclsparse_auxiliary.hpp 215-270, 387-473: the value array is rewritten (one
      entry, or all), then the copies are deleted *)
  Inductive wop := w_at (k : Z) (v : T) | w_all (l : list T).
  Fixpoint drop_mem (l : list Z) (s : mem) : option mem :=
    match l with [] => Some s | q :: l => let* s := (if q =? 0 then Some s else delete_csr q s) in drop_mem l s end.
  Definition write_mem (a : Z) (o : wop) (s : mem) : option (mem * status) :=
    let* A := get_mat s a in
    match M_mats A with
    | [] => Some (s, invalid_pointer)
    | q :: rest =>
        if q =? 0 then Some (s, invalid_pointer)
        else
          let* c := get_csr s q in
          let* vals := get_vals s (o_val c) in
          let* vals := match o with w_at k v => wr vals k v | w_all l => for_ 0 (M_nnz A) (fun i x => let* v := rd l i in wr x i v) vals end in
          let* s := store (o_val c) (B_vals vals) s in
          let* s := drop_mem rest s in
          let* s := store a (B_mat (with_mats A (q :: map (fun _ => 0) rest))) s in
          Some (s, success)
    end.

  (** extra/aoclsparse_auxiliary.cpp 657-670, 977-1006, csr_util.cpp 30-42: destroy.
      The hint list is followed as long as it has nodes ([fuel] bounds the walk; running
      out of fuel is undefined). *)
  Fixpoint destroy_hints (fuel : nat) (p : Z) (s : mem) : option mem :=
    if p =? 0 then Some s
    else match fuel with
         | O => None
         | S f => let* n := get_hint s p in let* s := delete p s in destroy_hints f (hn_next n) s
         end.
  Definition destroy (fuel : nat) (a : Z) (s : mem) : option mem :=
    if a =? 0 then Some s
    else
      let* A := get_mat s a in
      let* s := destroy_hints fuel (M_hints A) s in
      let* s := delete (M_ludiag A) s in
      let* s := delete (M_luval A) s in
      let* s := drop_mem (M_mats A) s in
      delete a s.

  (** auxiliary.cpp 775-834, 1156-1181, 1212-1256: aoclsparse_copy of a CSR or CSC handle;
      result: status and *dest *)
  Definition copy_mem (a : Z) (push_fails : bool) (s : mem) : option (mem * (status * Z)) :=
    let* A := get_mat s a in
    if (M_m A <? 0) || (M_n A <? 0) || (M_nnz A <? 0) then Some (s, (invalid_size, 0))
    else
      let (s, d) := alloc (B_mat (mkMO (M_m A) (M_n A) (M_nnz A) [] 0 0 0 false)) s in
      match d with
      | None => Some (s, (memory_error, 0))
      | Some d =>
          let fail st s := let* s := destroy 0 d s in Some (s, (st, 0)) in
          match M_mats A with
          | [] => fail invalid_pointer s
          | q :: _ =>
              if q =? 0 then fail invalid_pointer s
              else
                let* c := get_csr s q in
                if (o_m c <? 0) || (o_nnz c <? 0) then fail invalid_size s
                else if (o_ind c =? 0) || (o_ptr c =? 0) || (o_val c =? 0) then fail invalid_pointer s
                else
                  let* pi := get_ints s (o_ptr c) in let* ii := get_ints s (o_ind c) in let* vi := get_vals s (o_val c) in
                  let* pi := memcpy_new (o_m c + 1) pi in let* ii := memcpy_new (o_nnz c) ii in let* vi := memcpy_new (o_nnz c) vi in
                  let* (s, r) := new_csr (mkCO true (o_m c) (o_n c) (o_nnz c) (o_doid c) (o_base c) 0 0 0 0 0 0 false) pi ii vi s in
                  match r with
                  | None => fail memory_error s
                  | Some r =>
                      let* (s, st) := push d r push_fails s in
                      match st with success => Some (s, (success, d)) | _ => fail st s end
                  end
          end
      end.

  (** ** Programs: calls on the handles the program holds *)
  Inductive mcall :=
  | m_create (m n nnz : Z) (csc : bool) (base p i v : Z) (push_fails : bool)
  | m_hint (a what : Z)
  | m_optimize (a : Z) (k : course)
  | m_hinted (a doid : Z) (k : hcourse)
  | m_ilu (a : Z) (di : list Z)
  | m_write (a : Z) (o : wop)
  | m_copy (a : Z) (push_fails : bool)
  | m_destroy (a : Z).

  (** One call; [hs] are the handles the program holds. *)
  Definition do_mcall (fuel : nat) (c : mcall) (s : mem) (hs : list Z) : option (mem * status * list Z) :=
    let keep r := let* (s, st) := r in Some (s, st, hs) in
    let more r := let* (s, (st, d)) := r in Some (s, st, match st with success => d :: hs | _ => hs end) in
    match c with
    | m_create m n nnz csc base p i v pf =>
        more (create m n nnz (mkCO false (if csc then n else m) (if csc then m else n) nnz (if csc then gt else gn) base p i v 0 0 0 false) pf s)
    | m_hint a w => keep (add_hint a w s)
    | m_optimize a k => keep (optimize_mem a k s)
    | m_hinted a d k => keep (hinted_mem a d k s)
    | m_ilu a di => keep (optimize_ilu_mem a di s)
    | m_write a o => keep (write_mem a o s)
    | m_copy a pf => more (copy_mem a pf s)
    | m_destroy a => let* s := destroy fuel a s in Some (s, success, remove Z.eq_dec a hs)
    end.
  Fixpoint mrun (fuel : nat) (l : list mcall) (s : mem) (hs : list Z) : option (mem * list Z) :=
    match l with
    | [] => Some (s, hs)
    | c :: l => let* (s, _, hs) := do_mcall fuel c s hs in mrun fuel l s hs
    end.
End M.
Arguments blk : clear implicits. Arguments heap : clear implicits. Arguments mem : clear implicits. Arguments mcall : clear implicits.
Arguments course : clear implicits. Arguments hcourse : clear implicits. Arguments wop : clear implicits.
