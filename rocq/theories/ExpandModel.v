(** Copies made for hinted products: transposes and full-storage forms of symmetric
    and Hermitian matrices. *)
From Coq Require Import ZArith List Bool.
From Verif Require Import Base Algebra Vec DoidModel MvModel Csr2CscModel CheckModel SortModel CsrmvModel HandleModel.
Import ListNotations.
Open Scope Z_scope.

Definition is_upper (fm : fill_mode) : bool := match fm with fm_upper => true | fm_lower => false end.

Section E.
  Context {T : Type} (O : ops T).
  (** std::real as an element of T (csr_util.hpp 433) *)
  Variable re : T -> T.
  Variables (fz : Z -> list Z) (ft : Z -> list T).

  (** csr_util.hpp 347-364: count the triangles; state (dst ptr, nnz_val).  The test
      of the code: (!uplo && col < i), (uplo && col > i). *)
  Definition expand_count (m b : Z) (up : bool) (ptr ind dptr : list Z) : option (list Z * list Z) :=
    for_ 0 m (fun i st =>
      let* lo := rd ptr i in
      let* hi := rd ptr (i + 1) in
      for_ (lo - b) (hi - b) (fun k st =>
        let '(dptr, nv) := st in
        let* c := rd ind k in
        let col := c - b in
        if negb up && (col <? i) then
          let* dptr := incr dptr (i + 1) in let* nv := incr nv col in Some (dptr, nv)
        else if up && (i <? col) then
          let* dptr := incr dptr (col + 1) in let* nv := incr nv i in Some (dptr, nv)
        else Some (dptr, nv)) st) (dptr, zrep m 0).

  (** csr_util.hpp 366-371: row and diagonal positions *)
  Definition expand_scan (m : Z) (dptr nv idiag : list Z) : option (list Z * list Z) :=
    for_ 0 m (fun i st =>
      let '(dptr, idiag) := st in
      let* p := rd dptr i in
      let* p1 := rd dptr (i + 1) in
      let* idiag := wr idiag i (p + p1) in
      let* v := rd nv i in
      let* dptr := wr dptr (i + 1) (p1 + (p + v + 1)) in
      Some (dptr, idiag)) (dptr, idiag).

  (** csr_util.hpp 411-451: state (ind, val, current_pos, diag_val) *)
  Definition expand_fill (m b : Z) (herm up : bool) (ptr ind : list Z) (val : list T)
      (dptr idiag dind : list Z) (dval : list T) (cp : list Z) (dg : list T)
      : option (list Z * list T * list Z * list T) :=
    for_ 0 m (fun i st =>
      let '(dind, dval, cp, dg) := st in
      let* p := rd dptr i in
      let* id := rd idiag i in
      let* lo := rd ptr i in
      let* hi := rd ptr (i + 1) in
      let* (dind, dval, cp, _, diag) :=
        for_ (lo - b) (hi - b) (fun k st =>
          let '(dind, dval, cp, col_pos, diag) := st in
          let* c := rd ind k in
          let j := c - b in
          let* v := rd val k in
          if (negb up && (j <? i)) || (up && (i <? j)) then
            let* dval := wr dval col_pos v in
            let* dind := wr dind col_pos j in
            let* q := rd cp j in
            let* dval := wr dval q (if herm then ocj O v else v) in
            let* dind := wr dind q i in
            let* cp := wr cp j (q + 1) in
            Some (dind, dval, cp, col_pos + 1, diag)
          else if j =? i then Some (dind, dval, cp, col_pos, if herm then re v else v)
          else Some (dind, dval, cp, col_pos, diag))
        (dind, dval, cp, (if negb up then p else id + 1), o0 O) in
      let* dval := wr dval id diag in
      let* dg := wr dg i diag in
      let* dind := wr dind id i in
      Some (dind, dval, cp, dg)) (dind, dval, cp, dg).

  (** csr_util.hpp 311-457: aoclsparse_convert_mat_to_general<T, HERM>; the source
      arrays are not null.  Fresh arrays have arbitrary content; the new matrix object
      starts with the doid given by the caller.  Integer overflow and allocation
      failure are not modelled. *)
  Definition convert_mat_to_general (herm : bool) (m : Z) (ptr ind : list Z) (val : list T) (fm : fill_mode)
      (b : Z) (doid : Z) : option (cmat T) :=
    let up := is_upper fm in
    let* dptr := fill_range 0 (m + 1) 0 (fz (m + 1)) in
    let* idiag := fill_range 0 m 0 (fz m) in
    let* (dptr, nv) := expand_count m b up ptr ind dptr in
    let* (dptr, idiag) := expand_scan m dptr nv idiag in
    let* nnz := rd dptr m in
    let* cp := (if negb up
                then for_ 0 m (fun i cp => let* d := rd idiag i in wr cp i (d + 1)) (zrep m 0)
                else for_ 0 m (fun i cp => let* p := rd dptr i in wr cp i p) (zrep m 0)) in
    let* (dind, dval, _, dg) := expand_fill m b herm up ptr ind val dptr idiag (fz nnz) (ft nnz) cp (ft m) in
    Some (mkCmat m m nnz doid 0 dptr dind dval (Some idiag) None false dg_non_unit (Some dg)).

  (** Conjugate all values in place: csr_util.hpp 602-606, 666-673, 729-736 *)
  Definition conj_all (n : Z) (v : list T) : option (list T) :=
    for_ 0 n (fun i v => let* a := rd v i in wr v i (ocj O a)) v.

  (** One entry of the hint list as aoclsparse_matrix_transform sees it:
      mat_structures.hpp 53-68 *)
  Record mhint := mkHint { mh_doid : Z; mh_fill : fill_mode; mh_done : bool }.

  Fixpoint has_doid (l : list (option (cmat T))) (d : Z) : bool :=
    match l with
    | [] => false
    | Some c :: l' => (c_doid c =? d) || has_doid l' d
    | None :: l' => has_doid l' d
    end.

  (** csr_util.hpp 530-750: one hint; [Some (inr st)] = return st.  [None] for the copy:
      nothing is created. *)
  Definition make_copy (h : hnd T) (u : cmat T) (doid0 : Z) (fm0 : fill_mode)
      : option (status * option (cmat T)) :=
    let t := if c_doid u =? gt then trans_doid doid0 else doid0 in
    let fm := if c_doid u =? gt then flip_fill fm0 else fm0 in
    if (t =? gt) || (t =? gh) then
      let* r := csr2csc (c_m u) (c_n u) (c_nnz u) (c_b u) 0 (Some (c_ptr u)) (Some (c_ind u)) (Some (c_val u))
                  (Some (fz (c_nnz u))) (Some (fz (c_n u + 1))) (Some (ft (c_nnz u))) in
      match r with
      | (success, Some cp, Some ri, Some v) =>
          let* v := (if t =? gh then conj_all (H_nnz h) v else Some v) in
          Some (success, Some (mkCmat (c_n u) (c_m u) (c_nnz u) doid0 0 cp ri v None None false dg_non_unit None))
      | (success, _, _, _) => None
      | (st, _, _, _) => Some (st, None)
      end
    else if (Z.shiftr t 2 =? 1) || (Z.shiftr t 2 =? 2) then
      if negb (H_m h =? H_n h) then Some (invalid_size, None)
      else
        let* c := convert_mat_to_general (Z.shiftr t 2 =? 2) (H_m h) (c_ptr u) (c_ind u) (c_val u) fm (c_b u) doid0 in
        if (t =? slc) || (t =? suc) || (t =? hlc) || (t =? huc) then
          let* v := conj_all (c_nnz c) (c_val c) in
          let* dg := (match c_dval c with Some dg => conj_all (c_m c) dg | None => None end) in
          Some (success, Some (mkCmat (c_m c) (c_n c) (c_nnz c) (c_doid c) (c_b c) (c_ptr c) (c_ind c) v
                                 (c_idiag c) (c_iurow c) (c_opt c) (c_mdiag c) (Some dg)))
        else Some (success, Some c)
    else Some (success, None).

  (** csr_util.hpp 512-756: aoclsparse_matrix_transform on a handle created from CSR
      or CSC arrays (input_format csr).  The hint list is walked in order; an error
      returns at once.  The value type test and allocation failure are not modelled.
      The release of copies on the error paths is in MemModel. *)
  Fixpoint transform_loop (hs done : list mhint) (h : hnd T) (u : cmat T) : option (status * hnd T * list mhint) :=
    match hs with
    | [] => Some (success, h, done)
    | e :: hs' =>
        if mh_done e || has_doid (H_mats h) (mh_doid e) then transform_loop hs' (done ++ [e]) h u
        else
          let* (st, r) := make_copy h u (mh_doid e) (mh_fill e) in
          match st, r with
          | success, Some c =>
              transform_loop hs' (done ++ [mkHint (mh_doid e) (mh_fill e) true])
                (set_mats h (H_mats h ++ [Some c])) u
          | success, None => transform_loop hs' (done ++ [e]) h u
          | _, _ => Some (st, h, done ++ e :: hs')
          end
    end.
  Definition matrix_transform (h : option (hnd T)) (hs : list mhint) : option (status * option (hnd T) * list mhint) :=
    match h with
    | None => Some (invalid_pointer, None, hs)
    | Some h =>
        match H_mats h with
        | Some u :: _ => let* (st, h, hs) := transform_loop hs [] h u in Some (st, Some h, hs)
        | _ => Some (not_implemented, Some h, hs)
        end
    end.
End E.
