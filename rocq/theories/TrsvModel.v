(** Triangular solve: level2/aoclsparse_trsv_kr.hpp, aoclsparse_trsv_kt.cpp,
    aoclsparse_trsv.cpp.

    The C++ kernels shift base addresses ([x_fix = x - base * incx]); here the shift
    is applied to the index.  [x] is the in/out vector: kernels return its final
    content (they always return aoclsparse_status_success).  [odiv] is the scalar
    division; its value for a zero divisor is left arbitrary. *)
From Coq Require Import ZArith List Bool.
From Verif Require Import Base Algebra Vec UtilModel DoidModel MvModel CsrmvModel HandleModel.
Import ListNotations.
Open Scope Z_scope.

Section K.
  Context {T : Type} (O : ops T).
  Local Notation zero := (o0 O).
  Local Infix "+!" := (oadd O) (at level 50, left associativity).
  Local Infix "-!" := (osub O) (at level 50, left associativity).
  Local Infix "*!" := (omul O) (at level 40, left associativity).
  Local Infix "/!" := (odiv O) (at level 40, left associativity).

  (** [x[p] /= d] *)
  Definition div_at (x : list T) (p : Z) (d : T) : option (list T) :=
    let* v := rd x p in wr x p (v /! d).

  (** [xi -= a_fix[idx] * x_fix[icol_fix[idx] * incx]] for lo <= idx < hi,
      trsv_kr.hpp 60-66, 153-159 *)
  Definition sub_dot (cj : bool) (b lo hi : Z) (a : list T) (icol : list Z) (incx : Z) (x : list T) (xi : T)
      : option T :=
    for_ lo hi (fun idx xi =>
      let* v := rd a (idx - b) in
      let* c := rd icol (idx - b) in
      let* xv := rd x ((c - b) * incx) in
      Some (xi -! cjh O cj v *! xv)) xi.

  (** [x_fix[icol_fix[idx] * incx] -= a_fix[idx] * xi] for lo <= idx < hi,
      trsv_kt.cpp 262-268, 486-492 *)
  Definition sub_col (cj : bool) (b lo hi : Z) (a : list T) (icol : list Z) (incx : Z) (xi : T) (x : list T)
      : option (list T) :=
    for_ lo hi (fun idx x =>
      let* c := rd icol (idx - b) in
      let* v := rd a (idx - b) in
      let* xv := rd x ((c - b) * incx) in
      wr x ((c - b) * incx) (xv -! cjh O cj v *! xi)) x.

  (** [x[i * incx] = alpha * b[i * incb]] for all rows, trsv_kr.hpp 99-100, 194-195 *)
  Definition load_rhs (alpha : T) (m : Z) (rhs : list T) (incb incx : Z) (x : list T) : option (list T) :=
    for_ 0 m (fun i x => let* bi := rd rhs (i * incb) in wr x (i * incx) (alpha *! bi)) x.

  (** trsv_kr.hpp 38-77: ref_trsv_l<T, CONJ> *)
  Definition ref_trsv_l (cj : bool) (alpha : T) (m b : Z) (a : list T) (icol ilrow idiag : list Z)
      (rhs : list T) (incb : Z) (x : list T) (incx : Z) (unit : bool) : option (list T) :=
    for_ 0 m (fun i x =>
      let* bi := rd rhs (i * incb) in
      let* lo := rd ilrow i in
      let* hi := rd idiag i in
      let* xi := sub_dot cj b lo hi a icol incx x (alpha *! bi) in
      let* xi := (if negb unit then let* d := rd a (hi - b) in Some (xi /! cjh O cj d) else Some xi) in
      wr x (i * incx) xi) x.

  (** The same with [xi] re-read from x[i * incx] (position [pi]) at each step,
      trsv_kr.hpp 112-118, 210-216 *)
  Definition sub_col_re (cj : bool) (b lo hi : Z) (a : list T) (icol : list Z) (incx : Z) (pi : Z) (x : list T)
      : option (list T) :=
    for_ lo hi (fun idx x =>
      let* c := rd icol (idx - b) in
      let* v := rd a (idx - b) in
      let* xi := rd x pi in
      let* xv := rd x ((c - b) * incx) in
      wr x ((c - b) * incx) (xv -! cjh O cj v *! xi)) x.

  (** trsv_kr.hpp 82-122: ref_trsv_lth<T, CONJ> *)
  Definition ref_trsv_lth (cj : bool) (alpha : T) (m b : Z) (a : list T) (icol ilrow idiag : list Z)
      (rhs : list T) (incb : Z) (x : list T) (incx : Z) (unit : bool) : option (list T) :=
    let* x := load_rhs alpha m rhs incb incx x in
    for_down 0 m (fun i x =>
      let* hi := rd idiag i in
      let* x := (if negb unit then let* d := rd a (hi - b) in div_at x (i * incx) (cjh O cj d) else Some x) in
      let* lo := rd ilrow i in
      sub_col_re cj b lo hi a icol incx (i * incx) x) x.

  (** trsv_kr.hpp 129-174: ref_trsv_u<T, CONJ>; the bound [idx <= idxend] with
      idxend = ilrow[i+1] - 1. *)
  Definition ref_trsv_u (cj : bool) (alpha : T) (m b : Z) (a : list T) (icol ilrow iurow : list Z)
      (rhs : list T) (incb : Z) (x : list T) (incx : Z) (unit : bool) : option (list T) :=
    for_down 0 m (fun i x =>
      let* idxstart := rd iurow i in
      let* e := rd ilrow (i + 1) in
      let idxend := e - 1 in
      let* bi := rd rhs (i * incb) in
      let* xi := sub_dot cj b idxstart (idxend + 1) a icol incx x (alpha *! bi) in
      let* x := wr x (i * incx) xi in
      if negb unit then
        let* d := rd a (idxstart - 1 - b) in div_at x (i * incx) (cjh O cj d)
      else Some x) x.

  (** trsv_kr.hpp 179-222: ref_trsv_uth<T, CONJ> *)
  Definition ref_trsv_uth (cj : bool) (alpha : T) (m b : Z) (a : list T) (icol ilrow iurow : list Z)
      (rhs : list T) (incb : Z) (x : list T) (incx : Z) (unit : bool) : option (list T) :=
    let* x := load_rhs alpha m rhs incb incx x in
    for_ 0 m (fun i x =>
      let* idxstart := rd iurow i in
      let* x := (if negb unit then
                   let* d := rd a (idxstart - 1 - b) in div_at x (i * incx) (cjh O cj d)
                 else Some x) in
      let* e := rd ilrow (i + 1) in
      let idxend := e - 1 in
      sub_col_re cj b idxstart (idxend + 1) a icol incx (i * incx) x) x.

  (** ** Vector kernels.  A register is a list of [tsz] lanes. *)

  (** [iidx[jj] = icol_fix[idx + jj] * incx] then kt_set_p / kt_maskz_set_p on x_fix:
      the first [k] lanes, trsv_kt.cpp 99-105, 121-127 *)
  Definition gather (k b : Z) (icol : list Z) (incx : Z) (x : list T) (idx : Z) : option (list T) :=
    mapM (fun t => let* c := rd icol (idx + t - b) in rd x ((c - b) * incx)) (zrange 0 k).

  (** kt_loadu_p, kt_conj_p: the first [k] lanes of A *)
  Definition loada (cj : bool) (k b : Z) (a : list T) (idx : Z) : option (list T) :=
    let* va := vload k a (idx - b) in Some (map (cjh O cj) va).

  (** Masked loads fill the last lane with zero: kt_maskz_set_p<..., tsz - 1> *)
  Definition pad (v : list T) : list T := v ++ [zero].

  (** The dot part of kt_trsv_l (lo = ilrow[i], hi = idiag[i]; trsv_kt.cpp 92-143) and
      of kt_trsv_u (lo = iurow[i], hi = ilrow[i+1] = idxend + 1; 323-374). *)
  Definition kt_sub_dot (cj : bool) (tsz b lo hi : Z) (a : list T) (icol : list Z) (incx : Z) (x : list T) (xi : T)
      : option T :=
    let idxcnt := hi - lo in
    let idxrem := Z.rem idxcnt tsz in
    let* pvec := for_step lo (hi - idxrem) tsz (fun idx pvec =>
      let* avec := loada cj tsz b a idx in
      let* xvec := gather tsz b icol incx x idx in
      Some (map2 (fun p s => p +! s) (map2 (fun p s => p *! s) avec xvec) pvec)) (zrep tsz zero) in
    let xi := if 0 <=? idxcnt - tsz then xi -! hsum_kt O pvec else xi in
    if idxrem =? tsz - 1 then
      let idx := hi - idxrem in
      let* avec := loada cj (tsz - 1) b a idx in
      let* xvec := gather (tsz - 1) b icol incx x idx in
      Some (xi -! hsum_kt O (map2 (fun p s => p *! s) (pad avec) (pad xvec)))
    else sub_dot cj b (hi - idxrem) hi a icol incx x xi.

  (** kt_scatter_p / the store loop over [k] lanes: [x_fix[icol_fix[idx + k] * incx] =
      xvptr[k]], trsv_kt.cpp 237, 259-260 *)
  Definition scatter (k b : Z) (icol : list Z) (incx : Z) (idx : Z) (v : list T) (x : list T) : option (list T) :=
    for_ 0 k (fun t x =>
      let* c := rd icol (idx + t - b) in
      let* vt := rd v t in
      wr x ((c - b) * incx) vt) x.

  (** xvec = fmadd(avec, set1(mxi), xvec) *)
  Definition upd_lanes (avec xvec : list T) (mxi : T) : list T :=
    map2 (fun p s => p +! s) (map (fun v => v *! mxi) avec) xvec.

  (** The column part of kt_trsv_lt (trsv_kt.cpp 221-269) and kt_trsv_ut (450-492) *)
  Definition kt_sub_col (cj : bool) (tsz b lo hi : Z) (a : list T) (icol : list Z) (incx : Z) (xi : T) (x : list T)
      : option (list T) :=
    let mxi := oopp O xi in
    let idxcnt := hi - lo in
    let idxrem := Z.rem idxcnt tsz in
    let* x := for_step lo (hi - idxrem) tsz (fun idx x =>
      let* xvec := gather tsz b icol incx x idx in
      let* avec := loada cj tsz b a idx in
      scatter tsz b icol incx idx (upd_lanes avec xvec mxi) x) x in
    if idxrem =? tsz - 1 then
      let idx := hi - idxrem in
      let* xvec := gather (tsz - 1) b icol incx x idx in
      let* avec := loada cj (tsz - 1) b a idx in
      scatter (tsz - 1) b icol incx idx (upd_lanes (pad avec) (pad xvec) mxi) x
    else sub_col cj b (hi - idxrem) hi a icol incx xi x.

  (** trsv_kt.cpp 65-146: kt_trsv_l<SZ, SUF, EXT, CONJ>; [tsz] lanes *)
  Definition kt_trsv_l (cj : bool) (tsz : Z) (alpha : T) (m b : Z) (a : list T) (icol ilrow idiag : list Z)
      (rhs : list T) (incb : Z) (x : list T) (incx : Z) (unit : bool) : option (list T) :=
    for_ 0 m (fun i x =>
      let* idxend := rd idiag i in
      let* bi := rd rhs (i * incb) in
      let* lo := rd ilrow i in
      let* xi := kt_sub_dot cj tsz b lo idxend a icol incx x (alpha *! bi) in
      let* x := wr x (i * incx) xi in
      if negb unit then let* d := rd a (idxend - b) in div_at x (i * incx) (cjh O cj d) else Some x) x.

  (** trsv_kt.cpp 177-272: kt_trsv_lt.  The right-hand side is loaded only when alpha
      is not zero (203-205). *)
  Definition kt_trsv_lt (cj : bool) (tsz : Z) (alpha : T) (m b : Z) (a : list T) (icol ilrow idiag : list Z)
      (rhs : list T) (incb : Z) (x : list T) (incx : Z) (unit : bool) : option (list T) :=
    let* x := (if negb (oeqb O alpha zero) then load_rhs alpha m rhs incb incx x else Some x) in
    for_down 0 m (fun i x =>
      let* idxend := rd idiag i in
      let* x := (if negb unit then let* d := rd a (idxend - b) in div_at x (i * incx) (cjh O cj d) else Some x) in
      let* xi := rd x (i * incx) in
      let* lo := rd ilrow i in
      kt_sub_col cj tsz b lo idxend a icol incx xi x) x.

  (** trsv_kt.cpp 301-384: kt_trsv_u *)
  Definition kt_trsv_u (cj : bool) (tsz : Z) (alpha : T) (m b : Z) (a : list T) (icol ilrow iurow : list Z)
      (rhs : list T) (incb : Z) (x : list T) (incx : Z) (unit : bool) : option (list T) :=
    for_down 0 m (fun i x =>
      let* idxstart := rd iurow i in
      let* e := rd ilrow (i + 1) in
      let idxend := e - 1 in
      let* bi := rd rhs (i * incb) in
      let* xi := kt_sub_dot cj tsz b idxstart (idxend + 1) a icol incx x (alpha *! bi) in
      let* x := wr x (i * incx) xi in
      if negb unit then
        let* d := rd a (idxstart - 1 - b) in div_at x (i * incx) (cjh O cj d)
      else Some x) x.

  (** trsv_kt.cpp 413-503: kt_trsv_ut; right-hand side as in kt_trsv_lt (439-441) *)
  Definition kt_trsv_ut (cj : bool) (tsz : Z) (alpha : T) (m b : Z) (a : list T) (icol ilrow iurow : list Z)
      (rhs : list T) (incb : Z) (x : list T) (incx : Z) (unit : bool) : option (list T) :=
    let* x := (if negb (oeqb O alpha zero) then load_rhs alpha m rhs incb incx x else Some x) in
    for_ 0 m (fun i x =>
      let* idxstart := rd iurow i in
      let* e := rd ilrow (i + 1) in
      let idxend := e - 1 in
      let* x := (if negb unit then
                   let* d := rd a (idxstart - 1 - b) in div_at x (i * incx) (cjh O cj d)
                 else Some x) in
      let* xi := rd x (i * incx) in
      kt_sub_col cj tsz b idxstart (idxend + 1) a icol incx xi x) x.

  Variables (dt : dtype) (choice : Z -> option Z).

  (** trsv.cpp 320-415: kernel table, row (doid - 12), column [k]; the Oracle picks the
      column ([choice], property C35).  [ilend] is idiag for the lower doids and iurow
      for the upper ones. *)
  Definition trsv_kernel (k d_id : Z) (alpha : T) (m b : Z) (a : list T) (icol ilrow idiag iurow : list Z)
      (rhs : list T) (incb : Z) (x : list T) (incx : Z) (unit : bool) : option (list T) :=
    let tsz := tbl_tsz dt k in
    match d_id - 12 with
    | 0 => if k =? 0 then ref_trsv_l false alpha m b a icol ilrow idiag rhs incb x incx unit
           else kt_trsv_l false tsz alpha m b a icol ilrow idiag rhs incb x incx unit
    | 1 => if k =? 0 then ref_trsv_l true alpha m b a icol ilrow idiag rhs incb x incx unit
           else kt_trsv_l true tsz alpha m b a icol ilrow idiag rhs incb x incx unit
    | 2 => if k =? 0 then ref_trsv_lth false alpha m b a icol ilrow idiag rhs incb x incx unit
           else kt_trsv_lt false tsz alpha m b a icol ilrow idiag rhs incb x incx unit
    | 3 => if k =? 0 then ref_trsv_lth true alpha m b a icol ilrow idiag rhs incb x incx unit
           else kt_trsv_lt true tsz alpha m b a icol ilrow idiag rhs incb x incx unit
    | 4 => if k =? 0 then ref_trsv_u false alpha m b a icol ilrow iurow rhs incb x incx unit
           else kt_trsv_u false tsz alpha m b a icol ilrow iurow rhs incb x incx unit
    | 5 => if k =? 0 then ref_trsv_u true alpha m b a icol ilrow iurow rhs incb x incx unit
           else kt_trsv_u true tsz alpha m b a icol ilrow iurow rhs incb x incx unit
    | 6 => if k =? 0 then ref_trsv_uth false alpha m b a icol ilrow iurow rhs incb x incx unit
           else kt_trsv_ut false tsz alpha m b a icol ilrow iurow rhs incb x incx unit
    | 7 => if k =? 0 then ref_trsv_uth true alpha m b a icol ilrow iurow rhs incb x incx unit
           else kt_trsv_ut true tsz alpha m b a icol ilrow iurow rhs incb x incx unit
    | _ => None
    end.

  Variable srt : (Z -> Z -> bool) -> list Z -> list Z.
  Variables (fz : Z -> list Z) (ft : Z -> list T).

  (** trsv.cpp 46-417: aoclsparse::trsv on a handle created from CSR or CSC arrays
      (input_format aoclsparse_csr_mat; TCSR handles: see TcsrModel).  [w]: value bits
      of aoclsparse_int.  Not modelled: the value-type test and invalid descriptor
      enumerators.  Result: status, x if written, handle after the call. *)
  Definition trsv (w : Z) (op : operation) (alpha : T) (A : option (hnd T)) (d : option descr)
      (rhs : option (list T)) (incb : Z) (x : option (list T)) (incx kid : Z)
      : option (status * option (list T) * option (hnd T)) :=
    match A, x, rhs, d with
    | Some h, Some x, Some rhs, Some d =>
      let fail s := Some (s, None, Some h) in
      if (H_m h <=? 0) || (H_nnz h <=? 0) then fail invalid_size
      else if negb (H_m h =? H_n h) || (incb <=? 0) || (incx <=? 0) then fail invalid_value
      else match H_mats h with
      | [] | None :: _ => fail invalid_pointer
      | Some u :: _ =>
        if negb (c_b u =? d_base d) then fail invalid_value
        else if negb ((d_base d =? 0) || (d_base d =? 1)) then fail invalid_value
        else if negb (valid_op op) then fail not_implemented
        else if match d_type d with mt_symmetric | mt_triangular => false | _ => true end then fail invalid_value
        else if diag_eqb (d_diag d) dg_zero then fail invalid_value
        else
          let* (st, h, r) := csr_csc_optimize O srt fz ft h in
          match st with
          | success =>
            let unit := diag_eqb (d_diag d) dg_unit in
            if negb (H_optfull h) && negb unit then Some (invalid_value, None, Some h)
            else
              let* d_id := get_doid (negb (is_cplx dt)) mt_triangular (d_fill d) op in
              match r with
              | None => Some (internal_error, None, Some h)
              | Some i =>
                let* e := rd (H_mats h) i in
                let* c := e in
                let d_id := if c_doid c =? gt then trans_doid d_id else d_id in
                if (d_id - 12 <? 0) || (7 <? d_id - 12) then Some (internal_error, None, Some h)
                else match choice kid with
                | None => Some (invalid_kid, None, Some h)
                | Some k =>
                  let* o1 := int_product_overflow w (H_m h - 1) incx in
                  let* o2 := int_product_overflow w (H_m h - 1) incb in
                  if o1 || o2 then Some (invalid_size, None, Some h)
                  else
                    let* x := trsv_kernel k d_id alpha (H_m h) (c_b c) (c_val c) (c_ind c) (c_ptr c)
                                (onull (c_idiag c)) (onull (c_iurow c)) rhs incb x incx unit in
                    Some (success, Some x, Some h)
                end
              end
          | _ => Some (st, None, Some h)
          end
      end
    | _, _, _, _ => Some (invalid_pointer, None, A)
    end.
End K.
