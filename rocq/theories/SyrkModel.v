(** Product of a sparse matrix with its own (conjugate) transpose into a new sparse matrix:
    level3/aoclsparse_syrk.hpp, level3/aoclsparse_syrk.cpp, and the kernel it shares with
    the triple product in level3/aoclsparse_sypr.hpp. *)
From Coq Require Import ZArith List Bool.
From Verif Require Import Base Algebra DoidModel UtilModel Csr CheckModel Csr2CscModel MvModel CsrmvModel HandleModel Csr2mModel OftModel.
Import ListNotations.
Open Scope Z_scope.

(** ** The size of the result: syrk.cpp 60-150, estimate_nnz
    [w]: value bits of aoclsparse_int, leaving its range is undefined (None).  The 64-bit
    sum total_nnz is not bounded here.  Allocation failure is not modelled. *)
Section E.
  Variables (w b : Z) (ptr ind : list Z).
  (** 105-107, 134-136: the share of a row with [s] other elements *)
  Definition est_row (lim s : Z) : Z := Z.quot ((if lim <? s then lim else s) + 1) 2 + 1.

  (** 81-108: A*A' *)
  Definition estimate_aat (m n : Z) : option Z :=
    let* cnt := for_ 0 m (fun i cnt =>
      let* s := rd ptr i in
      let* e := rd ptr (i + 1) in
      for_ (s - b) (e - b) (fun k cnt =>
        let* c := rd ind k in
        let* x := rd cnt (c - b) in
        let* x := chk w (x + 1) in
        wr cnt (c - b) x) cnt) (zrep n 0) in
    for_ 0 m (fun i tot =>
      let* s := rd ptr i in
      let* e := rd ptr (i + 1) in
      let* r := for_ (s - b) (e - b) (fun k r =>
        let* c := rd ind k in
        let* x := rd cnt (c - b) in
        chk w (r + (x - 1))) 0 in
      Some (tot + est_row (m - 1) r)) 0.

  (** 110-137: A'*A *)
  Definition estimate_ata (m n : Z) : option Z :=
    let* cnt := for_ 0 m (fun i cnt =>
      let* s := rd ptr i in
      let* e := rd ptr (i + 1) in
      wr cnt i (e - s)) (zrep m 0) in
    let* row := for_ 0 m (fun i row =>
      let* s := rd ptr i in
      let* e := rd ptr (i + 1) in
      for_ (s - b) (e - b) (fun k row =>
        let* c := rd ind k in
        let* x := rd cnt i in
        let* r := rd row (c - b) in
        let* r := chk w (r + (x - 1)) in
        wr row (c - b) r) row) (zrep n 0) in
    for_ 0 n (fun j tot => let* r := rd row j in Some (tot + est_row (n - 1) r)) 0.

  (** 61-150 with the range test of 142-146 *)
  Definition estimate_nnz (eff_none : bool) (m n : Z) : option (status * Z) :=
    let* tot := if eff_none then estimate_aat m n else estimate_ata m n in
    if int_sum_overflow 63 w tot then Some (invalid_size, 0) else Some (success, tot).
End E.

Section K.
  Context {T : Type} (O : ops T).

  (** ** sypr.hpp 51-108: add_sprow for REQUEST other than nnz_count
      State: nnz[], val[], icolC[] and total_nnz, which equals nnzC *)
  Definition add_sprow (only_u conj_w : bool) (i : Z) (alpha : T) (s e : Z) (icolW : list Z) (valW : list T) (bW : Z)
      (st : list Z * list T * list Z * Z) : option (list Z * list T * list Z * Z) :=
    for_ s e (fun k st =>
      let '(nz, val, icol, tot) := st in
      let* c := rd icolW k in
      let j := c - bW in
      if only_u && (j <? i) then Some st
      else
        let* v := rd valW k in
        let p := omul O alpha (if conj_w then ocj O v else v) in
        let* x := rd nz j in
        if negb (x =? i) then
          let* nz := wr nz j i in
          let* icol := wr icol tot j in
          let* val := wr val j p in
          Some (nz, val, icol, tot + 1)
        else
          let* a := rd val j in
          let* val := wr val j (oadd O a p) in
          Some (nz, val, icol, tot)) st.

  (** sypr.hpp 494-508: row [i] is finished, its values go out *)
  Definition copy_out (i : Z) (st : (list Z * list T * list Z * Z) * (list Z * list T)) : option ((list Z * list T * list Z * Z) * (list Z * list T)) :=
    let '(nz, val, jc, tot, (ic, vc)) := st in
    let* ic := wr ic (i + 1) tot in
    let* s := rd ic i in
    let* (val, vc) := for_ s tot (fun q st =>
      let '(val, vc) := st in
      let* c := rd jc q in
      let* x := rd val c in
      let* vc := wr vc q x in
      let* val := wr val c (o0 O) in
      Some (val, vc)) (val, vc) in
    Some (nz, val, jc, tot, (ic, vc)).

  (** ** sypr.hpp 416-526: aoclsparse_sp2m_online_atb for REQUEST other than nnz_count and
      arrays that are not null.  [ic], [jc], [vc]: the output arrays.  [m]: rows of A and
      B, [k]: columns of A, [n]: columns of B. *)
  Definition online_atb (only_u conj_a conj_b : bool) (m k n bA : Z) (pA iA : list Z) (vA : list T) (bB : Z) (pB iB : list Z) (vB : list T)
      (bC : Z) (ic jc : list Z) (vc : list T) : option (list Z * list Z * list T * Z) :=
    let irend := skipn 1 pA in
    let* o := oft_init irend bA iA bA m k pA bA in
    let* ic := wr ic 0 0 in
    let* (_, (_, _, jc, tot, (ic, vc))) := for_ 0 k (fun i os =>
      let* (o, st) := oft_column irend bA iA bA m (fun row idx st =>
        let '(st, out) := st in
        let* v := rd vA idx in
        let* s := rd pB row in
        let* e := rd pB (row + 1) in
        let* st := add_sprow only_u conj_b i (if conj_a then ocj O v else v) (s - bB) (e - bB) iB vB bB st in
        Some (st, out)) i os in
      let* st := copy_out i st in
      Some (o, st)) (o, (zrep n (-1), zrep n (o0 O), jc, 0, (ic, vc))) in
    if bC =? 1 then
      let* ic := for_ 0 (k + 1) (fun i ic => let* x := rd ic i in wr ic i (x + 1)) ic in
      let* jc := for_ 0 tot (fun q jc => let* x := rd jc q in wr jc q (x + 1)) jc in
      Some (ic, jc, vc, tot)
    else Some (ic, jc, vc, tot).

  (** ** syrk.hpp 46-113: aoclsparse_aat_dense_row; arrays not null.  c_ij != zero is the
      comparison of the value type. *)
  Definition aat_dense_row (m n b : Z) (ptr ind : list Z) (val : list T) (ic jc : list Z) (vc : list T) : option (list Z * list Z * list T * Z) :=
    let* ic := wr ic 0 b in
    let* (_, ic, jc, vc, tot) := for_ 0 m (fun i st =>
      let '(trow, ic, jc, vc, tot) := st in
      let* s := rd ptr i in
      let* e := rd ptr (i + 1) in
      let* trow := for_ (s - b) (e - b) (fun k trow => let* c := rd ind k in let* v := rd val k in wr trow (c - b) v) trow in
      let* (jc, vc, tot) := for_ i m (fun j st =>
        let '(jc, vc, tot) := st in
        let* s := rd ptr j in
        let* e := rd ptr (j + 1) in
        let* cij := for_ (s - b) (e - b) (fun k acc =>
          let* c := rd ind k in
          let* t := rd trow (c - b) in
          let* v := rd val k in
          Some (oadd O acc (omul O t (ocj O v)))) (o0 O) in
        if oeqb O cij (o0 O) then Some st
        else
          let* jc := wr jc tot (j + b) in
          let* vc := wr vc tot cij in
          Some (jc, vc, tot + 1)) (jc, vc, tot) in
      let* ic := wr ic (i + 1) (b + tot) in
      let* trow := for_ (s - b) (e - b) (fun k trow => let* c := rd ind k in wr trow (c - b) (o0 O)) trow in
      Some (trow, ic, jc, vc, tot)) (zrep n (o0 O), ic, jc, vc, 0) in
    Some (ic, jc, vc, tot).

  (** [is_real]: T is float or double; [w]: value bits of aoclsparse_int; [fz], [ft]: what
      freshly allocated arrays contain. *)
  Variables (is_real : bool) (w : Z) (fz : Z -> list Z) (ft : Z -> list T).

  (** The new handle: its matrix object keeps the size it was allocated with (195-196), the
      handle gets the number of elements stored (211, 339; auxiliary.cpp 1009-1023). *)
  Definition syrk_handle (mC b cap nnz : Z) (ic jc : list Z) (vc : list T) : hnd T :=
    mkHnd mC mC nnz [Some (mkCmat mC mC cap gn b ic jc vc None None false dg_non_unit None)] unknown_sort false false false [].

  (** syrk.hpp 115-344: aoclsparse_syrk_t for handles of the right value type whose input
      format is CSR / CSC, with the tests of syrk.cpp 38-57.  [c_ok]: the output pointer is
      not null.  The result is the new content of *C. *)
  Definition syrk (op : operation) (A : option (hnd T)) (c_ok : bool) : option (status * option (hnd T)) :=
    match A with
    | None => Some (invalid_pointer, None)
    | Some A =>
        if negb c_ok then Some (invalid_pointer, None)
        else if negb (valid_op op) then Some (invalid_value, None)
        else if negb is_real && match op with op_transpose => true | _ => false end then Some (not_implemented, None)
        else
          match get_mtx (H_mats A) with
          | None => Some (not_implemented, None)
          | Some a =>
              let m := c_m a in
              let n := c_n a in
              let is_gt := c_doid a =? gt in
              if negb is_gt && negb (c_doid a =? gn) then Some (not_implemented, None)
              else
                let op_is_none := match op with op_none => true | _ => false end in
                (* eff_none: eff_op is aoclsparse_operation_none *)
                let eff_none := if is_gt then negb op_is_none else op_is_none in
                let conj_flip := is_gt in
                if negb (match H_sort A with fully_sorted => true | _ => false end) && negb eff_none then Some (unsorted_input, None)
                else
                  let* (st, cap) := estimate_nnz w (c_b a) (c_ptr a) (c_ind a) eff_none m n in
                  match st with
                  | success =>
                      let mC := if eff_none then m else n in
                      let ic := if cap =? 0 then zrep (mC + 1) (c_b a) else fz (mC + 1) in
                      let jc := fz cap in
                      let vc := ft cap in
                      if (H_m A =? 0) || (H_n A =? 0) || (H_nnz A =? 0) then
                        let* ic := for_ 0 (mC + 1) (fun i ic => wr ic i (c_b a)) ic in
                        Some (success, Some (syrk_handle mC (c_b a) cap 0 ic jc vc))
                      else
                        let finish r := let* (ic, jc, vc, nnz) := r in Some (success, Some (syrk_handle mC (c_b a) cap nnz ic jc vc)) in
                        if eff_none then
                          if negb conj_flip && ((m <? 3000) && (m <? n) && (H_nnz A <=? m * 10)) then
                            finish (aat_dense_row m n (c_b a) (c_ptr a) (c_ind a) (c_val a) ic jc vc)
                          else
                            let nnz := H_nnz A in
                            let* r := csr2csc m n nnz (c_b a) (c_b a) (Some (c_ptr a)) (Some (c_ind a)) (Some (c_val a))
                                        (Some (zrep nnz 0)) (Some (zrep (n + 1) 0)) (Some (zrep nnz (o0 O))) in
                            match r with
                            | (success, Some cp, Some ri, Some cv) =>
                                let* cv := if conj_flip then Some cv else for_ 0 nnz (fun q cv => let* x := rd cv q in wr cv q (ocj O x)) cv in
                                finish (online_atb true true false n m m (c_b a) cp ri cv (c_b a) cp ri cv (c_b a) ic jc vc)
                            | (st, _, _, _) => Some (st, None)
                            end
                        else
                          finish (online_atb true (negb conj_flip) conj_flip m n n (c_b a) (c_ptr a) (c_ind a) (c_val a)
                                    (c_b a) (c_ptr a) (c_ind a) (c_val a) (c_b a) ic jc vc)
                  | _ => Some (st, None)
                  end
          end
    end.
End K.
