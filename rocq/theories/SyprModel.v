(** Symmetric triple product into a sparse matrix: level3/aoclsparse_sypr.hpp.  The on-the-fly
    transposition is in OftModel, add_sprow and aoclsparse_sp2m_online_atb with values in
    SyrkModel. *)
From Coq Require Import ZArith List Bool.
From Verif Require Import Base Algebra DoidModel UtilModel Csr CheckModel Csr2CscModel MvModel CsrmvModel HandleModel Csr2mModel OftModel SyrkModel.
Import ListNotations.
Open Scope Z_scope.

(** sypr.hpp 51-108: add_sprow with REQUEST nnz_count.  State: nnz[] and total_nnz.  *nnzC is
    total_nnz converted to aoclsparse_int; the conversion changes the value only if the caller
    then finds it too large and gives up, so it is left out here. *)
Definition count_sprow (only_u : bool) (i s e : Z) (icolW : list Z) (bW : Z) (st : list Z * Z) : option (list Z * Z) :=
  for_ s e (fun k st =>
    let '(nz, tot) := st in
    let* c := rd icolW k in
    let j := c - bW in
    if only_u && (j <? i) then Some st
    else
      let* x := rd nz j in
      if negb (x =? i) then
        let* nz := wr nz j i in
        Some (nz, tot + 1)
      else Some (nz, tot)) st.

(** sypr.hpp 380 and 501 in the counting stage: the end of row [i] *)
Definition count_end (i : Z) (st : (list Z * Z) * list Z) : option ((list Z * Z) * list Z) :=
  let '(nz, tot, ic) := st in
  let* ic := wr ic (i + 1) tot in
  Some (nz, tot, ic).

Section K.
  Context {T : Type} (O : ops T).

  (** ** sypr.hpp 253-397: the loops of aoclsparse_sp2m_online_symab
      [low]: islower.  [add i alpha s e]: add_sprow for elements s .. e-1 of B; [fin i]: what
      ends row i.  m = k in the only caller; both are kept. *)
  Definition symab_rows {S : Type} (m k bA : Z) (pA idg iA : list Z) (vA : list T) (bB : Z) (pB : list Z) (low : bool)
      (add : Z -> T -> Z -> Z -> S -> option S) (fin : Z -> S -> option S) (s0 : S) : option S :=
    let irstart := if low then pA else idg in
    let irend := if low then idg else skipn 1 pA in
    let s_offT := if low then bA else bA - 1 in
    let e_off := if low then bA - 1 else bA in
    let* o := oft_init irend bA iA bA m k irstart s_offT in
    let* (_, s) := for_ 0 k (fun i os =>
      let '(o, s) := os in
      let* s := (let* p := rd irstart i in
                 let* q := rd irend i in
                 for_ (p - bA) (q - e_off) (fun idx s =>
                   let* c := rd iA idx in
                   let* v := rd vA idx in
                   let* s1 := rd pB (c - bA) in
                   let* e1 := rd pB (c - bA + 1) in
                   add i v (s1 - bB) (e1 - bB) s) s) in
      let* (o, s) := oft_column irend bA iA bA m (fun row idx s =>
        let* v := rd vA idx in
        let* s1 := rd pB row in
        let* e1 := rd pB (row + 1) in
        add i (ocj O v) (s1 - bB) (e1 - bB) s) i (o, s) in
      let* s := fin i s in
      Some (o, s)) (o, s0) in
    Some s.

  (** REQUEST nnz_count: the row pointers and the total before its range is tested *)
  Definition symab_count (m k n bA : Z) (pA idg iA : list Z) (vA : list T) (bB : Z) (pB iB : list Z) (low : bool) (ic : list Z) : option (list Z * Z) :=
    let* ic := wr ic 0 0 in
    let* (_, tot, ic) := symab_rows m k bA pA idg iA vA bB pB low
      (fun i _ s e st => let '(st, ic) := st in let* st := count_sprow false i s e iB bB st in Some (st, ic))
      count_end ((zrep n (-1), 0), ic) in
    Some (ic, tot).

  (** Any other REQUEST *)
  Definition symab_fill (conj_b : bool) (m k n bA : Z) (pA idg iA : list Z) (vA : list T) (bB : Z) (pB iB : list Z) (vB : list T) (low : bool)
      (ic jc : list Z) (vc : list T) : option (list Z * list Z * list T) :=
    let* ic := wr ic 0 0 in
    let* (_, _, jc, _, (ic, vc)) := symab_rows m k bA pA idg iA vA bB pB low
      (fun i alpha s e st => let '(st, out) := st in let* st := add_sprow O false conj_b i alpha s e iB vB bB st in Some (st, out))
      (copy_out O) (zrep n (-1), zrep n (o0 O), jc, 0, (ic, vc)) in
    Some (ic, jc, vc).

  (** ** sypr.hpp 415-527: aoclsparse_sp2m_online_atb with REQUEST nnz_count and baseC zero *)
  Definition atb_count (only_u : bool) (m k n bA : Z) (pA iA : list Z) (vA : list T) (bB : Z) (pB iB : list Z) (ic : list Z) : option (list Z * Z) :=
    let irend := skipn 1 pA in
    let* o := oft_init irend bA iA bA m k pA bA in
    let* ic := wr ic 0 0 in
    let* (_, (_, tot, ic)) := for_ 0 k (fun i os =>
      let* (o, st) := oft_column irend bA iA bA m (fun row idx st =>
        let '(st, ic) := st in
        let* v := rd vA idx in
        let* s := rd pB row in
        let* e := rd pB (row + 1) in
        let* st := count_sprow only_u i (s - bB) (e - bB) iB bB st in
        Some (st, ic)) i os in
      let* st := count_end i st in
      Some (o, st)) (o, ((zrep n (-1), 0), ic)) in
    Some (ic, tot).

  (** [is_real]: T is float or double; [w]: value bits of aoclsparse_int; [srt], [fz], [ft]: see
      HandleModel. *)
  Variables (is_real : bool) (w : Z) (srt : (Z -> Z -> bool) -> list Z -> list Z) (fz : Z -> list Z) (ft : Z -> list T).

  (** mat_structures.hpp 819-829: get_first_mtx_if_valid<csr> *)
  Definition first_mtx (h : hnd T) : option (cmat T) := match H_mats h with Some c :: _ => Some c | _ => None end.

  (** The matrix object after its arrays have been written. *)
  Definition with_arrays (c : cmat T) (p i : list Z) (v : list T) : cmat T :=
    mkCmat (c_m c) (c_n c) (c_nnz c) (c_doid c) (c_b c) p i v (c_idiag c) (c_iurow c) (c_opt c) (c_mdiag c) (c_dval c).

  (** sypr.hpp 788-1058: both products; [W]: (base, ptr, ind, val) of the matrix A or of its
      transpose, m x n; [cf]: conj_flip.  [T_] arrays are std::vector, so zero after resize;
      data() of an empty one is null (libstdc++), which the second call refuses.  Result: status
      and *C. *)
  Definition sypr_products (cf low : bool) (rq : request) (m n : Z) (bo : cmat T) (bW : Z) (pW iW : list Z) (vW : list T) (C : option (hnd T))
      : option (status * option (hnd T)) :=
    match c_idiag bo with
    | None => Some (invalid_pointer, C)
    | Some idg =>
        let* (pT, nT) := symab_count m m n (c_b bo) (c_ptr bo) idg (c_ind bo) (c_val bo) bW pW iW low (zrep (m + 1) 0) in
        if int_sum_overflow 63 w nT then Some (invalid_size, C)
        else if nT =? 0 then Some (invalid_pointer, C)
        else
          let* (pT, iT, vT) := symab_fill cf m m n (c_b bo) (c_ptr bo) idg (c_ind bo) (c_val bo) bW pW iW vW low pT (zrep nT 0) (zrep nT (o0 O)) in
          let fill c h := (* 1011-1058 *)
            let* (ic, jc, vc, _) := online_atb O true (negb cf) false m n n bW pW iW vW 0 pT iT vT 0 (c_ptr c) (c_ind c) (c_val c) in
            Some (success, Some (mkHnd (H_m h) (H_n h) (H_nnz h) (upd (H_mats h) 0 (Some (with_arrays c ic jc vc))) (H_sort h) (H_full h) (H_optfull h) (H_optimized h) (H_hints h))) in
          match rq with
          | rq_finalize =>
              match C with
              | Some h => match first_mtx h with Some c => fill c h | None => Some (invalid_value, C) end
              | None => Some (invalid_value, C)
              end
          | _ => (* 925-1009 *)
              let* (ic, nC) := atb_count true m n n bW pW iW vW 0 pT iT (fz (n + 1)) in
              if int_sum_overflow 63 w nC then Some (invalid_size, None)
              else
                let h := syrk_handle n 0 (-1) nC ic (fz nC) (ft nC) in
                match rq with
                | rq_full => match first_mtx h with Some c => fill c h | None => Some (invalid_value, C) end
                | _ => Some (success, Some h)
                end
          end
    end.

  (** sypr.hpp 529-1062: aoclsparse_sypr_t for handles of the right value type whose input
      format is CSR / CSC.  [Cp]: the pointer C and what it points to.  Result: status, the
      handle B (it may get an optimised copy) and *C.  Allocation failure is not modelled. *)
  Definition sypr (op : operation) (A B : option (hnd T)) (d : option descr) (rq : request) (Cp : option (option (hnd T)))
      : option (status * option (hnd T) * option (hnd T)) :=
    let C0 := match Cp with Some C => C | None => None end in
    if match rq with rq_other => true | _ => false end then Some (invalid_value, B, C0)
    else if negb (valid_op op) then Some (invalid_value, B, C0)
    else
      match d, A, B, Cp with
      | Some d, Some hA, Some hB, Some C =>
          let C := match rq with rq_finalize => C | _ => None end in
          match first_mtx hA with
          | None => Some (invalid_pointer, B, C)
          | Some a =>
              let is_gt := c_doid a =? gt in
              if negb is_gt && negb (c_doid a =? gn) then Some (not_implemented, B, C)
              else
                match first_mtx hB with
                | None => Some (invalid_pointer, B, C)
                | Some b =>
                    if negb (c_doid b =? gn) then Some (not_implemented, B, C)
                    else if negb is_real && match op with op_transpose => true | _ => false end then Some (not_implemented, B, C)
                    else
                      let op_is_none := match op with op_none => true | _ => false end in
                      let eff_none := if is_gt then negb op_is_none else op_is_none in
                      let conj_flip := is_gt && op_is_none && negb is_real in
                      if negb (c_b b =? d_base d) then Some (invalid_value, B, C)
                      else if negb (if is_real then match d_type d with mt_symmetric => true | _ => false end
                                    else match d_type d with mt_hermitian => true | _ => false end) then Some (invalid_value, B, C)
                      else if match d_diag d with dg_non_unit => false | _ => true end then Some (not_implemented, B, C)
                      else if negb (H_m hB =? H_n hB) then Some (invalid_size, B, C)
                      else
                        let m := H_m hB in
                        let n := if op_is_none then H_m hA else H_n hA in
                        if negb (m =? if op_is_none then H_n hA else H_m hA) then Some (invalid_size, B, C)
                        else if negb ((c_b a =? 0) || (c_b a =? 1)) then Some (invalid_value, B, C)
                        else if match rq with
                                | rq_finalize => match C with
                                                 | Some h => match first_mtx h with Some _ => negb (H_m h =? n) || negb (H_n h =? n) | None => true end
                                                 | None => true
                                                 end
                                | _ => false
                                end then Some (invalid_value, B, C)
                        else if (m =? 0) || (n =? 0) || (H_nnz hA =? 0) || (H_nnz hB =? 0) then
                          Some (success, B, match C with Some h => Some h | None => Some (syrk_handle n 0 0 0 (zrep (n + 1) 0) (fz 0) (ft 0)) end)
                        else if (negb (match H_sort hA with fully_sorted => true | _ => false end) && negb eff_none)
                                || negb (match H_sort hB with fully_sorted => true | _ => false end) then Some (unsorted_input, B, C)
                        else
                          (* 733-786: A or its transpose *)
                          let* W :=
                            (if negb eff_none then Some (Some (c_ptr a, c_ind a, c_val a))
                             else
                               let nnz := H_nnz hA in
                               let* r := csr2csc (c_m a) (c_n a) nnz (c_b a) (c_b a) (Some (c_ptr a)) (Some (c_ind a)) (Some (c_val a))
                                           (Some (zrep nnz 0)) (Some (zrep (c_n a + 1) 0)) (Some (zrep nnz (o0 O))) in
                               match r with
                               | (success, Some cp, Some ri, Some cv) =>
                                   let* cv := if is_gt then Some cv else for_ 0 nnz (fun q cv => let* x := rd cv q in wr cv q (ocj O x)) cv in
                                   Some (Some (cp, ri, cv))
                               | _ => Some None
                               end) in
                          match W with
                          | None => Some (memory_error, B, C)
                          | Some (pW, iW, vW) =>
                              let* (st, hB', bo) := csr_csc_optimize O srt fz ft hB in
                              match st, bo with
                              | success, Some i =>
                                  match rd (H_mats hB') i with
                                  | Some (Some bo) =>
                                      let* (st, C) := sypr_products conj_flip (match d_fill d with fm_lower => true | _ => false end) rq m n bo (c_b a) pW iW vW C in
                                      Some (st, Some hB', C)
                                  | _ => Some (internal_error, Some hB', C)
                                  end
                              | success, None => Some (internal_error, Some hB', C)
                              | st, _ => Some (st, Some hB', C)
                              end
                          end
                end
          end
      | _, _, _, _ => Some (invalid_pointer, B, C0)
      end.
End K.
