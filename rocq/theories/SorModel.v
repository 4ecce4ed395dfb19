(** Successive over-relaxation: solvers/aoclsparse_sorv.hpp. *)
From Coq Require Import ZArith List Bool.
From Verif Require Import Base Algebra DoidModel CheckModel MvModel HandleModel.
Import ListNotations.
Open Scope Z_scope.

(** aoclsparse_sor_type (include/aoclsparse_types.h); any other value: sor_other *)
Inductive sor_type := sor_forward | sor_backward | sor_symmetric | sor_other.

Section S.
  Context {T : Type} (O : ops T).
  Local Notation zero := (o0 O).

  (** sorv.hpp 46-73: one row of aoclsparse_csr_check_full_diag *)
  Definition diag_row (b i lo hi : Z) (ind : list Z) (val : list T) : option bool :=
    let* r := forc (R := bool) lo hi (fun j (full : bool) =>
      let* c := rd ind j in
      if i =? c - b then
        if full then Some (Brk false)
        else
          let* v := rd val j in
          Some (if negb (oeqb O v zero) then Go true else Brk full)
      else Some (Go full)) false in
    match r with inl full => Some full | inr full => Some full end.
  (** sorv.hpp 31-72: aoclsparse_csr_check_full_diag; true = success *)
  Definition check_full_diag (size b : Z) (ptr ind : list Z) (val : list T) : option bool :=
    let* r := forc (R := bool) 0 size (fun i (_ : bool) =>
      let* p := rd ptr i in
      let* q := rd ptr (i + 1) in
      let* full := diag_row b i (p - b) (q - b) ind val in
      Some (if negb full then Brk full else Go full)) false in
    match r with inl full => Some full | inr full => Some full end.

  (** sorv.hpp 92-105: one row of the sweep; state (axi, diag_ele) *)
  Definition sor_row (b i lo hi : Z) (ind : list Z) (val x : list T) : option (T * T) :=
    for_ lo hi (fun j st =>
      let '(axi, de) := st in
      let* c := rd ind j in
      let* v := rd val j in
      if negb (i =? c - b) then
        let* xc := rd x (c - b) in
        Some (oadd O axi (omul O v xc), de)
      else Some (axi, v)) (zero, o1 O).
  (** sorv.hpp 74-110: aoclsparse_sor_forward_sol *)
  Definition sor_sweep_fwd (n b : Z) (ptr ind : list Z) (val : list T) (omega : T) (x bv : list T) : option (list T) :=
    for_ 0 n (fun i x =>
      let* p := rd ptr i in
      let* q := rd ptr (i + 1) in
      let* (axi, de) := sor_row b i (p - b) (q - b) ind val x in
      let* xi := rd x i in
      let* bi := rd bv i in
      wr x i (oadd O xi (omul O omega (osub O (odiv O (osub O bi axi) de) xi)))) x.

  (** sorv.hpp 204-214 *)
  Definition scale_x (n : Z) (alpha : T) (x : list T) : option (list T) :=
    if negb (oeqb O alpha zero) then for_ 0 n (fun i x => let* xi := rd x i in wr x i (omul O alpha xi)) x
    else for_ 0 n (fun i x => wr x i alpha) x.

  Definition set_optfull (h : hnd T) : hnd T :=
    mkHnd (H_m h) (H_n h) (H_nnz h) (H_mats h) (H_sort h) (H_full h) true (H_optimized h) (H_hints h).

  (** sorv.hpp 112-226: aoclsparse_?sorv on handles made from CSR or CSC arrays (both
      have input_format csr); [cplx]: complex value type.  Not modelled: the value type
      test. *)
  Definition sorv (cplx : bool) (ty : sor_type) (d : option descr) (A : option (hnd T)) (omega alpha : T) (x_p b_p : option (list T))
      : option (status * option (list T) * option (hnd T)) :=
    let fail st := Some (st, x_p, A) in
    if cplx then fail not_implemented
    else
      match A, d, x_p, b_p with
      | Some h, Some d, Some x, Some bv =>
          match H_mats h with
          | [] | None :: _ => fail invalid_pointer
          | Some u :: _ =>
              if negb (c_b u =? d_base d) then fail invalid_value
              else if negb (H_m h =? H_n h) then fail invalid_size
              else if H_m h =? 0 then fail success
              else if (H_m h <? 0) || (H_n h <? 0) || (H_nnz h <? 0) then fail invalid_value
              else if negb (match d_type d with mt_general => true | _ => false end) then fail not_implemented
              else
                match ty with
                | sor_backward | sor_symmetric => fail not_implemented
                | sor_other => fail invalid_value
                | sor_forward =>
                    let* (ok, h) :=
                      (if negb (H_optfull h) then
                         let* ok := check_full_diag (H_m h) (d_base d) (c_ptr u) (c_ind u) (c_val u) in
                         Some (ok, if ok then set_optfull h else h)
                       else Some (true, h)) in
                    if negb ok then fail invalid_value
                    else
                      let* x := scale_x (H_n h) alpha x in
                      let* x := sor_sweep_fwd (H_n h) (d_base d) (c_ptr u) (c_ind u) (c_val u) omega x bv in
                      Some (success, Some x, Some h)
                end
          end
      | _, _, _, _ => fail invalid_pointer
      end.
End S.
