(** Changing the values of a matrix handle: aoclsparse_?set_value and
    aoclsparse_?update_values; histories of calls on one handle. *)
From Coq Require Import ZArith List Bool.
From Verif Require Import Base Algebra DoidModel MvModel CheckModel CsrmvModel HandleModel TrsvModel.
Import ListNotations.
Open Scope Z_scope.

Section V.
  Context {T : Type} (O : ops T).

  Definition with_val (c : cmat T) (l : list T) : cmat T :=
    mkCmat (c_m c) (c_n c) (c_nnz c) (c_doid c) (c_b c) (c_ptr c) (c_ind c) l (c_idiag c) (c_iurow c) (c_opt c) (c_mdiag c) (c_dval c).

  (** extra/aoclsparse_auxiliary.hpp 387-413: aoclsparse_set_csr_value; result: status
      and the value array *)
  Definition set_csr_value (c : cmat T) (row_idx col_idx : Z) (v : T) : option (status * list T) :=
    if negb ((c_b c =? 1) || (c_b c =? 0)) then Some (invalid_value, c_val c)
    else
      let row := row_idx - c_b c in
      let* p0 := rd (c_ptr c) row in
      let* p1 := rd (c_ptr c) (row + 1) in
      let* r := forc (R := list T) (p0 - c_b c) (p1 - c_b c) (fun i (s : unit) =>
        let* j := rd (c_ind c) i in
        if j =? col_idx then let* val := wr (c_val c) i v in Some (Ret val) else Some (Go s)) tt in
      match r with
      | inr val => Some (success, val)
      | inl _ => Some (invalid_index_value, c_val c)
      end.

  (** auxiliary.hpp 356-385: aoclsparse_set_coo_value on the arrays of a COO object *)
  Definition set_coo_value (nnz : Z) (rows cols : list Z) (val : list T) (row_idx col_idx : Z) (v : T) : option (status * list T) :=
    let* r := forc (R := list T) 0 nnz (fun i (s : unit) =>
      let* ri := rd rows i in
      if ri =? row_idx then
        let* ci := rd cols i in
        if ci =? col_idx then let* val := wr val i v in Some (Ret val) else Some (Go s)
      else Some (Go s)) tt in
    match r with
    | inr val => Some (success, val)
    | inl _ => Some (invalid_index_value, val)
    end.

  (** auxiliary.hpp 261-268, 463-471: the copies behind the first matrix are deleted,
      their slots become null *)
  Definition drop_copies (l : list (option (cmat T))) : list (option (cmat T)) :=
    match l with [] => [] | u :: r => u :: map (fun _ => None) r end.

  (** auxiliary.hpp 415-473: aoclsparse_set_value_t on handles created from CSR or CSC
      arrays.  m + base and n + base are computed in Z.  Not modelled: the value type
      test; COO handles end in [set_coo_value]. *)
  Definition set_value (A : option (hnd T)) (row_idx col_idx : Z) (v : T) : option (status * option (hnd T)) :=
    match A with
    | None => Some (invalid_pointer, A)
    | Some h =>
        match H_mats h with
        | [] | None :: _ => Some (invalid_pointer, A)
        | Some u :: rest =>
            let b := c_b u in
            if ((H_m h + b <=? row_idx) || (row_idx <? b)) || ((H_n h + b <=? col_idx) || (col_idx <? b))
            then Some (invalid_value, A)
            else
              let* (st, val) := (if c_doid u =? gt then set_csr_value u col_idx row_idx v else set_csr_value u row_idx col_idx v) in
              match st with
              | success => Some (success, Some (set_mats h (drop_copies (Some (with_val u val) :: rest))))
              | _ => Some (st, A)
              end
        end
    end.

  (** auxiliary.hpp 215-270: aoclsparse_update_values_t on the same handles; the caller's
      array holds at least [len] values *)
  Definition update_values (A : option (hnd T)) (len : Z) (val : option (list T)) : option (status * option (hnd T)) :=
    match A, val with
    | Some h, Some val =>
        match H_mats h with
        | [] | None :: _ => Some (invalid_pointer, A)
        | Some u :: rest =>
            if negb (len =? H_nnz h) then Some (invalid_size, A)
            else
              let* nv := for_ 0 len (fun i nv => let* v := rd val i in wr nv i v) (c_val u) in
              Some (success, Some (set_mats h (drop_copies (Some (with_val u nv) :: rest))))
        end
    | _, _ => Some (invalid_pointer, A)
    end.

  (** ** Histories of calls on one handle *)
  Variable srt : (Z -> Z -> bool) -> list Z -> list Z.
  Variables (fz : Z -> list Z) (ft : Z -> list T).
  Variables (sup : Z -> bool) (dt : dtype) (mvc : Z -> option Z) (nthreads : Z) (team : list Z) (tsc : Z -> option Z) (w : Z).

  Inductive call :=
  | k_set (i j : Z) (v : T)
  | k_update (l : list T)
  | k_optimize
  | k_mv (op : operation) (alpha : T) (d : descr) (x : list T) (beta : T) (y : list T)
  | k_trsv (op : operation) (alpha : T) (d : descr) (rhs : list T) (incb : Z) (x : list T) (incx kid : Z).

  (** One call: what the caller observes (status and output vector) and the handle. *)
  Definition do_call (h : hnd T) (c : call) : option (status * option (list T) * hnd T) :=
    match c with
    | k_set i j v => let* (st, ho) := set_value (Some h) i j v in let* h := ho in Some (st, None, h)
    | k_update l => let* (st, ho) := update_values (Some h) (zlen l) (Some l) in let* h := ho in Some (st, None, h)
    | k_optimize => let* (st, h, _) := csr_csc_optimize O srt fz ft h in Some (st, None, h)
    | k_mv op alpha d x beta y =>
        let* (st, yr, ho) := mv O srt fz ft sup dt mvc nthreads team op (Some alpha) (Some h) (Some d) (Some x) (Some beta) (Some y) in
        let* h := ho in Some (st, yr, h)
    | k_trsv op alpha d rhs incb x incx kid =>
        let* (st, xr, ho) := trsv O dt tsc srt fz ft w op alpha (Some h) (Some d) (Some rhs) incb (Some x) incx kid in
        let* h := ho in Some (st, xr, h)
    end.

  Fixpoint run (h : hnd T) (l : list call) : option (list (status * option (list T)) * hnd T) :=
    match l with
    | [] => Some ([], h)
    | c :: l =>
        let* (st, out, h) := do_call h c in
        let* (obs, h) := run h l in
        Some ((st, out) :: obs, h)
    end.
End V.
Arguments call : clear implicits.
