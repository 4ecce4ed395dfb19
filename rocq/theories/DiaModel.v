(** DIA conversion: conversion/aoclsparse_convert.cpp 510-566 and
    conversion/aoclsparse_convert.hpp 290-385.  Allocation failure is not modelled. *)
From Coq Require Import ZArith List Bool.
From Verif Require Import Base DescrModel.
Import ListNotations.
Open Scope Z_scope.

(** convert.cpp 510-566: aoclsparse_csr2dia_ndiag; [out] is *dia_num_diag. *)
Definition csr2dia_ndiag (m n : Z) (d_p : option mdescr) (nnz : Z) (ptr_p ind_p : option (list Z)) (out : option Z)
    : option (status * option Z) :=
  if (m <? 0) || (n <? 0) || (nnz <? 0) then Some (invalid_size, out)
  else match out with
  | None => Some (invalid_pointer, out)
  | Some _ =>
      match ptr_p, ind_p with
      | Some ptr, Some ind =>
          let* d := d_p in
          let b := md_base d in
          let* (_, cnt) := for_ 0 m (fun i s =>
            let* p := rd ptr i in
            let* q := rd ptr (i + 1) in
            for_ (p - b) (q - b) (fun j '(dx, cnt) =>
              let* c := rd ind j in
              let offset := c - b - i + m in
              let* x := rd dx offset in
              if x =? 0 then
                let* dx := wr dx offset 1 in
                Some (dx, cnt + 1)
              else Some (dx, cnt)) s) (zrep (m + n) 0, 0) in
          Some (success, Some cnt)
      | _, _ => Some (invalid_pointer, out)
      end
  end.

Section Dia.
  Context {T : Type}.

  (** convert.hpp 290-385: aoclsparse_csr2dia_template *)
  Definition csr2dia (m n : Z) (d_p : option mdescr) (ptr_p ind_p : option (list Z)) (val_p : option (list T))
      (nd : Z) (off_p : option (list Z)) (dv_p : option (list T))
      : option (status * option (list Z) * option (list T)) :=
    if (m <? 0) || (n <? 0) || (nd <? 0) then Some (invalid_size, off_p, dv_p)
    else if (m =? 0) || (n =? 0) || (nd =? 0) then Some (success, off_p, dv_p)
    else match val_p, ptr_p, ind_p, dv_p, off_p with
    | Some val, Some ptr, Some ind, Some dv, Some off =>
        let* d := d_p in
        let b := md_base d in
        let* dx := for_ 0 m (fun i dx =>
          let* p := rd ptr i in
          let* q := rd ptr (i + 1) in
          for_ (p - b) (q - b) (fun j dx =>
            let* c := rd ind j in
            let offset := c - b - i + m in
            let* x := rd dx offset in
            if x =? 0 then wr dx offset 1 else Some dx) dx) (zrep (m + n) 0) in
        let* (dx, _, off) := for_ 0 (m + n) (fun i '(dx, dn, off) =>
          let* x := rd dx i in
          if negb (x =? 0) then
            let* dx := wr dx i dn in
            let* off := wr off dn (i - m) in
            Some (dx, dn + 1, off)
          else Some (dx, dn, off)) (dx, 0, off) in
        let* dv := for_ 0 m (fun i dv =>
          let* p := rd ptr i in
          let* q := rd ptr (i + 1) in
          for_ (p - b) (q - b) (fun j dv =>
            let* c := rd ind j in
            let offset := c - b - i + m in
            let* x := rd dx offset in
            let* v := rd val j in
            wr dv (i + m * x) v) dv) dv in
        Some (success, Some off, Some dv)
    | _, _, _, _, _ => Some (invalid_pointer, off_p, dv_p)
    end.
End Dia.
