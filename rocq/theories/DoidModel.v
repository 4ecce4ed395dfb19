(** library/src/include/aoclsparse_mtx_dispatcher.hpp: operation ids. *)
From Coq Require Import ZArith Bool List.
From Verif Require Import Base.
Import ListNotations.
Open Scope Z_scope.

(** include/aoclsparse_types.h: enumerations of the public API.  An [*_other v]
    constructor is an integer outside the enumeration, which C callers can pass. *)
Inductive operation := op_none | op_transpose | op_conjugate_transpose | op_other (v : Z).
(** none = 111, transpose = 112, conjugate_transpose = 113 *)
Definition op_val (o : operation) : Z :=
  match o with op_none => 111 | op_transpose => 112 | op_conjugate_transpose => 113 | op_other v => v end.

Inductive mat_type := mt_general | mt_symmetric | mt_hermitian | mt_triangular.
Inductive fill_mode := fm_lower | fm_upper.
(** fill_mode_lower = 0, fill_mode_upper = 1 *)
Definition fm_val (f : fill_mode) : Z := match f with fm_lower => 0 | fm_upper => 1 end.

(** mtx_dispatcher.hpp 41-74: the doid enumeration, as its integer values *)
Definition gn := 0.  Definition gc := 1.  Definition gt := 2.  Definition gh := 3.
Definition sl := 4.  Definition slc := 5. Definition su := 6.  Definition suc := 7.
Definition hl := 8.  Definition hlc := 9. Definition huc := 10. Definition hu := 11.
Definition tln := 12. Definition tlc := 13. Definition tlt := 14. Definition tlh := 15.
Definition tun := 16. Definition tuc := 17. Definition tut := 18. Definition tuh := 19.
Definition dlen := 20.

(** static constexpr aoclsparse_int op_to_bits[] = {0, 2, 3}; (line 113) *)
Definition op_to_bits : list Z := [0; 2; 3].

(** mtx_dispatcher.hpp 79-143: get_doid.  [is_real] is the
    [if constexpr] test on T. *)
Definition get_doid (is_real : bool) (ty : mat_type) (fm : fill_mode) (op : operation) : option Z :=
  let op_t := match is_real, op with
              | true, op_conjugate_transpose => op_transpose
              | _, _ => op
              end in
  let mtx_t := match is_real, ty with
               | true, mt_hermitian => mt_symmetric
               | _, _ => ty
               end in
  let op_t := match mtx_t, op_t with
              | mt_symmetric, op_transpose => op_none
              | mt_hermitian, op_conjugate_transpose => op_none
              | _, _ => op_t
              end in
  let op_v := op_val op_t - 111 in
  if (op_v <? 0) || (2 <? op_v) then Some dlen
  else match mtx_t with
       | mt_general => rd op_to_bits op_v
       | mt_symmetric => Some (4 + 2 * fm_val fm + Z.shiftr op_v 1)
       | mt_hermitian => Some (8 + 2 * fm_val fm + Z.lxor op_v (fm_val fm))
       | mt_triangular => let* b := rd op_to_bits op_v in Some (12 + 4 * fm_val fm + b)
       end.

(** mtx_dispatcher.hpp 156-165: trans_doid *)
Definition trans_doid (dv : Z) : Z :=
  if (dv <? 0) || (dlen <=? dv) then dlen
  else if dv <? 12 then Z.lxor dv 2
  else 12 + Z.lxor (dv - 12) 6.

(** mtx_dispatcher.hpp 212-219: conj_doid *)
Definition conj_doid (dv : Z) : Z :=
  if (dv <? 0) || (dlen <=? dv) then dlen else Z.lxor dv 1.

(** static constexpr int tri_xor_mask[] = {0, 1, 6, 7}; (line 345) *)
Definition tri_xor_mask : list Z := [0; 1; 6; 7].

(** mtx_dispatcher.hpp 311-353: get_effective_doid *)
Definition get_effective_doid (mat_v req_v : Z) : option Z :=
  let mat_grp := Z.shiftr mat_v 2 in
  let req_grp := Z.shiftr req_v 2 in
  let mat_op := Z.land mat_v 3 in
  let req_op := Z.land req_v 3 in
  if mat_grp =? req_grp then
    if (mat_grp =? 0) || (3 <=? mat_grp) || (Z.lxor mat_op req_op <=? 1)
    then Some (Z.lxor mat_op req_op)
    else Some dlen
  else if negb (mat_grp =? 0) then Some dlen
  else if 3 <=? req_grp then
    let* x := rd tri_xor_mask mat_op in Some (12 + Z.lxor (req_v - 12) x)
  else Some (Z.lxor req_v mat_op).
