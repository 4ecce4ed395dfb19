(** Copying and exporting matrix handles: extra/aoclsparse_auxiliary.cpp 775-834,
    1156-1181, 1212-1256 (copy) and 1302-1412 (export), for handles made from CSR or CSC
    arrays.  The memory side of the copy is MemModel.copy_mem. *)
From Coq Require Import ZArith List Bool.
From Verif Require Import Base DoidModel CheckModel MvModel HandleModel.
Import ListNotations.
Open Scope Z_scope.

Section E.
  Context {T : Type}.

  (** 1323-1337 and 1383-1395: the last stored csr object of the wanted orientation, but
      the search ends at the first optimised one.  Arrays of csr objects of a handle
      are not null (see HandleModel). *)
  Fixpoint last_or_opt (want : Z -> bool) (l : list (option (cmat T))) (found : option (cmat T)) : option (cmat T) :=
    match l with
    | [] => found
    | None :: l => last_or_opt want l found
    | Some c :: l => if want (c_doid c) then if c_opt c then Some c else last_or_opt want l (Some c) else last_or_opt want l found
    end.

  Record exported := mkEx { ex_base : Z; ex_m : Z; ex_n : Z; ex_nnz : Z; ex_ptr : list Z; ex_ind : list Z; ex_val : list T }.

  (** 1302-1354: export_csr_t; [out_ok]: none of the output pointers is null,
      [type_ok]: the value type is the one asked for *)
  Definition export_csr (out_ok type_ok : bool) (A : option (hnd T)) : option (status * option exported) :=
    match A with
    | None => Some (invalid_pointer, None)
    | Some h =>
        if negb out_ok then Some (invalid_pointer, None)
        else if negb type_ok then Some (wrong_type, None)
        else match H_mats h with
             | [] | None :: _ => Some (invalid_pointer, None)
             | l =>
                 match last_or_opt (fun d => negb (d =? gt)) l None with
                 | None => Some (invalid_value, None)
                 | Some c => let* e := rd (c_ptr c) (H_m h) in
                     Some (success, Some (mkEx (c_b c) (H_m h) (H_n h) (e - c_b c) (c_ptr c) (c_ind c) (c_val c)))
                 end
             end
    end.
  (** 1360-1412: export_csc_t *)
  Definition export_csc (out_ok type_ok : bool) (A : option (hnd T)) : option (status * option exported) :=
    match A with
    | None => Some (invalid_pointer, None)
    | Some h =>
        if negb out_ok then Some (invalid_pointer, None)
        else if negb type_ok then Some (wrong_type, None)
        else match H_mats h with
             | [] | None :: _ => Some (invalid_pointer, None)
             | l =>
                 match last_or_opt (fun d => d =? gt) l None with
                 | None => Some (invalid_value, None)
                 | Some c => Some (success, Some (mkEx (c_b c) (H_m h) (H_n h) (c_nnz c) (c_ptr c) (c_ind c) (c_val c)))
                 end
             end
    end.

  (** 775-834 with 1156-1181, 1212-1256: aoclsparse_copy; init_mat (1009-1023) leaves
      the classification members at their defaults (mat_structures.hpp 774-859) *)
  Definition copy_handle (A : option (hnd T)) : option (status * option (hnd T)) :=
    match A with
    | None => Some (invalid_pointer, None)
    | Some h =>
        if (H_m h <? 0) || (H_n h <? 0) || (H_nnz h <? 0) then Some (invalid_size, None)
        else match H_mats h with
             | [] | None :: _ => Some (invalid_pointer, None)
             | Some u :: _ =>
                 if (c_m u <? 0) || (c_nnz u <? 0) then Some (invalid_size, None)
                 else if (zlen (c_ptr u) <? c_m u + 1) || (zlen (c_ind u) <? c_nnz u) || (zlen (c_val u) <? c_nnz u) then None
                 else
                   Some (success, Some (mkHnd (H_m h) (H_n h) (H_nnz h)
                     [Some (mkCmat (c_m u) (c_n u) (c_nnz u) (c_doid u) (c_b u)
                        (firstn (Z.to_nat (c_m u + 1)) (c_ptr u)) (firstn (Z.to_nat (c_nnz u)) (c_ind u)) (firstn (Z.to_nat (c_nnz u)) (c_val u))
                        None None false dg_non_unit None)]
                     unknown_sort false false false []))
             end
    end.
End E.
Arguments exported : clear implicits.
