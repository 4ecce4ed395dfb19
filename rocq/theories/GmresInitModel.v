(** Work memory of the GMRES solver: made when a solve starts, given back when that fails
    (library/src/solvers/aoclsparse_itsol_functions.hpp). *)
From Coq Require Import ZArith List Bool Arith.
From Verif Require Import Base Algebra UtilModel GmresModel.
Import ListNotations.
Open Scope Z_scope.

(** The live heap blocks.  [ok k] tells whether the k-th allocation of the call succeeds,
    its block is [b0 + k].  An allocation whose size in bytes is too large throws
    std::bad_array_new_length, which is a std::bad_alloc. *)
Definition heap := list nat.
(** delete / delete[]: a block that is not live is undefined behaviour *)
Definition release (b : nat) (l : heap) : option heap :=
  if existsb (Nat.eqb b) l then Some (filter (fun c => negb (Nat.eqb c b)) l) else None.
(** if(p) delete[] p *)
Definition release_opt (p : option nat) (l : heap) : option heap := match p with Some b => release b l | None => Some l end.

(** 160-203: aoclsparse_gmres_data_free; [ptrs]: v, z, h, g, c, s *)
Fixpoint release_ptrs (ptrs : list (option nat)) (l : heap) : option heap :=
  match ptrs with [] => Some l | p :: ptrs => let* l := release_opt p l in release_ptrs ptrs l end.
Definition gmres_data_free (self : nat) (ptrs : list (option nat)) (l : heap) : option heap :=
  let* l := release_ptrs ptrs l in release self l.

(** 126-131: the new expressions in order until one throws; a pointer not reached keeps its
    null value.  The last component tells whether all succeeded. *)
Fixpoint alloc_all (ok : nat -> bool) (b0 k cnt : nat) (l : heap) : list (option nat) * heap * bool :=
  match cnt with
  | O => ([], l, true)
  | S cnt =>
      if ok k then let '(ps, l, r) := alloc_all ok b0 (S k) cnt ((b0 + k)%nat :: l) in (Some (b0 + k)%nat :: ps, l, r)
      else (repeat None (S cnt), l, false)
  end.

Section I.
  Context {T : Type} (O : ops T) (w : Z) (ok : nat -> bool) (b0 : nat).
  (** rnorm2, bnorm2 and brtol are not initialised *)
  Context (j1 j2 j3 : T).

  (** 82-145: aoclsparse_gmres_data_init with the restart length [m] read from the options
      (101-102).  Result: status, the work object (its arrays and their
      addresses), the live blocks. *)
  Definition gmres_data_init (m n : Z) (l : heap) : option (status * option (gwork T * list (option nat)) * heap) :=
    if negb (ok 0%nat) then Some (memory_error, None, l)
    else
      let l1 := b0 :: l in
      let none := repeat (@None nat) 6 in
      let* m1 := chk w (m + 1) in
      let* o1 := int_product_overflow w m1 n in
      let* o := (if o1 then Some true else int_product_overflow w m m) in
      if o then let* l2 := gmres_data_free b0 none l1 in Some (invalid_size, None, l2)
      else
        let* kb := chk w (m1 * n) in
        let* hs := chk w (m * m) in
        let '(ptrs, l2, done) := alloc_all ok b0 1 6 l1 in
        if done then
          Some (success,
                Some (mkGw (zrep kb (o0 O)) (zrep kb (o0 O)) (zrep hs (o0 O)) (zrep m1 (o0 O)) (zrep m (o0 O)) (zrep m (o0 O)) j1 j2 j3 q_start 0 0, ptrs), l2)
        else let* l3 := gmres_data_free b0 ptrs l2 in Some (memory_error, None, l3).
End I.

(** 145-159: aoclsparse_cg_data_free; [ptrs]: p, q, r, z *)
Definition cg_data_free (self : nat) (ptrs : list (option nat)) (l : heap) : option heap :=
  let* l := release_ptrs ptrs l in release self l.
(** 40-76: aoclsparse_cg_data_init; p, q, r and z have n elements each and are not
    initialised.  Result: status, the addresses, the live blocks. *)
Definition cg_data_init (ok : nat -> bool) (b0 : nat) (l : heap) : option (status * option (list (option nat)) * heap) :=
  if negb (ok 0%nat) then Some (memory_error, None, l)
  else
    let '(ptrs, l2, done) := alloc_all ok b0 1 4 (b0 :: l) in
    if done then Some (success, Some ptrs, l2)
    else let* l3 := cg_data_free b0 ptrs l2 in Some (memory_error, None, l3).
