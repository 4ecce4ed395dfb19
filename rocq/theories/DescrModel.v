(** Matrix descriptors: extra/aoclsparse_auxiliary.cpp 191-363, include/aoclsparse_descr.h.
    Enumeration arguments are arbitrary integers, as C callers can pass. *)
From Coq Require Import ZArith List Bool.
From Verif Require Import Base.
Import ListNotations.
Open Scope Z_scope.

(** aoclsparse_descr.h 36-46 *)
Record mdescr := mkMD { md_type : Z; md_fill : Z; md_diag : Z; md_base : Z }.
(** Default member initialisers: create_mat_descr (auxiliary.cpp 191-210) *)
Definition new_descr : mdescr := mkMD 0 0 0 0.

(** All live descriptors of the program, by address; a pointer is [None] when null. *)
Definition heap := nat -> mdescr.
Definition put (s : heap) (p : nat) (d : mdescr) : heap := fun q => if Nat.eqb q p then d else s q.

(** auxiliary.cpp 215-232: copy_mat_descr *)
Definition copy_mat_descr (s : heap) (dest src : option nat) : status * heap :=
  match dest with
  | None => (invalid_pointer, s)
  | Some p => match src with
              | None => (invalid_pointer, s)
              | Some q => let f := s q in
                  (success, put s p (mkMD (md_type f) (md_fill f) (md_diag f) (md_base f)))
              end
  end.
(** 251-264 *)
Definition set_index_base (s : heap) (d : option nat) (v : Z) : status * heap :=
  match d with
  | None => (invalid_pointer, s)
  | Some p => if negb (v =? 0) && negb (v =? 1) then (invalid_value, s)
              else let f := s p in (success, put s p (mkMD (md_type f) (md_fill f) (md_diag f) v))
  end.
(** 282-297 *)
Definition set_mat_type (s : heap) (d : option nat) (v : Z) : status * heap :=
  match d with
  | None => (invalid_pointer, s)
  | Some p => if negb (v =? 0) && negb (v =? 1) && negb (v =? 2) && negb (v =? 3) then (invalid_value, s)
              else let f := s p in (success, put s p (mkMD v (md_fill f) (md_diag f) (md_base f)))
  end.
(** 312-326 *)
Definition set_fill_mode (s : heap) (d : option nat) (v : Z) : status * heap :=
  match d with
  | None => (invalid_pointer, s)
  | Some p => if negb (v =? 0) && negb (v =? 1) then (invalid_value, s)
              else let f := s p in (success, put s p (mkMD (md_type f) v (md_diag f) (md_base f)))
  end.
(** 338-353 *)
Definition set_diag_type (s : heap) (d : option nat) (v : Z) : status * heap :=
  match d with
  | None => (invalid_pointer, s)
  | Some p => if negb (v =? 1) && negb (v =? 0) && negb (v =? 2) then (invalid_value, s)
              else let f := s p in (success, put s p (mkMD (md_type f) (md_fill f) v (md_base f)))
  end.
(** Getters: 269-277, 302-310, 328-336, 355-363 *)
Definition get_index_base (s : heap) (d : option nat) : Z := match d with None => 0 | Some p => md_base (s p) end.
Definition get_mat_type (s : heap) (d : option nat) : Z := match d with None => 0 | Some p => md_type (s p) end.
Definition get_fill_mode (s : heap) (d : option nat) : Z := match d with None => 0 | Some p => md_fill (s p) end.
Definition get_diag_type (s : heap) (d : option nat) : Z := match d with None => 0 | Some p => md_diag (s p) end.
