(** Descriptor histories, stated on the calls alone. *)
From Coq Require Import ZArith List Bool.
From Verif Require Import Base DescrModel.
Import ListNotations.
Open Scope Z_scope.

Inductive field := Fbase | Ftype | Ffill | Fdiag.
(** A setter call for one field, or a copy. *)
Inductive call := Cset (f : field) (d : option nat) (v : Z) | Ccopy (dest src : option nat).

(** The defined enumeration values. *)
Definition defined (f : field) (v : Z) : Prop :=
  match f with
  | Fbase => v = 0 \/ v = 1                       (* zero, one *)
  | Ftype => v = 0 \/ v = 1 \/ v = 2 \/ v = 3     (* general, symmetric, hermitian, triangular *)
  | Ffill => v = 0 \/ v = 1                       (* lower, upper *)
  | Fdiag => v = 0 \/ v = 1 \/ v = 2              (* non_unit, unit, zero *)
  end.

(** [shows f p hist v]: after the calls [hist] (most recent first) on fresh descriptors,
    field [f] of descriptor [p] is [v]: the last accepted value, through copies. *)
Inductive shows (f : field) : nat -> list call -> Z -> Prop :=
| S_fresh : forall p, shows f p [] 0
| S_set : forall p v h, defined f v -> shows f p (Cset f (Some p) v :: h) v
| S_rejected : forall p q v h w, ~ defined f v -> shows f p h w -> shows f p (Cset f (Some q) v :: h) w
| S_other_field : forall p f' d v h w, f' <> f -> shows f p h w -> shows f p (Cset f' d v :: h) w
| S_null : forall p v h w, shows f p h w -> shows f p (Cset f None v :: h) w
| S_other : forall p q v h w, q <> p -> shows f p h w -> shows f p (Cset f (Some q) v :: h) w
| S_copy : forall p q h w, shows f q h w -> shows f p (Ccopy (Some p) (Some q) :: h) w
| S_copy_other : forall p d e h w, d <> p -> shows f p h w -> shows f p (Ccopy (Some d) e :: h) w
| S_copy_null : forall p d e h w, d = None \/ e = None -> shows f p h w -> shows f p (Ccopy d e :: h) w.

(** Running the calls. *)
Definition exec (c : call) (s : heap) : status * heap :=
  match c with
  | Cset Fbase d v => set_index_base s d v
  | Cset Ftype d v => set_mat_type s d v
  | Cset Ffill d v => set_fill_mode s d v
  | Cset Fdiag d v => set_diag_type s d v
  | Ccopy d e => copy_mat_descr s d e
  end.
Fixpoint after (h : list call) : heap :=
  match h with [] => fun _ => new_descr | c :: h' => snd (exec c (after h')) end.
Definition get (f : field) (s : heap) (d : option nat) : Z :=
  match f with Fbase => get_index_base s d | Ftype => get_mat_type s d | Ffill => get_fill_mode s d | Fdiag => get_diag_type s d end.
