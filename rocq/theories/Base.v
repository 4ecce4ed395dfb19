(** Shared vocabulary of the model: status codes, checked memory, loops.

    Undefined behaviour of the C++ program (out-of-bounds access, null
    dereference, read of an uninitialised local) is the outcome [None].        *)
From Coq Require Import ZArith List Bool.
Import ListNotations.
Open Scope Z_scope.

(** library/include/aoclsparse_types.h 304-324: aoclsparse_status *)
Inductive status :=
| success | not_implemented | invalid_pointer | invalid_size | internal_error
| invalid_value | invalid_index_value | maxit | user_stop | wrong_type
| memory_error | numerical_error | invalid_operation | unsorted_input
| invalid_kid.

(** library/include/aoclsparse_types.h: aoclsparse_index_base, zero = 0 and
    one = 1.  The base is used as an integer in all address computations.      *)
Definition base := Z.

Notation "'let*' x ':=' e 'in' k" :=
  (match e with Some x => k | None => None end)
  (at level 200, x pattern, e at level 100, k at level 200, right associativity).

(** [if e then return r;] guard *)
Definition zlen {A} (l : list A) : Z := Z.of_nat (length l).

(** Checked read [l[i]] of a C array of [length l] elements. *)
Definition rd {A} (l : list A) (i : Z) : option A :=
  if i <? 0 then None else nth_error l (Z.to_nat i).

Fixpoint upd_nat {A} (l : list A) (n : nat) (v : A) : list A :=
  match l, n with
  | [], _ => []
  | _ :: t, O => v :: t
  | h :: t, S n' => h :: upd_nat t n' v
  end.

Definition upd {A} (l : list A) (i : Z) (v : A) : list A := upd_nat l (Z.to_nat i) v.

(** Checked write [l[i] = v]. *)
Definition wr {A} (l : list A) (i : Z) (v : A) : option (list A) :=
  if (0 <=? i) && (i <? zlen l) then Some (upd l i v) else None.

(** [lo, lo+1, ..., hi-1] *)
Definition zrange (lo hi : Z) : list Z :=
  map (fun k => lo + Z.of_nat k) (seq 0 (Z.to_nat (hi - lo))).

(** [for (x in l) s = f(x, s)] *)
Fixpoint foldM {X S} (f : X -> S -> option S) (l : list X) (s : S) : option S :=
  match l with
  | [] => Some s
  | x :: l' => let* s' := f x s in foldM f l' s'
  end.

(** [for (i = lo; i < hi; i++)] *)
Definition for_ {S} (lo hi : Z) (f : Z -> S -> option S) (s : S) : option S :=
  foldM f (zrange lo hi) s.

(** [for (i = hi - 1; i >= lo; i--)] *)
Definition for_down {S} (lo hi : Z) (f : Z -> S -> option S) (s : S) : option S :=
  foldM f (rev (zrange lo hi)) s.

(** Loop bodies with [break] and [return]. *)
Inductive ctl (S R : Type) :=
| Go (s : S)
| Brk (s : S)
| Ret (r : R).
Arguments Go {S R} s.
Arguments Brk {S R} s.
Arguments Ret {S R} r.

Fixpoint loopM {X S R} (f : X -> S -> option (ctl S R)) (l : list X) (s : S)
  : option (S + R) :=
  match l with
  | [] => Some (inl s)
  | x :: l' =>
      match f x s with
      | None => None
      | Some (Go s') => loopM f l' s'
      | Some (Brk s') => Some (inl s')
      | Some (Ret r) => Some (inr r)
      end
  end.

Definition forc {S R} (lo hi : Z) (f : Z -> S -> option (ctl S R)) (s : S)
  : option (S + R) := loopM f (zrange lo hi) s.

(** Total view of an array, used only in specifications and proofs, always under
    bounds hypotheses. *)
Definition nthZ {A} (d : A) (l : list A) (i : Z) : A := nth (Z.to_nat i) l d.

(** Integer arrays: default 0. *)
Notation zn := (nthZ 0).

(** Constant array of [n] elements. *)
Definition zrep {A} (n : Z) (v : A) : list A := repeat v (Z.to_nat n).
