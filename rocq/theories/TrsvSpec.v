(** Specification of a triangular solve on strided vectors. *)
From Coq Require Import ZArith List Bool.
From Verif Require Import Base Algebra Csr DoidModel DoidSpec MvModel MvSpec HandleModel HandleSpec.
Import ListNotations.
Open Scope Z_scope.

Section S.
  Context {T : Type} (O : ops T).

  (** Component [i] of a vector stored with stride [inc]. *)
  Definition comp (v : list T) (inc i : Z) : T := nthZ (o0 O) v (i * inc).

  (** The array is long enough for [m] components with stride [inc]. *)
  Definition holds (m inc : Z) (v : list T) : Prop := 0 < inc /\ (m - 1) * inc < zlen v.

  (** M * x = alpha * b. *)
  Definition solves (m : Z) (alpha : T) (M : Z -> Z -> T) (b : list T) (incb : Z) (x : list T) (incx : Z) : Prop :=
    forall i, 0 <= i < m ->
      sumz O 0 m (fun j => omul O (M i j) (comp x incx j)) = omul O alpha (comp b incb i).

  (** [x1] differs from [x0] only at positions 0, inc, ..., (m-1)*inc. *)
  Definition only_strided (m inc : Z) (x0 x1 : list T) : Prop :=
    zlen x1 = zlen x0 /\
    forall p, 0 <= p < zlen x0 -> (forall i, 0 <= i < m -> p <> i * inc) -> nthZ (o0 O) x1 p = nthZ (o0 O) x0 p.

  (** The flag "no diagonal entry is missing" is meaningful once some stored matrix is
      optimised. *)
  Definition diag_flag_ok (h : hnd T) (u : cmat T) : Prop :=
    (exists c, In (Some c) (H_mats h) /\ c_opt c = true) ->
    (H_optfull h = true <-> full_diag (c_m u) (c_n u) (c_b u) (c_ptr u) (c_ind u)).
End S.
