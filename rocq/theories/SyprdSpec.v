(** What the symmetric triple product has to be. *)
From Coq Require Import ZArith List Bool.
From Verif Require Import Base Algebra DoidModel DoidSpec Csr DenseSpec MvModel HandleModel HandleSpec.
Import ListNotations.
Open Scope Z_scope.

Section S.
  Context {T : Type} (O : ops T).

  (** The Hermitian (real: symmetric) matrix given by the upper triangle of B *)
  Definition dense_herm (order ld : Z) (B : list T) : Z -> Z -> T :=
    fun i j => if i <=? j then nthZ (o0 O) B (dense_at order ld i j) else ocj O (nthZ (o0 O) B (dense_at order ld j i)).

  (** Element (i, j) of op(A) * B * op(A)^H, [kk] being the number of columns of op(A) *)
  Definition triple (op : operation) (kk : Z) (a : cmat T) (B : Z -> Z -> T) (i j : Z) : T :=
    sumz O 0 kk (fun q => omul O (sumz O 0 kk (fun l => omul O (op_sem O op (hnd_mat O a) i l) (B l q))) (ocj O (op_sem O op (hnd_mat O a) j q))).
End S.
