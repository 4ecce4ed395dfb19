(** What the product of a matrix with its own conjugate transpose has to be. *)
From Coq Require Import ZArith List Bool.
From Verif Require Import Base Algebra DoidModel DoidSpec Csr CheckSpec SortSpec DenseSpec MvModel HandleModel HandleSpec CsrmvModel AddSpec Csr2mSpec.
Import ListNotations.
Open Scope Z_scope.

Section S.
  Context {T : Type} (O : ops T).

  (** Element (i, j) of op(A) * op(A)^H, [kk] being the number of columns of op(A) *)
  Definition gram (op : operation) (kk : Z) (a : cmat T) (i j : Z) : T :=
    sumz O 0 kk (fun l => omul O (op_sem O op (hnd_mat O a) i l) (ocj O (op_sem O op (hnd_mat O a) j l))).

  (** The new window: beta * C + alpha * F on and above the diagonal, the old content
      below it *)
  Definition upper_update (order ld : Z) (alpha beta : T) (F : Z -> Z -> T) (C : list T) (i j : Z) : T :=
    let c := nthZ (o0 O) C (dense_at order ld i j) in
    if i <=? j then oadd O (omul O beta c) (omul O alpha (F i j)) else c.

  (** The library walks the stored rows themselves (no transposed copy is made): op(A)
      transposes CSR, or op is none and the matrix is CSC *)
  Definition stored_rows (op : operation) (a : cmat T) : bool :=
    match op with op_none => c_doid a =? gt | _ => negb (c_doid a =? gt) end.
End S.
