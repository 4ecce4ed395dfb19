(** What the ELL and DIA products must compute, independent of the code. *)
From Coq Require Import ZArith List Bool.
From Verif Require Import Base Algebra EllSpec DiaSpec.
Import ListNotations.
Open Scope Z_scope.

Section S.
  Context {T : Type} (O : ops T).

  (** Element (i,j) of the matrix held in ELL storage (duplicates are summed). *)
  Definition ell_mat (slot : Z -> Z -> Z) (b wd : Z) (col : list Z) (v : list T) (i j : Z) : T :=
    suml O (fun a => a) (ell_ents (o0 O) slot b wd col v i j).

  (** Element (i,j) of the matrix held in DIA storage. *)
  Definition dia_mat (m nd : Z) (off : list Z) (dv : list T) (i j : Z) : T :=
    sumz O 0 nd (fun q => if zn off q =? j - i then nthZ (o0 O) dv (dia_at m i q) else o0 O).

  (** The first [m] elements of y become alpha*M*x + beta*y; the others stay. *)
  Definition product_of (m n : Z) (alpha beta : T) (M : Z -> Z -> T) (x y0 y1 : list T) : Prop :=
    zlen y1 = zlen y0 /\
    forall i, 0 <= i < zlen y0 ->
      nthZ (o0 O) y1 i =
        if i <? m then
          oadd O (omul O alpha (sumz O 0 n (fun j => omul O (M i j) (nthZ (o0 O) x j)))) (omul O beta (nthZ (o0 O) y0 i))
        else nthZ (o0 O) y0 i.
End S.

(** Row-by-row ELL arrays: each row is a run of valid column indices followed by
    padding, which has a column index below the base (-1). *)
Definition ell_ok (m n b wd : Z) (col : list Z) : Prop :=
  forall i, 0 <= i < m -> exists len, 0 <= len <= wd /\
    (forall k, 0 <= k < len -> b <= zn col (ell_slot wd i k) < n + b) /\
    (forall k, len <= k < wd -> zn col (ell_slot wd i k) < b).

(** Slot-by-slot ELL arrays: every slot, padding included, holds a column index of
    the matrix. *)
Definition ellt_ok (m n b wd : Z) (col : list Z) : Prop :=
  forall i k, 0 <= i < m -> 0 <= k < wd -> b <= zn col (ellt_slot m i k) < n + b.

(** The hybrid matrix: listed rows come from the CSR arrays, the others from the
    ELL arrays. *)
Definition listed (rmap : list Z) (cnt i : Z) : bool := existsb (fun q => zn rmap q =? i) (zrange 0 cnt).
Definition hyb_mat {T} (rmap : list Z) (cnt : Z) (E C : Z -> Z -> T) (i j : Z) : T :=
  if listed rmap cnt i then C i j else E i j.
