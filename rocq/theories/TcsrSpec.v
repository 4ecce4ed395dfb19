(** What a pair of triangles must satisfy, and the matrix it denotes. *)
From Coq Require Import ZArith List Bool.
From Verif Require Import Base Algebra Csr TcsrModel.
Open Scope Z_scope.

(** [ptr]/[ind] store the lower triangle of an m x m matrix: every row ends with its
    diagonal, all earlier columns are strictly below it. *)
Definition lower_half (m nz b : Z) (ptr ind : list Z) : Prop :=
  ptr_ok m nz b ptr /\
  forall i, 0 <= i < m ->
    zn ptr i < zn ptr (i + 1) /\
    zn ind (zn ptr (i + 1) - b - 1) = i + b /\
    (forall k, zn ptr i - b <= k < zn ptr (i + 1) - b - 1 -> b <= zn ind k < i + b).

(** The upper triangle: every row starts with its diagonal. *)
Definition upper_half (m nz b : Z) (ptr ind : list Z) : Prop :=
  ptr_ok m nz b ptr /\
  forall i, 0 <= i < m ->
    zn ptr i < zn ptr (i + 1) /\
    zn ind (zn ptr i - b) = i + b /\
    (forall k, zn ptr i - b < k < zn ptr (i + 1) - b -> i + b < zn ind k < m + b).

(** Acceptable arguments of creation (array lengths aside). *)
Definition tcsr_valid (b M N nnz : Z) (ptrL ptrU indL indU : list Z) : Prop :=
  (b = 0 \/ b = 1) /\ 0 <= M /\ M = N /\
  lower_half M (zn ptrL M - b) b ptrL indL /\ upper_half M (zn ptrU M - b) b ptrU indU /\
  nnz = (zn ptrL M - b) + (zn ptrU M - b) - M.

(** The arrays are as long as the C interface requires. *)
Definition tcsr_lens {T} (b M : Z) (ptrL ptrU indL indU : list Z) (valL valU : list T) : Prop :=
  zlen ptrL = M + 1 /\ zlen ptrU = M + 1 /\
  zlen indL = zn ptrL M - b /\ zlen valL = zn ptrL M - b /\
  zlen indU = zn ptrU M - b /\ zlen valU = zn ptrU M - b.

Section S.
  Context {T : Type} (O : ops T).

  (** A handle over valid arrays. *)
  Definition tcsr_ok (t : tcsr T) : Prop :=
    tcsr_valid (t_b t) (t_m t) (t_n t) (t_nnz t) (t_ptrL t) (t_ptrU t) (t_indL t) (t_indU t) /\
    tcsr_lens (t_b t) (t_m t) (t_ptrL t) (t_ptrU t) (t_indL t) (t_indU t) (t_valL t) (t_valU t) /\
    zlen (t_idiag t) = t_m t /\ zlen (t_iurow t) = t_m t /\
    (forall i, 0 <= i < t_m t -> zn (t_idiag t) i = zn (t_ptrL t) (i + 1) - 1 /\ zn (t_iurow t) i = zn (t_ptrU t) i + 1).

  Definition tlow (t : tcsr T) : Z -> Z -> T := csr_mat O (t_b t) (t_ptrL t) (t_indL t) (t_valL t).
  Definition tupp (t : tcsr T) : Z -> Z -> T := csr_mat O (t_b t) (t_ptrU t) (t_indU t) (t_valU t).

  (** The two halves store the same diagonal. *)
  Definition diagonals_agree (t : tcsr T) : Prop := forall i, 0 <= i < t_m t -> tlow t i i = tupp t i i.

  (** [A] is the matrix the pair of triangles denotes. *)
  Definition denotes (t : tcsr T) (A : Z -> Z -> T) : Prop :=
    forall i j, 0 <= i < t_m t -> 0 <= j < t_m t -> A i j = if j <=? i then tlow t i j else tupp t i j.
End S.
