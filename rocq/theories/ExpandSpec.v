(** What a copy made for hinted products has to hold. *)
From Coq Require Import ZArith List Bool.
From Verif Require Import Base Algebra DoidModel DoidSpec Csr MvModel MvSpec HandleModel HandleSpec ExpandModel.
Import ListNotations.
Open Scope Z_scope.

(** Doids naming a transposed general matrix, and the symmetric / Hermitian ones. *)
Definition is_one_tri (d : Z) : bool := (4 <=? d) && (d <? 12).
Definition swaps (d : Z) : bool := (d =? gt) || (d =? gh).
Definition lower_doid (d : Z) : bool := (d =? sl) || (d =? slc) || (d =? hl) || (d =? hlc).

Section S.
  Context {T : Type} (O : ops T).

  (** [c] stores, in plain CSR form, the matrix that operation id [d] denotes for the
      user's matrix [A] of [m] rows and [n] columns. *)
  Record copy_ok (m n : Z) (A : Z -> Z -> T) (d : Z) (c : cmat T) : Prop := mk_copy_ok {
    cp_doid : c_doid c = d;
    cp_base : c_b c = 0;
    cp_rows : c_m c = (if swaps d then n else m);
    cp_cols : c_n c = (if swaps d then m else n);
    cp_wf : csr_wf (c_m c) (c_n c) (c_nnz c) 0 (c_ptr c) (c_ind c);
    cp_len : zlen (c_val c) = c_nnz c;
    cp_mat : forall i j, 0 <= i < c_m c -> 0 <= j < c_n c ->
      csr_mat O 0 (c_ptr c) (c_ind c) (c_val c) i j = doid_sem O d A i j;
    (** one-triangle forms record where the diagonal is and what it was *)
    cp_diag : is_one_tri d = true -> exists idiag dg, c_idiag c = Some idiag /\ c_dval c = Some dg /\
      zlen idiag = c_m c /\ zlen dg = c_m c /\ diag_unique (c_m c) 0 (c_ptr c) (c_ind c) /\
      forall i, 0 <= i < c_m c -> in_row (c_ptr c) 0 i (zn idiag i) /\ zn (c_ind c) (zn idiag i) = i /\
        nthZ (o0 O) dg i = doid_sem O d A i i
  }.

  (** A hint as aoclsparse_set_mv_hint records it: the fill mode belongs to the doid. *)
  Definition hint_ok (e : mhint) : Prop :=
    0 <= mh_doid e < 20 /\ (is_one_tri (mh_doid e) = true -> is_upper (mh_fill e) = negb (lower_doid (mh_doid e))).

  (** Requests for which a copy is made, for a CSR (gn) or CSC (gt) user matrix. *)
  Definition copied (user_doid d : Z) : bool :=
    is_one_tri d || (if user_doid =? gt then (d =? gn) || (d =? gc) else (d =? gt) || (d =? gh)).
End S.
