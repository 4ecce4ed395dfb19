(** What the ILU(0) smoother has to compute. *)
From Coq Require Import ZArith List Bool.
From Verif Require Import Base Algebra Csr DoidModel CheckModel MvModel HandleModel HandleSpec.
Import ListNotations.
Open Scope Z_scope.

Section S.
  Context {T : Type} (O : ops T).

  (** The factors kept in one matrix F: L has a unit diagonal and F's strictly lower
      part, U has F's upper part with diagonal. *)
  Definition facL (F : Z -> Z -> T) (i k : Z) : T := if k <? i then F i k else if k =? i then o1 O else o0 O.
  Definition facU (F : Z -> Z -> T) (k j : Z) : T := if k <=? j then F k j else o0 O.
  Definition LU (n : Z) (F : Z -> Z -> T) (i j : Z) : T := sumz O 0 n (fun k => omul O (facL F i k) (facU F k j)).

  (** Position (i, j) is stored. *)
  Definition on_pattern (b : Z) (ptr ind : list Z) (i j : Z) : Prop := exists k, in_row ptr b i k /\ zn ind k = j + b.

  (** [F] agrees with [A] in rows below [r]: product of the factors = A on the pattern. *)
  Definition ilu_rows (n b : Z) (ptr ind : list Z) (F A : Z -> Z -> T) (r : Z) : Prop :=
    forall i j, 0 <= i < r -> 0 <= j < n -> on_pattern b ptr ind i j -> LU n F i j = A i j.

  (** L U x = b *)
  Definition lu_solves (n : Z) (F : Z -> Z -> T) (x b : list T) : Prop :=
    zlen x = zlen b /\
    forall i, 0 <= i < n -> sumz O 0 n (fun k => omul O (facL F i k) (sumz O 0 n (fun j => omul O (facU F k j) (nthZ (o0 O) x j)))) = nthZ (o0 O) b i.

  (** A handle the smoother accepts: square CSR matrix, sorted rows, every diagonal
      entry stored, general descriptor with the matrix's base. *)
  Record ilu_pre (h : hnd T) (u : cmat T) (d : descr) : Prop := mk_ilu_pre {
    ip_user : user_mat h u; ip_mats : exists rest, H_mats h = Some u :: rest; ip_csr : c_doid u = gn;
    ip_square : H_m h = H_n h; ip_pos : 0 < H_m h;
    ip_sorted : rows_sorted (c_m u) (c_b u) (c_ptr u) (c_ind u); ip_sort : H_sort h = fully_sorted;
    ip_full : full_diag (c_m u) (c_n u) (c_b u) (c_ptr u) (c_ind u); ip_hfull : H_full h = true;
    ip_type : d_type d = mt_general; ip_base : d_base d = c_b u;
    ip_int : c_nnz u < 2147483648 /\ H_m h < 2147483648 }.
End S.

(** The handle carries finished factors of the user's matrix [u] ([lu]: recorded
    diagonal positions). *)
Definition factored {T} (O : ops T) (near0 : T -> bool) (u : cmat T) (lu : list Z) (v : list T) : Prop :=
  zlen lu = c_m u /\ zlen v = c_nnz u /\
  (forall i, 0 <= i < c_m u -> in_row (c_ptr u) (c_b u) i (zn lu i) /\ zn (c_ind u) (zn lu i) = i + c_b u) /\
  (forall i, 0 <= i < c_m u -> near0 (csr_mat O (c_b u) (c_ptr u) (c_ind u) v i i) = false) /\
  ilu_rows O (c_m u) (c_b u) (c_ptr u) (c_ind u) (csr_mat O (c_b u) (c_ptr u) (c_ind u) v)
    (csr_mat O (c_b u) (c_ptr u) (c_ind u) (c_val u)) (c_m u).
