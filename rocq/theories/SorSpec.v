(** What one forward SOR sweep has to compute. *)
From Coq Require Import ZArith List Bool.
From Verif Require Import Base Algebra Csr DoidModel CheckModel MvModel HandleModel HandleSpec.
Import ListNotations.
Open Scope Z_scope.

Section S.
  Context {T : Type} (O : ops T).
  Local Notation tn := (nthZ (o0 O)).

  (** x'_i = (1 - w) a x_i + w (b_i - sum_{j<i} A_ij x'_j - sum_{j>i} A_ij a x_j) / A_ii;
      entries beyond n are kept. *)
  Definition sor_sweep (n : Z) (A : Z -> Z -> T) (w a : T) (b x x' : list T) : Prop :=
    zlen x' = zlen x /\ (forall i, n <= i < zlen x -> tn x' i = tn x i) /\
    forall i, 0 <= i < n ->
      tn x' i = oadd O (omul O (osub O (o1 O) w) (omul O a (tn x i)))
        (omul O w (odiv O (osub O (tn b i)
          (sumz O 0 n (fun j => if j <? i then omul O (A i j) (tn x' j) else if i <? j then omul O (A i j) (omul O a (tn x j)) else o0 O))) (A i i))).

  (** Accepted handles: square CSR matrix, general descriptor with its base. *)
  Record sor_pre (h : hnd T) (u : cmat T) (d : descr) (x b : list T) : Prop := mk_sor_pre {
    sp_user : user_mat h u; sp_mats : exists rest, H_mats h = Some u :: rest; sp_csr : c_doid u = gn;
    sp_square : H_m h = H_n h; sp_pos : 0 < H_m h; sp_type : d_type d = mt_general; sp_base : d_base d = c_b u;
    sp_x : H_m h <= zlen x; sp_b : H_m h <= zlen b }.
End S.
