(** What the sparse product has to return. *)
From Coq Require Import ZArith List Bool Permutation.
From Verif Require Import Base Algebra DoidModel DoidSpec Csr SortSpec CheckModel MvModel HandleModel HandleSpec CsrmvModel AddSpec Csr2mModel.
Import ListNotations.
Open Scope Z_scope.

(** The environment of one call: what freshly allocated arrays contain, and the
    threads of the two parallel regions in the order in which they finish. *)
Record call_env (T : Type) := mkEnv { e_fz : Z -> list Z; e_ft : Z -> list T; e_tc : list Z; e_tf : list Z }.
Arguments mkEnv {T}. Arguments e_fz {T}. Arguments e_ft {T}. Arguments e_tc {T}. Arguments e_tf {T}.
Definition team (t : list Z) : Prop := t <> [] /\ Permutation t (zrange 0 (zlen t)).
Definition call_ok {T} (e : call_env T) : Prop :=
  (forall n, 0 <= n -> zlen (e_fz e n) = n) /\ (forall n, 0 <= n -> zlen (e_ft e n) = n) /\ team (e_tc e) /\ team (e_tf e).

Section S.
  Context {T : Type} (O : ops T).

  (** Dimensions of op(X). *)
  Definition rows_of (op : operation) (X : hnd T) : Z := match op with op_none => H_m X | _ => H_n X end.
  Definition cols_of (op : operation) (X : hnd T) : Z := match op with op_none => H_n X | _ => H_m X end.

  (** A call of the product the documentation allows: general matrices [a], [b] of the
      handles, descriptors with the matrices' bases, valid operations, op(A)'s columns
      are op(B)'s rows. *)
  Record sp2m_pre (opA opB : operation) (dA dB : descr) (A B : hnd T) (a b : cmat T) : Prop := mk_sp2m_pre {
    sp_A : holds A a; sp_B : holds B b;
    sp_opA : valid_op opA = true; sp_opB : valid_op opB = true;
    sp_tA : d_type dA = mt_general; sp_tB : d_type dB = mt_general;
    sp_bA : d_base dA = c_b a; sp_bB : d_base dB = c_b b;
    sp_dim : cols_of opA A = rows_of opB B }.

  (** op(A) * op(B) *)
  Definition mat_prod (opA opB : operation) (kk : Z) (a b : cmat T) (i j : Z) : T :=
    sumz O 0 kk (fun l => omul O (op_sem O opA (hnd_mat O a) i l) (op_sem O opB (hnd_mat O b) l j)).

  (** The handle's matrix has a stored element at (i, j); op of it has one there. *)
  Definition stored_at (x : cmat T) (i j : Z) : Prop := (if c_doid x =? gt then centries x j i else centries x i j) <> [].
  Definition op_stored (op : operation) (x : cmat T) (i j : Z) : Prop := match op with op_none => stored_at x i j | _ => stored_at x j i end.
  (** [l] lists the positions at which op(A)*op(B) has at least one contribution, each once. *)
  Definition structure_list (opA opB : operation) (A B : hnd T) (a b : cmat T) (l : list (Z * Z)) : Prop :=
    NoDup l /\ forall i j, In (i, j) l <-> 0 <= i < rows_of opA A /\ 0 <= j < cols_of opB B /\
      exists q, 0 <= q < cols_of opA A /\ op_stored opA a i q /\ op_stored opB b q j.

  (** [C] is an [m] x [n] handle that can itself be used as an operand: every matrix it
      carries is a valid zero-based CSR or CSC matrix without repeated positions that
      denotes [F]; one of them is CSR. *)
  Definition product_handle (m n : Z) (F : Z -> Z -> T) (C : hnd T) : Prop :=
    H_m C = m /\ H_n C = n /\
    (exists c rest, H_mats C = Some c :: rest) /\
    (exists c, In (Some c) (H_mats C) /\ c_doid c = gn) /\
    Forall (fun e => exists c, e = Some c /\ user_mat C c /\ c_b c = 0 /\ rows_distinct (c_m c) 0 (c_ptr c) (c_ind c) /\
                       forall i j, 0 <= i < m -> 0 <= j < n -> hnd_mat O c i j = F i j) (H_mats C).

  (** The same sparsity structure, possibly other values. *)
  Definition same_structure (X X' : hnd T) : Prop :=
    H_m X' = H_m X /\ H_n X' = H_n X /\ H_nnz X' = H_nnz X /\
    exists x x', holds X x /\ holds X' x' /\ c_doid x' = c_doid x /\ c_m x' = c_m x /\ c_n x' = c_n x /\ c_b x' = c_b x /\
      c_ptr x' = c_ptr x /\ c_ind x' = c_ind x.

  Variables (is_real : bool) (imax : Z) (opA opB : operation) (dA dB : descr) (A B : hnd T).
  (** Life of an output handle for the structures of A and B: created by the counting
      stage (or by a full computation), then finalised any number of times with handles
      of the same structures. *)
  Inductive output_of : hnd T -> Prop :=
  | out_count : forall e rq C0 C, call_ok e -> rq = rq_count \/ rq = rq_full ->
      sp2m O is_real (e_fz e) (e_ft e) imax (e_tc e) (e_tf e) opA (Some dA) (Some A) opB (Some dB) (Some B) rq (Some C0) = Some (success, Some C) -> output_of C
  | out_final : forall e C A' B' C' st, output_of C -> call_ok e -> same_structure A A' -> same_structure B B' ->
      sp2m O is_real (e_fz e) (e_ft e) imax (e_tc e) (e_tf e) opA (Some dA) (Some A') opB (Some dB) (Some B') rq_finalize (Some (Some C)) = Some (st, Some C') ->
      output_of C'.
End S.
