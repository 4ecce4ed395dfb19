(** C06, C07: CSR <-> CSC and COO -> CSR conversion. *)
From Coq Require Import ZArith List Bool.
From Verif Require Import Base Csr Csr2CscModel Csr2CscProof.
Import ListNotations.
Open Scope Z_scope.

(** C06.  Whatever the output buffers held before, the result is a well-formed
    column structure with ascending rows in each column, and at every coordinate it
    stores exactly the same values, in the same order, as the input (duplicates
    and explicit zeros included). *)
Theorem C06_csr2csc_correct : forall T m n nnz bR bC ptr ind (val : list T) colptr rowind cval,
  (bR = 0 \/ bR = 1) -> (bC = 0 \/ bC = 1) ->
  csr_wf m n nnz bR ptr ind -> zlen val = nnz ->
  zlen colptr = n + 1 -> zlen rowind = nnz -> zlen cval = nnz ->
  exists cp ri cv,
    csr2csc m n nnz bR bC (Some ptr) (Some ind) (Some val) (Some rowind) (Some colptr) (Some cval)
      = Some (success, Some cp, Some ri, Some cv) /\
    csr_wf n m nnz bC cp ri /\ zlen cv = nnz /\ rows_sorted n bC cp ri /\
    (forall i j, 0 <= i < m -> 0 <= j < n -> ents bC cp ri cv j i = ents bR ptr ind val i j).
Proof. exact csr2csc_ok. Qed.
Print Assumptions C06_csr2csc_correct.

Example C06_case : csr2csc (T := Z) 2 3 4 0 1 (Some [0;3;4]) (Some [2;0;2;1]) (Some [5;6;7;8])
    (Some [9;9;9;9]) (Some [8;8;8;8]) (Some [1;1;1;1])
  = Some (success, Some [1;2;3;5], Some [1;2;1;1], Some [6;8;5;7]).
Proof. reflexivity. Qed.
Example C06_case_wf : csr_wf 2 3 4 0 [0;3;4] [2;0;2;1].
Proof.
  constructor; try (vm_compute; intuition congruence); try Lia.lia.
  - split; [reflexivity|]. split; [reflexivity|]. intros i Hi.
    assert (i = 0 \/ i = 1) as [-> | ->] by Lia.lia; vm_compute; congruence.
  - intros k Hk. assert (k = 0 \/ k = 1 \/ k = 2 \/ k = 3) as [-> | [-> | [-> | ->]]] by Lia.lia;
      vm_compute; intuition congruence.
Qed.

Theorem C06_csr2csc_twice_is_identity : forall T m n nnz b b1 ptr ind (val : list T) cp0 ri0 cv0 p0 i0 v0,
  (b = 0 \/ b = 1) -> (b1 = 0 \/ b1 = 1) ->
  csr_wf m n nnz b ptr ind -> zlen val = nnz ->
  zlen cp0 = n + 1 -> zlen ri0 = nnz -> zlen cv0 = nnz ->
  zlen p0 = m + 1 -> zlen i0 = nnz -> zlen v0 = nnz ->
  exists cp ri cv p c v,
    csr2csc m n nnz b b1 (Some ptr) (Some ind) (Some val) (Some ri0) (Some cp0) (Some cv0)
      = Some (success, Some cp, Some ri, Some cv) /\
    csr2csc n m nnz b1 b (Some cp) (Some ri) (Some cv) (Some i0) (Some p0) (Some v0)
      = Some (success, Some p, Some c, Some v) /\
    csr_wf m n nnz b p c /\ zlen v = nnz /\ rows_sorted m b p c /\
    (forall i j, 0 <= i < m -> 0 <= j < n -> ents b p c v i j = ents b ptr ind val i j).
Proof. exact csr2csc_roundtrip. Qed.
Print Assumptions C06_csr2csc_twice_is_identity.

Theorem C06_csr2csc_null_rejected : forall T m n nnz bR bC ptr_p ind_p (val_p : option (list T)) ri_p cp_p cv_p,
  0 < m -> 0 < n -> 0 < nnz -> (bR = 0 \/ bR = 1) -> (bC = 0 \/ bC = 1) ->
  ptr_p = None \/ ind_p = None \/ val_p = None \/ ri_p = None \/ cp_p = None \/ cv_p = None ->
  csr2csc m n nnz bR bC ptr_p ind_p val_p ri_p cp_p cv_p = Some (invalid_pointer, cp_p, ri_p, cv_p).
Proof. exact csr2csc_null_ok. Qed.
Print Assumptions C06_csr2csc_null_rejected.

Theorem C06_csr2csc_bad_size_rejected : forall T m n nnz bR bC ptr_p ind_p (val_p : option (list T)) ri_p cp_p cv_p,
  m < 0 \/ n < 0 \/ nnz < 0 ->
  csr2csc m n nnz bR bC ptr_p ind_p val_p ri_p cp_p cv_p = Some (invalid_size, cp_p, ri_p, cv_p).
Proof. exact csr2csc_bad_size. Qed.
Print Assumptions C06_csr2csc_bad_size_rejected.

(** Finding: for an empty matrix the column pointers are written before the null
    check, so a null csc_col_ptr is dereferenced instead of rejected. *)
Theorem C06_null_check_on_empty_matrix_refuted :
  csr2csc (T := Z) 2 2 0 0 0 (Some [0;0;0]) (Some []) (Some []) (Some []) None (Some []) = None.
Proof. exact csr2csc_null_refuted. Qed.
Print Assumptions C06_null_check_on_empty_matrix_refuted.

(** C07.  Stable: the values at each coordinate keep their input order. *)
Theorem C07_coo2csr_correct : forall T M N nnz b row col (cval : list T) ptr ind val,
  coo_wf M N nnz b row col -> zlen cval = nnz ->
  zlen ptr = M + 1 -> zlen ind = nnz -> zlen val = nnz ->
  exists p c v,
    coo2csr M N nnz b (Some row) (Some col) (Some cval) (Some ptr) (Some ind) (Some val)
      = Some (success, Some p, Some c, Some v) /\
    csr_wf M N nnz b p c /\ zlen v = nnz /\
    (forall i j, 0 <= i < M -> ents b p c v i j = coo_ents b nnz row col cval i j).
Proof. exact coo2csr_ok. Qed.
Print Assumptions C07_coo2csr_correct.

Example C07_case : coo2csr (T := Z) 3 3 4 1 (Some [3;1;3;1]) (Some [1;2;1;1]) (Some [5;6;7;8])
    (Some [9;9;9;9]) (Some [8;8;8;8]) (Some [0;0;0;0])
  = Some (success, Some [1;3;3;5], Some [2;1;1;1], Some [6;8;5;7]).
Proof. reflexivity. Qed.
