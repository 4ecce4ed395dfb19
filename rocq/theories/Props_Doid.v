(** C14: operation bookkeeping. *)
From Coq Require Import ZArith Bool List.
From Verif Require Import Base Algebra DoidModel DoidSpec DoidProof.
Open Scope Z_scope.

(** Whatever operation [e] the library decides to apply to data stored in form
    [d], the result is the requested form [r] of the user's matrix, for every
    matrix over every commutative ring with involution. *)
Theorem C14_effective_operation_correct : forall (T : Type) (O : ops T), laws O ->
  forall d r e (M : Z -> Z -> T),
    0 <= d < 20 -> 0 <= r < 20 ->
    (is_herm_doid r -> real_diag O M) ->
    get_effective_doid d r = Some e -> e <> dlen ->
    0 <= e < 20 /\ (forall i j, doid_sem O e (doid_sem O d M) i j = doid_sem O r M i j).
Proof. exact @eff_ok. Qed.
Print Assumptions C14_effective_operation_correct.

Example C14_case_stored_gt_wanted_hl : get_effective_doid gt hl = Some huc /\
  real_diag Gops (fun i j => if i =? j then (i, 0) else (i, j)).
Proof.
  split; [reflexivity|]. intros i; rewrite Z.eqb_refl; reflexivity.
Qed.

(** Data stored in one of the four general forms can serve every request. *)
Theorem C14_general_data_serves_all : forall d r, 0 <= d < 4 -> 0 <= r < 20 ->
  exists e, get_effective_doid d r = Some e /\ 0 <= e < 20.
Proof. exact eff_general. Qed.
Print Assumptions C14_general_data_serves_all.

(** When it refuses within the symmetric or Hermitian family, no operation on the
    stored data could have produced the request. *)
Theorem C14_refusal_is_necessary : forall d r,
  4 <= d < 12 -> 4 <= r < 12 -> Z.shiftr d 2 = Z.shiftr r 2 ->
  get_effective_doid d r = Some dlen ->
  exists M N : Z -> Z -> Z, (forall i j, doid_sem Zops d M i j = doid_sem Zops d N i j) /\
    exists i j, doid_sem Zops r M i j <> doid_sem Zops r N i j.
Proof. exact eff_len_needed. Qed.
Print Assumptions C14_refusal_is_necessary.

Example C14_refusal_case : get_effective_doid sl suc = Some dlen.
Proof. reflexivity. Qed.

(** CSC data is the transpose of CSR data: running the operation [trans_doid d]
    on it gives operation [d] of the user's matrix. *)
Theorem C14_transposed_storage : forall (T : Type) (O : ops T), laws O ->
  forall d (M : Z -> Z -> T),
    0 <= d < 20 -> (is_herm_doid d -> real_diag O M) ->
    0 <= trans_doid d < 20 /\
    (forall i j, doid_sem O (trans_doid d) (fun r c => M c r) i j = doid_sem O d M i j).
Proof. exact @trans_ok. Qed.
Print Assumptions C14_transposed_storage.

Theorem C14_conjugated_operation : forall (T : Type) (O : ops T), laws O ->
  forall d (M : Z -> Z -> T),
    0 <= d < 20 ->
    0 <= conj_doid d < 20 /\
    (forall i j, doid_sem O (conj_doid d) M i j = ocj O (doid_sem O d M i j)).
Proof. exact @conj_ok. Qed.
Print Assumptions C14_conjugated_operation.

(** The operation id computed from the caller's descriptor and operation means
    exactly op(matrix described by the descriptor); on real types conjugation is
    the identity. *)
Theorem C14_request_encoding : forall (T : Type) (O : ops T), laws O ->
  forall is_real ty fm op (M : Z -> Z -> T),
    (is_real = true -> forall a, ocj O a = a) ->
    (ty = mt_hermitian -> real_diag O M) ->
    (op = op_none \/ op = op_transpose \/ op = op_conjugate_transpose) ->
    exists d, get_doid is_real ty fm op = Some d /\ 0 <= d < 20 /\
      (forall i j, doid_sem O d M i j = op_sem O op (descr_sem O ty fm M) i j).
Proof. exact @get_doid_ok. Qed.
Print Assumptions C14_request_encoding.

Example C14_request_case : get_doid false mt_hermitian fm_upper op_transpose = Some huc /\
  (forall a, ocj Zops a = a).
Proof. split; reflexivity. Qed.

Theorem C14_bad_operation_rejected : forall is_real ty fm v, v < 111 \/ 113 < v ->
  get_doid is_real ty fm (op_other v) = Some dlen.
Proof. exact get_doid_bad_op. Qed.
Print Assumptions C14_bad_operation_rejected.
