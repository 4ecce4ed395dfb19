(** C22: the legacy triangular solve ?csrsv. *)
From Coq Require Import ZArith List Bool Lia ZifyBool QArith Qcanon.
From Verif Require Import Base BaseFacts Algebra Csr CsrFacts Decide DoidModel DoidSpec MvModel MvSpec TrsvSpec CsrsvModel CsrsvProof.
Import ListNotations.
Open Scope Z_scope.

(** The n x n system given by the selected triangle of the stored matrix, with the
    stored or the unit diagonal, is solved for alpha*x; nothing else in y changes.
    The lower solve needs rows in which everything left of the diagonal comes first;
    the upper one needs no order. *)
Theorem C22_csrsv_solves : forall T (O : ops T) (L : laws O) (DL : div_law O) d alpha m nnz val ind ptr x y,
  csr_wf m m nnz 0 ptr ind -> zlen val = nnz -> m <= zlen x -> m <= zlen y ->
  d_base d = 0 -> d_type d = mt_general \/ d_type d = mt_symmetric -> d_diag d <> dg_zero ->
  (d_fill d = fm_lower -> rows_grouped m 0 ptr ind) ->
  (d_diag d = dg_non_unit -> full_diag m m 0 ptr ind /\ diag_unique m 0 ptr ind /\
     forall i, 0 <= i < m -> csr_mat O 0 ptr ind val i i <> o0 O) ->
  exists y1, csrsv O op_none (Some alpha) m (Some val) (Some ind) (Some ptr) (Some d) (Some x) (Some y) = Some (success, Some y1) /\
    only_strided O m 1 y y1 /\
    solves O m alpha (described O mt_triangular (d_fill d) (d_diag d) (csr_mat O 0 ptr ind val)) x 1 y1 1.
Proof. exact @csrsv_ok. Qed.
Print Assumptions C22_csrsv_solves.

(** Requests the routine does not support are refused and leave y alone. *)
Theorem C22_invalid_rejected : forall T (O : ops T) op alpha m val ind ptr d x y,
  alpha = None \/ val = None \/ ind = None \/ ptr = None \/ d = None \/ x = None \/ y = None \/ m < 0 \/ op <> op_none \/
  (exists d', d = Some d' /\ (d_base d' <> 0 \/ d_type d' = mt_hermitian \/ d_type d' = mt_triangular)) ->
  exists st, csrsv O op alpha m val ind ptr d x y = Some (st, None) /\ st <> success.
Proof.
  intros T O op alpha m val ind ptr d x y H. unfold csrsv.
  destruct val as [val|]; [|eexists; split; [reflexivity|discriminate]].
  destruct ptr as [ptr|]; [|eexists; split; [reflexivity|discriminate]].
  destruct ind as [ind|]; [|eexists; split; [reflexivity|discriminate]].
  destruct x as [x|]; [|eexists; split; [reflexivity|discriminate]].
  destruct y as [y|]; [|eexists; split; [reflexivity|discriminate]].
  destruct d as [d|]; [|eexists; split; [reflexivity|discriminate]].
  destruct alpha as [alpha|]; [|eexists; split; [reflexivity|discriminate]].
  destruct (Z.eqb_spec (d_base d) 0) as [Eb|]; cbn [negb]; [|eexists; split; [reflexivity|discriminate]].
  destruct (d_type d) eqn:Et; try (eexists; split; [reflexivity|discriminate]);
  destruct op; try (eexists; split; [reflexivity|discriminate]);
  (destruct (Z.ltb_spec m 0); [eexists; split; [reflexivity|discriminate]|]);
  exfalso; repeat (destruct H as [H|H]; [first [discriminate | lia | congruence]|]);
  destruct H as (d' & E & H); inversion E; subst d'; destruct H as [H|[H|H]]; congruence.
Qed.
Print Assumptions C22_invalid_rejected.

(** ** Concrete cases *)
Definition svq (l : list Q) : list Qc := map Q2Qc l.
Definition svout (r : option (status * option (list Qc))) : option (status * option (list Q)) :=
  match r with Some (s, y) => Some (s, option_map (map this) y) | None => None end.
(** [2 . 1; 4 5 .; 3 . 8]; the last row stores its right part out of order. *)
Example C22_case_hypotheses : csr_wf 3 3 6 0 [0;2;4;6] [0;2;0;1;0;2] /\ rows_grouped 3 0 [0;2;4;6] [0;2;0;1;0;2] /\
  full_diag 3 3 0 [0;2;4;6] [0;2;0;1;0;2] /\ diag_unique 3 0 [0;2;4;6] [0;2;0;1;0;2] /\
  forall i, 0 <= i < 3 -> csr_mat Qops 0 [0;2;4;6] [0;2;0;1;0;2] (svq [2;1;4;5;3;8]%Q) i i <> o0 Qops.
Proof.
  split; [apply csr_wfb_ok; reflexivity|]. split; [apply rows_groupedb_ok; reflexivity|]. split; [apply full_diagb_ok; reflexivity|].
  split; [apply diag_uniqueb_ok; reflexivity|]. intros i Hi. assert (C : i = 0 \/ i = 1 \/ i = 2) by lia.
  destruct C as [-> |[-> | ->]]; (intros E; apply (f_equal this) in E; vm_compute in E; discriminate).
Qed.
Example C22_case_lower :
  svout (csrsv Qops op_none (Some (Q2Qc 2)) 3 (Some (svq [2;1;4;5;3;8]%Q)) (Some [0;2;0;1;0;2]) (Some [0;2;4;6])
    (Some (mkDescr mt_general fm_lower dg_non_unit 0)) (Some (svq [2;9;9]%Q)) (Some (svq [7;7;7;7]%Q))) = Some (success, Some [2;2;3#2;7]%Q).
Proof. reflexivity. Qed.
Example C22_case_upper :
  svout (csrsv Qops op_none (Some (Q2Qc 2)) 3 (Some (svq [2;1;4;5;3;8]%Q)) (Some [0;2;0;1;0;2]) (Some [0;2;4;6])
    (Some (mkDescr mt_symmetric fm_upper dg_non_unit 0)) (Some (svq [2;10;8]%Q)) (Some (svq [7;7;7;7]%Q))) = Some (success, Some [1;4;2;7]%Q).
Proof. reflexivity. Qed.

(** ** Why the hypotheses are there *)

(** A lower row with an entry left of the diagonal stored after it: the loop stops at
    the diagonal and drops the entry, and reports success (csrsv.hpp 124-127). *)
Theorem C22_unsorted_rows_refuted : exists d alpha m nnz val ind ptr x y y1,
  csr_wf m m nnz 0 ptr ind /\ zlen val = nnz /\ m <= zlen x /\ m <= zlen y /\ d_base d = 0 /\ d_type d = mt_general /\ d_diag d = dg_non_unit /\
  full_diag m m 0 ptr ind /\ diag_unique m 0 ptr ind /\ (forall i, 0 <= i < m -> csr_mat Zops 0 ptr ind val i i <> 0) /\
  csrsv Zops op_none (Some alpha) m (Some val) (Some ind) (Some ptr) (Some d) (Some x) (Some y) = Some (success, Some y1) /\
  ~ solves Zops m alpha (described Zops mt_triangular (d_fill d) (d_diag d) (csr_mat Zops 0 ptr ind val)) x 1 y1 1.
Proof.
  exists (mkDescr mt_general fm_lower dg_non_unit 0), 1, 2, 3, [1;1;5], [0;1;0], [0;1;3], [1;1], [0;0]. eexists.
  split; [apply csr_wfb_ok; reflexivity|]. ands; try reflexivity; try (cbn; lia); try (apply full_diagb_ok; reflexivity); try (apply diag_uniqueb_ok; reflexivity).
  - intros i Hi. assert (C : i = 0 \/ i = 1) by lia. destruct C as [-> | ->]; vm_compute; discriminate.
  - intros H. specialize (H 1 ltac:(lia)). vm_compute in H. discriminate.
Qed.
Print Assumptions C22_unsorted_rows_refuted.

(** A row without a diagonal entry is divided by the diagonal of another row. *)
Theorem C22_missing_diagonal_refuted : exists d alpha m nnz val ind ptr x y y1,
  csr_wf m m nnz 0 ptr ind /\ zlen val = nnz /\ m <= zlen x /\ m <= zlen y /\ d_base d = 0 /\ d_type d = mt_general /\ d_diag d = dg_non_unit /\
  rows_sorted m 0 ptr ind /\ csr_mat Zops 0 ptr ind val 1 1 = 0 /\
  csrsv Zops op_none (Some alpha) m (Some val) (Some ind) (Some ptr) (Some d) (Some x) (Some y) = Some (success, Some y1) /\ nthZ 0 y1 1 = 3 /\
  ~ solves Zops m alpha (described Zops mt_triangular (d_fill d) (d_diag d) (csr_mat Zops 0 ptr ind val)) x 1 y1 1.
Proof.
  exists (mkDescr mt_general fm_lower dg_non_unit 0), 1, 2, 2, [1;5], [0;0], [0;1;2], [1;8], [0;0]. eexists.
  split; [apply csr_wfb_ok; reflexivity|]. ands; try reflexivity; try (cbn; lia); try (apply rows_sortedb_ok; reflexivity).
  intros H. specialize (H 1 ltac:(lia)). vm_compute in H. discriminate.
Qed.
Print Assumptions C22_missing_diagonal_refuted.
