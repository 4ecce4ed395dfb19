(** C04, C05, C13: ordering rows, inserting missing diagonals, and the prepared
    copy of a matrix. *)
From Coq Require Import ZArith List Bool Lia.
From Verif Require Import Base BaseFacts Algebra Csr CheckModel CheckSpec Decide SortModel SortSpec SortInst SortProof FillProof
  DoidModel MvModel MvSpec CsrmvModel HandleModel HandleSpec OptProof.
Import ListNotations.
Open Scope Z_scope.

(** C04.  aoclsparse_order_mat on a CSR matrix (or a square CSC matrix) in which no
    row repeats a column: row pointers are untouched (they are not an output), every
    row is in ascending column order and holds at every coordinate the values it held
    before.  Any sorting routine meeting the contract of std::sort is allowed.
    Missing from the full property: rows with a repeated column (refuted below: the
    comparator is not a strict weak order, so std::sort is undefined) and
    rectangular CSC matrices (refuted below). *)
Theorem C04_order_mat_partial : forall T srt m n b ptr ind (val : list T) nnz,
  sort_contract srt -> csr_wf m n nnz b ptr ind -> rows_distinct m b ptr ind -> zlen val = nnz ->
  exists ind' val', order_mat srt m n nnz b ptr ind val = Some (success, ind', val') /\
    csr_wf m n nnz b ptr ind' /\ zlen val' = nnz /\ rows_sorted m b ptr ind' /\
    forall i j, 0 <= i < m -> ents b ptr ind' val' i j = ents b ptr ind val i j.
Proof. exact order_mat_ok. Qed.
Print Assumptions C04_order_mat_partial.

Example C04_contract : sort_contract isort.
Proof. exact isort_contract. Qed.
Example C04_case_hyps : csr_wf 2 4 5 1 [1;4;6] [4;1;3;2;1] /\ rows_distinct 2 1 [1;4;6] [4;1;3;2;1].
Proof. split; [apply csr_wfb_ok|apply rows_distinctb_ok]; reflexivity. Qed.
Example C04_case : order_mat isort 2 4 5 1 [1;4;6] [4;1;3;2;1] [10;20;30;40;50]
  = Some (success, [1;3;4;1;2], [20;30;10;50;40]).
Proof. reflexivity. Qed.

(** A row holding the same column twice makes the call undefined. *)
Theorem C04_order_duplicate_columns_refuted :
  exists m n nnz b ptr ind (val : list Z), csr_wf m n nnz b ptr ind /\ diag_unique m b ptr ind /\ zlen val = nnz /\
    forall srt, order_mat srt m n nnz b ptr ind val = None.
Proof.
  exists 1, 3, 2, 0, [0;2], [1;1], [5;6]. split; [apply csr_wfb_ok; reflexivity|].
  split; [apply diag_uniqueb_ok; reflexivity|]. split; reflexivity.
Qed.
Print Assumptions C04_order_duplicate_columns_refuted.

(** A CSC matrix with [m] rows and [n] columns: with m < n later columns stay
    unsorted although success is reported; with m > n the column pointers are read
    out of bounds. *)
Theorem C04_order_csc_wide_refuted :
  exists m n nnz b ptr ind (val : list Z) ind' val', csr_wf n m nnz b ptr ind /\ rows_distinct n b ptr ind /\ zlen val = nnz /\
    order_mat isort m n nnz b ptr ind val = Some (success, ind', val') /\ ~ rows_sorted n b ptr ind'.
Proof.
  exists 2, 3, 3, 0, [0;1;1;3], [0;1;0], [5;6;7], [0;1;0], [5;6;7].
  split; [apply csr_wfb_ok; reflexivity|]. split; [apply rows_distinctb_ok; reflexivity|]. split; [reflexivity|].
  split; [reflexivity|]. intros H. specialize (H 2 1 2 ltac:(lia) ltac:(split; vm_compute; congruence) ltac:(split; vm_compute; congruence) ltac:(lia)).
  vm_compute in H. apply H; reflexivity.
Qed.
Print Assumptions C04_order_csc_wide_refuted.

Theorem C04_order_csc_tall_refuted :
  exists m n nnz b ptr ind (val : list Z), csr_wf n m nnz b ptr ind /\ rows_distinct n b ptr ind /\ zlen val = nnz /\
    order_mat isort m n nnz b ptr ind val = None.
Proof.
  exists 3, 1, 2, 0, [0;2], [2;0], [5;6].
  split; [apply csr_wfb_ok; reflexivity|]. split; [apply rows_distinctb_ok; reflexivity|]. split; reflexivity.
Qed.
Print Assumptions C04_order_csc_tall_refuted.

(** C05.  Filling the diagonal of a matrix whose rows are grouped as lower |
    diagonal | upper: exactly one zero-valued entry appears at every missing
    diagonal position, everything else is unchanged, order is kept. *)
Theorem C05_fill_diag_correct : forall T (zero : T) m n nnz ptr ind val fresh,
  csr_wf m n nnz 0 ptr ind -> zlen val = nnz -> rows_grouped m 0 ptr ind -> diag_unique m 0 ptr ind ->
  (forall z, 0 <= z -> let '(icol0, aval0, icrow0) := fresh z in zlen icol0 = z /\ zlen aval0 = z /\ zlen icrow0 = m + 1) ->
  exists ptr' ind' val' nnz', fill_diag zero m n nnz 0 ptr ind val fresh = Some (ptr', ind', val') /\
    csr_wf m n nnz' 0 ptr' ind' /\ zlen val' = nnz' /\
    full_diag m n 0 ptr' ind' /\ rows_grouped m 0 ptr' ind' /\ diag_unique m 0 ptr' ind' /\
    (rows_sorted m 0 ptr ind -> rows_sorted m 0 ptr' ind') /\
    forall i j, 0 <= i < m -> ents 0 ptr' ind' val' i j =
      match ents 0 ptr ind val i j with
      | [] => if (i =? j) && (i <? n) then [zero] else []
      | l => l
      end.
Proof. exact fill_diag_ok. Qed.
Print Assumptions C05_fill_diag_correct.

Definition junk (z : Z) : list Z := zrep z 77.
Example C05_case_hyps : csr_wf 3 4 4 0 [0;2;3;4] [1;3;0;0] /\ rows_grouped 3 0 [0;2;3;4] [1;3;0;0] /\ diag_unique 3 0 [0;2;3;4] [1;3;0;0].
Proof. ands; [apply csr_wfb_ok|apply rows_groupedb_ok|apply diag_uniqueb_ok]; reflexivity. Qed.
Example C05_case : fill_diag 0 3 4 4 0 [0;2;3;4] [1;3;0;0] [5;6;7;8] (fun z => (junk z, junk z, junk 4))
  = Some ([0;3;5;7], [0;1;3;0;1;0;2], [0;5;6;7;0;8;0]).
Proof. reflexivity. Qed.

(** C13.  The shared preparation step on a consistent handle whose rows are grouped
    or free of repeated columns: it succeeds, the user's arrays are not modified, the
    handle stays consistent, and the matrix it yields is split into lower |
    diagonal | upper parts with recorded positions, has a full diagonal and holds the
    user's entries plus explicit zeros at missing diagonals.  The recorded
    classification is that of the user's arrays. *)
Theorem C13_prepare_correct : forall T (O : ops T) srt fz ft,
  sort_contract srt -> (forall z, 0 <= z -> zlen (fz z) = z) -> (forall z, 0 <= z -> zlen (ft z) = z) ->
  forall h u, hnd_ok (o0 O) h u -> sortable u ->
    exists h' i c u', csr_csc_optimize O srt fz ft h = Some (success, h', Some i) /\
      hnd_ok (o0 O) h' u' /\ same_data u u' /\
      H_m h' = H_m h /\ H_n h' = H_n h /\ H_nnz h' = H_nnz h /\ H_hints h' = H_hints h /\
      rd (H_mats h') i = Some (Some c) /\ c_opt c = true /\ opt_ready c /\ arrays_ok c /\ same_entries (o0 O) u c /\
      c_mdiag c = dg_non_unit /\ c_dval c = None /\
      (h' = h \/ H_optimized h' = true /\ sort_says (H_sort h') (c_m u) (c_b u) (c_ptr u) (c_ind u) /\
        (H_full h' = true <-> full_diag (c_m u) (c_n u) (c_b u) (c_ptr u) (c_ind u)) /\
        (H_optfull h' = true <-> full_diag (c_m u) (c_n u) (c_b u) (c_ptr u) (c_ind u))).
Proof. exact @optimize_ok. Qed.
Print Assumptions C13_prepare_correct.

(** Preparing a second time finds the first result and changes nothing. *)
Theorem C13_prepare_idempotent : forall T (O : ops T) srt fz ft,
  sort_contract srt -> (forall z, 0 <= z -> zlen (fz z) = z) -> (forall z, 0 <= z -> zlen (ft z) = z) ->
  forall h u, hnd_ok (o0 O) h u -> sortable u ->
  exists h' i, csr_csc_optimize O srt fz ft h = Some (success, h', Some i) /\
    csr_csc_optimize O srt fz ft h' = Some (success, h', Some i).
Proof. exact @optimize_twice. Qed.
Print Assumptions C13_prepare_idempotent.

(** A user matrix that already is grouped with a full diagonal is used in place. *)
Theorem C13_prepare_in_place : forall T (O : ops T) srt fz ft,
  (forall z, 0 <= z -> zlen (fz z) = z) -> (forall z, 0 <= z -> zlen (ft z) = z) ->
  forall h u, hnd_ok (o0 O) h u -> H_mats h = [Some u] ->
  rows_grouped (c_m u) (c_b u) (c_ptr u) (c_ind u) -> full_diag (c_m u) (c_n u) (c_b u) (c_ptr u) (c_ind u) ->
  exists h' u', csr_csc_optimize O srt fz ft h = Some (success, h', Some 0) /\ H_mats h' = [Some u'] /\ same_data u u'.
Proof. intros T O srt fz ft Hz Ht. apply optimize_in_place; auto. Qed.
Print Assumptions C13_prepare_in_place.

(** Concrete case: an unsorted base-one CSR matrix with a missing diagonal. *)
Definition demo_user : cmat Z :=
  mkCmat 3 3 5 gn 1 [1;3;5;6] [3;1;3;1;3] [10;20;30;40;50] None None false dg_non_unit None.
Definition demo_hnd : hnd Z := mkHnd 3 3 5 [Some demo_user] unknown_sort false false false [].
Example C13_case_hyps : hnd_ok 0 demo_hnd demo_user /\ sortable demo_user.
Proof.
  split; [split|].
  - unfold user_mat. ands; try reflexivity.
    + unfold arrays_ok. ands; [apply csr_wfb_ok; reflexivity|apply diag_uniqueb_ok; reflexivity|reflexivity|right; reflexivity].
    + left. ands; reflexivity.
  - exists []. ands; [reflexivity|discriminate|constructor].
  - right. apply rows_distinctb_ok. reflexivity.
Qed.
Example C13_case : csr_csc_optimize Zops isort junk junk demo_hnd =
  Some (success,
    mkHnd 3 3 5 [Some demo_user;
                 Some (mkCmat 3 3 6 gn 0 [0;2;5;6] [0;2;0;1;2;2] [20;10;40;0;30;50]
                         (Some [0;3;5]) (Some [1;4;6]) true dg_non_unit None)]
      unsorted false false true [], Some 1).
Proof. reflexivity. Qed.
