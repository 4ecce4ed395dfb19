(** C46: triangular solves with several right-hand sides. *)
From Coq Require Import ZArith List Bool Lia ZifyBool QArith Qcanon Permutation.
From Verif Require Import Base BaseFacts Algebra Csr CheckModel CheckSpec Decide SortSpec SortInst DoidModel DoidSpec DenseSpec
  UtilModel MvModel MvSpec CsrmvModel HandleModel HandleSpec HandleFacts OptProof TrsvModel TrsvSpec TrsmModel TrsmSpec TrsmProof Props_Trsv.
Import ListNotations.
Open Scope Z_scope.

(** Valid requests: a consistent square handle with stored elements, a triangular or
    symmetric descriptor with unit or non-unit diagonal, row or column order, leading
    dimensions of at least one row (column) of B and X, arrays long enough, and no stored
    zero on the diagonal when it is used. *)
Record trsm_request {T} (O : ops T) (w : Z) (h : hnd T) (u : cmat T) (d : descr) (op : operation) (order : Z)
    (B : list T) (n ldb : Z) (X : list T) (ldx : Z) : Prop := mk_tmreq {
  tmq_hnd : hnd_ok (o0 O) h u;
  tmq_flag : diag_flag_ok h u;
  tmq_sort : sortable u;
  tmq_square : H_m h = H_n h;
  tmq_size : 0 < H_m h <= 2 ^ w - 1;
  tmq_nnz : 0 < H_nnz h;
  tmq_n : 0 < n <= 2 ^ w - 1;
  tmq_base : d_base d = c_b u;
  tmq_op : valid_op op = true;
  tmq_type : d_type d = mt_triangular \/ d_type d = mt_symmetric;
  tmq_diag : d_diag d <> dg_zero;
  tmq_order : order = 0 \/ order = 1;
  tmq_ldx : ldx <= 2 ^ w - 1;
  tmq_ldb : ldb <= 2 ^ w - 1;
  tmq_B : window_fits order ldb (H_m h) n B;
  tmq_X : window_fits order ldx (H_m h) n X;
  tmq_nz : d_diag d = dg_non_unit -> full_diag (c_m u) (c_n u) (c_b u) (c_ptr u) (c_ind u) ->
           forall i, 0 <= i < H_m h -> hnd_mat O u i i <> o0 O }.

(** C46.  For every consistent handle and every order in which the columns are processed
    the call is defined and leaves the handle consistent with the same matrix; on success
    op(T) * X = alpha * B, T the selected triangle, and nothing outside the m x n window
    of X is written; otherwise X is as before and the status says why.
    Missing from the full property: leading dimensions below the number of rows
    (columns), a matrix without stored elements (both refuted below) and, as for one
    right-hand side (C21), alpha = 0 or duplicate columns when the stored rows are used
    as columns by a vector kernel. *)
Theorem C46_trsm_solves_partial : forall T (O : ops T) srt fz ft dt choice, solve_env O srt fz ft dt ->
  forall w sched h u d op alpha order B n ldb X ldx kid,
  0 < w -> trsm_request O w h u d op order B n ldb X ldx -> Permutation sched (zrange 0 n) ->
  (choice kid = Some 0 \/ (if c_doid u =? gt then is_none op else negb (is_none op)) = false \/
   alpha <> o0 O /\ rows_distinct (c_m u) (c_b u) (c_ptr u) (c_ind u)) ->
  exists st X1 h' u',
    trsm O dt choice srt fz ft w sched op alpha (Some h) (Some d) order (Some B) n ldb (Some X) ldx kid = Some (st, Some X1, Some h') /\
    hnd_ok (o0 O) h' u' /\ same_data u u' /\ diag_flag_ok h' u' /\
    H_m h' = H_m h /\ H_n h' = H_n h /\ H_nnz h' = H_nnz h /\ H_hints h' = H_hints h /\
    (st = success /\ only_window (o0 O) order ldx (H_m h) n X X1 /\
       solves_many O (H_m h) n alpha (op_sem O op (described O mt_triangular (d_fill d) (d_diag d) (hnd_mat O u))) order B ldb X1 ldx \/
     X1 = X /\
     (st = invalid_value /\ d_diag d = dg_non_unit /\ ~ full_diag (c_m u) (c_n u) (c_b u) (c_ptr u) (c_ind u) \/
      st = invalid_kid /\ choice kid = None \/
      st = invalid_size /\ (2 ^ w - 1 < (if order =? 0 then H_m h - 1 else n) * ldx \/ 2 ^ w - 1 < (if order =? 0 then H_m h - 1 else n) * ldb))).
Proof.
  intros T O srt fz ft dt choice [E1 E2 E3 E4 E5 E6] w sched h u d op alpha order B n ldb X ldx kid Hw [] PM Hc.
  apply trsm_ok; auto; lia.
Qed.
Print Assumptions C46_trsm_solves_partial.

(** Whatever the arguments, a status other than success means X was not written. *)
Lemma fold_fail : forall T (O : ops T) dt choice srt fz ft w op alpha d B b_off incb x_off incx kid h1 r,
  csr_csc_optimize O srt fz ft h1 = Some (success, h1, r) ->
  forall sched st0 X0 st X1 h2, sched <> [] ->
  foldM (trsm_column O dt choice srt fz ft w op alpha d B b_off incb x_off incx kid) sched (st0, X0, h1) = Some (st, X1, h2) ->
  h2 = h1 /\ (st <> success -> X1 = X0) /\
  exists rhs x y g, trsv O dt choice srt fz ft w op alpha (Some h1) (Some d) (Some rhs) incb (Some x) incx kid = Some (st, y, g).
Proof.
  intros until r. intros E. induction sched as [|j rest IH]; intros st0 X0 st X1 h2 NE H; [congruence|].
  cbn [foldM] in H. unfold trsm_column at 1 in H.
  destruct (trsv O dt choice srt fz ft w op alpha (Some h1) (Some d) _ incb _ incx kid) as [[[s xr] g]|] eqn:Et; [|discriminate].
  rewrite (trsv_fix _ _ _ _ _ _ _ _ _ _ _ _ _ _ _ _ _ _ _ _ E Et) in *.
  assert (W : s <> success -> match xr with Some x' => firstn (Z.to_nat (j * x_off)) X0 ++ x' | None => X0 end = X0).
  { intros Ns. rewrite (not_written _ _ _ _ _ _ _ _ _ _ _ _ _ _ _ _ _ _ _ _ Et Ns). reflexivity. }
  destruct rest as [|j' rest].
  - cbn [foldM] in H. inversion H; subst. split; [reflexivity|]. split; [exact W|]. eauto.
  - destruct (IH _ _ _ _ _ ltac:(discriminate) H) as (-> & F & rhs & x & y & g' & Et').
    destruct (trsv_lockstep _ _ _ _ _ _ _ _ _ _ _ _ _ _ _ _ _ _ _ _ _ _ _ _ Et Et') as [-> _].
    split; [reflexivity|]. split; [|eauto]. intros Ns. rewrite (F Ns). auto.
Qed.
Theorem C46_failure_writes_nothing : forall T (O : ops T) srt fz ft dt choice,
  sort_contract srt -> (forall z, 0 <= z -> zlen (fz z) = z) -> (forall z, 0 <= z -> zlen (ft z) = z) ->
  forall w sched h u d op alpha order B n ldb X ldx kid st Xr h',
  hnd_ok (o0 O) h u -> sortable u -> Permutation sched (zrange 0 n) ->
  trsm O dt choice srt fz ft w sched op alpha (Some h) d order B n ldb X ldx kid = Some (st, Xr, h') ->
  st <> success -> Xr = X.
Proof.
  intros T O srt fz ft dt choice Hs Hz Ht w sched h u d op alpha order B n ldb X ldx kid st Xr h' HOK HS PM.
  destruct (optimize_twice O srt fz ft Hs Hz Ht h u HOK HS) as (h1 & i & E1 & E2).
  unfold trsm. destruct X as [X|]; [|intros E; inversion E; auto]. destruct B as [B|]; [|intros E; inversion E; auto].
  destruct d as [d|]; [|intros E; inversion E; auto].
  destruct (H_mats h) as [|[u0|] l]; try (intros E; inversion E; auto; fail).
  destruct (negb (c_b u0 =? d_base d)); [intros E; inversion E; auto|].
  destruct ((H_m h <? 0) || (H_nnz h <? 0) || (n <? 0)) eqn:C1; [intros E; inversion E; auto|].
  destruct ((H_m h =? 0) || (H_n h =? 0) || (H_nnz h =? 0) || (n =? 0)) eqn:C2; [intros E; inversion E; auto|].
  destruct (negb (H_m h =? H_n h)); [intros E; inversion E; auto|].
  destruct ((ldb <? 0) || (ldx <? 0)); [intros E; inversion E; auto|].
  destruct (negb ((d_base d =? 0) || (d_base d =? 1))); [intros E; inversion E; auto|].
  destruct (negb (valid_op op)); [intros E; inversion E; auto|].
  destruct (match d_type d with mt_symmetric | mt_triangular => false | _ => true end); [intros E; inversion E; auto|].
  rewrite E1. destruct (negb ((order =? 0) || (order =? 1))); [intros E; inversion E; auto|]. cbv zeta.
  destruct (int_product_overflow _ _ _) as [o1|]; [|discriminate].
  destruct (int_product_overflow _ _ _) as [o2|]; [|discriminate].
  destruct (o1 || o2); [intros E; inversion E; auto|].
  destruct (foldM _ _ _) as [[[s X1] h2]|] eqn:EF; [|discriminate]. intros E; inversion E; subst. intros Ns.
  apply (fold_fail _ _ _ _ _ _ _ _ _ _ _ _ _ _ _ _ _ _ _ E2) in EF; [|intros ->; apply Permutation_length in PM; unfold zrange in PM; rewrite map_length, seq_length in PM; cbn in PM; lia].
  f_equal. apply EF; auto.
Qed.
Print Assumptions C46_failure_writes_nothing.

(** Null arguments, a mismatched or invalid base, negative sizes or leading dimensions,
    a non-square matrix, an invalid operation or order and a general or Hermitian
    descriptor are rejected with the documented kind of status. *)
Theorem C46_invalid_rejected : forall T (O : ops T) dt choice srt fz ft w sched op alpha A d order B n ldb X ldx kid,
  ((A = None \/ d = None \/ B = None \/ X = None) ->
     trsm O dt choice srt fz ft w sched op alpha A d order B n ldb X ldx kid = Some (invalid_pointer, X, A)) /\
  (forall h u d' B' X', A = Some h -> d = Some d' -> B = Some B' -> X = Some X' ->
     hnd_ok (o0 O) h u -> sortable u ->
     sort_contract srt -> (forall z, 0 <= z -> zlen (fz z) = z) -> (forall z, 0 <= z -> zlen (ft z) = z) ->
     0 < H_m h -> 0 < H_n h -> 0 < H_nnz h -> n <> 0 ->
     (n < 0 \/ H_m h <> H_n h \/ ldb < 0 \/ ldx < 0 \/ d_base d' <> c_b u \/ valid_op op = false \/
      d_type d' = mt_general \/ d_type d' = mt_hermitian \/ order < 0 \/ 1 < order) ->
     exists st h', trsm O dt choice srt fz ft w sched op alpha A d order B n ldb X ldx kid = Some (st, X, Some h') /\
       (st = invalid_value \/ st = invalid_size)).
Proof.
  intros T O dt choice srt fz ft w sched op alpha A d order B n ldb X ldx kid. split.
  - intros H. unfold trsm. destruct A, d, B, X; try reflexivity. destruct H as [H|[H|[H|H]]]; discriminate.
  - intros h u d' B' X' -> -> -> -> HOK HS Hs Hz Ht P1 P2 P3 Pn H. unfold trsm.
    destruct (optimize_twice O srt fz ft Hs Hz Ht h u HOK HS) as (h1 & i & E1 & E2).
    pose proof HOK as (_ & rest & EM & _). rewrite EM.
    destruct (negb (c_b u =? d_base d')) eqn:C1; [do 2 eexists; split; [reflexivity|auto]|].
    destruct ((H_m h <? 0) || (H_nnz h <? 0) || (n <? 0)) eqn:C2; [do 2 eexists; split; [reflexivity|auto]|].
    replace ((H_m h =? 0) || (H_n h =? 0) || (H_nnz h =? 0) || (n =? 0)) with false by lia.
    destruct (negb (H_m h =? H_n h)) eqn:C3; [do 2 eexists; split; [reflexivity|auto]|].
    destruct ((ldb <? 0) || (ldx <? 0)) eqn:C4; [do 2 eexists; split; [reflexivity|auto]|].
    destruct (negb ((d_base d' =? 0) || (d_base d' =? 1))) eqn:C5; [do 2 eexists; split; [reflexivity|auto]|].
    destruct (negb (valid_op op)) eqn:C6; [do 2 eexists; split; [reflexivity|auto]|].
    destruct (match d_type d' with mt_symmetric | mt_triangular => false | _ => true end) eqn:C7; [do 2 eexists; split; [reflexivity|auto]|].
    rewrite E1. replace (negb ((order =? 0) || (order =? 1))) with true; [do 2 eexists; split; [reflexivity|auto]|].
    assert (~ d_type d' = mt_general /\ ~ d_type d' = mt_hermitian) by (destruct (d_type d'); split; try discriminate; discriminate C7).
    destruct (valid_op op); [|discriminate C6]. clear - H C1 C2 C3 C4 H0.
    repeat (destruct H as [H|H]; [exfalso; first [lia | discriminate | tauto]|]). all: lia.
Qed.
Print Assumptions C46_invalid_rejected.

(** ** Concrete cases *)
Definition tm_B : list Qc := qv [2; 4; 9; 9; 14; 28]%Q.
Definition tm_X : list Qc := qv [7; 7; 7; 7; 7; 7; 7; 7; 7]%Q.
Example C46_case_request :
  trsm_request Qops 31 tq_hnd0 tq_user (mkDescr mt_triangular fm_lower dg_non_unit 1) op_none 0 tm_B 2 2 tm_X 3 /\
  Permutation [1; 0] (zrange 0 2).
Proof.
  split; [|vm_compute; apply perm_swap]. constructor; try (cbn; lia); try reflexivity; try apply tq_ok.
  - intros (c & [Hc|[]] & Ho). inversion Hc; subst. discriminate.
  - left; reflexivity.
  - discriminate.
  - intros _ _ i Hi. cbn in Hi. assert (C : i = 0 \/ i = 1 \/ i = 2) by lia. destruct C as [-> |[-> | ->]];
      (intros E; apply (f_equal this) in E; vm_compute in E; discriminate).
Qed.
(** Two right-hand sides by rows, X with leading dimension 3; both schedules. *)
Example C46_case_rows :
  let run sched := qout (trsm Qops dt_d tpick isort tjunk tjunkq 31 sched op_none (Q2Qc 2) (Some tq_hnd0)
    (Some (mkDescr mt_triangular fm_lower dg_non_unit 1)) 0 (Some tm_B) 2 2 (Some tm_X) 3 (-1)) in
  run [0; 1] = Some (success, Some [2; 4; 7; 2; 2 # 5; 7; 11 # 4; 11 # 2; 7]%Q) /\ run [1; 0] = run [0; 1].
Proof. split; reflexivity. Qed.

(** ** Requests for which the full property fails *)

(** A leading dimension below the number of rows (column order; the documentation asks
    for invalid_size) is accepted: the columns overlap and the result depends on the
    schedule. *)
Definition tm_user : cmat Z := mkCmat 2 2 2 gn 0 [0;1;2] [0;1] [1;1] None None false dg_non_unit None.
Definition tm_hnd : hnd Z := mkHnd 2 2 2 [Some tm_user] unknown_sort false false false [].
Theorem C46_leading_dimension_refuted : exists dt choice h u d B X X1 X2 h',
  hnd_ok 0 h u /\ sortable u /\ H_m h = 2 /\ d_base d = c_b u /\
  (forall i j, 0 <= i < 2 -> 0 <= j < 2 -> described Zops mt_triangular (d_fill d) (d_diag d) (hnd_mat Zops u) i j = if i =? j then 1 else 0) /\
  trsm Zops dt choice isort tjunk tjunk 31 [0; 1] op_none 1 (Some h) (Some d) 1 (Some B) 2 2 (Some X) 1 0 = Some (success, Some X1, h') /\
  trsm Zops dt choice isort tjunk tjunk 31 [1; 0] op_none 1 (Some h) (Some d) 1 (Some B) 2 2 (Some X) 1 0 = Some (success, Some X2, h') /\
  X1 <> X2 /\
  ~ solves_many Zops 2 2 1 (described Zops mt_triangular (d_fill d) (d_diag d) (hnd_mat Zops u)) 1 B 2 X1 1.
Proof.
  exists dt_d, tpick, tm_hnd, tm_user, (mkDescr mt_triangular fm_lower dg_unit 0), [1;2;3;4], [0;0;0;0]. do 3 eexists.
  split.
  { split.
    - unfold user_mat. ands; try reflexivity.
      + unfold arrays_ok. ands; [apply csr_wfb_ok; reflexivity|apply diag_uniqueb_ok; reflexivity|reflexivity|left; reflexivity].
      + left. ands; reflexivity.
    - exists []. ands; [reflexivity|discriminate|constructor]. }
  split; [right; apply rows_distinctb_ok; reflexivity|]. split; [reflexivity|]. split; [reflexivity|].
  split.
  { intros i j Hi Hj. assert (C : (i = 0 \/ i = 1) /\ (j = 0 \/ j = 1)) by lia. destruct C as [[-> | ->] [-> | ->]]; reflexivity. }
  split; [vm_compute; reflexivity|]. split; [vm_compute; reflexivity|]. split; [discriminate|].
  intros H. specialize (H 1 0 ltac:(lia) ltac:(lia)). vm_compute in H. discriminate.
Qed.
Print Assumptions C46_leading_dimension_refuted.

(** A matrix without stored elements and a unit diagonal is the identity, yet the call
    reports success and leaves X as it was (one right-hand side is rejected by trsv). *)
Definition te_user : cmat Z := mkCmat 1 1 0 gn 0 [0;0] [] [] None None false dg_non_unit None.
Definition te_hnd : hnd Z := mkHnd 1 1 0 [Some te_user] unknown_sort false false false [].
Theorem C46_no_elements_refuted : exists dt choice h u d B X h',
  hnd_ok 0 h u /\ sortable u /\ H_m h = 1 /\ H_n h = 1 /\ d_diag d = dg_unit /\
  described Zops mt_triangular (d_fill d) (d_diag d) (hnd_mat Zops u) 0 0 = 1 /\
  trsm Zops dt choice isort tjunk tjunk 31 [0] op_none 1 (Some h) (Some d) 0 (Some B) 1 1 (Some X) 1 0 = Some (success, Some X, h') /\
  ~ solves_many Zops 1 1 1 (described Zops mt_triangular (d_fill d) (d_diag d) (hnd_mat Zops u)) 0 B 1 X 1.
Proof.
  exists dt_d, tpick, te_hnd, te_user, (mkDescr mt_triangular fm_lower dg_unit 0), [5], [7]. eexists.
  split.
  { split.
    - unfold user_mat. ands; try reflexivity.
      + unfold arrays_ok. ands; [apply csr_wfb_ok; reflexivity|apply diag_uniqueb_ok; reflexivity|reflexivity|left; reflexivity].
      + left. ands; reflexivity.
    - exists []. ands; [reflexivity|discriminate|constructor]. }
  split; [right; apply rows_distinctb_ok; reflexivity|]. split; [reflexivity|]. split; [reflexivity|]. split; [reflexivity|]. split; [reflexivity|].
  split; [vm_compute; reflexivity|].
  intros H. specialize (H 0 0 ltac:(lia) ltac:(lia)). vm_compute in H. discriminate.
Qed.
Print Assumptions C46_no_elements_refuted.
