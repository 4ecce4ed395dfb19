(** C21: triangular solves. *)
From Coq Require Import ZArith List Bool Lia ZifyBool QArith Qcanon.
From Verif Require Import Base BaseFacts Algebra Csr CheckModel CheckSpec Decide SortSpec SortInst DoidModel DoidSpec
  MvModel MvSpec CsrmvModel HandleModel HandleSpec HandleFacts TrsvModel TrsvSpec TrsvProof TrsvHandleProof.
Import ListNotations.
Open Scope Z_scope.

(** What is assumed of the scalars and the environment: exact arithmetic with
    division by non-zero values; std::sort meets its contract; allocated arrays have
    the requested size; real types are their own conjugates. *)
Record solve_env {T} (O : ops T) srt fz (ft : Z -> list T) (dt : dtype) : Prop := mk_senv {
  se_laws : laws O;
  se_div : div_law O;
  se_sort : sort_contract srt;
  se_fz : forall z, 0 <= z -> zlen (fz z : list Z) = z;
  se_ft : forall z, 0 <= z -> zlen (ft z) = z;
  se_real : is_cplx dt = false -> forall a, ocj O a = a }.

(** Valid requests: a consistent square handle, a triangular or symmetric descriptor
    with unit or non-unit diagonal, vectors long enough for their positive strides,
    and no stored zero on the diagonal when it is used. *)
Record trsv_request {T} (O : ops T) (w : Z) (h : hnd T) (u : cmat T) (d : descr) (op : operation)
    (rhs : list T) (incb : Z) (x : list T) (incx : Z) : Prop := mk_treq {
  tq_hnd : hnd_ok (o0 O) h u;
  tq_flag : diag_flag_ok h u;
  tq_sort : sortable u;
  tq_square : H_m h = H_n h;
  tq_size : 0 < H_m h <= 2 ^ w - 1;
  tq_nnz : 0 < H_nnz h;
  tq_base : d_base d = c_b u;
  tq_op : valid_op op = true;
  tq_type : d_type d = mt_triangular \/ d_type d = mt_symmetric;
  tq_diag : d_diag d <> dg_zero;
  tq_incx : incx <= 2 ^ w - 1;
  tq_incb : incb <= 2 ^ w - 1;
  tq_x : holds (H_m h) incx x;
  tq_b : holds (H_m h) incb rhs;
  tq_nz : d_diag d = dg_non_unit -> full_diag (c_m u) (c_n u) (c_b u) (c_ptr u) (c_ind u) ->
          forall i, 0 <= i < H_m h -> hnd_mat O u i i <> o0 O }.

(** C21.  For every consistent handle the call is defined and leaves the handle
    consistent with the same matrix; on success x solves
    op(T) * x = alpha * b, T the selected triangle, and only the m strided entries of
    x are written; otherwise nothing is written and the status says why.
    Missing from the full property (both refuted below): when the stored rows are
    used as columns (transposed CSR, plain CSC) by a vector kernel, alpha must not be
    zero and no row may store a column twice. *)
Theorem C21_trsv_solves_partial : forall T (O : ops T) srt fz ft dt choice, solve_env O srt fz ft dt ->
  forall w h u d op alpha rhs incb x incx kid,
  0 < w -> trsv_request O w h u d op rhs incb x incx ->
  (choice kid = Some 0 \/ (if c_doid u =? gt then is_none op else negb (is_none op)) = false \/
   alpha <> o0 O /\ rows_distinct (c_m u) (c_b u) (c_ptr u) (c_ind u)) ->
  exists st xr h' u',
    trsv O dt choice srt fz ft w op alpha (Some h) (Some d) (Some rhs) incb (Some x) incx kid = Some (st, xr, Some h') /\
    hnd_ok (o0 O) h' u' /\ same_data u u' /\ diag_flag_ok h' u' /\
    H_m h' = H_m h /\ H_n h' = H_n h /\ H_nnz h' = H_nnz h /\ H_hints h' = H_hints h /\
    (st = success /\ (exists x1, xr = Some x1 /\ only_strided O (H_m h) incx x x1 /\
       solves O (H_m h) alpha (op_sem O op (described O mt_triangular (d_fill d) (d_diag d) (hnd_mat O u))) rhs incb x1 incx) \/
     st = invalid_value /\ xr = None /\ d_diag d = dg_non_unit /\ ~ full_diag (c_m u) (c_n u) (c_b u) (c_ptr u) (c_ind u) \/
     st = invalid_kid /\ xr = None /\ choice kid = None \/
     st = invalid_size /\ xr = None /\ (2 ^ w - 1 < (H_m h - 1) * incx \/ 2 ^ w - 1 < (H_m h - 1) * incb)).
Proof.
  intros T O srt fz ft dt choice [E1 E2 E3 E4 E5 E6] w h u d op alpha rhs incb x incx kid Hw [] Hc.
  apply trsv_handle_ok; auto; lia.
Qed.
Print Assumptions C21_trsv_solves_partial.

(** Whatever the arguments, a status other than success means x was not written, and
    a null argument, an empty or non-square matrix, a non-positive stride, a
    mismatched base, an invalid operation, a general or Hermitian descriptor or a
    zero diagonal is rejected. *)
Lemma not_written : forall T (O : ops T) dt choice srt fz ft w op alpha A d rhs incb x incx kid st xr h',
  trsv O dt choice srt fz ft w op alpha A d rhs incb x incx kid = Some (st, xr, h') -> st <> success -> xr = None.
Proof.
  intros until h'. unfold trsv.
  destruct A as [h|], x as [x|], rhs as [rhs|], d as [d|]; try (intros E; inversion E; auto; fail).
  repeat match goal with
    | |- (if ?b then _ else _) = _ -> _ => destruct b
    | |- match ?l with [] => _ | _ => _ end = _ -> _ => destruct l
    | |- match ?l with Some _ => _ | None => _ end = _ -> _ => destruct l
    | |- match ?l with success => _ | _ => _ end = _ -> _ => destruct l
    | |- (let* _ := ?e in _) = _ -> _ => let E := fresh in destruct e eqn:E; [cbv beta iota zeta|intros; discriminate]
    | |- (let '(_, _) := ?p in _) = _ -> _ => destruct p
    | |- Some _ = _ -> _ => let E := fresh in intros E; inversion E; subst; auto; try contradiction
    | |- _ => cbv beta iota zeta
    end; try congruence.
Qed.
Theorem C21_failure_writes_nothing : forall T (O : ops T) dt choice srt fz ft w op alpha A d rhs incb x incx kid st xr h',
  trsv O dt choice srt fz ft w op alpha A d rhs incb x incx kid = Some (st, xr, h') -> st <> success -> xr = None.
Proof. exact not_written. Qed.
Print Assumptions C21_failure_writes_nothing.

Lemma rejects : forall T (O : ops T) dt choice srt fz ft w op alpha A d rhs incb x incx kid,
  (A = None \/ d = None \/ rhs = None \/ x = None) \/
  (exists h d', A = Some h /\ d = Some d' /\
     (H_m h <= 0 \/ H_nnz h <= 0 \/ H_m h <> H_n h \/ incb <= 0 \/ incx <= 0 \/
      (exists u rest, H_mats h = Some u :: rest /\ c_b u <> d_base d') \/ d_base d' < 0 \/ 1 < d_base d' \/
      valid_op op = false \/ d_type d' = mt_general \/ d_type d' = mt_hermitian \/ d_diag d' = dg_zero)) ->
  exists st, trsv O dt choice srt fz ft w op alpha A d rhs incb x incx kid = Some (st, None, A) /\ st <> success.
Proof.
  intros T O dt choice srt fz ft w op alpha A d rhs incb x incx kid H. unfold trsv.
  destruct A as [h|]; [|eexists; split; [destruct x, rhs, d; reflexivity|discriminate]].
  destruct x as [x|]; [|eexists; split; [reflexivity|discriminate]].
  destruct rhs as [rhs|]; [|eexists; split; [reflexivity|discriminate]].
  destruct d as [d|]; [|eexists; split; [reflexivity|discriminate]].
  destruct H as [[H|[H|[H|H]]]|(h0 & d0 & Eh & Ed & H)]; try discriminate. inversion Eh; inversion Ed; subst h0 d0. clear Eh Ed.
  destruct ((H_m h <=? 0) || (H_nnz h <=? 0)) eqn:E1; [eexists; split; [reflexivity|discriminate]|].
  destruct (negb (H_m h =? H_n h) || (incb <=? 0) || (incx <=? 0)) eqn:E2; [eexists; split; [reflexivity|discriminate]|].
  destruct (H_mats h) as [|[u|] l] eqn:EM; try (eexists; split; [reflexivity|discriminate]).
  destruct (negb (c_b u =? d_base d)) eqn:E3; [eexists; split; [reflexivity|discriminate]|].
  destruct (negb ((d_base d =? 0) || (d_base d =? 1))) eqn:E4; [eexists; split; [reflexivity|discriminate]|].
  destruct (valid_op op) eqn:E5; [cbn [negb]|eexists; split; [reflexivity|discriminate]].
  destruct (d_type d) eqn:E6; try (eexists; split; [reflexivity|discriminate]);
  destruct (d_diag d) eqn:E7; try (eexists; split; [reflexivity|discriminate]);
  exfalso; repeat (destruct H as [H|H]; [first [lia | discriminate | (destruct H as (u0 & r0 & Eu & Hb); inversion Eu; subst; lia)]|]); discriminate.
Qed.
Theorem C21_invalid_rejected : forall T (O : ops T) dt choice srt fz ft w op alpha A d rhs incb x incx kid,
  (A = None \/ d = None \/ rhs = None \/ x = None) \/
  (exists h d', A = Some h /\ d = Some d' /\
     (H_m h <= 0 \/ H_nnz h <= 0 \/ H_m h <> H_n h \/ incb <= 0 \/ incx <= 0 \/
      (exists u rest, H_mats h = Some u :: rest /\ c_b u <> d_base d') \/ d_base d' < 0 \/ 1 < d_base d' \/
      valid_op op = false \/ d_type d' = mt_general \/ d_type d' = mt_hermitian \/ d_diag d' = dg_zero)) ->
  exists st, trsv O dt choice srt fz ft w op alpha A d rhs incb x incx kid = Some (st, None, A) /\ st <> success.
Proof. exact rejects. Qed.
Print Assumptions C21_invalid_rejected.

(** ** Concrete cases *)
Definition tjunk (z : Z) : list Z := zrep z 77.
Definition tjunkq (z : Z) : list Qc := zrep z (Q2Qc 77).
Definition tpick (k : Z) : option Z := if k =? -1 then Some 2 else Some k.
Lemma qenv : forall dt, solve_env Qops isort tjunk tjunkq dt.
Proof.
  intros dt. constructor; auto.
  - exact Qlaws.
  - exact Qdiv_law.
  - exact isort_contract.
  - intros z Hz. apply zlen_zrep; auto.
  - intros z Hz. apply zlen_zrep; auto.
Qed.
(** [2 0 1; 4 5 0; 3 0 8], base one, unsorted rows. *)
Definition tq_user : cmat Qc := mkCmat 3 3 6 gn 1 [1;3;5;7] [3;1;1;2;3;1]
  [Q2Qc 1; Q2Qc 2; Q2Qc 4; Q2Qc 5; Q2Qc 8; Q2Qc 3] None None false dg_non_unit None.
Definition tq_hnd0 : hnd Qc := mkHnd 3 3 6 [Some tq_user] unknown_sort false false false [].
Definition qv (l : list Q) : list Qc := map Q2Qc l.
Lemma tq_ok : hnd_ok (o0 Qops) tq_hnd0 tq_user /\ sortable tq_user.
Proof.
  split; [split|].
  - unfold user_mat. ands; try reflexivity.
    + unfold arrays_ok. ands; [apply csr_wfb_ok; reflexivity|apply diag_uniqueb_ok; reflexivity|reflexivity|right; reflexivity].
    + left. ands; reflexivity.
  - exists []. ands; [reflexivity|discriminate|constructor].
  - right. apply rows_distinctb_ok. reflexivity.
Qed.
Example C21_case_request : forall op, op = op_none \/ op = op_transpose ->
  trsv_request Qops 31 tq_hnd0 tq_user (mkDescr mt_triangular fm_lower dg_non_unit 1) op (qv [2;9;9;14]%Q) 1 (qv [7;7;7;7;7]%Q) 2 /\
  rows_distinct 3 1 [1;3;5;7] [3;1;1;2;3;1].
Proof.
  intros op Hop. split; [|apply rows_distinctb_ok; reflexivity]. constructor; try (cbn; lia); try reflexivity; try apply tq_ok.
  - intros (c & [Hc|[]] & Ho). inversion Hc; subst. discriminate.
  - destruct Hop as [-> | ->]; reflexivity.
  - left; reflexivity.
  - discriminate.
  - split; [lia|reflexivity].
  - split; [lia|reflexivity].
  - intros _ _ i Hi. cbn in Hi. assert (C : i = 0 \/ i = 1 \/ i = 2) by lia. destruct C as [-> |[-> | ->]];
      (intros E; apply (f_equal this) in E; vm_compute in E; discriminate).
Qed.
Definition qout {A} (r : option (status * option (list Qc) * A)) : option (status * option (list Q)) :=
  match r with Some (s, y, _) => Some (s, option_map (map this) y) | None => None end.
(** Vector and scalar kernels, x with stride 2: entries 1 and 3 keep their value. *)
Example C21_case_lower :
  qout (trsv Qops dt_d tpick isort tjunk tjunkq 31 op_none (Q2Qc 2) (Some tq_hnd0) (Some (mkDescr mt_triangular fm_lower dg_non_unit 1))
    (Some (qv [2;9;9]%Q)) 1 (Some (qv [7;7;7;7;7]%Q)) 2 (-1)) = Some (success, Some [2; 7; 2; 7; 3 # 2]%Q).
Proof. reflexivity. Qed.
Example C21_case_lower_trans :
  qout (trsv Qops dt_d tpick isort tjunk tjunkq 31 op_transpose (Q2Qc 2) (Some tq_hnd0) (Some (mkDescr mt_triangular fm_lower dg_non_unit 1))
    (Some (qv [2;9;9]%Q)) 1 (Some (qv [7;7;7;7;7]%Q)) 2 0) =
  qout (trsv Qops dt_d tpick isort tjunk tjunkq 31 op_transpose (Q2Qc 2) (Some tq_hnd0) (Some (mkDescr mt_triangular fm_lower dg_non_unit 1))
    (Some (qv [2;9;9]%Q)) 1 (Some (qv [7;7;7;7;7]%Q)) 2 3).
Proof. reflexivity. Qed.

(** ** Requests for which the full property fails *)

(** alpha = 0: the column-oriented vector kernels (level2/aoclsparse_trsv_kt.cpp
    203-205, 439-441) then skip loading the right-hand side and solve for whatever x
    held on entry; the reference kernel returns 0. *)
Definition tz_user : cmat Z := mkCmat 1 1 1 gn 0 [0;1] [0] [1] None None false dg_non_unit None.
Definition tz_hnd : hnd Z := mkHnd 1 1 1 [Some tz_user] unknown_sort false false false [].
Lemma tz_request : trsv_request Zops 31 tz_hnd tz_user (mkDescr mt_triangular fm_lower dg_unit 0) op_transpose [5] 1 [7] 1.
Proof.
  constructor; try (cbn; lia); try reflexivity; try discriminate.
  - split.
    + unfold user_mat. ands; try reflexivity.
      * unfold arrays_ok. ands; [apply csr_wfb_ok; reflexivity|apply diag_uniqueb_ok; reflexivity|reflexivity|left; reflexivity].
      * left. ands; reflexivity.
    + exists []. ands; [reflexivity|discriminate|constructor].
  - intros (c & [Hc|[]] & Ho). inversion Hc; subst. discriminate.
  - right. apply rows_distinctb_ok. reflexivity.
  - left; reflexivity.
  - split; [lia|reflexivity].
  - split; [lia|reflexivity].
Qed.
Theorem C21_alpha_zero_refuted : exists dt choice h u d op rhs x kid k x1 h',
  trsv_request Zops 31 h u d op rhs 1 x 1 /\ choice kid = Some k /\ rows_distinct (c_m u) (c_b u) (c_ptr u) (c_ind u) /\
  trsv Zops dt choice isort tjunk tjunk 31 op 0 (Some h) (Some d) (Some rhs) 1 (Some x) 1 kid = Some (success, Some x1, h') /\
  ~ solves Zops (H_m h) 0 (op_sem Zops op (described Zops mt_triangular (d_fill d) (d_diag d) (hnd_mat Zops u))) rhs 1 x1 1.
Proof.
  exists dt_d, tpick, tz_hnd, tz_user, (mkDescr mt_triangular fm_lower dg_unit 0), op_transpose, [5], [7], (-1), 2. do 2 eexists.
  split; [exact tz_request|]. split; [reflexivity|]. split; [apply rows_distinctb_ok; reflexivity|].
  split; [vm_compute; reflexivity|]. intros H. specialize (H 0 ltac:(cbn; lia)). vm_compute in H. discriminate.
Qed.
Print Assumptions C21_alpha_zero_refuted.

(** A row that stores a column twice: the gather / scatter of the same kernels loses
    one of the two updates. *)
Definition td_user : cmat Z := mkCmat 5 5 9 gn 0 [0;1;2;3;4;9] [0;1;2;3;0;0;1;2;4] [1;1;1;1;1;1;1;1;1] None None false dg_non_unit None.
Definition td_hnd : hnd Z := mkHnd 5 5 9 [Some td_user] unknown_sort false false false [].
Lemma td_request : trsv_request Zops 31 td_hnd td_user (mkDescr mt_triangular fm_lower dg_unit 0) op_transpose [1;1;1;1;1] 1 [0;0;0;0;0] 1.
Proof.
  constructor; try (cbn; lia); try reflexivity; try discriminate.
  - split.
    + unfold user_mat. ands; try reflexivity.
      * unfold arrays_ok. ands; [apply csr_wfb_ok; reflexivity|apply diag_uniqueb_ok; reflexivity|reflexivity|left; reflexivity].
      * left. ands; reflexivity.
    + exists []. ands; [reflexivity|discriminate|constructor].
  - intros (c & [Hc|[]] & Ho). inversion Hc; subst. discriminate.
  - left. apply rows_groupedb_ok. reflexivity.
  - left; reflexivity.
  - split; [lia|reflexivity].
  - split; [lia|reflexivity].
Qed.
Theorem C21_duplicate_columns_refuted : exists dt choice h u d op rhs x kid x1 h',
  trsv_request Zops 31 h u d op rhs 1 x 1 /\
  trsv Zops dt choice isort tjunk tjunk 31 op 1 (Some h) (Some d) (Some rhs) 1 (Some x) 1 kid = Some (success, Some x1, h') /\
  ~ solves Zops (H_m h) 1 (op_sem Zops op (described Zops mt_triangular (d_fill d) (d_diag d) (hnd_mat Zops u))) rhs 1 x1 1.
Proof.
  exists dt_d, tpick, td_hnd, td_user, (mkDescr mt_triangular fm_lower dg_unit 0), op_transpose, [1;1;1;1;1], [0;0;0;0;0], (-1). do 2 eexists.
  split; [exact td_request|].
  split; [vm_compute; reflexivity|]. intros H. specialize (H 0 ltac:(cbn; lia)). vm_compute in H. discriminate.
Qed.
Print Assumptions C21_duplicate_columns_refuted.
