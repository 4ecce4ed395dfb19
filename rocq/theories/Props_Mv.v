(** C15-C18: matrix-vector products with CSR and CSC matrices. *)
From Coq Require Import ZArith List Bool Lia Permutation.
From Verif Require Import Base BaseFacts Algebra Vec Csr CheckModel CheckSpec Decide SortModel SortSpec SortInst DoidModel DoidSpec
  MvModel MvSpec MvProof CsrmvModel CsrmvProof HandleModel HandleSpec OptProof MvHandleProof MvEqProof BetaProof.
Import ListNotations.
Open Scope Z_scope.

(** Shape shared by the theorems on aoclsparse_?mv: the call is defined, the handle
    stays consistent and keeps the user's arrays, and either y is the specified
    product, or no kernel was available / the request is one the library declines,
    and then y is not written. *)
Definition mv_delivers {T} (O : ops T) (dt : dtype) (choice : Z -> option Z) (h : hnd T) (u : cmat T)
    (ty : mat_type) (op : operation) (M : Z -> Z -> T) (alpha beta : T) (x y : list T)
    (r : option (status * option (list T) * option (hnd T))) : Prop :=
  let rows := match op with op_none => H_m h | _ => H_n h end in
  let cols := match op with op_none => H_n h | _ => H_m h end in
  exists st yr h' u', r = Some (st, yr, Some h') /\
    hnd_ok (o0 O) h' u' /\ same_data u u' /\
    H_m h' = H_m h /\ H_n h' = H_n h /\ H_nnz h' = H_nnz h /\ H_hints h' = H_hints h /\
    (st = success /\ (exists y', yr = Some y' /\ mv_spec O rows cols alpha beta (op_sem O op M) x y y') \/
     st = invalid_kid /\ yr = None /\ (exists k, choice k = None) \/
     st = not_implemented /\ yr = None /\ declined dt ty op (c_doid u) = true).

(** What is assumed of the environment: std::sort meets its contract, allocated
    arrays have the requested size, the generic instruction set is available, the
    OpenMP team has the requested size, and real types are their own conjugates. *)
Record env_ok {T} (O : ops T) srt fz (ft : Z -> list T) (sup : Z -> bool) dt (nthreads : Z) (team : list Z) : Prop := mk_env {
  ev_laws : laws O;
  ev_sort : sort_contract srt;
  ev_fz : forall z, 0 <= z -> zlen (fz z : list Z) = z;
  ev_ft : forall z, 0 <= z -> zlen (ft z) = z;
  ev_sup : sup 1 = true;
  ev_team : nthreads <= 1 \/ Permutation team (zrange 0 nthreads);
  ev_real : is_cplx dt = false -> forall a, ocj O a = a }.

(** C15. General matrices, CSR or CSC, any handle history that keeps it consistent. *)
Theorem C15_mv_general_correct : forall T (O : ops T) srt fz ft sup dt choice nthreads team,
  env_ok O srt fz ft sup dt nthreads team ->
  forall h u d op alpha beta x y,
  hnd_ok (o0 O) h u -> d_type d = mt_general -> d_diag d = dg_non_unit -> d_base d = c_b u -> valid_op op = true ->
  zlen x = match op with op_none => H_n h | _ => H_m h end ->
  zlen y = match op with op_none => H_m h | _ => H_n h end ->
  mv_delivers O dt choice h u mt_general op (hnd_mat O u) alpha beta x y
    (mv O srt fz ft sup dt choice nthreads team op (Some alpha) (Some h) (Some d) (Some x) (Some beta) (Some y)).
Proof.
  intros T O srt fz ft sup dt choice nt team [EL ES Ez Et Eu Em Er] h u d op alpha beta x y HO Hty Hdg Hb Hop Lx Ly.
  pose proof (mv_handle_ok O EL srt fz ft ES Ez Et sup Eu dt choice nt team Em Er h u d op alpha beta x y HO) as H.
  rewrite Hty in H. unfold mv_delivers. apply H; auto. constructor; try rewrite Hty; auto; try congruence.
  intros [E|E]; congruence.
Qed.
Print Assumptions C15_mv_general_correct.

(** The public aoclsparse_?csrmv (real types) on a general matrix. *)
Theorem C15_csrmv_general_correct : forall T (O : ops T) (L : laws O) dt choice nthreads team,
  nthreads <= 1 \/ Permutation team (zrange 0 nthreads) -> is_cplx dt = false -> (forall a, ocj O a = a) ->
  forall op d m n nnz val col row alpha beta x y,
    d_type d = mt_general -> csr_wf m n nnz (d_base d) row col -> (d_base d = 0 \/ d_base d = 1) -> zlen val = nnz ->
    valid_op op = true ->
    let rows := match op with op_none => m | _ => n end in
    let cols := match op with op_none => n | _ => m end in
    zlen x = cols -> zlen y = rows ->
    csrmv_pub O dt choice nthreads team op (Some alpha) m n nnz (Some val) (Some col) (Some row) (Some d) (Some x) (Some beta) (Some y)
      = Some (invalid_kid, None) /\ (exists k, choice k = None) \/
    exists y', csrmv_pub O dt choice nthreads team op (Some alpha) m n nnz (Some val) (Some col) (Some row) (Some d) (Some x) (Some beta) (Some y)
      = Some (success, Some y') /\ mv_spec O rows cols alpha beta (op_sem O op (csr_mat O (d_base d) row col val)) x y y'.
Proof. exact @csrmv_pub_general. Qed.
Print Assumptions C15_csrmv_general_correct.

(** When beta compares equal to zero, what y held before is irrelevant to the result
    on every kernel path (no ring law is used, so this covers NaN and infinity). *)
Theorem C15_beta_zero_ignores_y : forall T (O : ops T) beta, oeqb O beta (o0 O) = true ->
  forall dt choice nthreads team chk d_id kid d alpha m n nnz val col row idiag iurow x y1 y2,
    0 <= d_id < 20 -> 0 <= m -> 0 <= n ->
    let rows := if transposed d_id then n else m in
    zlen y1 = rows -> zlen y2 = rows ->
    csrmv_run O dt choice nthreads team chk d_id kid d alpha m n nnz val col row idiag iurow x beta y1 =
    csrmv_run O dt choice nthreads team chk d_id kid d alpha m n nnz val col row idiag iurow x beta y2.
Proof. exact @csrmv_run_beta0. Qed.
Print Assumptions C15_beta_zero_ignores_y.
Theorem C15_beta_zero_ignores_y_scale : forall T (O : ops T) beta, oeqb O beta (o0 O) = true ->
  forall n (y1 y2 : list T), 0 <= n -> zlen y1 = n -> zlen y2 = n -> vscale O y1 beta n = vscale O y2 beta n.
Proof. exact @vscale_two. Qed.
Print Assumptions C15_beta_zero_ignores_y_scale.

(** C16.  Triangular matrices. Missing from the full property (refuted below): for
    double, unit upper triangles with four or more entries right of the diagonal in
    some row; unit or zero diagonals on matrices with more stored rows than columns;
    unsorted rows that repeat a column (C04). *)
Theorem C16_mv_triangular_correct_partial : forall T (O : ops T) srt fz ft sup dt choice nthreads team,
  env_ok O srt fz ft sup dt nthreads team ->
  forall h u d op alpha beta x y,
  hnd_ok (o0 O) h u -> d_type d = mt_triangular -> d_base d = c_b u -> valid_op op = true -> sortable u ->
  (d_diag d <> dg_non_unit -> c_m u <= c_n u) ->
  (dt = dt_d -> d_diag d = dg_unit ->
   c_doid u = gn /\ d_fill d = fm_upper /\ op = op_none \/ c_doid u = gt /\ d_fill d = fm_lower /\ op <> op_none ->
   forall i, 0 <= i < c_m u -> upper_count u i < 4) ->
  zlen x = match op with op_none => H_n h | _ => H_m h end ->
  zlen y = match op with op_none => H_m h | _ => H_n h end ->
  mv_delivers O dt choice h u mt_triangular op (described O mt_triangular (d_fill d) (d_diag d) (hnd_mat O u)) alpha beta x y
    (mv O srt fz ft sup dt choice nthreads team op (Some alpha) (Some h) (Some d) (Some x) (Some beta) (Some y)).
Proof.
  intros T O srt fz ft sup dt choice nt team [EL ES Ez Et Eu Em Er] h u d op alpha beta x y HO Hty Hb Hop Hs Hw Hu Lx Ly.
  pose proof (mv_handle_ok O EL srt fz ft ES Ez Et sup Eu dt choice nt team Em Er h u d op alpha beta x y HO) as H.
  rewrite Hty in H. unfold mv_delivers. apply H; auto. constructor; try rewrite Hty; auto; try congruence.
  intros [E|E]; congruence.
Qed.
Print Assumptions C16_mv_triangular_correct_partial.

(** C17.  Symmetric and Hermitian matrices, either triangle, every diagonal rule. *)
Theorem C17_mv_symmetric_correct : forall T (O : ops T) srt fz ft sup dt choice nthreads team,
  env_ok O srt fz ft sup dt nthreads team ->
  forall h u d op alpha beta x y,
  hnd_ok (o0 O) h u -> H_m h = H_n h ->
  d_type d = mt_symmetric \/
  d_type d = mt_hermitian /\ is_cplx dt = true /\ (d_diag d = dg_non_unit -> real_diag O (hnd_mat O u)) ->
  d_base d = c_b u -> valid_op op = true -> sortable u -> zlen x = H_n h -> zlen y = H_m h ->
  mv_delivers O dt choice h u (d_type d) op (described O (d_type d) (d_fill d) (d_diag d) (hnd_mat O u)) alpha beta x y
    (mv O srt fz ft sup dt choice nthreads team op (Some alpha) (Some h) (Some d) (Some x) (Some beta) (Some y)).
Proof.
  intros T O srt fz ft sup dt choice nt team [EL ES Ez Et Eu Em Er] h u d op alpha beta x y HO Hsq Hty Hb Hop Hs Lx Ly.
  unfold mv_delivers. apply mv_handle_ok; auto.
  - constructor; auto; destruct Hty as [E|(E & Ec & Er')]; rewrite E; try congruence; auto.
  - rewrite <- Hsq in Lx. destruct op; congruence.
  - rewrite <- Hsq. destruct op; congruence.
Qed.
Print Assumptions C17_mv_symmetric_correct.

(** The public aoclsparse_?csrmv on a symmetric matrix given by its lower triangle
    with the diagonal last in each row and a non-empty first row. *)
Theorem C17_csrmv_symmetric_partial : forall T (O : ops T) (L : laws O) dt choice nthreads team,
  is_cplx dt = false -> forall op d m nnz val col row alpha beta x y,
    d_type d = mt_symmetric -> csr_wf m m nnz (d_base d) row col -> (d_base d = 0 \/ d_base d = 1) -> zlen val = nnz ->
    valid_op op = true -> lower_diag_last m (d_base d) row col -> zn row 0 < zn row 1 \/ m = 0 ->
    zlen x = m -> zlen y = m ->
    exists y', csrmv_pub O dt choice nthreads team op (Some alpha) m m nnz (Some val) (Some col) (Some row) (Some d) (Some x) (Some beta) (Some y)
      = Some (success, Some y') /\ mv_spec O m m alpha beta (descr_sem O mt_symmetric fm_lower (csr_mat O (d_base d) row col val)) x y y'.
Proof. exact @csrmv_pub_symmetric. Qed.
Print Assumptions C17_csrmv_symmetric_partial.

(** C18.  Every vectorised kernel returns exactly the vector of the reference kernel
    (and both are defined). *)
Theorem C18_general_kernels_agree : forall T (O : ops T) (L : laws O) m n nnz b ptr ind val alpha beta x y,
    csr_wf m n nnz b ptr ind -> zlen val = nnz -> zlen x = n -> zlen y = m ->
    ref_csrmv_gn O b alpha m val ind ptr x beta y <> None /\
    csrmv_vectorized O b alpha m val ind ptr x beta y = ref_csrmv_gn O b alpha m val ind ptr x beta y /\
    csrmv_vectorized_avx2 O b alpha m val ind ptr x beta y = ref_csrmv_gn O b alpha m val ind ptr x beta y /\
    csrmv_vectorized_avx512 O b alpha m val ind ptr x beta y = ref_csrmv_gn O b alpha m val ind ptr x beta y /\
    forall tsz, 0 < tsz -> csrmv_kt O tsz b alpha m val ind ptr x beta y = ref_csrmv_gn O b alpha m val ind ptr x beta y.
Proof. exact @gn_kernels_agree. Qed.
Print Assumptions C18_general_kernels_agree.

Theorem C18_transposed_kernels_agree : forall T (O : ops T) (L : laws O) m n nnz b ptr ind val alpha beta x y,
    csr_wf m n nnz b ptr ind -> zlen val = nnz -> zlen x = m -> zlen y = n ->
    ref_csrmv_th O false b alpha m n val ind ptr x beta y <> None /\
    forall tsz, 0 < tsz ->
      csrmvt_kt_seq O tsz b alpha m n val ind ptr x beta y = ref_csrmv_th O false b alpha m n val ind ptr x beta y /\
      forall nthreads team, 0 < nthreads -> Permutation team (zrange 0 nthreads) ->
        csrmvt_kt_omp O nthreads team tsz b alpha m n val ind ptr x beta y =
        ref_csrmv_th O false b alpha m n val ind ptr x beta y.
Proof. exact @gt_kernels_agree. Qed.
Print Assumptions C18_transposed_kernels_agree.

Theorem C18_symmetric_kernels_agree : forall T (O : ops T) (L : laws O) m nnz b ptr ind idiag iurow val fm dg alpha beta x y,
    tri_ready m m nnz b ptr ind idiag iurow -> full_diag m m b ptr ind -> zlen val = nnz -> zlen x = m -> zlen y = m ->
    forall herm,
    csrmv_fg_internal O (fun v => v) (cjh O herm) b alpha m dg fm val ind ptr idiag x beta y <> None /\
    forall tsz, 0 < tsz ->
    csrmv_symm_kt O herm tsz b alpha m dg fm val ind ptr idiag iurow x beta y =
    csrmv_fg_internal O (fun v => v) (cjh O herm) b alpha m dg fm val ind ptr idiag x beta y.
Proof. exact @symm_kernels_agree. Qed.
Print Assumptions C18_symmetric_kernels_agree.

(** The AVX2 triangular kernel, except where it loses the unit diagonal (refuted below). *)
Theorem C18_triangular_kernels_agree_partial : forall T (O : ops T) (L : laws O) m n nnz ptr ind idiag iurow val d alpha beta x y,
    let b := d_base d in
    let rs := tri_start (d_fill d) ptr idiag in let re := tri_end (d_fill d) ptr iurow in let eo := tri_eoff (d_fill d) in
    tri_ready m n nnz b ptr ind idiag iurow -> zlen val = nnz -> zlen x = n -> zlen y = m ->
    d_type d <> mt_general -> diag_usable m n b ptr ind (d_diag d) ->
    (d_fill d = fm_upper -> d_diag d = dg_unit -> forall i, 0 <= i < m -> zn ptr (i + 1) - zn iurow i < 4) ->
    ref_csrmv_tri O d alpha m val ind rs eo re x beta y <> None /\
    csrmv_vectorized_avx2ptr O d alpha m val ind rs eo re x beta y = ref_csrmv_tri O d alpha m val ind rs eo re x beta y.
Proof. exact @tri_kernels_agree. Qed.
Print Assumptions C18_triangular_kernels_agree_partial.

(** ** Concrete cases *)
Definition junkz (z : Z) : list Z := zrep z 77.
Definition all_isa (i : Z) : bool := i <=? 3.
Definition pick2 (k : Z) : option Z := if (k =? -1) || (2 <? k) then Some 2 else Some k.
Lemma env_demo : forall dt, is_cplx dt = false -> env_ok Zops isort junkz junkz all_isa dt 2 [1;0].
Proof.
  intros dt Hd. constructor; auto.
  - exact Zlaws.
  - exact isort_contract.
  - intros z Hz. apply zlen_zrep; auto.
  - intros z Hz. apply zlen_zrep; auto.
  - right. vm_compute. apply perm_swap.
Qed.

(** 3 x 3, base one, unsorted rows, no diagonal in row 1:
    [20 0 10; 40 0 30; 0 0 50]. *)
Definition ex_user : cmat Z := mkCmat 3 3 5 gn 1 [1;3;5;6] [3;1;3;1;3] [10;20;30;40;50] None None false dg_non_unit None.
Definition ex_hnd : hnd Z := mkHnd 3 3 5 [Some ex_user] unknown_sort false false false [].
Lemma ex_hyps : hnd_ok 0 ex_hnd ex_user /\ sortable ex_user.
Proof.
  split; [split|].
  - unfold user_mat. ands; try reflexivity.
    + unfold arrays_ok. ands; [apply csr_wfb_ok; reflexivity|apply diag_uniqueb_ok; reflexivity|reflexivity|right; reflexivity].
    + left. ands; reflexivity.
  - exists []. ands; [reflexivity|discriminate|constructor].
  - right. apply rows_distinctb_ok. reflexivity.
Qed.
Definition yout {A} (r : option (status * option (list Z) * A)) : option (status * option (list Z)) :=
  match r with Some (s, y, _) => Some (s, y) | None => None end.
Definition ex_mv op d := yout (mv Zops isort junkz junkz all_isa dt_d pick2 2 [1;0] op (Some 2) (Some ex_hnd) (Some d)
    (Some [1;2;3]) (Some 3) (Some [100;200;300])).

Example C15_case_none : ex_mv op_none (mkDescr mt_general fm_lower dg_non_unit 1) = Some (success, Some [400;860;1200]).
Proof. reflexivity. Qed.
Example C15_case_trans : ex_mv op_transpose (mkDescr mt_general fm_lower dg_non_unit 1) = Some (success, Some [500;600;1340]).
Proof. reflexivity. Qed.
Example C16_case_lower_unit : ex_mv op_none (mkDescr mt_triangular fm_lower dg_unit 1) = Some (success, Some [302;684;906]).
Proof. reflexivity. Qed.
Example C16_case_upper_trans : ex_mv op_transpose (mkDescr mt_triangular fm_upper dg_non_unit 1) = Some (success, Some [340;600;1340]).
Proof. reflexivity. Qed.
Example C16_case_small_uppers : forall i, 0 <= i < 3 -> upper_count ex_user i < 4.
Proof. intros i Hi. assert (E : i = 0 \/ i = 1 \/ i = 2) by lia. destruct E as [->|[->| ->]]; vm_compute; reflexivity. Qed.
Example C17_case_lower : ex_mv op_none (mkDescr mt_symmetric fm_lower dg_non_unit 1) = Some (success, Some [500;680;1200]).
Proof. reflexivity. Qed.
Example C17_case_upper_unit : ex_mv op_transpose (mkDescr mt_symmetric fm_upper dg_unit 1) = Some (success, Some [362;784;1046]).
Proof. reflexivity. Qed.
Example C17_csrmv_case : csr_wf 2 2 3 0 [0;1;3] [0;0;1] /\ lower_diag_last 2 0 [0;1;3] [0;0;1] /\
  csrmv_pub Zops dt_d pick2 1 [] op_none (Some 2) 2 2 3 (Some [5;6;7]) (Some [0;0;1]) (Some [0;1;3])
    (Some (mkDescr mt_symmetric fm_lower dg_non_unit 0)) (Some [1;2]) (Some 1) (Some [100;200]) = Some (success, Some [134;240]).
Proof.
  ands; [apply csr_wfb_ok; reflexivity|apply lower_diag_lastb_ok; reflexivity|reflexivity].
Qed.
Example C15_case_beta_zero : csrmv_run Zops dt_z pick2 2 [1;0] false gt (-1) (mkDescr mt_general fm_lower dg_non_unit 0) 2 2 3 3
    [5;6;7] [2;0;1] [0;1;3] [] [] [1;2] 0 [77;78;79] = Some (success, Some [24;28;10]).
Proof. reflexivity. Qed.
(** Eleven entries in one row: one group of eight and a remainder of three. *)
Example C18_case : csrmv_vectorized Zops 0 1 1 [1;2;3;4;5;6;7;8;9;10;11] [0;1;2;3;4;5;6;7;8;9;10] [0;11] [1;1;1;1;1;1;1;1;1;1;2] 0 [5] = Some [77].
Proof. reflexivity. Qed.

(** ** Requests for which the full property fails *)

(** Finding B2: unit upper triangle, double: a row with four entries right of the
    diagonal loses its unit diagonal.  y should be [1 + 4] = [5; ...]. *)
Definition b2_user : cmat Z := mkCmat 5 5 9 gn 0 [0;5;6;7;8;9] [0;1;2;3;4;1;2;3;4] [9;1;1;1;1;9;9;9;9] None None false dg_non_unit None.
Definition b2_hnd : hnd Z := mkHnd 5 5 9 [Some b2_user] fully_sorted true false false [].
Theorem C16_unit_upper_refuted : exists (h : hnd Z) u d x y y',
  hnd_ok 0 h u /\ sortable u /\ d_type d = mt_triangular /\ d_base d = c_b u /\ H_m h = H_n h /\ zlen x = H_n h /\ zlen y = H_m h /\
  yout (mv Zops isort junkz junkz all_isa dt_d pick2 1 [] op_none (Some 1) (Some h) (Some d) (Some x) (Some 0) (Some y)) = Some (success, Some y') /\
  ~ mv_spec Zops 5 5 1 0 (described Zops mt_triangular (d_fill d) (d_diag d) (hnd_mat Zops u)) x y y'.
Proof.
  exists b2_hnd, b2_user, (mkDescr mt_triangular fm_upper dg_unit 0), [1;1;1;1;1], [0;0;0;0;0], [4;1;1;1;1].
  ands; try reflexivity.
  - split.
    + unfold user_mat. ands; try reflexivity.
      * unfold arrays_ok. ands; [apply csr_wfb_ok; reflexivity|apply diag_uniqueb_ok; reflexivity|reflexivity|left; reflexivity].
      * left. ands; reflexivity.
    + exists []. ands; [reflexivity|discriminate|constructor].
  - left. apply rows_groupedb_ok. reflexivity.
  - intros [_ H]. specialize (H 0 ltac:(lia)). vm_compute in H. discriminate H.
Qed.
Print Assumptions C16_unit_upper_refuted.

(** Finding B8: a 2 x 1 matrix whose second row stores an entry; unit lower triangle
    reads x[1] beyond the end. *)
Definition b8_user : cmat Z := mkCmat 2 1 2 gn 0 [0;1;2] [0;0] [3;4] None None false dg_non_unit None.
Definition b8_hnd : hnd Z := mkHnd 2 1 2 [Some b8_user] fully_sorted true false false [].
Theorem C16_tall_unit_refuted : exists (h : hnd Z) u d x y,
  hnd_ok 0 h u /\ sortable u /\ d_type d = mt_triangular /\ d_base d = c_b u /\ zlen x = H_n h /\ zlen y = H_m h /\
  mv Zops isort junkz junkz all_isa dt_d pick2 1 [] op_none (Some 1) (Some h) (Some d) (Some x) (Some 0) (Some y) = None.
Proof.
  exists b8_hnd, b8_user, (mkDescr mt_triangular fm_lower dg_unit 0), [1], [0;0].
  ands; try reflexivity.
  - split.
    + unfold user_mat. ands; try reflexivity.
      * unfold arrays_ok. ands; [apply csr_wfb_ok; reflexivity|apply diag_uniqueb_ok; reflexivity|reflexivity|left; reflexivity].
      * left. ands; reflexivity.
    + exists []. ands; [reflexivity|discriminate|constructor].
  - left. apply rows_groupedb_ok. reflexivity.
Qed.
Print Assumptions C16_tall_unit_refuted.

(** Finding B7: a general matrix with a descriptor whose diagonal type is not
    non_unit is refused with invalid_pointer although the type does not use it. *)
Theorem C15_general_unit_descriptor_refuted : exists (h : hnd Z) u d x y,
  hnd_ok 0 h u /\ d_type d = mt_general /\ d_base d = c_b u /\ zlen x = H_n h /\ zlen y = H_m h /\
  yout (mv Zops isort junkz junkz all_isa dt_d pick2 1 [] op_none (Some 1) (Some h) (Some d) (Some x) (Some 0) (Some y))
    = Some (invalid_pointer, None).
Proof.
  exists ex_hnd, ex_user, (mkDescr mt_general fm_lower dg_unit 1), [1;2;3], [0;0;0].
  ands; try reflexivity. apply ex_hyps.
Qed.
Print Assumptions C15_general_unit_descriptor_refuted.

(** Finding B3: symmetric ?csrmv with an empty first row reads before the arrays. *)
Theorem C17_csrmv_empty_first_row_refuted : exists m nnz (val : list Z) col row d x y,
  csr_wf m m nnz (d_base d) row col /\ zlen val = nnz /\ d_type d = mt_symmetric /\ zlen x = m /\ zlen y = m /\
  lower_diag_last m (d_base d) row col /\
  csrmv_pub Zops dt_d pick2 1 [] op_none (Some 1) m m nnz (Some val) (Some col) (Some row) (Some d) (Some x) (Some 0) (Some y) = None.
Proof.
  exists 2, 1, [7], [1], [0;0;1], (mkDescr mt_symmetric fm_lower dg_non_unit 0), [1;1], [0;0].
  ands; try reflexivity; [apply csr_wfb_ok; reflexivity|apply lower_diag_lastb_ok; reflexivity].
Qed.
Print Assumptions C17_csrmv_empty_first_row_refuted.
(** ... and the descriptor's upper fill mode is ignored. *)
Theorem C17_csrmv_upper_refuted : exists m nnz (val : list Z) col row d x y y',
  csr_wf m m nnz (d_base d) row col /\ zlen val = nnz /\ d_type d = mt_symmetric /\ d_fill d = fm_upper /\
  rows_sorted m (d_base d) row col /\ full_diag m m (d_base d) row col /\ zlen x = m /\ zlen y = m /\
  csrmv_pub Zops dt_d pick2 1 [] op_none (Some 1) m m nnz (Some val) (Some col) (Some row) (Some d) (Some x) (Some 0) (Some y) = Some (success, Some y') /\
  ~ mv_spec Zops m m 1 0 (described Zops mt_symmetric (d_fill d) (d_diag d) (csr_mat Zops (d_base d) row col val)) x y y'.
Proof.
  exists 2, 4, [1;2;3;4], [0;1;0;1], [0;2;4], (mkDescr mt_symmetric fm_upper dg_non_unit 0), [1;1], [0;0], [7;9].
  ands; try reflexivity; [apply csr_wfb_ok; reflexivity|apply rows_sortedb_ok; reflexivity|apply full_diagb_ok; reflexivity|].
  intros [_ H]. specialize (H 0 ltac:(lia)). vm_compute in H. discriminate H.
Qed.
Print Assumptions C17_csrmv_upper_refuted.

(** Finding B24: the transposed product partitions rows by the requested team size; if
    the runtime delivers a smaller team, rows are dropped although success is reported. *)
Theorem C18_smaller_team_refuted : exists m n nnz b ptr ind (val x y y' : list Z),
  csr_wf m n nnz b ptr ind /\ zlen val = nnz /\ zlen x = m /\ zlen y = n /\
  csrmvt_kt_omp Zops 2 [0] 4 b 1 m n val ind ptr x 0 y = Some y' /\
  ref_csrmv_th Zops false b 1 m n val ind ptr x 0 y <> Some y'.
Proof.
  exists 2, 1, 2, 0, [0;1;2], [0;0], [3;4], [1;1], [0], [3].
  ands; try reflexivity; [apply csr_wfb_ok; reflexivity|]. vm_compute. discriminate.
Qed.
Print Assumptions C18_smaller_team_refuted.
