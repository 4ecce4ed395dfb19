(** C30: symmetric Gauss-Seidel. *)
From Coq Require Import ZArith List Bool Lia ZifyBool QArith Qcanon Permutation.
From Verif Require Import Base BaseFacts Algebra Csr CheckModel CheckSpec Decide SortSpec SortInst DoidModel DoidSpec
  MvModel MvSpec CsrmvModel HandleModel HandleSpec HandleFacts OptProof TrsvModel TrsvSpec TrsvProof TrsvHandleProof Props_Trsv SymgsModel SymgsSpec SymgsProof.
Import ListNotations.
Open Scope Z_scope.

(** Besides the environment of the triangular solve: the product kernels for the
    internal call exist, the default solve kernel exists, and the schedule of the
    threads runs every thread once. *)
Record symgs_env (sup : Z -> bool) (mvc tsc : Z -> option Z) (nthreads : Z) (team : list Z) : Prop := mk_sgenv {
  sge_sup : sup 1 = true;
  sge_team : nthreads <= 1 \/ Permutation team (zrange 0 nthreads);
  sge_mv : forall k, mvc k <> None;
  sge_tsv : tsc (-1) <> None }.

(** C30.  For every consistent square handle with a complete non-zero diagonal and
    every covered request, aoclsparse_?symgs succeeds and the returned x satisfies
    (L+D) x1 = b - alpha U x0, (U+D) x = b - L x1 for the requested matrix
    op(A) = L + D + U and the entry contents x0 of x; the handle still holds the same
    matrix.  Missing (refuted below): Hermitian matrices in CSC handles or with a
    transposition, complex symmetric ones with a conjugate transposition. *)
Theorem C30_symgs_partial : forall T (O : ops T) srt fz ft sup dt mvc nthreads team tsc w,
  solve_env O srt fz ft dt -> symgs_env sup mvc tsc nthreads team ->
  forall h u d op alpha b x y_p, symgs_pre O dt tsc w h u d op b x ->
  exists x' h' u', symgs O srt fz ft sup dt mvc nthreads team tsc w op (Some h) (Some d) alpha (Some b) (Some x) y_p false = Some (success, Some x', y_p, Some h') /\
    hnd_ok (o0 O) h' u' /\ diag_flag_ok h' u' /\ same_data u u' /\
    symgs_sweep O (H_m h) (req_mat O u d op) alpha b x x'.
Proof.
  intros T O srt fz ft sup dt mvc nthreads team tsc w [L HD S1 S2 S3 S4] [E1 E2 E3 E4] h u d op alpha b x y_p PRE.
  destruct (symgs_ok O L HD srt fz ft S1 S2 S3 sup dt mvc nthreads team tsc w E1 E2 S4 E3 E4 h u d op alpha b x y_p false PRE) as (x' & yr & h' & u' & E & K1 & K2 & K3 & _ & _ & _ & K4 & K5 & _); [discriminate|].
  exists x', h', u'. rewrite K5 in E by reflexivity. auto.
Qed.
Print Assumptions C30_symgs_partial.

(** C30, second half: aoclsparse_?symgs_mv performs the same sweep and returns
    y = op(A) x for the new x. *)
Theorem C30_symgs_mv_partial : forall T (O : ops T) srt fz ft sup dt mvc nthreads team tsc w,
  solve_env O srt fz ft dt -> symgs_env sup mvc tsc nthreads team ->
  forall h u d op alpha b x y, symgs_pre O dt tsc w h u d op b x -> zlen y = H_m h ->
  exists x' y' h' u', symgs O srt fz ft sup dt mvc nthreads team tsc w op (Some h) (Some d) alpha (Some b) (Some x) (Some y) true = Some (success, Some x', Some y', Some h') /\
    hnd_ok (o0 O) h' u' /\ diag_flag_ok h' u' /\ same_data u u' /\
    symgs_sweep O (H_m h) (req_mat O u d op) alpha b x x' /\
    zlen y' = H_m h /\ forall i, 0 <= i < H_m h -> nthZ (o0 O) y' i = rowx O (H_m h) (req_mat O u d op) x' i.
Proof.
  intros T O srt fz ft sup dt mvc nthreads team tsc w [L HD S1 S2 S3 S4] [E1 E2 E3 E4] h u d op alpha b x y PRE Ly.
  destruct (symgs_ok O L HD srt fz ft S1 S2 S3 sup dt mvc nthreads team tsc w E1 E2 S4 E3 E4 h u d op alpha b x (Some y) true PRE) as (x' & yr & h' & u' & E & K1 & K2 & K3 & _ & _ & _ & K4 & _ & K5); [eauto|].
  destruct (K5 eq_refl) as (y' & -> & Ly' & Ry). exists x', y', h', u'. auto 10.
Qed.
Print Assumptions C30_symgs_mv_partial.

(** C30, refusal: a matrix whose pattern lacks a diagonal position is refused and
    neither x nor y is touched. *)
Theorem C30_missing_diagonal : forall T (O : ops T) srt fz ft sup dt mvc nthreads team tsc w,
  solve_env O srt fz ft dt ->
  forall h u d op alpha b x y, hnd_ok (o0 O) h u -> diag_flag_ok h u -> sortable u -> H_m h = H_n h -> 0 < H_m h -> 0 < H_nnz h ->
  d_base d = c_b u -> valid_op op = true -> d_diag d <> dg_unit -> (d_type d = mt_general -> op <> op_conjugate_transpose) ->
  ~ full_diag (c_m u) (c_n u) (c_b u) (c_ptr u) (c_ind u) ->
  forall fuse, exists h' u', symgs O srt fz ft sup dt mvc nthreads team tsc w op (Some h) (Some d) alpha (Some b) (Some x) (Some y) fuse = Some (invalid_value, Some x, Some y, Some h') /\
    hnd_ok (o0 O) h' u' /\ same_data u u'.
Proof.
  intros T O srt fz ft sup dt mvc nthreads team tsc w [L HD S1 S2 S3 S4] h u d op alpha b x y HOK FL HS SQ M0 N0 Hb Hop Hdg Hge NF fuse.
  pose proof HOK as ((AR & UM) & rest & EM & _ & _). pose proof AR as (W & DU & Lv & HB).
  unfold symgs. rewrite andb_false_r, EM. replace (negb (c_b u =? d_base d)) with false by lia.
  replace (negb ((d_base d =? 0) || (d_base d =? 1))) with false by lia. rewrite Hop. cbn [negb].
  replace (match d_diag d with dg_unit => true | _ => false end) with false by (destruct (d_diag d); auto; congruence).
  replace (match d_type d, op with mt_general, op_conjugate_transpose => true | _, _ => false end) with false.
  2: { destruct (d_type d) eqn:Et, op; auto. exfalso. now apply Hge. }
  replace ((H_m h <? 0) || (H_nnz h <? 0) || (H_n h <? 0)) with false by lia.
  replace ((H_m h =? 0) || (H_n h =? 0) || (H_nnz h =? 0)) with false by lia.
  replace (negb (H_m h =? H_n h)) with false by lia.
  destruct (optimize_ok O srt fz ft S1 S2 S3 h u HOK HS) as (h1 & i1 & c & u1 & E & HOK1 & SD & D1 & D2 & D3 & D4 & Rc & Oc & _ & _ & _ & _ & _ & HH).
  rewrite E.
  assert (FL1 : H_optfull h1 = true <-> full_diag (c_m u) (c_n u) (c_b u) (c_ptr u) (c_ind u)).
  { destruct HH as [-> |HH]; [|tauto]. apply FL. exists c. split; auto. unfold rd in Rc. destruct (i1 <? 0); [discriminate|]. eapply nth_error_In; eauto. }
  replace (negb (H_optfull h1)) with true by (destruct (H_optfull h1); auto; exfalso; tauto). eauto.
Qed.
Print Assumptions C30_missing_diagonal.

(** ** Concrete cases *)
Definition sg_q (l : list Q) : list Qc := map Q2Qc l.
(** base one, unsorted rows, the upper triangle of a symmetric matrix *)
Definition sg_u : cmat Qc := mkCmat 3 3 6 gn 1 [1;4;6;7] [3;1;2;2;3;3] (sg_q [1;4;1;4;2;4]%Q) None None false dg_non_unit None.
Definition sg_h : hnd Qc := mkHnd 3 3 6 [Some sg_u] unknown_sort false false false [].
Definition sg_d : descr := mkDescr mt_symmetric fm_upper dg_non_unit 1.
Ltac um := split; [split; [apply csr_wfb_ok; reflexivity | split; [apply diag_uniqueb_ok; reflexivity | split; [reflexivity | (left; reflexivity) || (right; reflexivity)]]] | split; [reflexivity | split; [reflexivity | split; [reflexivity | (left; split; [reflexivity | split; reflexivity]) || (right; split; [reflexivity | split; reflexivity])]]]].
Example C30_pre_case : symgs_pre Qops dt_d tpick 31 sg_h sg_u sg_d op_transpose (sg_q [1;2;3]%Q) (sg_q [1;1;1]%Q).
Proof.
  constructor; try reflexivity; try (cbn; lia); try discriminate.
  - split; [um|]. exists []. split; [reflexivity|split; [discriminate|constructor]].
  - intros (c & [Hc|[]] & Ho). inversion Hc; subst. discriminate.
  - right. apply rows_distinctb_ok. reflexivity.
  - right. apply rows_distinctb_ok. reflexivity.
  - apply full_diagb_ok. reflexivity.
  - intros i Hi. cbn in Hi. assert (C : i = 0 \/ i = 1 \/ i = 2) by lia. destruct C as [-> |[-> | ->]];
      (intros E; apply (f_equal this) in E; vm_compute in E; discriminate).
Qed.
Definition sg_sup (k : Z) : bool := true.
Definition sg_mvc (k : Z) : option Z := Some 0.
Definition sg_show {A} (r : option (status * option (list Qc) * option (list Qc) * A)) : option (status * option (list Q) * option (list Q)) :=
  match r with Some (s, x, y, _) => Some (s, option_map (map this) x, option_map (map this) y) | None => None end.
Example C30_env_case : solve_env Qops isort tjunk tjunkq dt_d /\ symgs_env sg_sup sg_mvc tpick 2 [1;0].
Proof.
  split.
  - constructor; [apply Qlaws|apply Qdiv_law|apply isort_contract| | |reflexivity]; intros z Hz; unfold tjunk, tjunkq; apply zlen_zrep; lia.
  - constructor; [reflexivity|right; apply perm_swap|discriminate|vm_compute; discriminate].
Qed.
(** A = [[4,1,1],[1,4,2],[1,2,4]], b = (1,2,3), x0 = (1,1,1): x1 = (-1/4, 1/16, 25/32). *)
Example C30_run_case : sg_show (symgs Qops isort tjunk tjunkq sg_sup dt_d sg_mvc 2 [1;0] tpick 31 op_transpose (Some sg_h) (Some sg_d) (Q2Qc 1) (Some (sg_q [1;2;3]%Q)) (Some (sg_q [1;1;1]%Q)) (Some (sg_q [8;8;8]%Q)) true) =
  Some (success, Some [3#256; 11#64; 25#32]%Q, Some [1; 579#256; 891#256]%Q).
Proof. vm_compute. reflexivity. Qed.

(** ** Requests for which the full property fails *)

(** Scalars: Gaussian integers; the diagonals are 1, the only value divided by. *)
Definition sgz (n : Z) : list Z := zrep n 0.
Definition sgg (n : Z) : list G := zrep n (0, 0).
Definition sg_run (u : cmat G) (d : descr) op b x :=
  symgs Gops isort sgz sgg sg_sup dt_z sg_mvc 1 [0] tpick 31 op (Some (mkHnd 2 2 3 [Some u] unknown_sort false false false [])) (Some d) (1,0) (Some b) (Some x) None false.
Definition sg_bad (u : cmat G) (d : descr) op b x : Prop :=
  let h := mkHnd 2 2 3 [Some u] unknown_sort false false false [] in
  user_mat h u /\ rows_distinct 2 0 (c_ptr u) (c_ind u) /\ full_diag 2 2 0 (c_ptr u) (c_ind u) /\ (forall i, 0 <= i < 2 -> hnd_mat Gops u i i = (1,0)) /\
  exists x' h', sg_run u d op b x = Some (success, Some x', None, Some h') /\ ~ symgs_sweep Gops 2 (req_mat Gops u d op) (1,0) b x x'.
Ltac sg_refute := split; [um|split; [apply rows_distinctb_ok; reflexivity|split; [apply full_diagb_ok; reflexivity|split;
    [intros i Hi; assert (C : i = 0 \/ i = 1) by lia; destruct C as [-> | ->]; vm_compute; reflexivity|]]]];
  eexists; eexists; split; [vm_compute; reflexivity|];
  intros SW; pose proof (sweep2 Gops Glaws _ _ _ _ _ eq_refl eq_refl SW) as E; vm_compute in E; discriminate.

(** A complex Hermitian matrix in a CSC handle: the internal product with the
    conjugate transpose of the triangle is declined by the library, its status is
    ignored (solvers/aoclsparse_symgs.hpp 201), and the call reports success for a
    sweep without the U term. *)
Definition sg_hc : cmat G := mkCmat 2 2 3 gt 0 [0;2;3] [0;1;1] [(1,0);(0,1);(1,0)] None None false dg_non_unit None.
Theorem C30_hermitian_csc_refuted : sg_bad sg_hc (mkDescr mt_hermitian fm_lower dg_non_unit 0) op_none [(0,0);(0,0)] [(0,0);(1,0)].
Proof. sg_refute. Qed.
Print Assumptions C30_hermitian_csc_refuted.

(** For Hermitian matrices op = transpose (which conjugates the matrix) is ignored. *)
Definition sg_hr : cmat G := mkCmat 2 2 3 gn 0 [0;1;3] [0;0;1] [(1,0);(0,1);(1,0)] None None false dg_non_unit None.
Theorem C30_hermitian_transpose_refuted : sg_bad sg_hr (mkDescr mt_hermitian fm_lower dg_non_unit 0) op_transpose [(1,0);(0,0)] [(0,0);(0,0)].
Proof. sg_refute. Qed.
Print Assumptions C30_hermitian_transpose_refuted.

(** For complex symmetric matrices op = conjugate transpose is ignored. *)
Theorem C30_symmetric_conjugate_refuted : sg_bad sg_hr (mkDescr mt_symmetric fm_lower dg_non_unit 0) op_conjugate_transpose [(1,0);(0,0)] [(0,0);(0,0)].
Proof. sg_refute. Qed.
Print Assumptions C30_symmetric_conjugate_refuted.
