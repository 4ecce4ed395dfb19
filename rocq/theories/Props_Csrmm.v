(** C26: product of a sparse and a dense matrix. *)
From Coq Require Import ZArith List Bool Lia Permutation.
From Coq Require Import ZifyBool.
From Verif Require Import Base BaseFacts Algebra UtilModel UtilProof Csr SortSpec CheckModel Decide DoidModel DoidSpec MvModel MvSpec CsrmvModel HandleModel HandleSpec
  ExpandModel ExpandSpec DenseSpec AddSpec Csr2mSpec Sp2mdSpec CsrmmModel CsrmmSpec CsrmmProof Props_Add Props_Expand.
Import ListNotations.
Open Scope Z_scope.

(** C26.  For every operation, both orders of the dense matrices, any leading
    dimensions, general, symmetric and Hermitian matrices, CSR or CSC data in either
    base, with or without copies made for hints, every kernel, number of threads and
    order in which they finish: the window of C holds alpha*op(A)*B + beta*C, nothing
    outside it changes, and the handle still stands for the same matrix.  Missing
    (refuted below): empty dimensions, and the largest leading dimensions with one-based
    data. *)
Theorem C26_csrmm_partial : forall T (O : ops T), laws O -> forall is_real fz ft w tm ord kr,
  (is_real = true -> forall x, ocj O x = x) -> mm_env fz ft tm ord kr ->
  forall op alpha beta (h : hnd T) u d order B n ldb C ldc, mm_pre O w op h u d order B n ldb C ldc ->
  exists C' h',
    csrmm O is_real fz ft w tm ord (Some kr) op alpha (Some h) (Some d) order (Some B) n ldb beta (Some C) ldc = Some (success, Some C', Some h') /\
    holds_window (o0 O) order ldc (rows_of op h) n (mm_entry O op alpha h u d order B ldb beta C ldc) C C' /\
    hinted O h' u /\ H_m h' = H_m h /\ H_n h' = H_n h.
Proof. exact @csrmm_ok. Qed.
Print Assumptions C26_csrmm_partial.

(** C26.  The handles the theorem speaks of include those that come out of
    aoclsparse_optimize for any list of product hints, starting from any such handle. *)
Theorem C26_optimized_handles : forall T (O : ops T), laws O -> forall re : T -> T, (forall v, ocj O v = v -> re v = v) ->
  forall (fz : Z -> list Z) (ft : Z -> list T), (forall k, 0 <= k -> zlen (fz k) = k) -> (forall k, 0 <= k -> zlen (ft k) = k) ->
  forall h u hs, hinted O h u ->
    (forall e, In e hs -> hint_ok e /\ (is_one_tri (mh_doid e) = true -> H_m h = H_n h) /\
       (is_herm_doid (mh_doid e) -> real_diag O (hnd_mat O u))) ->
    exists h' hs', matrix_transform O re fz ft (Some h) hs = Some (success, Some h', hs') /\ hinted O h' u /\ H_m h' = H_m h /\ H_n h' = H_n h.
Proof.
  intros T O L re Hre fz ft Hfz Hft h u hs (Hu & rest & EM & F) HS.
  destruct (C12_hinted_copies T O L re Hre fz ft Hfz Hft h u rest hs Hu EM HS) as (copies & hs' & E & R1 & _).
  eexists; exists hs'. split; [exact E|]. split; [|split; reflexivity]. split; [exact Hu|]. exists (rest ++ map Some copies).
  split; [cbn [H_mats HandleModel.set_mats]; rewrite EM; reflexivity|]. apply Forall_app. split; [exact F|].
  apply Forall_forall. intros e I. apply in_map_iff in I. destruct I as (c & <- & I). right. destruct (R1 c I) as (e & Ie & _ & K & _ & Q).
  apply (copy_ok_state O L (H_m h) (H_n h) (hnd_mat O u) (mh_doid e)); auto. apply (HS e Ie).
Qed.
Print Assumptions C26_optimized_handles.

(** C26.  Whatever the arguments, a call that reports anything but success leaves C
    as it was. *)
Theorem C26_failure_keeps_C : forall T (O : ops T) is_real fz ft w tm ord kern op alpha A d order B n ldb beta C ldc st C' h',
  csrmm O is_real fz ft w tm ord kern op alpha A d order B n ldb beta C ldc = Some (st, C', h') -> st <> success -> C' = C.
Proof.
  intros T O is_real fz ft w tm ord kern op alpha A d order B n ldb beta C ldc st C' h' E N.
  unfold csrmm in E. destruct A as [h|]; [|congruence]. destruct B as [B|]; [|congruence]. destruct C as [C|]; [|congruence]. destruct d as [d|]; [|congruence].
  cbv zeta in E.
  repeat (match type of E with
     | Some _ = Some _ => inversion E; subst; first [reflexivity | congruence]
     | None = Some _ => discriminate
     | match ?x with _ => _ end = Some _ => destruct x eqn:?
     end; try solve [inversion E; subst; first [reflexivity | congruence]]).
Qed.
Print Assumptions C26_failure_keeps_C.

(** C26.  Rejected calls and their status; they leave C and the handle as they were. *)
Definition C26_bad_args {T} (O : ops T) w op alpha beta (h : hnd T) (u : cmat T) d order n ldb ldc : Prop :=
  valid_op op = false \/ d_type d = mt_triangular \/ (d_type d <> mt_general /\ H_m h <> H_n h) \/ (order <> 0 /\ order <> 1) \/
  d_base d <> c_b u \/ n < 0 \/
  (0 < n /\ 0 < H_m h /\ 0 < H_n h /\ (oeqb O alpha (o0 O) && oeqb O beta (o1 O) = false) /\
   (ldb < (if order =? 1 then cols_of op h else n) \/ ldc < (if order =? 1 then rows_of op h else n) \/
    int_max w < (if order =? 1 then n else cols_of op h) * ldb \/ int_max w < (if order =? 1 then n else rows_of op h) * ldc)).
Theorem C26_rejects : forall T (O : ops T) is_real fz ft w tm ord kern op alpha beta order n ldb ldc, 0 < w ->
  (forall A d B C, A = None \/ d = None \/ B = None \/ C = None ->
     csrmm O is_real fz ft w tm ord kern op alpha A d order B n ldb beta C ldc = Some (invalid_pointer, C, A)) /\
  forall (h : hnd T) u rest d B C, H_mats h = Some u :: rest -> c_doid u = gn \/ c_doid u = gt ->
    0 <= H_m h <= int_max w -> 0 <= H_n h <= int_max w -> in_int w n = true -> in_int w ldb = true -> in_int w ldc = true ->
    C26_bad_args O w op alpha beta h u d order n ldb ldc ->
    exists st, csrmm O is_real fz ft w tm ord kern op alpha (Some h) (Some d) order (Some B) n ldb beta (Some C) ldc = Some (st, Some C, Some h) /\
      (st = invalid_value \/ st = not_implemented \/ st = invalid_size).
Proof.
  intros T O is_real fz ft w tm ord kern op alpha beta order n ldb ldc Hw. split.
  { intros [A|] [d|] [B|] [C|] X; try reflexivity; exfalso; intuition discriminate. }
  intros h u rest d B C EM Hu Hm Hn In Ib Ic BAD. unfold csrmm. cbv zeta.
  destruct (valid_op op) eqn:Vo; cbn [negb]; [|eexists; split; [reflexivity|auto]].
  change (match op with op_none => true | _ => false end) with (is_none op).
  change (match d_type d with mt_general => true | _ => false end) with (plain_gen (d_type d)).
  destruct (match d_type d with mt_triangular => true | _ => false end) eqn:Et; [eexists; split; [reflexivity|auto]|].
  destruct (negb (plain_gen (d_type d)) && negb (H_m h =? H_n h)) eqn:Es; [eexists; split; [reflexivity|auto]|].
  destruct (negb (order =? 0) && negb (order =? 1)) eqn:Eo; [eexists; split; [reflexivity|auto]|].
  rewrite EM. destruct (c_b u =? d_base d) eqn:Eb; cbn [negb]; [|eexists; split; [reflexivity|auto]].
  replace (negb ((c_doid u =? gt) || (c_doid u =? gn))) with false by lia.
  destruct ((H_m h <? 0) || (n <? 0) || (H_n h <? 0)) eqn:En; [eexists; split; [reflexivity|auto]|].
  destruct BAD as [X | [X | [(X & Y) | [X | [X | [X | (X1 & X2 & X3 & X4 & X)]]]]]]; try congruence; try lia.
  { rewrite X in Et. discriminate. }
  { destruct (d_type d); try congruence; cbn in Es; lia. }
  replace ((H_m h =? 0) || (n =? 0) || (H_n h =? 0)) with false by lia. rewrite X4.
  assert (Hreq : exists req, get_doid is_real (d_type d) (d_fill d) op = Some req) by
    (destruct op; try discriminate Vo; destruct is_real, (d_type d), (d_fill d); vm_compute; eauto).
  destruct Hreq as (req & ->).
  assert (RC : rows_of op h = (if is_none op then H_m h else H_n h) /\ cols_of op h = (if is_none op then H_n h else H_m h)) by (destruct op; auto).
  destruct RC as (Er & Ec). rewrite Er, Ec in X.
  destruct (ldb <? _) eqn:E1; [eexists; split; [reflexivity|auto]|].
  destruct (ldc <? _) eqn:E2; [eexists; split; [reflexivity|auto]|].
  unfold in_int in *.
  destruct (int_product_exact_nonneg w (if order =? 1 then n else if is_none op then H_m h else H_n h) ldc Hw) as (r1 & F1 & Q1);
    [destruct (order =? 1), (is_none op); lia | lia|].
  destruct (int_product_exact_nonneg w (if order =? 1 then n else if is_none op then H_n h else H_m h) ldb Hw) as (r2 & F2 & Q2);
    [destruct (order =? 1), (is_none op); lia | lia|].
  rewrite F1. destruct r1; cbn [orb]; [eexists; split; [reflexivity|auto]|]. rewrite F2.
  destruct r2; [eexists; split; [reflexivity|auto]|]. exfalso.
  assert (N1 : ~ int_max w < (if order =? 1 then n else if is_none op then H_m h else H_n h) * ldc) by (intros Q; apply Q1 in Q; discriminate).
  assert (N2 : ~ int_max w < (if order =? 1 then n else if is_none op then H_n h else H_m h) * ldb) by (intros Q; apply Q2 in Q; discriminate).
  destruct (order =? 1), (is_none op); lia.
Qed.
Print Assumptions C26_rejects.

(** A concrete case: a one-based 3x3 matrix over the Gaussian integers with a missing
    diagonal entry, read as Hermitian from its lower triangle with unit diagonal; B by
    rows with a gap, C by rows; first without, then with a copy made for a hint, whose
    diagonal the call rewrites. *)
Definition C26_fz (k : Z) : list Z := zrep k 7.
Definition C26_ft (k : Z) : list G := zrep k (7, 7).
Definition C26_d : descr := mkDescr mt_hermitian fm_lower dg_unit 1.
Definition C26_B : list G := [(1,0);(0,1);(9,9); (2,0);(1,1);(9,9); (0,0);(3,0);(9,9)].
Definition C26_C : list G := [(1,0);(1,0); (1,0);(1,0); (1,0);(1,0)].
Example C26_env : mm_env C26_fz C26_ft [1;0] (fun k => zrange 0 k) (mk_kt 2).
Proof.
  constructor; try (intros; unfold C26_fz, C26_ft; rewrite zlen_zrep; lia).
  - split; [discriminate|]. apply perm_swap.
  - intros; apply Permutation_refl.
  - lia.
Qed.
Lemma C26_dense : forall (T : Type) order ld m n (A : list T), order = 0 \/ order = 1 -> 0 <= m -> 0 <= n -> 0 <= ld ->
  (if order =? 1 then (m <=? ld) && (ld * (n - 1) + m <=? zlen A) else (n <=? ld) && (ld * (m - 1) + n <=? zlen A)) = true ->
  m <= int_max 32 -> n <= int_max 32 -> ld <= int_max 32 -> (if order =? 1 then n else m) * ld <= int_max 32 -> dense_ok 32 order ld m n A.
Proof. intros T order ld m n A H1 H2 H3 H4 H5 H6 H7 H8 H9. constructor; auto; try lia. unfold window_fits. destruct (order =? 1); lia. Qed.
Example C26_pre : mm_pre Gops 32 op_none C12_h C12_u C26_d 0 C26_B 2 3 C26_C 2.
Proof.
  constructor; try discriminate; try reflexivity; auto.
  - split; [exact C12_user|]. exists []. split; [reflexivity|constructor].
  - cbn; lia.
  - apply C26_dense; try (vm_compute; intuition discriminate); auto.
  - apply C26_dense; try (vm_compute; intuition discriminate); auto.
Qed.
Definition C26_run (h : option (hnd G)) d := csrmm Gops false C26_fz C26_ft 32 [1;0] (fun k => zrange 0 k) (Some (mk_kt 2)) op_none (1,0) h (Some d) 0 (Some C26_B) 2 3 (0,2) (Some C26_C) 2.
Definition C26_view (r : option (status * option (list G) * option (hnd G))) :=
  match r with Some (st, C, _) => Some (st, C) | None => None end.
Definition C26_hinted : option (hnd G) :=
  match matrix_transform Gops C12_re C26_fz C26_ft (Some C12_h) [mkHint hl fm_lower false] with Some (_, h, _) => h | None => None end.
Example C26_case : let out := Some (success, Some [(5,-4);(20,-16); (4,5);(10,2); (13,10);(0,12)]) in
  C26_view (C26_run (Some C12_h) C26_d) = out /\ C26_view (C26_run C26_hinted C26_d) = out /\
  (* the copy's diagonal was rewritten; asking again gives the same answer *)
  match C26_run C26_hinted C26_d with Some (_, _, h) => C26_view (C26_run h C26_d) = out | None => False end.
Proof. vm_compute. repeat split. Qed.
(** By columns, CSC data, conjugate transpose, two threads. *)
Example C26_case_cols :
  C26_view (csrmm Gops false C26_fz C26_ft 32 [1;0] (fun k => zrange 0 k) (Some (mk_kt 4)) op_conjugate_transpose (2,0) (Some (C23_H 2 3 3 (mkCmat 3 2 3 gt 0 [0;1;2;3] [1;0;1] [(1,1);(2,0);(0,5)] None None false dg_non_unit None)))
      (Some (mkDescr mt_general fm_lower dg_non_unit 0)) 1 (Some [(1,0);(2,0);(0,1);(1,0)]) 2 2 (1,0) (Some [(1,0);(0,0);(0,0);(8,8);(0,0);(0,0);(1,1)]) 4)
  = Some (success, Some [(5,-4);(4,0);(0,-20);(8,8);(2,-2);(0,4);(1,-9)]).
Proof. vm_compute. reflexivity. Qed.

(** C26 refuted: when op(A) has no columns the product is zero, and C should become
    beta*C; the call returns success with C untouched. *)
Theorem C26_empty_inner_refuted : forall fz ft tm ord kern, exists (h : hnd Z) u d (B C : list Z), hinted Zops h u /\ d_base d = c_b u /\ d_type d = mt_general /\
  dense_ok 32 1 1 (cols_of op_none h) 1 B /\ dense_ok 32 1 1 (rows_of op_none h) 1 C /\
  csrmm Zops true fz ft 32 tm ord kern op_none 1 (Some h) (Some d) 1 (Some B) 1 1 0 (Some C) 1 = Some (success, Some C, Some h) /\
  ~ holds_window 0 1 1 (rows_of op_none h) 1 (mm_entry Zops op_none 1 h u d 1 B 1 0 C 1) C C.
Proof.
  intros. exists (C23_H 1 0 0 (mkCmat 1 0 0 gn 0 [0;0] [] [] None None false dg_non_unit None)).
  eexists. exists (mkDescr mt_general fm_lower dg_non_unit 0), [5], [5].
  split; [|split; [|split; [|split; [|split; [|split]]]]].
  - destruct (holds_case Z 1 0 0 gn 0 [0;0] [] []) as (H & _); try reflexivity. split; [exact H|]. exists []. split; [reflexivity|constructor].
  - reflexivity.
  - reflexivity.
  - apply C26_dense; try (vm_compute; intuition discriminate); auto.
  - apply C26_dense; try (vm_compute; intuition discriminate); auto.
  - reflexivity.
  - intros (_ & H & _). specialize (H 0 0 ltac:(cbn; lia) ltac:(lia)). vm_compute in H. discriminate.
Qed.
Print Assumptions C26_empty_inner_refuted.

(** C26 refuted: one-based data, row order, a leading dimension the size test accepts:
    the offset col*ldb + k overflows aoclsparse_int (undefined behaviour). *)
Theorem C26_base_one_extent_refuted : forall fz ft ord, exists (h : hnd Z) u d (B C : list Z) ldb, hinted Zops h u /\ d_base d = c_b u /\ d_type d = mt_general /\
  dense_ok 32 0 ldb (cols_of op_none h) 2 B /\ dense_ok 32 0 2 (rows_of op_none h) 2 C /\
  csrmm Zops true fz ft 32 [0] ord (Some mk_ref) op_none 1 (Some h) (Some d) 0 (Some B) 2 ldb 1 (Some C) 2 = None.
Proof.
  intros. exists (C23_H 1 1 1 (mkCmat 1 1 1 gn 1 [1;2] [1] [3] None None false dg_non_unit None)).
  eexists. exists (mkDescr mt_general fm_lower dg_non_unit 1), [5;5], [5;5], (int_max 32).
  split; [|split; [|split; [|split; [|split]]]].
  - destruct (holds_case Z 1 1 1 gn 1 [1;2] [1] [3]) as (H & _); try reflexivity. split; [exact H|]. exists []. split; [reflexivity|constructor].
  - reflexivity.
  - reflexivity.
  - apply C26_dense; try (vm_compute; intuition discriminate); auto.
  - apply C26_dense; try (vm_compute; intuition discriminate); auto.
  - vm_compute. reflexivity.
Qed.
Print Assumptions C26_base_one_extent_refuted.

(** C26: a difference between matrix types in the treatment of beta = 0.  Numbers with
    a NaN ([None]).  For a symmetric matrix C is overwritten; for a general one 0*C is
    added, so a NaN in an uninitialised C survives. *)
Definition Nops : ops (option Z) :=
  let f2 g := fun a b : option Z => match a, b with Some a, Some b => Some (g a b) | _, _ => None end in
  mkOps (option Z) (Some 0) (Some 1) (f2 Z.add) (f2 Z.mul) (f2 Z.sub) (fun a => match a with Some a => Some (- a) | None => None end) (fun a => a)
    (fun a b => match a, b with Some a, Some b => a =? b | _, _ => false end) (f2 Z.div).
Theorem C26_beta_zero_nan_refuted : let h := C23_H 1 1 1 (mkCmat 1 1 1 gn 0 [0;1] [0] [Some 3] None None false dg_non_unit None) in
  let run ty := csrmm Nops true (fun k => zrep k 0) (fun k => zrep k None) 32 [0] (fun k => zrange 0 k) (Some mk_ref) op_none (Some 1) (Some h)
                  (Some (mkDescr ty fm_lower dg_non_unit 0)) 0 (Some [Some 5]) 1 1 (Some 0) (Some [None]) 1 in
  run mt_general = Some (success, Some [None], Some h) /\ run mt_symmetric = Some (success, Some [Some 15], Some h).
Proof. vm_compute. repeat split. Qed.
Print Assumptions C26_beta_zero_nan_refuted.
