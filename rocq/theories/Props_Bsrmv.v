(** C48: products with BSR matrices. *)
From Coq Require Import ZArith List Bool Lia ZifyBool Ring.
From Verif Require Import Base BaseFacts Algebra UtilModel DoidModel CheckModel MvModel MvSpec CsrmvModel Csr CsrFacts SortSpec HandleModel BsrModel BsrSpec BsrProof BsrmvModel BsrmvSpec BsrmvProof Props_Bsr Decide.
Import ListNotations.
Open Scope Z_scope.

(** C48.  For every block dimension, value type and instruction set, every valid block
    structure (blocks of a row in any order, repeated block columns add up), every alpha
    and beta: y becomes alpha * A * x + beta * y, A being the matrix the column-ordered
    blocks denote.  Missing (refuted below): matrices with block rows and no block column. *)
Theorem C48_bsrmv_partial : forall T (O : ops T), laws O ->
  forall w dt a512 mb nb bd nnz ptr ind val d x y alpha beta,
  w = 31 \/ w = 63 -> 0 < bd -> 0 < mb -> 0 < nb -> (d_base d = 0 \/ d_base d = 1) -> d_type d = mt_general ->
  csr_wf mb nb nnz (d_base d) ptr ind -> zlen val = nnz * bd * bd -> zlen x = nb * bd -> zlen y = mb * bd ->
  bd * bd <= int_max w -> bd * bd * nnz <= int_max w -> bd * nb <= int_max w ->
  exists y', bsrmv O w dt a512 op_none (Some alpha) mb nb bd (Some val) (Some ind) (Some ptr) (Some d) (Some x) (Some beta) (Some y) = Some (success, Some y') /\
    mv_spec O (mb * bd) (nb * bd) alpha beta (bsr_elem O false (d_base d) bd ptr ind val) x y y'.
Proof. intros T O L. exact (bsrmv_ok O L). Qed.
Print Assumptions C48_bsrmv_partial.

(** Converting a CSR matrix to column-ordered blocks and multiplying gives the CSR
    product: the padding columns of x do not matter and the padding rows of y are scaled
    by beta. *)
Theorem C48_convert_then_multiply : forall T (O : ops T), laws O ->
  forall w dt a512 m n nnz bd ptr ind val d bptr0 x y alpha beta,
  csr_wf m n nnz (d_base d) ptr ind -> zlen val = nnz -> rows_distinct m (d_base d) ptr ind ->
  0 < bd -> 0 < m -> 0 < n -> (d_base d = 0 \/ d_base d = 1) -> d_type d = mt_general -> (w = 31 \/ w = 63) ->
  m + bd - 1 <= int_max w -> n + bd - 1 <= int_max w -> d_base d + nnz <= int_max w -> bd * bd <= int_max w -> nblocks n bd * bd <= int_max w ->
  zlen bptr0 = nblocks m bd + 1 -> zlen x = nblocks n bd * bd -> zlen y = nblocks m bd * bd ->
  exists bptr bnnz,
    csr2bsr_nnz w m n (Some (d_base d)) (Some ptr) (Some ind) bd (Some bptr0) true = Some (success, Some bptr, Some bnnz) /\
    forall bind0, zlen bind0 = bnnz -> bnnz * bd * bd <= int_max w ->
    exists bval bind y',
      csr2bsr w m n (Some (d_base d)) false (Some val) (Some ptr) (Some ind) bd (Some (zrep (bnnz * bd * bd) (o0 O))) (Some bptr) (Some bind0)
        = Some (success, Some bval, Some bind) /\
      bsrmv O w dt a512 op_none (Some alpha) (nblocks m bd) (nblocks n bd) bd (Some bval) (Some bind) (Some bptr) (Some d) (Some x) (Some beta) (Some y)
        = Some (success, Some y') /\
      mv_spec O (nblocks m bd * bd) n alpha beta (fun i j => if i <? m then csr_mat O (d_base d) ptr ind val i j else o0 O) x y y'.
Proof.
  intros T O L w dt a512 m n nnz bd ptr ind val d bptr0 x y alpha beta W LV D Hbd Hm Hn B01 Ht Hw Fm Fn Fz Fb Fx LB Lx Ly.
  destruct (C10_csr2bsr T (o0 O) w m n nnz (d_base d) bd ptr ind val false bptr0 W LV Hbd Hm Hn B01 Hw Fm Fn Fz LB) as (bp & z & E & H).
  destruct (C10_same_matrix T O L w m n nnz (d_base d) bd ptr ind val false bptr0 W LV D Hbd Hm Hn B01 Hw Fm Fn Fz LB) as (bp2 & z2 & E2 & H2).
  rewrite E in E2. inversion E2; subst bp2 z2. clear E2.
  exists bp, z. split; [exact E|]. intros bind0 LI FIT.
  destruct (H bind0 LI FIT) as (bv & bi & C1 & BO & V). destruct (H2 bind0 LI FIT) as (bv2 & bi2 & C2 & V2). rewrite C1 in C2. inversion C2; subst bv2 bi2. clear C2.
  pose proof (nblocks_pos m n bd Hbd m Hm) as NM. pose proof (nblocks_pos m n bd Hbd n Hn) as NN. destruct BO as [BW BL BS _].
  assert (M0 : 0 < nblocks m bd) by nia. assert (N0 : 0 < nblocks n bd) by nia.
  destruct (bsrmv_ok O L w dt a512 (nblocks m bd) (nblocks n bd) bd z bp bi bv d x y alpha beta) as (y' & Ey & Ly' & Hy); auto; try lia.
  exists bv, bi, y'. split; [exact C1|]. split; [exact Ey|]. split; [exact Ly'|].
  intros i Hi. rewrite Hy by exact Hi. f_equal. f_equal.
  rewrite (sumz_split O L 0 n (nblocks n bd * bd)) by lia. rewrite (sumz_zero O L n (nblocks n bd * bd)).
  - rewrite (sumz_ext O 0 n _ (fun j => omul O (if i <? m then csr_mat O (d_base d) ptr ind val i j else o0 O) (nthZ (o0 O) x j))).
    + destruct (l_ring L). rewrite Radd_comm. apply Radd_0_l.
    + intros j Hj. f_equal. rewrite (elem_get O L false (d_base d) bd (nblocks m bd)) by auto.
      destruct (i <? m) eqn:Ei; [apply V2; lia|]. rewrite V by lia. rewrite Ei. reflexivity.
  - intros j Hj. rewrite (elem_get O L false (d_base d) bd (nblocks m bd)) by auto. rewrite V by lia.
    replace (j <? n) with false by lia. rewrite andb_false_r. apply (mul_zero O L).
Qed.
Print Assumptions C48_convert_then_multiply.

(** Invalid requests are rejected before y is touched: a null scalar, descriptor or
    array, a base other than 0 or 1, a type other than general, an operation other than
    none, a negative size. *)
Theorem C48_invalid_rejected : forall T (O : ops T) w dt a512 op alpha mb nb bd val ind ptr d x beta y,
  (alpha = None \/ beta = None \/ d = None -> bsrmv O w dt a512 op alpha mb nb bd val ind ptr d x beta y = Some (invalid_pointer, None)) /\
  (forall al be dd, alpha = Some al -> beta = Some be -> d = Some dd ->
     (d_base dd <> 0 /\ d_base dd <> 1 -> bsrmv O w dt a512 op alpha mb nb bd val ind ptr d x beta y = Some (invalid_value, None)) /\
     (d_base dd = 0 \/ d_base dd = 1 ->
        (d_type dd <> mt_general \/ op <> op_none -> bsrmv O w dt a512 op alpha mb nb bd val ind ptr d x beta y = Some (not_implemented, None)) /\
        (d_type dd = mt_general -> op = op_none ->
           (mb < 0 \/ nb < 0 \/ bd <= 0 -> bsrmv O w dt a512 op alpha mb nb bd val ind ptr d x beta y = Some (invalid_size, None)) /\
           (0 < mb -> 0 < nb -> 0 < bd -> val = None \/ ind = None \/ ptr = None \/ x = None \/ y = None ->
              bsrmv O w dt a512 op alpha mb nb bd val ind ptr d x beta y = Some (invalid_pointer, None))))).
Proof.
  intros T O w dt a512 op alpha mb nb bd val ind ptr d x beta y. split.
  - intros H. unfold bsrmv. destruct alpha; [|reflexivity]. destruct beta; [|reflexivity]. destruct d; [|reflexivity]. destruct H as [H | [H | H]]; discriminate.
  - intros al be dd -> -> ->. unfold bsrmv. cbv zeta. split.
    + intros H. replace (negb ((d_base dd =? 0) || (d_base dd =? 1))) with true by lia. reflexivity.
    + intros H. replace (negb ((d_base dd =? 0) || (d_base dd =? 1))) with false by lia. split.
      * intros H1. destruct (d_type dd); try reflexivity. destruct op; try reflexivity. destruct H1; congruence.
      * intros -> ->. cbn [negb]. split.
        -- intros H1. replace ((mb <? 0) || (nb <? 0) || (bd <=? 0)) with true by lia. reflexivity.
        -- intros H1 H2 H3 H4. replace ((mb <? 0) || (nb <? 0) || (bd <=? 0)) with false by lia. replace ((mb =? 0) || (nb =? 0)) with false by lia.
           destruct val; [|reflexivity]. destruct ptr; [|reflexivity]. destruct ind; [|reflexivity]. destruct x; [|reflexivity]. destruct y; [|reflexivity]. destruct H4 as [H4 | [H4 | [H4 | [H4 | H4]]]]; discriminate.
Qed.
Print Assumptions C48_invalid_rejected.

(** Full property refuted: with block rows and no block column the call reports success
    and leaves y as it was instead of scaling it by beta. *)
Theorem C48_no_columns_refuted : exists y y',
  bsrmv Zops 31 dt_d false op_none (Some 1) 1 0 2 (Some []) (Some []) (Some [0; 0]) (Some (mkDescr mt_general fm_lower dg_non_unit 0)) (Some []) (Some 3) (Some y) = Some (success, None) /\
  mv_spec Zops 2 0 1 3 (bsr_elem Zops false 0 2 [0; 0] [] []) [] y y' /\ y' <> y.
Proof.
  exists [5; 7], [15; 21]. split; [reflexivity|]. split; [|discriminate]. split; [reflexivity|].
  intros i Hi. assert (C : i = 0 \/ i = 1) by lia. destruct C as [-> | ->]; reflexivity.
Qed.
Print Assumptions C48_no_columns_refuted.

(** A 4 x 6 matrix in 2 x 2 blocks, base 1, blocks of a row out of order *)
Definition bm_ptr := [1; 3; 4].
Definition bm_ind := [3; 1; 2].
Definition bm_val := [1; 2; 3; 4; 5; 6; 7; 8; 9; 10; 11; 12].
Example C48_case_wf : csr_wf 2 3 3 1 bm_ptr bm_ind.
Proof. apply csr_wfb_ok. reflexivity. Qed.
Example C48_case_elems : map (fun i => map (bsr_elem Zops false 1 2 bm_ptr bm_ind bm_val i) (zrange 0 6)) (zrange 0 4)
  = [[5; 7; 0; 0; 1; 3]; [6; 8; 0; 0; 2; 4]; [0; 0; 9; 11; 0; 0]; [0; 0; 10; 12; 0; 0]].
Proof. reflexivity. Qed.
Example C48_case_run : bsrmv Zops 31 dt_d false op_none (Some 2) 2 3 2 (Some bm_val) (Some bm_ind) (Some bm_ptr)
    (Some (mkDescr mt_general fm_lower dg_non_unit 1)) (Some [1; 2; 3; 4; 5; 6]) (Some 10) (Some [1; 1; 1; 1])
  = Some (success, Some [94; 122; 152; 166]).
Proof. vm_compute. reflexivity. Qed.
Example C48_case_general_dim : bsrmv Zops 31 dt_d true op_none (Some 1) 1 1 9 (Some (zrange 0 81)) (Some [0]) (Some [0; 1])
    (Some (mkDescr mt_general fm_lower dg_non_unit 0)) (Some (zrep 9 1)) (Some 0) (Some (zrep 9 77))
  = Some (success, Some [324; 333; 342; 351; 360; 369; 378; 387; 396]).
Proof. vm_compute. reflexivity. Qed.
Example C48_case_vector_dim : bsrmv Zops 31 dt_d true op_none (Some 1) 1 1 8 (Some (zrange 0 64)) (Some [0]) (Some [0; 1])
    (Some (mkDescr mt_general fm_lower dg_non_unit 0)) (Some (zrep 8 1)) (Some 0) (Some (zrep 8 77))
  = Some (success, Some [224; 232; 240; 248; 256; 264; 272; 280]).
Proof. vm_compute. reflexivity. Qed.
Example C48_case_convert : rows_distinct 3 1 bsr_ptr bsr_ind /\ nblocks 3 2 = 2 /\ nblocks 5 2 = 3.
Proof. split; [apply rows_distinctb_ok; reflexivity|split; reflexivity]. Qed.
