(** C19: the 4-row interleaved storage that aoclsparse_optimize builds for products.
    [br4_build] is the conversion inside aoclsparse_optimize_mv, [br4_mv] the kernel mv
    calls on the copy.  Which matrices optimize_mv
    converts and when mv picks the copy is the subject of C57; the theorems here hold for
    every matrix that could be converted. *)
From Coq Require Import ZArith List Bool Lia Permutation.
From Verif Require Import Base BaseFacts Algebra UtilModel DoidModel Csr CsrFacts Decide MvSpec MvModel MvProof CsrmvModel CsrmvProof CheckModel CheckSpec SortModel SortSpec SortInst DoidSpec HandleModel HandleSpec OptProof Br4Spec Br4Model Br4Proof Props_Mv.
Import ListNotations.
Open Scope Z_scope.

(** Whatever the lengths of the rows, whatever the new arrays held, the conversion and the
    product are defined and the result is alpha A x + beta y.  Missing from the full
    property (refuted below): base-one matrices outside [pad_safe]. *)
Theorem C19_br4_product_partial : forall T (O : ops T), laws O ->
  forall m n nnz b ptr ind val fz ft alpha beta x y,
  csr_wf m n nnz b ptr ind -> zlen val = nnz -> 0 < n -> pad_safe m b ptr ->
  (forall z, 0 <= z -> zlen (fz z : list Z) = z) -> (forall z, 0 <= z -> zlen (ft z : list T) = z) ->
  zlen x = n -> zlen y = m ->
  exists bp ind4 val4 y',
    br4_build O fz ft m b ptr ind val = Some (bp, ind4, val4) /\
    br4_mv O alpha m b bp ind4 val4 x beta y = Some y' /\
    mv_spec O m n alpha beta (csr_mat O b ptr ind val) x y y'.
Proof.
  intros T O L m n nnz b ptr ind val fz ft alpha beta x y W Lv Hn Hs Hz Ht Lx Ly.
  destruct (build_ok O m n nnz b ptr ind val W Lv Hn (pad_safe_ok _ _ _ _ _ _ W Hs) fz ft Hz Ht) as (bp & i4 & v4 & E & C).
  destruct (br4_mv_ok O L m n nnz b ptr ind val W Lv x Lx bp i4 v4 C alpha beta y Ly) as (y' & E' & S). exists bp, i4, v4, y'. auto.
Qed.
Print Assumptions C19_br4_product_partial.

(** The same vector as the product on the original arrays, whichever CSR kernel and
    however many threads that one runs on. *)
Theorem C19_same_as_csr_partial : forall T (O : ops T), laws O ->
  forall dt choice nthreads team m n nnz d ptr ind val fz ft alpha beta x y y1,
  nthreads <= 1 \/ Permutation team (zrange 0 nthreads) -> is_cplx dt = false -> (forall a, ocj O a = a) ->
  d_type d = mt_general -> d_base d = 0 \/ d_base d = 1 ->
  csr_wf m n nnz (d_base d) ptr ind -> zlen val = nnz -> 0 < n -> pad_safe m (d_base d) ptr ->
  (forall z, 0 <= z -> zlen (fz z : list Z) = z) -> (forall z, 0 <= z -> zlen (ft z : list T) = z) ->
  zlen x = n -> zlen y = m ->
  csrmv_pub O dt choice nthreads team op_none (Some alpha) m n nnz (Some val) (Some ind) (Some ptr) (Some d) (Some x) (Some beta) (Some y) = Some (success, Some y1) ->
  exists bp ind4 val4, br4_build O fz ft m (d_base d) ptr ind val = Some (bp, ind4, val4) /\
    br4_mv O alpha m (d_base d) bp ind4 val4 x beta y = Some y1.
Proof.
  intros T O L dt choice nt team m n nnz d ptr ind val fz ft alpha beta x y y1 Ht Hc Hr Hty Hb W Lv Hn Hs Hz Hf Lx Ly E.
  destruct (C19_br4_product_partial T O L m n nnz (d_base d) ptr ind val fz ft alpha beta x y W Lv Hn Hs Hz Hf Lx Ly) as (bp & i4 & v4 & y' & E1 & E2 & S1 & S2).
  exists bp, i4, v4. split; [exact E1|]. rewrite E2. f_equal.
  destruct (C15_csrmv_general_correct T O L dt choice nt team Ht Hc Hr op_none d m n nnz val ind ptr alpha beta x y Hty W Hb Lv eq_refl Lx Ly) as [(E3 & _) | (y2 & E3 & S3 & S4)].
  - rewrite E in E3. discriminate E3.
  - rewrite E in E3. injection E3 as <-. cbn [op_sem] in S3, S4. apply (nthZ_ext _ (o0 O)); [lia|]. intros k Hk. rewrite S2, S4 by lia. reflexivity.
Qed.
Print Assumptions C19_same_as_csr_partial.

(** ** Concrete cases: seven rows, one complete block with lengths 0 3 1 2, base zero, and
    a base-one matrix with an empty row inside a block. *)
Definition c19_ptr : list Z := [0;0;3;4;6;7;7;8].
Definition c19_ind : list Z := [0;2;1;3;1;0;3;2].
Definition c19_val : list Z := [1;2;3;4;5;6;7;8].
Example C19_case_hyps : csr_wf 7 4 8 0 c19_ptr c19_ind /\ pad_safe 7 0 c19_ptr /\
  csr_wf 4 4 4 1 [1;3;3;4;5] [1;4;2;3] /\ pad_safe 4 1 [1;3;3;4;5].
Proof.
  split; [apply csr_wfb_ok; reflexivity|]. split; [left; reflexivity|]. split; [apply csr_wfb_ok; reflexivity|]. right.
  intros i Hi. change (4 / 4 * 4) with 4 in Hi. assert (i = 0 \/ i = 1 \/ i = 2 \/ i = 3) as [-> | [-> | [-> | ->]]] by lia; vm_compute; congruence.
Qed.
Example C19_case_run :
  br4_build Zops junkz junkz 7 0 c19_ptr c19_ind c19_val =
    Some ([0;3;6;9;12;13;13;14], [0;0;3;1; 0;2;3;0; 0;1;3;0; 3;2], [0;1;4;5; 0;2;0;6; 0;3;0;0; 7;8]) /\
  br4_mv Zops 2 7 0 [0;3;6;9;12;13;13;14] [0;0;3;1; 0;2;3;0; 0;1;3;0; 3;2] [0;1;4;5; 0;2;0;6; 0;3;0;0; 7;8] [1;10;100;1000] 3 [1;1;1;1;1;1;1]
    = Some [3;465;8003;115;14003;3;1603].
Proof. split; vm_compute; reflexivity. Qed.

(** ** Finding: with one-based indexing, an empty row that must be padded before any entry
    has been stored is padded with column 0, and the product then reads x[-1]. *)
Theorem C19_empty_leading_row_refuted : exists m n nnz ptr ind val x y,
  csr_wf m n nnz 1 ptr ind /\ zlen val = nnz /\ 0 < n /\ zlen x = n /\ zlen y = m /\
  exists bp ind4 val4, br4_build Zops junkz junkz m 1 ptr ind val = Some (bp, ind4, val4) /\
    br4_mv Zops 1 m 1 bp ind4 val4 x 0 y = None.
Proof.
  exists 4, 4, 3, [1;1;2;3;4], [2;1;4], [5;6;7], [1;1;1;1], [0;0;0;0].
  split; [apply csr_wfb_ok; reflexivity|]. split; [reflexivity|]. split; [lia|]. split; [reflexivity|]. split; [reflexivity|].
  eexists _, _, _. split; vm_compute; reflexivity.
Qed.
Print Assumptions C19_empty_leading_row_refuted.

(** ** Finding: in IEEE arithmetic the padding is not neutral.  An empty row inside a block
    is padded with 0 * x[j] for a column j of another row: if that x[j] is infinite the
    result is NaN, where the CSR kernels return 0. *)
From Coq Require Import Floats.SpecFloat.
From Verif Require Import Float64.
Theorem C19_infinite_x_refuted : exists m n nnz ptr ind val x y,
  csr_wf m n nnz 0 ptr ind /\ zlen val = nnz /\ 0 < n /\ zlen x = n /\ zlen y = m /\
  exists bp ind4 val4 y1 y2, br4_build F64ops (fun z => zrep z 0) (fun z => zrep z (f_of 7)) m 0 ptr ind val = Some (bp, ind4, val4) /\
    br4_mv F64ops (o1 F64ops) m 0 bp ind4 val4 x (o0 F64ops) y = Some y1 /\
    ref_csrmv_gn F64ops 0 (o1 F64ops) m val ind ptr x (o0 F64ops) y = Some y2 /\
    nthZ (f_of 0) y1 1 = S754_nan /\ nthZ (f_of 0) y2 1 = f_of 0.
Proof.
  exists 4, 2, 3, [0;1;1;2;3], [1;0;0], [f_of 1; f_of 1; f_of 1], [f_of 5; S754_infinity false], [f_of 0; f_of 0; f_of 0; f_of 0].
  split; [apply csr_wfb_ok; reflexivity|]. split; [reflexivity|]. split; [lia|]. split; [reflexivity|]. split; [reflexivity|].
  eexists _, _, _, _, _. split; [vm_compute; reflexivity|]. split; [vm_compute; reflexivity|]. split; [vm_compute; reflexivity|]. split; vm_compute; reflexivity.
Qed.
Print Assumptions C19_infinite_x_refuted.
