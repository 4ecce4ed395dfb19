(** C53: blocked CSR.  [count_blocks] is the counting in aoclsparse_opt_blksize,
    [opt_blksize] the whole function with its floating-point heuristics as parameters,
    [csr2blkcsr] the conversion, [blkcsrmv] the public blocked product with its three
    AVX512 kernels. *)
From Coq Require Import ZArith List Bool Lia.
From Verif Require Import Base BaseFacts Algebra UtilModel DoidModel DoidSpec Csr CsrFacts Decide SortSpec Vec MvModel MvSpec BlkModel BlkSpec BlkPure BlkConv BlkGroups BlkMv BlkProof.
Import ListNotations.
Open Scope Z_scope.

Lemma input_asc : forall T m n nnz b ptr ind (val : list T), blk_input m n nnz b ptr ind val ->
  forall i k k', 0 <= i < m -> in_row ptr b i k -> in_row ptr b i k' -> k < k' -> zn ind k < zn ind k'.
Proof.
  intros T m n nnz b ptr ind val [W _ _ _ S D] i k k' Hi H1 H2 Hk. pose proof (S i k k' Hi H1 H2 Hk).
  assert (zn ind k <> zn ind k'); [|lia]. intros E. pose proof (D i k k' Hi H1 H2). lia.
Qed.

Lemma mv_call : forall T (O : ops T), laws O -> forall m n nnz b ptr ind (val : list T), blk_input m n nnz b ptr ind val -> forall nb, height nb ->
  forall bp bc bv bm, holds_blk O m n b ptr ind val nb bp bc bv bm ->
  forall d alpha beta x y, d_type d = mt_general -> d_base d = b -> 0 < nnz -> zlen x = n -> zlen y = m ->
  exists y1, blkcsrmv O true op_none (Some alpha) m n nnz (Some bm) (Some bv) (Some bc) (Some bp) (Some d) (Some x) (Some beta) (Some y) nb = Some (success, Some y1) /\
    mv_spec O m n alpha beta (csr_mat O b ptr ind val) x y y1.
Proof.
  intros T O L m n nnz b ptr ind val I nb Hh bp bc bv bm Hold d alpha beta x y Ht Hb Hz Lx Ly.
  pose proof (input_asc _ _ _ _ _ _ _ _ I) as Hasc. destruct I as [W Lv B [N1 N2] S D]. pose proof (wf_m _ _ _ _ _ _ W) as Hm.
  assert (0 < m) as Hm0. { destruct (Z.eq_dec m 0) as [->|]; [|lia]. destruct (wf_ptr _ _ _ _ _ _ W) as (E1 & E2 & _). lia. }
  unfold blkcsrmv. cbn [negb]. rewrite Ht, Hb.
  replace (negb (b =? 0) && negb (b =? 1)) with false by (destruct B as [-> | ->]; reflexivity). cbn [negb].
  replace ((m <? 0) || (n <? 8) || (nnz <? 0)) with false by (symmetry; rewrite !orb_false_iff; repeat split; apply Z.ltb_ge; lia).
  replace ((m =? 0) || (n =? 0) || (nnz =? 0)) with false by (symmetry; rewrite !orb_false_iff; repeat split; apply Z.eqb_neq; lia).
  replace ((nb =? 1) || (nb =? 2) || (nb =? 4)) with true by (destruct Hh as [-> | [-> | ->]]; reflexivity).
  assert (0 < nb) as Hnb by (destruct Hh as [-> | [-> | ->]]; lia).
  destruct (kernel_ok O L m n nnz b ptr ind val W Lv N1 N2 Hasc nb Hnb bp bc bv bm alpha beta x y Hold Lx Ly) as (y1 & -> & P). exists y1. split; [reflexivity|exact P].
Qed.

(** C53.  For every sorted matrix without repeated positions and every block height there is
    a number of blocks, not above the number of stored entries, for which the conversion
    stays inside arrays with room for that many blocks, and every product on the result is
    alpha A x + beta y.  Missing (refuted below): matrices without stored entries, repeated
    positions, unsorted rows, symmetric descriptors, null scalars; the arithmetic is exact,
    so vectors with infinities are outside as well. *)
Theorem C53_blocked_product_partial : forall T (O : ops T), laws O ->
  forall m n nnz b ptr ind (val : list T), blk_input m n nnz b ptr ind val -> forall nb, height nb ->
  exists k, count_blocks nb m b ptr ind = Some k /\ 0 <= k <= nnz /\
  forall bp0 bc0 bv0 bm0, room m nnz nb k bp0 bc0 bv0 bm0 ->
  exists bp bc bv bm,
    csr2blkcsr m n nnz (Some ptr) (Some ind) (Some val) (Some bp0) (Some bc0) (Some bv0) (Some bm0) nb b = Some (success, Some (bp, bc, bv, bm)) /\
    (zlen bp = zlen bp0 /\ zlen bc = zlen bc0 /\ zlen bv = zlen bv0 /\ zlen bm = zlen bm0) /\
    forall d alpha beta x y, d_type d = mt_general -> d_base d = b -> 0 < nnz -> zlen x = n -> zlen y = m ->
    exists y1, blkcsrmv O true op_none (Some alpha) m n nnz (Some bm) (Some bv) (Some bc) (Some bp) (Some d) (Some x) (Some beta) (Some y) nb = Some (success, Some y1) /\
      mv_spec O m n alpha beta (csr_mat O b ptr ind val) x y y1.
Proof.
  intros T O L m n nnz b ptr ind val I nb Hh. pose proof (input_asc _ _ _ _ _ _ _ _ I) as Hasc. pose proof I as [W Lv B [N1 N2] S D].
  assert (0 < nb) as Hnb by (destruct Hh as [-> | [-> | ->]]; lia).
  exists (off O m b ptr ind val nb (ng m nb)). split; [eapply count_blocks_ok; eauto|]. split; [eapply off_nnz; eauto|].
  intros bp0 bc0 bv0 bm0 (R1 & R2 & R3 & R4).
  destruct (conv_ok O m n nnz b ptr ind val W Lv N1 N2 Hasc nb Hnb bp0 bc0 bv0 bm0 Hh R1 R2 R3 R4) as (bp & bc & bv & bm & E & Hold & Ls).
  exists bp, bc, bv, bm. split; [exact E|]. split; [exact Ls|]. intros. eapply mv_call; eauto.
Qed.
Print Assumptions C53_blocked_product_partial.

(** C53.  Whatever its floating-point heuristics decide, opt_blksize answers 0 and leaves
    *total_blks alone, or it answers 2 or 4 and *total_blks is the number of blocks: the
    arrays aoclsparse_optimize allocates from it (m+1 row pointers, nnz columns, nnz + 8 nb
    values, total*nb masks) have room, and the product on the converted copy is right. *)
Theorem C53_optimize_partial : forall T (O : ops T), laws O -> forall low pick,
  forall m n nnz b ptr ind (val : list T), blk_input m n nnz b ptr ind val -> forall t0,
  exists nb t1, opt_blksize low pick m nnz b (Some ptr) (Some ind) (Some t0) = Some (nb, Some t1) /\
    (nb = 0 /\ t1 = t0 \/
     (nb = 2 \/ nb = 4) /\ 0 < t1 <= nnz /\
     forall bp0 bc0 bv0 bm0, zlen bp0 = m + 1 -> zlen bc0 = nnz -> zlen bv0 = nnz + nb * 8 -> zlen bm0 = t1 * nb ->
     exists bp bc bv bm,
       csr2blkcsr m n nnz (Some ptr) (Some ind) (Some val) (Some bp0) (Some bc0) (Some bv0) (Some bm0) nb b = Some (success, Some (bp, bc, bv, bm)) /\
       forall d alpha beta x y, d_type d = mt_general -> d_base d = b -> zlen x = n -> zlen y = m ->
       exists y1, blkcsrmv O true op_none (Some alpha) m n nnz (Some bm) (Some bv) (Some bc) (Some bp) (Some d) (Some x) (Some beta) (Some y) nb = Some (success, Some y1) /\
         mv_spec O m n alpha beta (csr_mat O b ptr ind val) x y y1).
Proof.
  intros T O L low pick m n nnz b ptr ind val I t0. unfold opt_blksize.
  destruct ((m <=? 0) || (nnz <=? 0)) eqn:Es; [exists 0, t0; auto|]. apply orb_false_iff in Es. destruct Es as [Em Ez]. apply Z.leb_gt in Em. apply Z.leb_gt in Ez.
  destruct (C53_blocked_product_partial T O L m n nnz b ptr ind val I 1 ltac:(left; reflexivity)) as (k1 & -> & R1 & _).
  destruct ((k1 =? 0) || low m nnz k1); [exists 0, t0; auto|].
  destruct (C53_blocked_product_partial T O L m n nnz b ptr ind val I 2 ltac:(right; left; reflexivity)) as (k2 & -> & R2 & P2).
  destruct (k2 =? 0) eqn:E2; [exists 0, t0; auto|]. apply Z.eqb_neq in E2.
  destruct (C53_blocked_product_partial T O L m n nnz b ptr ind val I 4 ltac:(right; right; reflexivity)) as (k4 & -> & R4 & P4).
  destruct (k4 =? 0) eqn:E4; [exists 0, t0; auto|]. apply Z.eqb_neq in E4.
  destruct (pick m nnz k1 k2 k4).
  - exists 0, t0. auto.
  - exists 2, k2. split; [reflexivity|]. right. split; [auto|]. split; [lia|]. intros bp0 bc0 bv0 bm0 L1 L2 L3 L4.
    destruct (P2 bp0 bc0 bv0 bm0 ltac:(unfold room; lia)) as (bp & bc & bv & bm & E & _ & P). exists bp, bc, bv, bm. split; [exact E|]. intros. apply P; auto.
  - exists 4, k4. split; [reflexivity|]. right. split; [auto|]. split; [lia|]. intros bp0 bc0 bv0 bm0 L1 L2 L3 L4.
    destruct (P4 bp0 bc0 bv0 bm0 ltac:(unfold room; lia)) as (bp & bc & bv & bm & E & _ & P). exists bp, bc, bv, bm. split; [exact E|]. intros. apply P; auto.
Qed.
Print Assumptions C53_optimize_partial.

(** C53.  Arguments outside the documented ones are refused and nothing is written. *)
Theorem C53_rejects : forall T (O : ops T) can_exec op alpha m n nnz bm bv bc bp d x beta y nb st,
  can_exec = false \/ d = None \/ (exists dd, d = Some dd /\ (d_base dd <> 0 /\ d_base dd <> 1 \/ d_type dd = mt_hermitian \/ d_type dd = mt_triangular)) \/
  op <> op_none \/ m < 0 \/ n < 8 \/ nnz < 0 \/
  (0 < m /\ 0 < nnz /\ (bm = None \/ bv = None \/ bc = None \/ bp = None \/ x = None \/ y = None \/ ~ height nb)) ->
  blkcsrmv O can_exec op alpha m n nnz bm bv bc bp d x beta y nb = st ->
  exists e, st = Some (e, None) /\ e <> success.
Proof.
  intros T O ce op alpha m n nnz bm bv bc bp d x beta y nb st H <-. unfold blkcsrmv.
  destruct ce; cbn [negb]; [|eexists; split; [reflexivity|discriminate]].
  destruct d as [d|]; [|eexists; split; [reflexivity|discriminate]].
  destruct (negb (d_base d =? 0) && negb (d_base d =? 1)) eqn:Eb; [eexists; split; [reflexivity|discriminate]|].
  destruct (d_type d) eqn:Et; cbn [negb]; try (eexists; split; [reflexivity|discriminate]).
  all: destruct op; cbn [negb]; try (eexists; split; [reflexivity|discriminate]).
  all: destruct ((m <? 0) || (n <? 8) || (nnz <? 0)) eqn:Es; [eexists; split; [reflexivity|discriminate]|].
  all: assert (0 < m /\ 0 < nnz /\ (bm = None \/ bv = None \/ bc = None \/ bp = None \/ x = None \/ y = None \/ ~ height nb)) as (Hm & Hz & C)
    by (apply orb_false_iff in Es; destruct Es as [Es1 Es2]; apply orb_false_iff in Es1; destruct Es1 as [Es0 Es1]; apply Z.ltb_ge in Es0, Es1, Es2; apply andb_false_iff in Eb;
        rewrite !negb_false_iff, !Z.eqb_eq in Eb;
        destruct H as [H|[H|[(dd & E & H)|[H|[H|[H|[H|H]]]]]]]; try exact H; try discriminate; try lia; try congruence; injection E as <-; rewrite Et in H; destruct H as [H|[H|H]]; try discriminate; lia).
  all: apply orb_false_iff in Es; destruct Es as [Es1 Es2]; apply orb_false_iff in Es1; destruct Es1 as [Es0 Es1]; apply Z.ltb_ge in Es0, Es1, Es2.
  all: replace ((m =? 0) || (n =? 0) || (nnz =? 0)) with false by (symmetry; rewrite !orb_false_iff; repeat split; apply Z.eqb_neq; lia).
  all: destruct bv, bp, bc, bm, x, y; try (eexists; split; [reflexivity|discriminate]).
  all: destruct ((nb =? 1) || (nb =? 2) || (nb =? 4)) eqn:En; [|eexists; split; [reflexivity|discriminate]].
  all: exfalso; destruct C as [C|[C|[C|[C|[C|[C|C]]]]]]; try discriminate; apply C; unfold height; rewrite !orb_true_iff, !Z.eqb_eq in En; tauto.
Qed.
Print Assumptions C53_rejects.

Definition bd : descr := mkDescr mt_general fm_lower dg_non_unit 0.
Definition bsym : descr := mkDescr mt_symmetric fm_lower dg_non_unit 0.

(** A 5 x 10 matrix with blocks that are cut at the right edge. *)
Definition C53_ptr : list Z := [0;3;3;5;8;9].
Definition C53_ind : list Z := [0;7;9; 4;5; 2;3;9; 9].
Definition C53_val : list Z := [1;2;3; 4;5; 6;7;8; 9].
Example C53_input : blk_input 5 10 9 0 C53_ptr C53_ind C53_val.
Proof. split; [apply csr_wfb_ok; reflexivity|reflexivity|auto|lia|apply rows_sortedb_ok; reflexivity|apply rows_distinctb_ok; reflexivity]. Qed.
Example C53_case : map (fun nb => match csr2blkcsr 5 10 9 (Some C53_ptr) (Some C53_ind) (Some C53_val) (Some (zrep 6 0)) (Some (zrep 9 (-1))) (Some (zrep 9 0)) (Some (zrep 20 0)) nb 0 with
    | Some (_, Some (bp, bc, bv, bm)) => (count_blocks nb 5 0 C53_ptr C53_ind, bp, bc,
        blkcsrmv Zops true op_none (Some 2) 5 10 9 (Some bm) (Some bv) (Some bc) (Some bp) (Some bd) (Some [1;2;3;4;5;6;7;8;9;10]) (Some 3) (Some [1;1;1;1;1]) nb)
    | _ => (None, [], [], None) end) [1;2;4]
  = [(Some 5, [0;2;2;3;4;5], [0;2;2;2;2;-1;-1;-1;-1], Some (success, Some [97;3;103;255;183]));
     (Some 4, [0;2;2;3;3;4], [0;2;2;2;-1;-1;-1;-1;-1], Some (success, Some [97;3;103;255;183]));
     (Some 3, [0;2;2;2;2;3], [0;2;2;-1;-1;-1;-1;-1;-1], Some (success, Some [97;3;103;255;183]))].
Proof. vm_compute. reflexivity. Qed.

(** Finding.  A matrix without stored entries: the call succeeds and y is not scaled. *)
Theorem C53_empty_refuted : exists m n ptr ind val x y,
  blk_input m n 0 0 ptr ind val /\ zlen x = n /\ zlen y = m /\
  blkcsrmv Zops true op_none (Some 1) m n 0 (Some []) (Some val) (Some ind) (Some ptr) (Some bd) (Some x) (Some 2) (Some y) 1 = Some (success, None) /\
  ~ mv_spec Zops m n 1 2 (csr_mat Zops 0 ptr ind val) x y y.
Proof.
  exists 1, 8, [0;0], [], [], (zrep 8 1), [5]. split; [split; [apply csr_wfb_ok; reflexivity|reflexivity|auto|lia|apply rows_sortedb_ok; reflexivity|apply rows_distinctb_ok; reflexivity]|].
  split; [reflexivity|]. split; [reflexivity|]. split; [reflexivity|]. intros [_ H]. specialize (H 0 ltac:(lia)). vm_compute in H. discriminate H.
Qed.
Print Assumptions C53_empty_refuted.

(** Finding.  A descriptor of symmetric type is accepted, but only the stored triangle is
    multiplied. *)
Theorem C53_symmetric_refuted : exists n nnz ptr ind val bp bc bv bm x y y1,
  blk_input n n nnz 0 ptr ind val /\ zlen x = n /\ zlen y = n /\
  csr2blkcsr n n nnz (Some ptr) (Some ind) (Some val) (Some (zrep (n + 1) 0)) (Some (zrep nnz 0)) (Some (zrep nnz 0)) (Some (zrep nnz 0)) 1 0 = Some (success, Some (bp, bc, bv, bm)) /\
  blkcsrmv Zops true op_none (Some 1) n n nnz (Some bm) (Some bv) (Some bc) (Some bp) (Some bsym) (Some x) (Some 0) (Some y) 1 = Some (success, Some y1) /\
  ~ mv_spec Zops n n 1 0 (described Zops (d_type bsym) (d_fill bsym) (d_diag bsym) (csr_mat Zops 0 ptr ind val)) x y y1.
Proof.
  exists 8, 2, [0;1;2;2;2;2;2;2;2], [0;0], [1;5]. eexists _, _, _, _, (zrep 8 1), (zrep 8 0), _.
  split; [split; [apply csr_wfb_ok; reflexivity|reflexivity|auto|lia|apply rows_sortedb_ok; reflexivity|apply rows_distinctb_ok; reflexivity]|].
  split; [reflexivity|]. split; [reflexivity|]. split; [vm_compute; reflexivity|]. split; [vm_compute; reflexivity|]. intros [_ H]. specialize (H 0 ltac:(lia)). vm_compute in H. discriminate H.
Qed.
Print Assumptions C53_symmetric_refuted.

(** Finding.  A position stored twice gets one mask bit and two values: every later value
    is applied to the wrong entry. *)
Theorem C53_repeated_positions_refuted : exists m n nnz ptr ind val bp bc bv bm x y y1,
  csr_wf m n nnz 0 ptr ind /\ rows_sorted m 0 ptr ind /\ zlen val = nnz /\ 8 <= n /\ zlen x = n /\ zlen y = m /\
  csr2blkcsr m n nnz (Some ptr) (Some ind) (Some val) (Some (zrep (m + 1) 0)) (Some (zrep nnz 0)) (Some (zrep nnz 0)) (Some (zrep nnz 0)) 1 0 = Some (success, Some (bp, bc, bv, bm)) /\
  blkcsrmv Zops true op_none (Some 1) m n nnz (Some bm) (Some bv) (Some bc) (Some bp) (Some bd) (Some x) (Some 0) (Some y) 1 = Some (success, Some y1) /\
  ~ mv_spec Zops m n 1 0 (csr_mat Zops 0 ptr ind val) x y y1.
Proof.
  exists 2, 8, 3, [0;2;3], [1;1;4], [1;2;3]. eexists _, _, _, _, (zrep 8 1), (zrep 2 0), _.
  split; [apply csr_wfb_ok; reflexivity|]. split; [apply rows_sortedb_ok; reflexivity|]. split; [reflexivity|]. split; [lia|].
  split; [reflexivity|]. split; [reflexivity|]. split; [vm_compute; reflexivity|]. split; [vm_compute; reflexivity|]. intros [_ H]. specialize (H 0 ltac:(lia)). vm_compute in H. discriminate H.
Qed.
Print Assumptions C53_repeated_positions_refuted.

(** Finding.  Rows that are not sorted are not refused: the mask is shifted by a negative
    count, which is undefined. *)
Theorem C53_unsorted_refuted : exists m n nnz ptr ind (val : list Z) bp bc bv bm,
  csr_wf m n nnz 0 ptr ind /\ rows_distinct m 0 ptr ind /\ zlen val = nnz /\ 8 <= n /\ room m nnz 1 nnz bp bc bv bm /\
  csr2blkcsr m n nnz (Some ptr) (Some ind) (Some val) (Some bp) (Some bc) (Some bv) (Some bm) 1 0 = None.
Proof.
  exists 1, 8, 2, [0;2], [4;1], [1;2], (zrep 2 0), (zrep 2 0), (zrep 2 0), (zrep 2 0).
  split; [apply csr_wfb_ok; reflexivity|]. split; [apply rows_distinctb_ok; reflexivity|]. split; [reflexivity|]. split; [lia|].
  split; [repeat split; reflexivity || (unfold zlen; cbn; lia)|]. vm_compute. reflexivity.
Qed.
Print Assumptions C53_unsorted_refuted.

(** Finding.  alpha and beta are read through null pointers when all the rest is valid. *)
Theorem C53_null_scalars_refuted : forall T (O : ops T) m n nnz bm bv bc bp d x y nb alpha beta,
  0 < m -> 8 <= n -> 0 < nnz -> d_type d = mt_general -> d_base d = 0 \/ d_base d = 1 -> height nb -> alpha = None \/ beta = None ->
  blkcsrmv O true op_none alpha m n nnz (Some bm) (Some bv) (Some bc) (Some bp) (Some d) (Some x) beta (Some y) nb = None.
Proof.
  intros T O m n nnz bm bv bc bp d x y nb alpha beta H1 H2 H3 Ht Hb Hh Hs. unfold blkcsrmv. cbn [negb]. rewrite Ht.
  replace (negb (d_base d =? 0) && negb (d_base d =? 1)) with false by (destruct Hb as [-> | ->]; reflexivity). cbn [negb].
  replace ((m <? 0) || (n <? 8) || (nnz <? 0)) with false by (symmetry; rewrite !orb_false_iff; repeat split; apply Z.ltb_ge; lia).
  replace ((m =? 0) || (n =? 0) || (nnz =? 0)) with false by (symmetry; rewrite !orb_false_iff; repeat split; apply Z.eqb_neq; lia).
  replace ((nb =? 1) || (nb =? 2) || (nb =? 4)) with true by (destruct Hh as [-> | [-> | ->]]; reflexivity).
  destruct alpha; [destruct beta; [destruct Hs; discriminate|reflexivity]|reflexivity].
Qed.
Print Assumptions C53_null_scalars_refuted.

(** Finding (IEEE doubles).  The lanes of a block without an entry multiply 0 by x: if x is
    infinite there the result is NaN, where the CSR kernel returns the right value. *)
From Coq Require Import Floats.SpecFloat.
From Verif Require Import Float64.
Theorem C53_infinite_x_refuted : exists m n nnz ptr ind val bp bc bv bm x y y1 y2,
  blk_input m n nnz 0 ptr ind val /\ zlen x = n /\ zlen y = m /\
  csr2blkcsr m n nnz (Some ptr) (Some ind) (Some val) (Some (zrep (m + 1) 0)) (Some (zrep nnz 0)) (Some (zrep nnz (f_of 0))) (Some (zrep nnz 0)) 1 0 = Some (success, Some (bp, bc, bv, bm)) /\
  blkcsrmv F64ops true op_none (Some (o1 F64ops)) m n nnz (Some bm) (Some bv) (Some bc) (Some bp) (Some bd) (Some x) (Some (o0 F64ops)) (Some y) 1 = Some (success, Some y1) /\
  ref_csrmv_gn F64ops 0 (o1 F64ops) m val ind ptr x (o0 F64ops) y = Some y2 /\
  nthZ (f_of 0) y1 0 = S754_nan /\ nthZ (f_of 0) y2 0 = f_of 1.
Proof.
  exists 1, 8, 1, [0;1], [0], [f_of 1]. eexists _, _, _, _, (f_of 1 :: S754_infinity false :: zrep 6 (f_of 1)), [f_of 0], _, _.
  split; [split; [apply csr_wfb_ok; reflexivity|reflexivity|auto|lia|apply rows_sortedb_ok; reflexivity|apply rows_distinctb_ok; reflexivity]|].
  split; [reflexivity|]. split; [reflexivity|]. split; [vm_compute; reflexivity|]. split; [vm_compute; reflexivity|]. split; [vm_compute; reflexivity|]. split; vm_compute; reflexivity.
Qed.
Print Assumptions C53_infinite_x_refuted.
