(** csr2blkcsr followed by the blocked product. *)
From Coq Require Import ZArith List Bool Lia ZifyBool Sorted.
From Verif Require Import Base BaseFacts Algebra UtilModel DoidModel Csr CsrFacts Vec MvModel MvSpec MvFacts MvProof MvVecProof FmtMvModel OptProof BlkModel BlkPure BlkConv BlkGroups BlkMv.
Import ListNotations.
Open Scope Z_scope.

Section F.
  Context {T : Type} (O : ops T) (L : laws O).
  Local Notation zero := (o0 O).
  Local Notation tn := (nthZ (o0 O)).
  Local Infix "+!" := (oadd O) (at level 50, left associativity).
  Local Infix "*!" := (omul O) (at level 40, left associativity).
  Add Ring BlkF : (l_ring L).
  Variables (m n nnz b : Z) (ptr ind : list Z) (val : list T).
  Hypothesis W : csr_wf m n nnz b ptr ind.
  Hypothesis Lv : zlen val = nnz.
  Hypothesis Hn8 : 8 <= n.
  Hypothesis Hnm : n + 7 <= int_max.
  Hypothesis Hasc : forall i k k', 0 <= i < m -> in_row ptr b i k -> in_row ptr b i k' -> k < k' -> zn ind k < zn ind k'.
  Variable nb : Z.
  Hypothesis Hnb : 0 < nb.

  Local Notation off := (off O m b ptr ind val nb).
  Local Notation allb := (allb O m b ptr ind val nb).
  Local Notation BL := (BL O m b ptr ind val nb).
  Local Notation ng := (ng m nb).
  Local Notation bcol := (fun B : Z * list (row (T := T)) => ccol n (fst B) + b).

  (** the arrays hold the blocks, possibly followed by unused space *)
  Record holds_blk (bp bc : list Z) (bv : list T) (bm : list Z) : Prop := {
    hb_lo : forall g, 0 <= g < ng -> zn bp (g * nb) = off g + b;
    hb_hi : forall g, 0 <= g < ng -> zn bp (g * nb + 1) = off (g + 1) + b;
    hb_len : m + 1 <= zlen bp;
    hb_c : exists q, bc = map bcol (allb ng) ++ q;
    hb_v : exists q, bv = flat_map b_vals (allb ng) ++ q;
    hb_m : exists q, bm = flat_map (b_masks n) (allb ng) ++ q }.

  Lemma copy_ok : forall A (src dst : list A), zlen src <= zlen dst -> exists r q, copy_into src dst = Some r /\ r = src ++ q /\ zlen r = zlen dst.
  Proof.
    intros A src dst H. unfold copy_into. replace (zlen src <=? zlen dst) with true by lia. eexists _, _. split; [reflexivity|]. split; [reflexivity|].
    rewrite zlen_app. unfold zlen in *. rewrite skipn_length. lia.
  Qed.

  Lemma conv_ok : forall bp0 bc0 bv0 bm0, nb = 1 \/ nb = 2 \/ nb = 4 -> m + 1 <= zlen bp0 -> off ng <= zlen bc0 -> nnz <= zlen bv0 -> off ng * nb <= zlen bm0 ->
    exists bp bc bv bm, csr2blkcsr m n nnz (Some ptr) (Some ind) (Some val) (Some bp0) (Some bc0) (Some bv0) (Some bm0) nb b = Some (success, Some (bp, bc, bv, bm)) /\
      holds_blk bp bc bv bm /\ zlen bp = zlen bp0 /\ zlen bc = zlen bc0 /\ zlen bv = zlen bv0 /\ zlen bm = zlen bm0.
  Proof.
    intros bp0 bc0 bv0 bm0 Hb L1 L2 L3 L4. destruct (wf_len _ _ _ _ _ _ W) as [Lp _]. pose proof (wf_m _ _ _ _ _ _ W). pose proof (wf_nnz _ _ _ _ _ _ W).
    destruct (ng_ok m n nnz b ptr ind W Hasc nb Hnb) as (N0 & N1 & N2 & N3).
    unfold csr2blkcsr. replace ((m <? 0) || (n <? 8) || (nnz <? 0)) with false by lia.
    replace (negb (nb =? 1) && negb (nb =? 2) && negb (nb =? 4)) with false by lia.
    rewrite firstn_all2 by (unfold zlen in Lp; lia).
    destruct (blk_groups_ok O m n nnz b ptr ind val W Lv Hnm Hasc nb Hnb) as (rp & -> & (Lr & R1 & R2 & R3)). unfold add_out. cbn [app]. rewrite wr_upd by lia.
    destruct (copy_ok _ (map (fun d => d + b) (upd rp m (off ng))) bp0) as (bp & qp & -> & Ep & Lbp). { rewrite zlen_map, zlen_upd. lia. }
    destruct (copy_ok _ (map (fun d => d + b) (map (fun B => ccol n (fst B)) (allb ng))) bc0) as (bc & qc & -> & Ec & Lbc). { rewrite !zlen_map. exact L2. }
    assert (zlen (flat_map b_vals (allb ng)) = nnz) as Lvs.
    { rewrite (vals_len O m n nnz b ptr ind val W Hnm Hasc nb Hnb ng) by lia. replace (Z.min (ng * nb) m) with m by lia. destruct (wf_ptr _ _ _ _ _ _ W) as (_ & -> & _). lia. }
    destruct (copy_ok _ (flat_map b_vals (allb ng)) bv0) as (bv & qv & -> & Ev & Lbv); [lia|].
    destruct (copy_ok _ (flat_map (b_masks n) (allb ng)) bm0) as (bm & qm & -> & Em & Lbm).
    { rewrite (masks_len m n b ptr ind Hasc nb Hnb); [exact L4|]. eapply allb_good; eauto. lia. }
    exists bp, bc, bv, bm. split; [reflexivity|]. split; [|auto].
    assert (forall t, 0 <= t <= m -> zn bp t = zn (upd rp m (off ng)) t + b) as Hp.
    { intros t Ht. rewrite Ep, nthZ_app1 by (rewrite zlen_map, zlen_upd; lia). rewrite (nthZ_map _ _ (fun d => d + b) 0 0) by (rewrite zlen_upd; lia). reflexivity. }
    split.
    - intros g Hg. pose proof (N1 g Hg). rewrite Hp by lia. rewrite nthZ_upd by lia. replace (g * nb =? m) with false by lia. f_equal. apply (R1 g Hg).
    - intros g Hg. pose proof (N1 g Hg). rewrite Hp by lia. rewrite nthZ_upd by lia. f_equal. destruct (g * nb + 1 =? m) eqn:E.
      + f_equal. assert (g + 1 = ng \/ g + 1 < ng) as [C|C] by lia; [now rewrite C|]. pose proof (N1 (g + 1) ltac:(lia)). nia.
      + destruct (Z.eq_dec nb 1) as [E1|Ne].
        * replace (g * nb + 1) with ((g + 1) * nb) by nia. apply R1. assert (g + 1 = ng \/ g + 1 < ng) as [C|C] by lia; [|lia]. rewrite <- C in *. nia.
        * apply (R1 g Hg); lia.
    - lia.
    - exists qc. rewrite Ec, map_map. reflexivity.
    - exists qv. exact Ev.
    - exists qm. exact Em.
  Qed.

  Lemma allb_split : forall g, 0 <= g < ng -> allb ng = allb g ++ BL g ++ flat_map BL (zrange (g + 1) ng).
  Proof.
    intros g Hg. unfold BlkGroups.allb at 1. rewrite (zrange_app 0 g ng), flat_map_app by lia. rewrite (zrange_first g ng) by lia. reflexivity.
  Qed.

  Lemma esum_row : forall x i, zlen x = n -> 0 <= i < m -> esum O x (frow O m b ptr ind val i) = sumz O 0 n (fun j => csr_mat O b ptr ind val i j *! tn x j).
  Proof.
    intros x i Lx Hi. unfold frow. replace (i <? m) with true by lia. unfold esum, rest. rewrite (suml_map O). cbn [fst snd].
    exact (full_row_sum O L m n nnz b ptr ind val i (fun v => v) (fun j => tn x j) W Lv Hi (additive_id O)).
  Qed.

  Lemma kernel_ok : forall bp bc bv bm alpha beta x y, holds_blk bp bc bv bm -> zlen x = n -> zlen y = m ->
    exists y', blk_kernel O nb b alpha m bm bv bc bp x beta y = Some y' /\ mv_spec O m n alpha beta (csr_mat O b ptr ind val) x y y'.
  Proof.
    intros bp bc bv bm alpha beta x y [Hlo Hhi Hlen (qc & Ec) (qv & Ev) (qm & Em)] Lx Ly.
    destruct (ng_ok m n nnz b ptr ind W Hasc nb Hnb) as (N0 & N1 & N2 & N3). unfold blk_kernel, for_step. fold ng.
    set (res := fun i => alpha *! sumz O 0 n (fun j => csr_mat O b ptr ind val i j *! tn x j) +! beta *! tn y i).
    match goal with |- context [for_ 0 ng ?f ?s0] =>
      destruct (for_inv _ (fun g st => let '(iv, y1) := st in iv = zlen (flat_map b_vals (allb g)) /\ zlen y1 = m /\
        forall i, 0 <= i < m -> tn y1 i = if i <? g * nb then res i else tn y i) 0 ng f s0) as ([iv y1] & -> & _ & L1 & H1) end.
    - lia.
    - split; [reflexivity|]. split; [exact Ly|]. intros i Hi. replace (i <? 0 * nb) with false by lia. reflexivity.
    - intros g [iv y1] Hg (-> & L1 & H1). rewrite Z.add_0_l. pose proof (N1 g Hg) as Hgm. rewrite (rd_nthZ _ 0) by lia. rewrite (rd_nthZ _ 0) by lia. rewrite Hlo, Hhi by auto.
      rewrite (off_S O m b ptr ind val Hasc) by lia. replace (off g + b - b) with (off g) by lia. replace (off g + zlen (BL g) + b - b) with (off g + zlen (BL g)) by lia.
      assert (Forall (good n (Z.to_nat nb)) (BL g)) as FG by (eapply BL_good; eauto).
      assert (Forall (good n (Z.to_nat nb)) (allb g)) as FA by (eapply allb_good; eauto; lia).
      destruct (blk_run_ok O L n nb b x Hn8 Hnb Lx (BL g) (fun _ => zero) (map bcol (allb g)) (map bcol (flat_map BL (zrange (g + 1) ng)) ++ qc)
        (flat_map (b_masks n) (allb g)) (flat_map (b_masks n) (flat_map BL (zrange (g + 1) ng)) ++ qm)
        (flat_map b_vals (allb g)) (flat_map b_vals (flat_map BL (zrange (g + 1) ng)) ++ qv) (zrep nb (zrep 8 zero)) FG) as (vy & E & Rv1 & Rv2).
      { rewrite zlen_map. exact (masks_len m n b ptr ind Hasc nb Hnb _ FA). }
      { split; [apply zlen_zrep; lia|]. intros s Hs. rewrite nthZ_zrep by lia. split; [reflexivity|]. change (zrep 8 zero) with [zero; zero; zero; zero; zero; zero; zero; zero]. unfold tot. cbn [suml fold_right]. ring. }
      rewrite zlen_map in E. change (zlen (allb g)) with (off g) in E.
      replace (map bcol (allb g) ++ map bcol (BL g) ++ map bcol (flat_map BL (zrange (g + 1) ng)) ++ qc) with bc in E
        by (rewrite Ec, (allb_split g Hg), !map_app, <- !app_assoc; reflexivity).
      replace (flat_map b_vals (allb g) ++ flat_map b_vals (BL g) ++ flat_map b_vals (flat_map BL (zrange (g + 1) ng)) ++ qv) with bv in E
        by (rewrite Ev, (allb_split g Hg), !flat_map_app, <- !app_assoc; reflexivity).
      replace (flat_map (b_masks n) (allb g) ++ flat_map (b_masks n) (BL g) ++ flat_map (b_masks n) (flat_map BL (zrange (g + 1) ng)) ++ qm) with bm in E
        by (rewrite Em, (allb_split g Hg), !flat_map_app, <- !app_assoc; reflexivity).
      rewrite E.
      match goal with |- context [for_ 0 ?hi ?f y1] =>
        destruct (for_inv _ (fun s y2 => zlen y2 = m /\ forall i, 0 <= i < m -> tn y2 i = if i <? g * nb + s then res i else tn y i) 0 hi f y1) as (y2 & -> & L2 & H2) end.
      + lia.
      + split; [exact L1|]. intros i Hi. rewrite Z.add_0_r. auto.
      + intros s y2 Hs [L2 H2]. rewrite (rd_nthZ _ []) by lia. destruct (Rv2 s ltac:(lia)) as [T8 Tt].
        rewrite (finish_row_ok O L) by lia. eexists. split; [reflexivity|]. split; [rewrite zlen_upd; exact L2|]. intros i Hi. rewrite nthZ_upd by lia.
        destruct (i =? g * nb + s) eqn:Ei.
        * replace (i <? g * nb + (s + 1)) with true by lia. unfold res. rewrite H2 by lia. replace (g * nb + s <? g * nb + s) with false by lia. replace i with (g * nb + s) by lia.
          f_equal. f_equal. rewrite (hsum8d_ok O L) by exact T8. unfold tot in Tt. rewrite Tt. unfold BlkGroups.BL.
          rewrite (blocks_rows n); [|lia|eapply grp_cols; eauto|eapply total_grp; eauto].
          rewrite <- (esum_row x (g * nb + s) Lx) by lia. unfold grp.
          replace (nth (Z.to_nat s) (map (fun s0 => frow O m b ptr ind val (g * nb + s0)) (zrange 0 nb)) []) with (frow O m b ptr ind val (g * nb + s)); [ring|].
          symmetry. exact (nthZ_mapzr _ [] (fun s0 => frow O m b ptr ind val (g * nb + s0)) nb s ltac:(lia)).
        * rewrite H2 by lia. replace (i <? g * nb + (s + 1)) with (i <? g * nb + s) by lia. reflexivity.
      + eexists. split; [reflexivity|]. cbn beta iota. rewrite (allb_S O m b ptr ind val Hasc), flat_map_app by lia. split; [reflexivity|]. split; [exact L2|]. intros i Hi. rewrite H2 by lia.
        replace (i <? (g + 1) * nb) with (i <? g * nb + Z.min nb (m - g * nb)) by lia. reflexivity.
    - exists y1. split; [reflexivity|]. split; [exact L1|]. intros i Hi. rewrite H1 by lia. replace (i <? ng * nb) with true by lia. reflexivity.
  Qed.
End F.
