(** Proofs about OptMvModel: whatever copy aoclsparse_optimize makes for products, the
    copy holds the user's matrix. *)
From Coq Require Import ZArith List Bool Lia Permutation Ring.
From Verif Require Import Base BaseFacts Algebra UtilModel DoidModel DoidSpec Csr CsrFacts CheckModel CheckSpec SortModel SortSpec MvModel MvSpec MvFacts CsrmvModel HandleModel HandleSpec HandleFacts EllModel EllSpec EllProof FmtMvModel FmtMvSpec FmtMvProof FmtHybProof BlkModel BlkSpec Br4Spec Br4Model Br4Proof Props_Mv Props_Blk Props_Br4 OptMvModel.
Import ListNotations.
Open Scope Z_scope.

Section W.
  Variables (m n nnz b : Z) (ptr ind : list Z).
  Hypothesis W : csr_wf m n nnz b ptr ind.

  Lemma om_width_def : exists wd, om_width m nnz ptr = Some wd.
  Proof.
    destruct (wf_len _ _ _ _ _ _ W) as [L1 L2]. pose proof (wf_m _ _ _ _ _ _ W).
    unfold om_width. match goal with |- context [for_ 0 m ?f ?s] => destruct (for_inv _ (fun _ _ => True) 0 m f s) as (st & E & _) end; auto.
    - intros i [[[a c] e] g] Hi _. rewrite !(rd_nthZ _ 0) by lia. eexists; split; [reflexivity|auto].
    - rewrite E. destruct st as [[[a c] e] g]. eexists. reflexivity.
  Qed.
  Lemma om_long_def : forall wd, exists cn l g, om_long m wd ptr = Some (cn, l, g).
  Proof.
    intros wd. destruct (wf_len _ _ _ _ _ _ W) as [L1 L2]. pose proof (wf_m _ _ _ _ _ _ W).
    unfold om_long. match goal with |- context [for_ 0 m ?f ?s] => destruct (for_inv _ (fun _ _ => True) 0 m f s) as (st & E & _) end; auto.
    - intros i [[a c] e] Hi _. rewrite !(rd_nthZ _ 0) by lia. eexists; split; [reflexivity|auto].
    - rewrite E. destruct st as [[a c] e]. eauto.
  Qed.
  Lemma om_tnnz_def : exists t, om_tnnz m ptr = Some t.
  Proof.
    destruct (wf_len _ _ _ _ _ _ W) as [L1 L2]. pose proof (wf_m _ _ _ _ _ _ W).
    pose proof (Z.div_mod m 4 ltac:(lia)). pose proof (Z.mod_pos_bound m 4 ltac:(lia)).
    unfold om_tnnz. match goal with |- context [for_ 0 (m / 4) ?f ?s] => destruct (for_inv _ (fun _ _ => True) 0 (m / 4) f s) as (st & E & _) end; auto; [lia| |].
    - intros i a Hi _. rewrite !(rd_nthZ _ 0) by lia. eexists; split; [reflexivity|auto].
    - rewrite E. match goal with |- context [for_ ?lo m ?f ?s] => destruct (for_inv _ (fun _ _ => True) lo m f s) as (st' & E' & _) end; auto; [lia| |].
      + intros i a Hi _. rewrite !(rd_nthZ _ 0) by lia. eexists; split; [reflexivity|auto].
      + rewrite E'. eauto.
  Qed.

  (** Sorted rows without repeated columns have at most [n] elements. *)
  Lemma row_short : rows_sorted m b ptr ind -> rows_distinct m b ptr ind -> forall i, 0 <= i < m -> zn ptr (i + 1) - zn ptr i <= n.
  Proof.
    intros S D i Hi. pose proof (wf_n _ _ _ _ _ _ W).
    pose proof (ptr_range _ _ _ _ (wf_ptr _ _ _ _ _ _ W) i ltac:(lia)). pose proof (ptr_range _ _ _ _ (wf_ptr _ _ _ _ _ _ W) (i + 1) ltac:(lia)).
    assert (forall k, (Z.of_nat k < zn ptr (i + 1) - zn ptr i) -> b + Z.of_nat k <= zn ind (zn ptr i - b + Z.of_nat k)) as G.
    { induction k as [|k IH]; intros Hk.
      - pose proof (wf_ind _ _ _ _ _ _ W (zn ptr i - b + 0) ltac:(lia)). cbn [Z.of_nat]. lia.
      - specialize (IH ltac:(lia)).
        pose proof (S i (zn ptr i - b + Z.of_nat k) (zn ptr i - b + Z.of_nat (Datatypes.S k)) Hi ltac:(unfold in_row; lia) ltac:(unfold in_row; lia) ltac:(lia)).
        pose proof (D i (zn ptr i - b + Z.of_nat k) (zn ptr i - b + Z.of_nat (Datatypes.S k)) Hi ltac:(unfold in_row; lia) ltac:(unfold in_row; lia) ltac:(lia)). lia. }
    destruct (Z_le_gt_dec (zn ptr (i + 1) - zn ptr i) n) as [|Hg]; [auto|].
    specialize (G (Z.to_nat n) ltac:(lia)). rewrite Z2Nat.id in G by lia.
    pose proof (wf_ind _ _ _ _ _ _ W (zn ptr i - b + n) ltac:(lia)). lia.
  Qed.
  Lemma dense_wide : rows_sorted m b ptr ind -> rows_distinct m b ptr ind -> 0 < m -> 10 * m <= nnz -> 10 <= n.
  Proof.
    intros S D Hm Hd. destruct (wf_ptr _ _ _ _ _ _ W) as (P0 & Pm & _). pose proof (wf_n _ _ _ _ _ _ W).
    assert (forall i, (Z.of_nat i <= m) -> zn ptr (Z.of_nat i) - b <= n * Z.of_nat i) as G.
    { induction i as [|i IH]; intros Hi; [cbn [Z.of_nat]; lia|].
      specialize (IH ltac:(lia)). pose proof (row_short S D (Z.of_nat i) ltac:(lia)).
      replace (Z.of_nat (Datatypes.S i)) with (Z.of_nat i + 1) by lia. lia. }
    specialize (G (Z.to_nat m) ltac:(lia)). rewrite Z2Nat.id in G by lia. nia.
  Qed.
End W.

(** The row map and the two halves of the hybrid. *)
Lemma long_rows_spec : forall m wd ptr i, In i (long_rows m wd ptr) <-> 0 <= i < m /\ wd < row_len ptr i.
Proof. intros. unfold long_rows. rewrite filter_In, in_zrange, Z.ltb_lt. reflexivity. Qed.
Lemma firstn_zn : forall (l l' : list Z) q, firstn (length l) l' = l -> 0 <= q < zlen l -> zn l' q = zn l q.
Proof.
  intros l l' q E H. rewrite <- E at 1. unfold zn, nthZ, zlen in *.
  rewrite <- (firstn_skipn (length l) l') at 1. rewrite E. rewrite app_nth1 by lia. reflexivity.
Qed.

Lemma filter_len : forall (f : Z -> bool) l, (length (filter f l) <= length l)%nat.
Proof. induction l as [|a l IH]; cbn; [lia|]. destruct (f a); cbn; lia. Qed.

Section H.
  Context {T : Type} (O : ops T) (L : laws O).
  Let rth := l_ring L.
  Add Ring Xom : rth.
  Local Notation zero := (o0 O).
  Variables (m n nnz b : Z) (ptr ind : list Z) (val : list T).
  Hypotheses (W : csr_wf m n nnz b ptr ind) (Lv : zlen val = nnz).

  Lemma ell_short_row : forall wd c v padc i j, 0 <= i < m -> row_len ptr i <= wd ->
    ell_row_ok zero (ellt_slot m) b wd ptr ind val padc c v i ->
    ell_mat O (ellt_slot m) b wd c v i j = csr_mat O b ptr ind val i j.
  Proof.
    intros wd c v padc i j Hi Hl R.
    pose proof (ptr_range _ _ _ _ (wf_ptr _ _ _ _ _ _ W) i ltac:(lia)) as R0. pose proof (ptr_range _ _ _ _ (wf_ptr _ _ _ _ _ _ W) (i + 1) ltac:(lia)) as R1.
    destruct (wf_ptr _ _ _ _ _ _ W) as (_ & _ & Hmono). specialize (Hmono i Hi).
    rewrite (ell_mat_sum O L). rewrite (csr_mat_sum O L) by (intros k Hk; unfold in_row in Hk; lia).
    rewrite (sumz_split O L 0 (row_len ptr i) wd) by (unfold row_len in *; lia).
    rewrite (sumz_zero O L (row_len ptr i) wd).
    - replace (zn ptr i - b) with (0 + (zn ptr i - b)) by lia. replace (zn ptr (i + 1) - b) with (row_len ptr i + (zn ptr i - b)) by (unfold row_len; lia).
      rewrite (sumz_shift O). rewrite (sumz_ext O 0 (row_len ptr i) _ (fun k => if zn ind (k + (zn ptr i - b)) =? j + b then nthZ zero val (k + (zn ptr i - b)) else zero)); [ring|].
      intros k Hk. specialize (R k ltac:(lia)). replace (k <? row_len ptr i) with true in R by lia. destruct R as [-> ->].
      replace (zn ptr i - b + k) with (k + (zn ptr i - b)) by lia. reflexivity.
    - intros k Hk. specialize (R k ltac:(unfold row_len in *; lia)). replace (k <? row_len ptr i) with false in R by lia. destruct R as [_ ->]. destruct (_ =? _); reflexivity.
  Qed.

  Variables (fz : Z -> list Z) (ft : Z -> list T).
  Hypotheses (Hz : forall z, 0 <= z -> zlen (fz z) = z) (Ht : forall z, 0 <= z -> zlen (ft z) = z).

  Lemma build_hyb_ok : 0 < m -> (forall i, 0 <= i < m -> 0 < zn ptr (i + 1) - b) ->
    build_hyb O fz ft m nnz b ptr ind val = Some None \/
    exists wd em col v rmap, build_hyb O fz ft m nnz b ptr ind val = Some (Some (cp_hyb wd em col v rmap)) /\
      forall avx512 al be x y, zlen x = n -> zlen y = m ->
      exists y1, ellthybmv O true avx512 al m v col wd em val ptr ind rmap (mkDescr mt_general fm_lower dg_non_unit b) x be y = Some (success, Some y1) /\
        mv_spec O m n al be (csr_mat O b ptr ind val) x y y1.
  Proof.
    intros Hm Hps. unfold build_hyb.
    destruct (hyb_width_ok m n nnz b ptr ind 0 0 W Hm) as (wd & -> & Hwd & _).
    destruct (wd =? 0) eqn:E0; [left; reflexivity|]. right. apply Z.eqb_neq in E0.
    set (LR := long_rows m wd ptr).
    assert (0 <= zlen LR <= m) as HLR.
    { unfold LR, long_rows, zlen. pose proof (filter_len (fun i => wd <? row_len ptr i) (zrange 0 m)).
      assert (Z.of_nat (length (zrange 0 m)) = m) by (fold (zlen (zrange 0 m)); rewrite zlen_zrange; lia). lia. }
    destruct (csr2ellthybrid_ok zero m n nnz b (m - zlen LR) ptr ind val (fz (m - (m - zlen LR))) (fz (wd * m)) (ft (wd * m)) wd) as (rmap & c & v & E & Lc & Lvv & Hf & Hs & Hl); auto; try lia.
    { rewrite Hz; fold LR; lia. } { rewrite Hz; nia. } { rewrite Ht; nia. } { intros i Hi _. auto. }
    fold LR in E, Hf. rewrite E. cbn. exists wd, (m - zlen LR), c, v, rmap. split; [reflexivity|].
    intros avx al be x y Lx Ly. set (d := mkDescr mt_general fm_lower dg_non_unit b).
    assert (forall q, 0 <= q < zlen LR -> zn rmap q = zn LR q) as Hq by (intros; apply firstn_zn; auto).
    assert (zlen LR <= zlen rmap) as Lr.
    { unfold zlen. rewrite <- Hf at 1. rewrite firstn_length. lia. }
    assert (forall i, 0 <= i < m -> b <= zn ind (zn ptr (i + 1) - b - 1) < n + b) as Hpad.
    { intros i Hi. specialize (Hps i Hi). pose proof (ptr_range _ _ _ _ (wf_ptr _ _ _ _ _ _ W) (i + 1) ltac:(lia)).
      pose proof (wf_ind _ _ _ _ _ _ W (zn ptr (i + 1) - b - 1) ltac:(lia)). lia. }
    destruct (ellthybmv_ok O L avx d al be m n nnz wd c v (m - zlen LR) val ptr ind rmap x y) as (y1 & Ey & Py); auto; try lia; try (cbn [d d_base]).
    - intros i k Hi Hk. destruct (Z_le_gt_dec (row_len ptr i) wd) as [Hle|Hgt].
      + specialize (Hs i Hi Hle k Hk). destruct (k <? row_len ptr i) eqn:Ek.
        * destruct Hs as [-> _]. pose proof (ptr_range _ _ _ _ (wf_ptr _ _ _ _ _ _ W) i ltac:(lia)). pose proof (ptr_range _ _ _ _ (wf_ptr _ _ _ _ _ _ W) (i + 1) ltac:(lia)).
          unfold row_len in *. pose proof (wf_ind _ _ _ _ _ _ W (zn ptr i - b + k) ltac:(lia)). lia.
        * destruct Hs as [-> _]. auto.
      + destruct (Hl i k Hi ltac:(lia) Hk) as [_ ->]. auto.
    - intros q Hqq. rewrite Hq by lia. destruct (proj1 (long_rows_spec m wd ptr (zn LR q))); [|lia]. apply nthZ_In. fold LR. lia.
    - intros q q' H1 H2 Eq. rewrite !Hq in Eq by lia.
      assert (NoDup LR) as ND by (apply NoDup_filter, NoDup_zrange). unfold zn, nthZ, zlen in *.
      pose proof (proj1 (NoDup_nth LR 0) ND (Z.to_nat q) (Z.to_nat q') ltac:(lia) ltac:(lia) Eq). lia.
    - exists y1. split; [exact Ey|]. destruct Py as [P1 P2]. split; [lia|]. intros i Hi. rewrite P2 by lia. replace (i <? m) with true by lia. f_equal. f_equal.
      apply sumz_ext. intros j Hj. f_equal. unfold hyb_mat. cbn [d d_base].
      assert (listed rmap (m - (m - zlen LR)) i = (wd <? row_len ptr i)) as ->.
      { unfold listed. apply eq_true_iff_eq. rewrite existsb_exists, Z.ltb_lt. split.
        - intros (q & Q1 & Q2). apply in_zrange in Q1. apply Z.eqb_eq in Q2. rewrite Hq in Q2 by lia. subst i.
          destruct (proj1 (long_rows_spec m wd ptr (zn LR q))); [|lia]. apply nthZ_In. fold LR. lia.
        - intros Hg. assert (In i LR) as Hin by (apply long_rows_spec; lia).
          destruct (In_nth LR i 0 Hin) as (q & Q1 & Q2). exists (Z.of_nat q). split; [apply in_zrange; unfold zlen; lia|].
          rewrite Hq by (unfold zlen; lia). apply Z.eqb_eq. unfold zn, nthZ. rewrite Nat2Z.id. exact Q2. }
      destruct (wd <? row_len ptr i) eqn:Eg; [reflexivity|]. eapply ell_short_row; [exact Hi|lia|]. apply Hs; lia.
  Qed.
End H.

Section P.
  Context {T : Type} (O : ops T) (L : laws O).
  Variables (fz : Z -> list Z) (ft : Z -> list T) (sup : Z -> bool).
  Hypotheses (Hz : forall z, 0 <= z -> zlen (fz z) = z) (Ht : forall z, 0 <= z -> zlen (ft z) = z).
  Variables (low : Z -> Z -> Z -> bool) (pick : Z -> Z -> Z -> Z -> Z -> blk_choice) (ratio : Z -> Z -> comparison).

  (** The kernel of the copy computes the product with [M], whatever else the handle
      holds by then. *)
  Definition works (h : hnd T) (u : cmat T) (k : copy T) : Prop :=
    forall h' u' al be x y, H_m h' = H_m h -> H_n h' = H_n h -> H_nnz h' = H_nnz h -> same_data u u' ->
    zlen x = H_n h -> zlen y = H_m h ->
    exists y1, copy_kernel O sup h' u' k al x be y = Some (success, Some y1) /\
      mv_spec O (H_m h) (H_n h) al be (csr_mat O (c_b u) (c_ptr u) (c_ind u) (c_val u)) x y y1.

  Lemma optimize_mv_ok : forall h u rest, H_mats h = Some u :: rest -> user_mat h u -> c_doid u = gn ->
    H_n h + 7 <= 2147483647 -> (0 < H_m h -> zn (c_ptr u) 0 < zn (c_ptr u) 1) ->
    (H_sort h = fully_sorted -> rows_sorted (c_m u) (c_b u) (c_ptr u) (c_ind u) /\ rows_distinct (c_m u) (c_b u) (c_ptr u) (c_ind u)) ->
    exists k, optimize_mv O fz ft sup low pick ratio h = Some (success, k) /\ forall k', k = Some k' -> works h u k'.
  Proof.
    intros h u rest EM ((W & _ & Lv & Hb) & Hnz & _ & _ & Hd) Hgn HN Hfirst Hsort.
    destruct Hd as [(_ & Hm & Hn)|(E & _)]; [|rewrite Hgn in E; discriminate E].
    rewrite Hm, Hn in W. rewrite <- Hnz in W, Lv. rewrite Hm in Hsort.
    unfold optimize_mv. destruct ((H_m h <=? 1) || (H_n h <=? 1)) eqn:Es; [exists None; split; [reflexivity|discriminate]|].
    apply orb_false_iff in Es. destruct Es as [E1 E2]. apply Z.leb_gt in E1. apply Z.leb_gt in E2.
    rewrite EM. destruct (H_optimized h); [exists None; split; [reflexivity|discriminate]|].
    set (m := H_m h) in *. set (n := H_n h) in *. set (nnz := H_nnz h) in *.
    assert (forall i, 0 <= i < m -> 0 < zn (c_ptr u) (i + 1) - c_b u) as Hps.
    { intros i Hi. destruct (wf_ptr _ _ _ _ _ _ W) as (P0 & _ & _). specialize (Hfirst ltac:(lia)).
      pose proof (ptr_mono _ _ _ _ (wf_ptr _ _ _ _ _ _ W) 1 (i + 1) ltac:(lia)). lia. }
    destruct (om_width_def _ _ _ _ _ _ W) as (wd & ->). destruct (om_long_def _ _ _ _ _ _ W wd) as (cn & l10 & g10 & ->).
    destruct (om_tnnz_def _ _ _ _ _ _ W) as (tn & ->).
    match goal with |- context [if ?c then _ else Some None] => set (cond := c) end.
    assert (exists bk, (if cond then
             let* (nb, t) := opt_blksize low pick m nnz (c_b u) (Some (c_ptr u)) (Some (c_ind u)) (Some 0) in
             let* t := t in
             if nb =? 0 then Some None
             else
               let* (_, r) := csr2blkcsr m n nnz (Some (c_ptr u)) (Some (c_ind u)) (Some (c_val u))
                   (Some (fz (m + 1))) (Some (fz nnz)) (Some (ft (nnz + nb * 8))) (Some (fz (t * nb))) nb (c_b u) in
               let* (bp, bc, bv, bm) := r in
               Some (Some (cp_blk nb bp bc bv bm))
           else Some None) = Some bk /\ forall k', bk = Some k' -> works h u k') as (bk & -> & Wb).
    { destruct cond eqn:Ec; [|exists None; split; [reflexivity|discriminate]]. unfold cond in Ec.
      apply andb_true_iff in Ec. destruct Ec as [Ec E3]. apply andb_true_iff in Ec. destruct Ec as [Ec4 Ec5]. apply Z.leb_le in E3.
      destruct (H_sort h); try discriminate Ec5. destruct (Hsort eq_refl) as [S D].
      pose proof (dense_wide _ _ _ _ _ _ W S D ltac:(lia) E3) as Hw.
      assert (blk_input m n nnz (c_b u) (c_ptr u) (c_ind u) (c_val u)) as I by (constructor; auto; lia).
      destruct (C53_optimize_partial T O L low pick m n nnz (c_b u) (c_ptr u) (c_ind u) (c_val u) I 0) as (nb & t1 & -> & [(-> & ->)|(Hnb & Ht1 & P)]).
      - exists None. split; [reflexivity|discriminate].
      - cbv beta iota. replace (nb =? 0) with false by lia.
        destruct (P (fz (m + 1)) (fz nnz) (ft (nnz + nb * 8)) (fz (t1 * nb))) as (bp & bc & bv & bm & -> & K); try (rewrite ?Hz, ?Ht; nia).
        exists (Some (cp_blk nb bp bc bv bm)). split; [reflexivity|]. intros k' [= <-].
        intros h' u' al be x y A1 A2 A3 (_ & _ & _ & _ & B1 & _) Lx Ly. unfold copy_kernel. rewrite A1, A2, A3, B1, Ec4.
        destruct (K (mkDescr mt_general fm_lower dg_non_unit (c_b u)) al be x y eq_refl eq_refl Lx Ly) as (y1 & Ey & Sy). exists y1. split; [exact Ey|exact Sy]. }
    destruct bk as [bk|]; [exists (Some bk); split; [reflexivity|]; intros k' [= <-]; apply Wb; reflexivity|].
    destruct (wd <=? 30); [|exists None; split; [reflexivity|discriminate]].
    match goal with |- context [if ?c then let* k := build_hyb _ _ _ _ _ _ _ _ _ in _ else _] => destruct c end.
    - destruct (build_hyb_ok O L m n nnz (c_b u) (c_ptr u) (c_ind u) (c_val u) W Lv fz ft Hz Ht ltac:(lia) Hps) as [->|(w & em & col & v & rmap & -> & K)].
      + exists None. split; [reflexivity|discriminate].
      + exists (Some (cp_hyb w em col v rmap)). split; [reflexivity|]. intros k' [= <-].
        intros h' u' al be x y A1 A2 A3 (_ & _ & _ & _ & B1 & B2 & B3 & B4) Lx Ly. unfold copy_kernel. rewrite A1, B1, B2, B3, B4. apply K; auto.
    - assert (pad_safe m (c_b u) (c_ptr u)) as Hp.
      { right. intros i Hi E. destruct (wf_ptr _ _ _ _ _ _ W) as (P0 & _ & _).
        pose proof (Z.div_mod m 4 ltac:(lia)). pose proof (Z.mod_pos_bound m 4 ltac:(lia)). specialize (Hps i ltac:(lia)). lia. }
      destruct (build_ok O m n nnz (c_b u) (c_ptr u) (c_ind u) (c_val u) W Lv ltac:(lia) (pad_safe_ok _ _ _ _ _ _ W Hp) fz ft Hz Ht) as (bp & i4 & v4 & E & C).
      rewrite E. eexists. split; [reflexivity|]. intros k' [= <-].
      intros h' u' al be x y A1 A2 A3 _ Lx Ly. unfold copy_kernel. cbn [c_b c_ptr c_ind c_val]. rewrite A1. fold m.
      destruct (br4_mv_ok O L m n nnz (c_b u) (c_ptr u) (c_ind u) (c_val u) W Lv x Lx bp i4 v4 C al be y Ly) as (y' & E' & S).
      exists y'. rewrite E'. split; [reflexivity|exact S].
  Qed.
End P.

Section D.
  Context {T : Type} (O : ops T).
  Variable sup : Z -> bool.

  Lemma sup3_nonneg : 0 <= get_supported sup [3; 2] <= 3 /\ 0 <= get_supported sup [3] <= 3 /\ 0 <= get_supported sup [2] <= 3.
  Proof. unfold get_supported. cbn. destruct (sup 3), (sup 2); cbn; lia. Qed.

  Lemma total_gn : forall bonus arch, exists s, total gn bonus arch gn = Some s.
  Proof. intros. unfold total. cbn. destruct (arch 0 =? 0); eauto. Qed.

  (** Requests other than the general, untransposed one never use the copy. *)
  Lemma copy_unused : forall op (h : hnd T) k d, d_type d <> mt_general \/ op <> op_none -> copy_used sup op h k d = Some false.
  Proof.
    intros op h k d Hd. unfold copy_used. destruct (H_mats h) as [|[u|] rest]; auto.
    destruct (negb (c_b u =? d_base d)); auto. destruct (valid_op op) eqn:Vo; cbn [negb]; auto.
    destruct (_ && negb (H_m h =? H_n h)); auto.
    destruct (d_type d) eqn:Ety; auto.
    all: destruct (_ || _); auto.
    all: destruct (d_fill d); destruct op; try discriminate Vo; try (destruct Hd; congruence); unfold copy_wins, total; cbn; unfold copy_arch; cbn; reflexivity.
  Qed.

  Lemma copy_used_def : forall (h : hnd T) u k d, hnd_ok (o0 O) h u -> c_doid u = gn -> d_type d = mt_general ->
    exists w, copy_used sup op_none h k d = Some w.
  Proof.
    intros h u k d (_ & rest & EM & _ & FR) Hgn Hty. unfold copy_used. rewrite EM, Hty.
    destruct (negb (c_b u =? d_base d)); [eauto|]. cbn [valid_op negb andb].
    destruct (_ || _); [eauto|]. cbn [get_doid]. 
    match goal with |- exists w, (let* d_id := ?e in _) = _ => replace e with (Some gn) by (destruct (d_fill d); reflexivity) end.
    unfold copy_wins. destruct (total_gn 11 (copy_arch sup k)) as (cs & ->). destruct (cs =? 0); [eauto|].
    match goal with |- context [for_ 0 ?z ?f ?s] => destruct (for_inv _ (fun _ _ => True) 0 z f s) as (w & E & _) end; auto.
    - unfold zlen. lia.
    - intros i w Hi _. rewrite EM in *. rewrite (rd_nthZ _ None) by exact Hi.
      assert (exists c, nthZ None (Some u :: rest) i = Some c /\ c_doid c = gn) as (c & -> & Hc).
      { pose proof (nthZ_In _ None (Some u :: rest) i Hi) as Hin. destruct Hin as [<-|Hin]; [eauto|].
        rewrite Forall_forall in FR. destruct (FR _ Hin) as (c & -> & _ & _ & _ & (_ & _ & Ed & _) & _). exists c. split; [reflexivity|congruence]. }
      rewrite Hc. destruct (total_gn (matrix_score c) (arch_score sup dt_d)) as (s & ->). eexists. split; [reflexivity|auto].
    - rewrite E. eauto.
  Qed.
End D.
