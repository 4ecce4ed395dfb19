(** All groups of rows: the arrays csr2blkcsr produces and the number of blocks
    opt_blksize counts. *)
From Coq Require Import ZArith List Bool Lia ZifyBool Sorted.
From Verif Require Import Base BaseFacts Algebra UtilModel DoidModel Csr CsrFacts Vec MvModel MvProof FmtMvModel OptProof BlkModel BlkPure BlkConv.
Import ListNotations.
Open Scope Z_scope.

Section G.
  Context {T : Type} (O : ops T).
  Local Notation tn := (nthZ (o0 O)).
  Variables (m n nnz b : Z) (ptr ind : list Z) (val : list T).
  Hypothesis W : csr_wf m n nnz b ptr ind.
  Hypothesis Lv : zlen val = nnz.
  Hypothesis Hnm : n + 7 <= int_max.
  Hypothesis Hasc : forall i k k', 0 <= i < m -> in_row ptr b i k -> in_row ptr b i k' -> k < k' -> zn ind k < zn ind k'.
  Variable nb : Z.
  Hypothesis Hnb : 0 < nb.

  Definition frow (i : Z) : row (T := T) := if i <? m then rest O b ind val (zn ptr i - b) (zn ptr (i + 1) - b) else [].
  Definition grp (i : Z) : list (row (T := T)) := map (fun s => frow (i + s)) (zrange 0 nb).
  Definition BL (g : Z) : list (block (T := T)) := blocks (S (length ind)) (grp (g * nb)).
  Definition allb (g : Z) : list (block (T := T)) := flat_map BL (zrange 0 g).
  Definition off (g : Z) : Z := zlen (allb g).
  Definition ng : Z := (m - 0 + nb - 1) / nb.

  Lemma ng_ok : 0 <= ng /\ (forall g, 0 <= g < ng -> 0 <= g * nb < m) /\ m <= ng * nb /\ ng * nb < m + nb.
  Proof.
    pose proof (wf_m _ _ _ _ _ _ W). unfold ng. pose proof (Z.div_mod (m - 0 + nb - 1) nb ltac:(lia)). pose proof (Z.mod_pos_bound (m - 0 + nb - 1) nb Hnb).
    set (q := (m - 0 + nb - 1) / nb) in *. assert (0 <= q) by (apply Z.div_pos; lia). repeat split; try (intros; nia).
  Qed.

  Lemma allb_S : forall g, 0 <= g -> allb (g + 1) = allb g ++ BL g.
  Proof. intros g H. unfold allb. rewrite (zrange_last 0 g) by lia. rewrite flat_map_app. cbn [flat_map]. now rewrite app_nil_r. Qed.
  Lemma off_S : forall g, 0 <= g -> off (g + 1) = off g + zlen (BL g).
  Proof. intros g H. unfold off. rewrite allb_S by lia. apply zlen_app. Qed.

  Lemma starts_ok : forall i, 0 <= i < m -> exists iv, starts nb m b ptr i = Some iv /\ ivok m b ptr nb i iv /\
    growsat O m b ptr ind val nb i iv = grp i.
  Proof.
    intros i Hi. unfold starts. destruct (wf_len _ _ _ _ _ _ W) as [Lp _].
    destruct (for_inv _ (fun s v => zlen v = nb /\ forall t, 0 <= t < s -> zn v t = zn ptr (i + t) - b) 0 (Z.min nb (m - i))
      (fun s iv => let* p := rd ptr (i + s) in wr iv s (p - b)) (zrep nb 0)) as (iv & -> & L & H).
    - lia.
    - split; [apply zlen_zrep; lia|intros; lia].
    - intros s v Hs [L H]. rewrite (rd_nthZ _ 0) by lia. rewrite wr_upd by lia. eexists. split; [reflexivity|]. split; [rewrite zlen_upd; exact L|].
      intros t Ht. rewrite nthZ_upd by lia. destruct (t =? s) eqn:E; [replace t with s by lia; reflexivity|apply H; lia].
    - exists iv. split; [reflexivity|]. split.
      + split; [exact L|]. intros s Hs Hm. rewrite H by lia. destruct (row_bounds _ _ _ _ _ _ (i + s) W ltac:(lia)) as (_ & _ & ? & ? & ?). unfold rend. lia.
      + unfold growsat, grp. apply map_ext_in. intros s Hs. apply in_zrange in Hs. unfold grow, frow, rend. destruct (i + s <? m) eqn:E; [|reflexivity].
        rewrite H by lia. reflexivity.
  Qed.

  Lemma rest_len : forall p e, p <= e -> Z.of_nat (length (rest O b ind val p e)) = e - p.
  Proof. intros p e H. unfold rest. rewrite map_length. pose proof (zlen_zrange p e H) as Z. unfold zlen in Z. exact Z. Qed.

  Lemma total_app : forall a c : list (row (T := T)), total (a ++ c) = (total a + total c)%nat.
  Proof. induction a; intros; cbn; [reflexivity|]. rewrite IHa. lia. Qed.

  Lemma total_rows : forall i s, 0 <= i <= m -> 0 <= s ->
    Z.of_nat (total (map (fun s => frow (i + s)) (zrange 0 s))) = zn ptr (Z.min (i + s) m) - zn ptr i.
  Proof.
    intros i s Hi Hs. pattern s. apply natlike_ind; auto.
    - rewrite zrange_nil by lia. cbn [map total]. replace (Z.min (i + 0) m) with i by lia. lia.
    - clear s Hs. intros s Hs IH. rewrite <- Z.add_1_r, (zrange_last 0 s), map_app, total_app, Nat2Z.inj_add, IH by lia. cbn [map total]. unfold frow.
      destruct (i + s <? m) eqn:E.
      + destruct (row_bounds _ _ _ _ _ _ (i + s) W ltac:(lia)) as (_ & _ & ? & ? & ?). rewrite Nat.add_0_r, rest_len by lia.
        replace (Z.min (i + s) m) with (i + s) by lia. replace (Z.min (i + (s + 1)) m) with (i + s + 1) by lia. lia.
      + cbn [length]. replace (Z.min (i + s) m) with m by lia. replace (Z.min (i + (s + 1)) m) with m by lia. lia.
  Qed.

  Lemma total_grp : forall i, 0 <= i < m -> Z.of_nat (total (grp i)) = zn ptr (Z.min (i + nb) m) - zn ptr i /\ (total (grp i) < S (length ind))%nat.
  Proof.
    intros i Hi. assert (Z.of_nat (total (grp i)) = zn ptr (Z.min (i + nb) m) - zn ptr i) as E by (apply total_rows; lia). split; [exact E|].
    destruct (wf_len _ _ _ _ _ _ W) as [_ Ln]. unfold zlen in Ln. pose proof (wf_ptr _ _ _ _ _ _ W) as P.
    pose proof (ptr_range _ _ _ _ P i ltac:(lia)). pose proof (ptr_range _ _ _ _ P (Z.min (i + nb) m) ltac:(lia)). lia.
  Qed.

  Lemma grp_asc : forall i, 0 <= i < m -> all_asc (grp i).
  Proof. intros i Hi. destruct (starts_ok i Hi) as (iv & _ & Hv & <-). apply grows_asc; auto. Qed.
  Lemma grp_cols : forall i, 0 <= i < m -> in_cols n (grp i).
  Proof. intros i Hi. destruct (starts_ok i Hi) as (iv & _ & Hv & <-). eapply grows_cols; eauto. Qed.

  Lemma ends_self : forall i, ends m ptr nb i ptr.
  Proof. intros i. destruct (wf_len _ _ _ _ _ _ W) as [Lp _]. split; auto. Qed.

  (** ** opt_blksize's count *)
  Lemma count_blocks_ok : count_blocks nb m b ptr ind = Some (off ng).
  Proof.
    unfold count_blocks, for_step. fold ng. destruct ng_ok as (N0 & N1 & N2 & N3).
    destruct (for_inv _ (fun g t => t = off g) 0 ng (fun t s =>
      let* iv := starts nb m b ptr (0 + t * nb) in let* k := count_loop (S (length ind)) nb m b ptr ind (0 + t * nb) iv 0 in Some (s + k)) 0) as (t & -> & ->); [lia|reflexivity| |reflexivity].
    intros g t Hg ->. rewrite Z.add_0_l. pose proof (N1 g Hg). destruct (starts_ok (g * nb) ltac:(lia)) as (iv & -> & Hv & Eg).
    rewrite (count_loop_ok O m n nnz b ptr ind val W Hnm Hasc nb Hnb (g * nb) ltac:(lia) ptr (ends_self _)); [|exact Hv|rewrite Eg; apply (total_grp (g * nb)); lia].
    rewrite Eg. eexists. split; [reflexivity|]. rewrite off_S by lia. unfold BL. lia.
  Qed.

  (** Every block holds an entry. *)
  Lemma off_le : forall g, 0 <= g <= ng -> off g <= zn ptr (Z.min (g * nb) m) - b.
  Proof.
    intros g [H1 H2]. revert H2. pattern g. apply natlike_ind; auto.
    - intros _. pose proof (wf_m _ _ _ _ _ _ W). replace (Z.min (0 * nb) m) with 0 by lia. destruct (wf_ptr _ _ _ _ _ _ W) as (E & _ & _). unfold off, allb. rewrite zrange_nil by lia. cbn. lia.
    - clear g H1. intros g Hg IH Hs. rewrite <- Z.add_1_r in *. rewrite off_S by lia. specialize (IH ltac:(lia)). destruct ng_ok as (N0 & N1 & N2 & N3).
      pose proof (N1 g ltac:(lia)). pose proof (blocks_le n (S (length ind)) (grp (g * nb)) ltac:(lia) (grp_cols (g * nb) ltac:(lia))) as Hb.
      destruct (total_grp (g * nb) ltac:(lia)) as [Et _]. replace (Z.min (g * nb) m) with (g * nb) in IH by lia.
      replace (Z.min ((g + 1) * nb) m) with (Z.min (g * nb + nb) m) by lia. fold (BL g) in Hb. unfold zlen at 1. lia.
  Qed.
  Lemma off_nnz : 0 <= off ng <= nnz.
  Proof.
    destruct ng_ok as (N0 & N1 & N2 & N3). split; [apply zlen_nonneg|]. pose proof (off_le ng ltac:(lia)) as H. replace (Z.min (ng * nb) m) with m in H by lia.
    destruct (wf_ptr _ _ _ _ _ _ W) as (_ & E & _). lia.
  Qed.
  Lemma off_mono : forall g g', 0 <= g <= g' -> off g <= off g'.
  Proof.
    intros g g' H. unfold off, allb. rewrite (zrange_app 0 g g') by lia. rewrite flat_map_app, zlen_app. pose proof (zlen_nonneg _ (flat_map BL (zrange g g'))). lia.
  Qed.

  (** ** Sizes of the other arrays *)
  Lemma bvals_len : forall fuel (rows : list (row (T := T))), in_cols n rows -> (total rows < fuel)%nat -> length (flat_map b_vals (blocks fuel rows)) = total rows.
  Proof.
    assert (forall rs : list (row (T := T)), length (flat_map (map snd) rs) = total rs) as Hl.
    { induction rs as [|r rs IH]; cbn; [reflexivity|]. now rewrite app_length, map_length, IH. }
    induction fuel as [|f IH]; intros rows Hc Hf; [lia|]. cbn [blocks]. destruct (forallb isnil rows) eqn:E; cbn [flat_map length].
    - clear - E. induction rows as [|r rows IH]; cbn; [reflexivity|]. cbn in E. apply andb_true_iff in E. destruct E as [E1 E2]. destruct r; [|discriminate]. cbn. auto.
    - destruct (hmin_att n rows ltac:(lia) Hc E) as (e & r & Hi & Em). pose proof (total_after_lt _ _ _ _ Hi Em).
      rewrite app_length, IH by (try apply in_cols_after; auto; lia). unfold b_vals. cbn [snd]. rewrite Hl. clear.
      generalize (hmin rows). intros c. induction rows as [|r rows IH]; cbn; [reflexivity|]. pose proof (f_equal (@length _) (seg_after c r)) as E. rewrite app_length in E. lia.
  Qed.

  Lemma vals_len : forall g, 0 <= g <= ng -> zlen (flat_map b_vals (allb g)) = zn ptr (Z.min (g * nb) m) - b.
  Proof.
    intros g [H1 H2]. revert H2. pattern g. apply natlike_ind; auto.
    - intros _. pose proof (wf_m _ _ _ _ _ _ W). replace (Z.min (0 * nb) m) with 0 by lia. destruct (wf_ptr _ _ _ _ _ _ W) as (E & _ & _). unfold allb. rewrite zrange_nil by lia. cbn. lia.
    - clear g H1. intros g Hg IH Hs. rewrite <- Z.add_1_r in *. rewrite allb_S, flat_map_app, zlen_app by lia. rewrite IH by lia. destruct ng_ok as (N0 & N1 & N2 & N3).
      pose proof (N1 g ltac:(lia)). destruct (total_grp (g * nb) ltac:(lia)) as [Et Eb]. unfold zlen, BL. rewrite (bvals_len _ _ (grp_cols (g * nb) ltac:(lia)) Eb).
      replace (Z.min (g * nb) m) with (g * nb) by lia. replace (Z.min ((g + 1) * nb) m) with (Z.min (g * nb + nb) m) by lia. lia.
  Qed.

  Lemma BL_good : forall g, 0 <= g < ng -> Forall (good n (Z.to_nat nb)) (BL g).
  Proof.
    intros g Hg. destruct ng_ok as (N0 & N1 & N2 & N3). pose proof (N1 g Hg). unfold BL.
    pose proof (blocks_good n (S (length ind)) (grp (g * nb)) ltac:(lia) (grp_cols (g * nb) ltac:(lia)) (grp_asc (g * nb) ltac:(lia))) as H1.
    replace (length (grp (g * nb))) with (Z.to_nat nb) in H1; [exact H1|]. unfold grp. rewrite map_length. pose proof (zlen_zrange 0 nb ltac:(lia)) as Z. unfold zlen in Z. lia.
  Qed.

  Lemma allb_good : forall g, 0 <= g <= ng -> Forall (good n (Z.to_nat nb)) (allb g).
  Proof.
    intros g Hg. apply Forall_forall. intros B HB. unfold allb in HB. apply in_flat_map in HB. destruct HB as (g' & H1 & H2). apply in_zrange in H1.
    pose proof (BL_good g' ltac:(lia)) as F. rewrite Forall_forall in F. auto.
  Qed.

  Lemma masks_len : forall bl : list (block (T := T)), Forall (good n (Z.to_nat nb)) bl -> zlen (flat_map (b_masks n) bl) = zlen bl * nb.
  Proof.
    induction bl as [|B bl IH]; intros F; [cbn; reflexivity|]. apply Forall_cons_iff in F. destruct F as [(_ & L & _) F]. cbn [flat_map].
    rewrite zlen_app, zlen_cons, IH by auto. unfold b_masks. rewrite zlen_map. unfold zlen at 1. rewrite L. lia.
  Qed.

  (** ** The row pointers *)
  Definition rp_ok (g : Z) (rp : list Z) : Prop :=
    zlen rp = m + 1 /\
    (forall h, 0 <= h < g -> zn rp (h * nb) = off h /\ forall s, 1 <= s < nb -> h * nb + s < m -> zn rp (h * nb + s) = off (h + 1)) /\
    (forall t, g * nb <= t <= m -> zn rp t = zn ptr t) /\ (m < g * nb -> zn rp m = zn ptr m).

  Lemma add_out_app : forall (o : blk_out (T := T)) bl bl', add_out n (add_out n o bl) bl' = add_out (T := T) n o (bl ++ bl').
  Proof. intros [[c v] k] bl bl'. unfold add_out. rewrite map_app, !flat_map_app, !app_assoc. reflexivity. Qed.

  Lemma blk_groups_ok : exists rp, blk_groups nb m n b ptr ind val = Some (rp, off ng, add_out n ([], [], []) (allb ng)) /\ rp_ok ng rp.
  Proof.
    unfold blk_groups, for_step. fold ng. destruct ng_ok as (N0 & N1 & N2 & N3). destruct (wf_len _ _ _ _ _ _ W) as [Lp _].
    match goal with |- context [for_ 0 ng ?f ?s] => destruct (for_inv _ (fun g st => let '(rp, t, out) := st in
        t = off g /\ out = add_out n ([], [], []) (allb g) /\ rp_ok g rp) 0 ng f s) as ([[rp t] out] & -> & -> & -> & R); [lia| | |exists rp; auto] end.
    - split; [reflexivity|]. split; [reflexivity|]. split; [exact Lp|]. split; [intros; lia|]. split; [reflexivity|]. intros; reflexivity.
    - intros g [[rp t] out] Hg (-> & -> & L & R1 & R2 & R3). rewrite Z.add_0_l. pose proof (N1 g Hg) as Hgm. destruct (starts_ok (g * nb) Hgm) as (iv & -> & Hv & Eg).
      rewrite (blk_loop_ok O m n nnz b ptr ind val W Lv Hnm Hasc nb Hnb (g * nb) Hgm rp); [|split; [exact L|intros s Hs Hm; apply R2; lia]|exact Hv|rewrite Eg; apply (total_grp (g * nb)); lia].
      rewrite Eg. fold (BL g). rewrite wr_upd by lia. rewrite Z.add_0_l, <- off_S by lia.
      match goal with |- context [for_ 1 ?hi ?f ?s] => destruct (Z.eq_dec hi 1) as [E1|E1] end.
      + rewrite E1, for_nil by lia. eexists. split; [reflexivity|]. split; [reflexivity|]. split; [now rewrite add_out_app, allb_S by lia|].
        split; [rewrite zlen_upd; exact L|]. split; [|split].
        * intros h Hh. destruct (Z.eq_dec h g) as [->|Ne].
          -- split; [apply nthZ_upd_same; lia|]. intros s Hs Hm. lia.
          -- destruct (R1 h ltac:(lia)) as [A B]. assert (h * nb + nb <= g * nb) by (clear - Hh Ne Hnb; nia). split.
             ++ rewrite nthZ_upd by lia. replace (h * nb =? g * nb) with false by lia. exact A.
             ++ intros s Hs Hm. rewrite nthZ_upd by lia. replace (h * nb + s =? g * nb) with false by lia. auto.
        * intros t Ht. rewrite nthZ_upd by lia. replace (t =? g * nb) with false by lia. apply R2. lia.
        * intros Hm. rewrite nthZ_upd by lia. replace (m =? g * nb) with false by lia. apply R2. lia.
      + match goal with |- context [for_ 1 ?hi ?f ?s0] => destruct (for_inv _ (fun s v => zlen v = m + 1 /\
          forall t, 0 <= t <= m -> zn v t = if (g * nb <? t) && (t <? g * nb + s) then off (g + 1) else zn (upd rp (g * nb) (off g)) t) 1 hi f s0) as (v & -> & Lw & Hw) end.
        * lia.
        * split; [rewrite zlen_upd; exact L|]. intros t Ht. replace ((g * nb <? t) && (t <? g * nb + 1)) with false by lia. reflexivity.
        * intros s v Hs [L1 H1]. rewrite wr_upd by lia. eexists. split; [reflexivity|]. split; [rewrite zlen_upd; exact L1|]. intros t Ht. rewrite nthZ_upd by lia.
          destruct (t =? g * nb + s) eqn:Et.
          -- replace ((g * nb <? t) && (t <? g * nb + (s + 1))) with true by lia. reflexivity.
          -- rewrite H1 by lia. replace (t <? g * nb + (s + 1)) with (t <? g * nb + s) by lia. reflexivity.
        * eexists. split; [reflexivity|]. split; [reflexivity|]. split; [now rewrite add_out_app, allb_S by lia|]. split; [exact Lw|]. split; [|split].
          -- intros h Hh. destruct (Z.eq_dec h g) as [->|Ne].
             ++ split.
                ** rewrite Hw by lia. replace ((g * nb <? g * nb) && _) with false by lia. apply nthZ_upd_same; lia.
                ** intros s Hs Hm. rewrite Hw by lia. replace ((g * nb <? g * nb + s) && (g * nb + s <? g * nb + Z.min nb (m - g * nb))) with true by lia. reflexivity.
             ++ destruct (R1 h ltac:(lia)) as [A B]. assert (h * nb + nb <= g * nb) by (clear - Hh Ne Hnb; nia). assert (0 <= h * nb) by (clear - Hh Hnb; nia). split.
                ** rewrite Hw by lia. replace ((g * nb <? h * nb) && _) with false by lia. rewrite nthZ_upd by lia. replace (h * nb =? g * nb) with false by lia. exact A.
                ** intros s Hs Hm. rewrite Hw by lia. replace ((g * nb <? h * nb + s) && _) with false by lia. rewrite nthZ_upd by lia. replace (h * nb + s =? g * nb) with false by lia. auto.
          -- intros t Ht. rewrite Hw by lia. replace ((g * nb <? t) && (t <? g * nb + Z.min nb (m - g * nb))) with false by lia. rewrite nthZ_upd by lia. replace (t =? g * nb) with false by lia. apply R2. lia.
          -- intros Hm. rewrite Hw by lia. replace ((g * nb <? m) && (m <? g * nb + Z.min nb (m - g * nb))) with false by lia. rewrite nthZ_upd by lia. replace (m =? g * nb) with false by lia. apply R2. lia.
  Qed.
End G.
