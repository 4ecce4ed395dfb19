(** Conversion to blocked CSR and counting of blocks compute the blocks of BlkPure. *)
From Coq Require Import ZArith List Bool Lia ZifyBool Sorted.
From Verif Require Import Base BaseFacts Algebra UtilModel DoidModel Csr CsrFacts Vec MvModel MvProof FmtMvModel OptProof BlkModel BlkPure.
Import ListNotations.
Open Scope Z_scope.

Section C.
  Context {T : Type} (O : ops T).
  Local Notation tn := (nthZ (o0 O)).
  Variables (m n nnz b : Z) (ptr ind : list Z) (val : list T).
  Hypothesis W : csr_wf m n nnz b ptr ind.
  Hypothesis Lv : zlen val = nnz.
  Hypothesis Hn8 : 8 <= n.
  Hypothesis Hnm : n + 7 <= int_max.
  Hypothesis Hasc : forall i k k', 0 <= i < m -> in_row ptr b i k -> in_row ptr b i k' -> k < k' -> zn ind k < zn ind k'.

  (** the entries stored at positions p .. e-1 *)
  Definition rest (p e : Z) : row (T := T) := map (fun k => (zn ind k - b, tn val k)) (zrange p e).

  Lemma rest_first : forall p e, p < e -> rest p e = (zn ind p - b, tn val p) :: rest (p + 1) e.
  Proof. intros. unfold rest. rewrite zrange_first by lia. reflexivity. Qed.
  Lemma rest_nil : forall p e, e <= p -> rest p e = [].
  Proof. intros. unfold rest. rewrite zrange_nil by lia. reflexivity. Qed.

  Lemma after_rest : forall c e k p, Z.to_nat (e - p) = k -> after c (rest p e) = rest (p + zlen (seg c (rest p e))) e.
  Proof.
    intros c e. induction k as [|k IH]; intros p H.
    - rewrite rest_nil by lia. cbn. rewrite rest_nil by lia. reflexivity.
    - rewrite rest_first by lia. cbn [after seg fst]. destruct (zn ind p - b <? c + blk_width).
      + rewrite zlen_cons. replace (p + (1 + zlen (seg c (rest (p + 1) e)))) with (p + 1 + zlen (seg c (rest (p + 1) e))) by lia. apply IH. lia.
      + change (zlen (@nil (Z * T))) with 0. rewrite Z.add_0_r. symmetry. apply rest_first. lia.
  Qed.

  Lemma seg_len : forall c p e, p <= e -> 0 <= zlen (seg c (rest p e)) <= e - p.
  Proof.
    intros c p e H. split; [apply zlen_nonneg|]. pose proof (f_equal (@zlen _) (seg_after c (rest p e))) as E. rewrite zlen_app in E.
    unfold rest at 1 in E. rewrite zlen_map, zlen_zrange in E by lia. pose proof (zlen_nonneg _ (after c (rest p e))). lia.
  Qed.

  Lemma blk_end_ok : forall c, c < n -> blk_end c = Some (c + blk_width).
  Proof. intros c H. unfold blk_end. destruct (c + blk_width <=? int_max) eqn:E; [reflexivity|]. unfold blk_width in *. lia. Qed.

  (** column after the shift to the last eight columns *)
  Definition ccol (c : Z) : Z := if n <? c + blk_width then n - blk_width else c.

  Lemma skip_row_ok : forall c e p, 0 <= p -> e <= nnz -> c < n ->
    skip_row b ind c e p = Some (p + zlen (seg c (rest p e))).
  Proof.
    intros c e p Hp He Hc. unfold skip_row, forb, forc.
    set (f := fun (q _ : Z) => _).
    assert (forall k p, Z.to_nat (e - p) = k -> 0 <= p ->
      loopM f (zrange p e) p
      = Some (@inl _ unit (p + zlen (seg c (rest p e))))) as H.
    { clear p Hp. induction k as [|k IH]; intros p H Hp.
      - rewrite zrange_nil, rest_nil by lia. cbn. now rewrite Z.add_0_r.
      - rewrite zrange_first, rest_first by lia. cbn [loopM seg fst]. destruct (wf_len _ _ _ _ _ _ W) as [_ Li].
        unfold f at 1. rewrite (rd_nthZ _ 0) by lia. rewrite blk_end_ok by lia. destruct (zn ind p - b <? c + blk_width).
        + rewrite IH by lia. rewrite zlen_cons. do 2 f_equal. lia.
        + change (zlen (@nil (Z * T))) with 0. now rewrite Z.add_0_r. }
    now rewrite (H _ p eq_refl Hp).
  Qed.

  Definition nmask (c : Z) (sg : row (T := T)) : Z := if n <? c + blk_width then maskof (n - blk_width) sg else 0.

  Lemma take_row_ok : forall c e p vals, 0 <= p -> e <= nnz -> 0 <= c < n -> (forall k, p <= k < e -> c <= zn ind k - b) ->
    take_row n b ind val c e p vals =
    Some (p + zlen (seg c (rest p e)), maskof c (seg c (rest p e)), nmask c (seg c (rest p e)), vals ++ map snd (seg c (rest p e))).
  Proof.
    intros c e p vals Hp He Hc Hk. unfold take_row, forb, forc.
    set (f := fun (q : Z) (st : Z * Z * Z * list T) => _).
    assert (forall k p sg0 vals, Z.to_nat (e - p) = k -> 0 <= p -> (forall k, p <= k < e -> c <= zn ind k - b) ->
      (forall x, In x sg0 -> c <= fst x < c + 8 /\ fst x < n) ->
      loopM f (zrange p e) (p, maskof c sg0, nmask c sg0, vals)
      = Some (@inl _ unit (p + zlen (seg c (rest p e)), maskof c (sg0 ++ seg c (rest p e)), nmask c (sg0 ++ seg c (rest p e)), vals ++ map snd (seg c (rest p e))))) as H.
    { clear p vals Hp Hk. induction k as [|k IH]; intros p sg0 vals H Hp Hk Hs.
      - rewrite zrange_nil, rest_nil by lia. cbn. now rewrite Z.add_0_r, !app_nil_r.
      - rewrite zrange_first, rest_first by lia. cbn [loopM seg fst]. destruct (wf_len _ _ _ _ _ _ W) as [_ Li].
        unfold f at 1. rewrite (rd_nthZ _ 0) by lia. rewrite blk_end_ok by lia. specialize (Hk p ltac:(lia)) as Hkp.
        destruct (zn ind p - b <? c + blk_width) eqn:El.
        + rewrite (rd_nthZ _ (o0 O)) by lia. unfold shl at 1. unfold blk_width in El.
          replace ((0 <=? zn ind p - b - c) && (zn ind p - b - c <? 32)) with true by lia.
          set (ee := (zn ind p - b, tn val p)).
          assert (u8 (Z.lor (maskof c sg0) (Z.shiftl 1 (zn ind p - b - c))) = maskof c (sg0 ++ [ee])) as Em.
          { rewrite maskof_snoc. unfold u8. cbn [ee fst]. apply Z.mod_small. apply lor_byte; [apply maskof_byte; intros x Hx; apply Hs in Hx; lia|apply bit_byte; lia]. }
          assert (forall x, In x (sg0 ++ [ee]) -> c <= fst x < c + 8 /\ fst x < n) as Hs'.
          { intros x Hx. apply in_app_or in Hx. destruct Hx as [Hx|[<-|[]]]; [auto|]. cbn [ee fst]. pose proof (wf_ind _ _ _ _ _ _ W p ltac:(lia)). lia. }
          rewrite Em.
          replace (if n <? c + blk_width then let* w := shl (maskof c (sg0 ++ [ee])) (blk_width - (n - c)) in Some (u8 w) else Some (nmask c sg0))
            with (Some (nmask c (sg0 ++ [ee]))).
          * rewrite (IH (p + 1) (sg0 ++ [ee]) (vals ++ [tn val p])) by (auto; try lia; intros; apply Hk; lia).
            rewrite zlen_cons, <- !app_assoc. cbn [app map snd ee]. do 5 f_equal. lia.
          * unfold nmask. destruct (n <? c + blk_width) eqn:En; [|reflexivity]. unfold shl, blk_width in *.
            replace ((0 <=? 8 - (n - c)) && (8 - (n - c) <? 32)) with true by lia.
            rewrite maskof_shift by (try lia; intros x Hx; apply Hs' in Hx; lia). replace (c - (8 - (n - c))) with (n - 8) by lia.
            unfold u8. rewrite Z.mod_small; [reflexivity|]. apply maskof_byte. intros x Hx. pose proof (Hs' _ Hx). lia.
        + change (zlen (@nil (Z * T))) with 0. cbn [map]. now rewrite Z.add_0_r, !app_nil_r. }
    specialize (H _ p [] vals eq_refl Hp Hk ltac:(intros x [])). cbn [app] in H. unfold nmask in H at 1. change (maskof c (@nil (Z * T))) with 0 in H.
    change (maskof (n - blk_width) (@nil (Z * T))) with 0 in H. replace (if n <? c + blk_width then 0 else 0) with 0 in H by (destruct (n <? c + blk_width); reflexivity).
    now rewrite H.
  Qed.

  (** ** One group of rows *)
  Variable nb : Z.
  Hypothesis Hnb : 0 < nb.

  Section Group.
    Variable i : Z.
    Hypothesis Hi : 0 <= i < m.
    Definition rend (s : Z) : Z := zn ptr (i + s + 1) - b.
    Definition grow (iv : list Z) (s : Z) : row (T := T) := if i + s <? m then rest (zn iv s) (rend s) else [].
    Definition growsat (iv : list Z) : list (row (T := T)) := map (grow iv) (zrange 0 nb).
    (** the array holding the row ends agrees with the pointers of this group *)
    Definition ends (re : list Z) : Prop := zlen re = m + 1 /\ forall s, 0 <= s < nb -> i + s < m -> zn re (i + s + 1) = zn ptr (i + s + 1).
    Definition ivok (iv : list Z) : Prop := zlen iv = nb /\
      forall s, 0 <= s < nb -> i + s < m -> zn ptr (i + s) - b <= zn iv s <= rend s.

    Local Notation k := (Z.min nb (m - i)).

    Lemma rend_ok : forall s, 0 <= s < nb -> i + s < m -> 0 <= zn ptr (i + s) - b /\ zn ptr (i + s) - b <= rend s <= nnz.
    Proof. intros s H1 H2. destruct (row_bounds _ _ _ _ _ _ (i + s) W ltac:(lia)) as (? & ? & ? & ? & ?). unfold rend. lia. Qed.

    Lemma growsat_split : forall iv, growsat iv = map (grow iv) (zrange 0 k) ++ map (fun _ => []) (zrange k nb).
    Proof.
      intros iv. unfold growsat. rewrite (zrange_app 0 k nb) by lia. rewrite map_app. f_equal. apply map_ext_in. intros s Hs. apply in_zrange in Hs.
      unfold grow. replace (i + s <? m) with false by lia. reflexivity.
    Qed.

    Lemma heads_ok : forall re iv, ends re -> ivok iv -> heads nb m b re ind i iv = Some (forallb isnil (growsat iv), hmin (growsat iv)).
    Proof.
      intros re iv [Lr Hr] [Li Hiv]. unfold heads.
      destruct (for_inv _ (fun s st => st = (forallb isnil (map (grow iv) (zrange 0 s)), fold_left hd_min (map (grow iv) (zrange 0 s)) int_max)) 0 k
        (fun s st => let '(complete, c) := st in let* p := rd iv s in let* e := rd re (i + s + 1) in
           if p <? e - b then let* col := rd ind p in Some (false, Z.min c (col - b)) else Some (complete, c)) (true, int_max)) as (st & -> & ->); [lia|reflexivity| |].
      - intros s st Hs ->. rewrite (rd_nthZ _ 0) by lia. rewrite (rd_nthZ _ 0) by lia. rewrite Hr by lia.
        rewrite (zrange_last 0 s) by lia. rewrite map_app, forallb_app, fold_left_app. cbn [map forallb fold_left].
        pose proof (Hiv s ltac:(lia) ltac:(lia)). pose proof (rend_ok s ltac:(lia) ltac:(lia)). destruct (wf_len _ _ _ _ _ _ W) as [_ Ln].
        assert (grow iv s = rest (zn iv s) (rend s)) as -> by (unfold grow; replace (i + s <? m) with true by lia; reflexivity). fold (rend s). destruct (zn iv s <? rend s) eqn:E.
        + rewrite (rd_nthZ _ 0) by lia. rewrite rest_first by lia. cbn [isnil hd_min fst]. eexists. split; [reflexivity|]. rewrite !andb_false_r. reflexivity.
        + rewrite rest_nil by lia. cbn [isnil hd_min]. eexists. split; [reflexivity|]. rewrite !andb_true_r. reflexivity.
      - f_equal. f_equal.
        + rewrite growsat_split, forallb_app. replace (forallb isnil (map (fun _ => []) (zrange k nb))) with true; [now rewrite andb_true_r|].
          symmetry. apply forallb_forall. intros r Hx. apply in_map_iff in Hx. destruct Hx as (? & <- & _). reflexivity.
        + unfold hmin. rewrite growsat_split, fold_left_app. generalize (fold_left hd_min (map (grow iv) (zrange 0 k)) int_max).
          clear. induction (zrange k nb) as [|a l IH]; intros c; cbn; [reflexivity|apply IH].
    Qed.

    Lemma asc_rest : forall p e s, 0 <= s < nb -> i + s < m -> zn ptr (i + s) - b <= p -> e <= rend s -> asc (rest p e).
    Proof.
      intros p e s H1 H2 H3 H4. unfold rest. remember (Z.to_nat (e - p)) as q eqn:Eq. symmetry in Eq. revert p H3 Eq.
      induction q as [|q IH]; intros p H3 Eq.
      - rewrite zrange_nil by lia. constructor.
      - rewrite zrange_first by lia. cbn [map]. constructor; [apply IH; lia|]. apply Forall_forall. intros x Hx. apply in_map_iff in Hx.
        destruct Hx as (t & <- & Ht). apply in_zrange in Ht. cbn [fst]. pose proof (Hasc (i + s) p t ltac:(lia)) as A. unfold in_row, rend in *. lia.
    Qed.

    Lemma grows_in : forall iv r, In r (growsat iv) -> r = [] \/ exists s, 0 <= s < nb /\ i + s < m /\ r = rest (zn iv s) (rend s).
    Proof.
      intros iv r H. unfold growsat in H. apply in_map_iff in H. destruct H as (s & <- & Hs). apply in_zrange in Hs. unfold grow.
      destruct (i + s <? m) eqn:E; [|auto]. right. exists s. repeat split; lia.
    Qed.

    Lemma grows_asc : forall iv, ivok iv -> all_asc (growsat iv).
    Proof.
      intros iv [Li Hiv] r Hr. apply grows_in in Hr. destruct Hr as [->|(s & Hs & Hm & ->)]; [constructor|].
      pose proof (Hiv s Hs Hm). eapply asc_rest; eauto; lia.
    Qed.

    Lemma grows_cols : forall iv, ivok iv -> in_cols n (growsat iv).
    Proof.
      intros iv [Li Hiv] r e Hr He. apply grows_in in Hr. destruct Hr as [->|(s & Hs & Hm & ->)]; [destruct He|].
      pose proof (Hiv s Hs Hm). pose proof (rend_ok s Hs Hm). unfold rest in He. apply in_map_iff in He. destruct He as (t & <- & Ht). apply in_zrange in Ht.
      pose proof (wf_ind _ _ _ _ _ _ W t ltac:(lia)). cbn [fst]. lia.
    Qed.

    (** positions after a block whose first column is c *)
    Definition iv_next (c : Z) (iv iv' : list Z) : Prop := zlen iv' = nb /\
      forall s, 0 <= s < nb -> i + s < m -> zn iv' s = zn iv s + zlen (seg c (rest (zn iv s) (rend s))).

    Lemma iv_next_ok : forall c iv iv', ivok iv -> iv_next c iv iv' -> ivok iv'.
    Proof.
      intros c iv iv' [Li H] [Li' H']. split; [exact Li'|]. intros s Hs Hm. rewrite H' by auto. pose proof (H s Hs Hm).
      pose proof (seg_len c (zn iv s) (rend s) ltac:(lia)). lia.
    Qed.

    Lemma iv_next_rows : forall c iv iv', ivok iv -> iv_next c iv iv' -> growsat iv' = map (after c) (growsat iv).
    Proof.
      intros c iv iv' [Li H] [Li' H']. unfold growsat. rewrite map_map. apply map_ext_in. intros s Hs. apply in_zrange in Hs. unfold grow.
      destruct (i + s <? m) eqn:E; [|reflexivity]. rewrite H' by lia. symmetry. eapply after_rest. reflexivity.
    Qed.

    Lemma hmin_range : forall iv, ivok iv -> forallb isnil (growsat iv) = false -> 0 <= hmin (growsat iv) < n.
    Proof.
      intros iv Hv E. destruct (hmin_att n (growsat iv) ltac:(lia) (grows_cols _ Hv) E) as (e & r & Hin & ->). eapply (grows_cols _ Hv); [exact Hin|left; auto].
    Qed.

    Lemma count_loop_ok : forall re, ends re -> forall fuel iv cnt, ivok iv -> (total (growsat iv) < fuel)%nat ->
      count_loop fuel nb m b re ind i iv cnt = Some (cnt + zlen (blocks fuel (growsat iv))).
    Proof.
      intros re Hre. induction fuel as [|f IH]; intros iv cnt Hv Hf; [lia|]. cbn [count_loop blocks]. rewrite (heads_ok re) by auto.
      destruct (forallb isnil (growsat iv)) eqn:E; [cbn; now rewrite Z.add_0_r|].
      set (c := hmin (growsat iv)). pose proof (hmin_range iv Hv E) as Hc. fold c in Hc. pose proof Hre as [Lr Hr]. pose proof Hv as [Li Hiv].
      destruct (for_inv _ (fun s v => zlen v = nb /\ forall t, 0 <= t < nb -> i + t < m ->
          zn v t = if t <? s then zn iv t + zlen (seg c (rest (zn iv t) (rend t))) else zn iv t) 0 k
        (fun s iv => let* p := rd iv s in let* e := rd re (i + s + 1) in let* q := skip_row b ind c (e - b) p in wr iv s q) iv) as (iv' & -> & L' & H'); [lia| | |].
      - split; [exact Li|]. intros t Ht Hm. replace (t <? 0) with false by lia. reflexivity.
      - intros s v Hs [L1 H1]. rewrite (rd_nthZ _ 0) by lia. rewrite (rd_nthZ _ 0) by lia. rewrite Hr by lia. fold (rend s).
        pose proof (Hiv s ltac:(lia) ltac:(lia)). pose proof (rend_ok s ltac:(lia) ltac:(lia)).
        assert (zn v s = zn iv s) as -> by (rewrite H1 by lia; replace (s <? s) with false by lia; reflexivity).
        rewrite skip_row_ok by lia. rewrite wr_upd by lia. eexists. split; [reflexivity|]. split; [rewrite zlen_upd; exact L1|]. intros t Ht Hm.
        rewrite nthZ_upd by lia. destruct (t =? s) eqn:Et.
        + replace t with s by lia. replace (s <? s + 1) with true by lia. reflexivity.
        + rewrite H1 by lia. replace (t <? s + 1) with (t <? s) by lia. reflexivity.
      - assert (iv_next c iv iv') as Hx. { split; [exact L'|]. intros s Hs Hm. rewrite H' by lia. replace (s <? k) with true by lia. reflexivity. }
        destruct (hmin_att n (growsat iv) ltac:(lia) (grows_cols _ Hv) E) as (e & r & Hin & Em). fold c in Em. pose proof (total_after_lt _ _ _ _ Hin Em).
        rewrite IH; [|eapply iv_next_ok; eauto|rewrite (iv_next_rows c iv iv') by auto; lia].
        rewrite (iv_next_rows c iv iv') by auto. rewrite zlen_cons. f_equal. now rewrite Z.add_assoc.
    Qed.

    (** what a block adds to the arrays *)
    Definition b_vals (B : block (T := T)) : list T := flat_map (map snd) (snd B).
    Definition b_masks (B : block (T := T)) : list Z := map (maskof (ccol (fst B))) (snd B).
    Definition add_out (o : blk_out (T := T)) (bl : list (block (T := T))) : blk_out (T := T) :=
      let '(cols, vals, masks) := o in
      (cols ++ map (fun B => ccol (fst B)) bl, vals ++ flat_map b_vals bl, masks ++ flat_map b_masks bl).

    Lemma flat_map_rest_nil : forall (g : Z -> list T) lo hi, (forall s, lo <= s < hi -> g s = []) -> flat_map g (zrange lo hi) = [].
    Proof.
      intros g lo hi H. assert (forall l, (forall s, In s l -> lo <= s < hi) -> flat_map g l = []) as A.
      { induction l as [|a l IH]; intros Hl; cbn; [reflexivity|]. rewrite H, IH; auto; intros; apply Hl; cbn; auto. }
      apply A. intros s Hs. apply in_zrange in Hs. exact Hs.
    Qed.

    Lemma blk_loop_ok : forall re, ends re -> forall fuel iv cnt out, ivok iv -> (total (growsat iv) < fuel)%nat ->
      blk_loop fuel nb m n b re ind val i iv cnt out = Some (cnt + zlen (blocks fuel (growsat iv)), add_out out (blocks fuel (growsat iv))).
    Proof.
      intros re Hre. induction fuel as [|f IH]; intros iv cnt out Hv Hf; [lia|]. cbn [blk_loop blocks]. rewrite (heads_ok re) by auto.
      destruct out as [[cols vals] masks].
      destruct (forallb isnil (growsat iv)) eqn:E; [cbn; now rewrite Z.add_0_r, !app_nil_r|].
      set (c := hmin (growsat iv)). pose proof (hmin_range iv Hv E) as Hc. fold c in Hc. pose proof Hre as [Lr Hr]. pose proof Hv as [Li Hiv].
      set (sgs := fun s => seg c (grow iv s)).
      destruct (for_inv _ (fun s st => let '(v, mk, nmk, vs) := st in zlen v = nb /\ zlen mk = nb /\ zlen nmk = nb /\
          (forall t, 0 <= t < nb -> i + t < m -> zn v t = if t <? s then zn iv t + zlen (seg c (rest (zn iv t) (rend t))) else zn iv t) /\
          (forall t, 0 <= t < nb -> zn mk t = if t <? s then maskof c (sgs t) else 0) /\
          (forall t, 0 <= t < nb -> zn nmk t = if t <? s then nmask c (sgs t) else 0) /\
          vs = vals ++ flat_map (fun t => map snd (sgs t)) (zrange 0 s)) 0 k
        (fun s st => let '(iv, mask, newmask, vals) := st in let* p := rd iv s in let* e := rd re (i + s + 1) in
              let* (q, mk, nmk, vals) := take_row n b ind val c (e - b) p vals in
              let* iv := wr iv s q in let* mask := wr mask s mk in let* newmask := wr newmask s nmk in
              Some (iv, mask, newmask, vals)) (iv, zrep nb 0, zrep nb 0, vals)) as ([[[iv' mk] nmk] vs] & -> & L1 & L2 & L3 & H1 & H2 & H3 & ->); [lia| | |].
      - repeat split; try exact Li; try (apply zlen_zrep; lia).
        + intros t Ht Hm. replace (t <? 0) with false by lia. reflexivity.
        + intros t Ht. replace (t <? 0) with false by lia. rewrite nthZ_zrep by lia. reflexivity.
        + intros t Ht. replace (t <? 0) with false by lia. rewrite nthZ_zrep by lia. reflexivity.
        + rewrite zrange_nil by lia. cbn. now rewrite app_nil_r.
      - intros s [[[v mk] nmk] vs] Hs (L1 & L2 & L3 & H1 & H2 & H3 & ->). rewrite (rd_nthZ _ 0) by lia. rewrite (rd_nthZ _ 0) by lia. rewrite Hr by lia. fold (rend s).
        pose proof (Hiv s ltac:(lia) ltac:(lia)). pose proof (rend_ok s ltac:(lia) ltac:(lia)).
        assert (zn v s = zn iv s) as -> by (rewrite H1 by lia; replace (s <? s) with false by lia; reflexivity).
        assert (sgs s = seg c (rest (zn iv s) (rend s))) as Es. { unfold sgs, grow. replace (i + s <? m) with true by lia. reflexivity. }
        rewrite take_row_ok; try lia.
        2:{ intros t Ht. assert (In (grow iv s) (growsat iv)) as Hin. { apply in_map. apply in_zrange. lia. }
            unfold grow in Hin. replace (i + s <? m) with true in Hin by lia.
            assert (In (zn ind t - b, tn val t) (rest (zn iv s) (rend s))) as He. { unfold rest. apply in_map_iff. exists t. split; [reflexivity|]. apply in_zrange. exact Ht. }
            exact (hmin_below _ _ _ (grows_asc _ Hv) Hin He). }
        rewrite <- Es. rewrite !wr_upd by lia. eexists. split; [reflexivity|]. cbn beta iota. rewrite !zlen_upd. split; [exact L1|]. split; [exact L2|]. split; [exact L3|].
        split; [|split; [|split]].
        + intros t Ht Hm. rewrite nthZ_upd by lia. destruct (t =? s) eqn:Et.
          * replace t with s by lia. replace (s <? s + 1) with true by lia. now rewrite Es.
          * rewrite H1 by lia. replace (t <? s + 1) with (t <? s) by lia. reflexivity.
        + intros t Ht. rewrite nthZ_upd by lia. destruct (t =? s) eqn:Et.
          * replace t with s by lia. replace (s <? s + 1) with true by lia. reflexivity.
          * rewrite H2 by lia. replace (t <? s + 1) with (t <? s) by lia. reflexivity.
        + intros t Ht. rewrite nthZ_upd by lia. destruct (t =? s) eqn:Et.
          * replace t with s by lia. replace (s <? s + 1) with true by lia. reflexivity.
          * rewrite H3 by lia. replace (t <? s + 1) with (t <? s) by lia. reflexivity.
        + rewrite (zrange_last 0 s) by lia. rewrite flat_map_app. cbn [flat_map]. rewrite app_nil_r, app_assoc. reflexivity.
      - assert (iv_next c iv iv') as Hx. { split; [exact L1|]. intros s Hs Hm. rewrite H1 by lia. replace (s <? k) with true by lia. reflexivity. }
        destruct (hmin_att n (growsat iv) ltac:(lia) (grows_cols _ Hv) E) as (e & r & Hin & Em). fold c in Em. pose proof (total_after_lt _ _ _ _ Hin Em).
        rewrite blk_end_ok by lia.
        assert (forall s, k <= s < nb -> sgs s = []) as Hsn. { intros s Hs. unfold sgs, grow. replace (i + s <? m) with false by lia. reflexivity. }
        assert (mk = map (maskof c) (map (seg c) (growsat iv))) as Emk.
        { unfold growsat. rewrite !map_map. apply (nthZ_ext _ 0); [rewrite zlen_map, zlen_zrange by lia; lia|]. intros t Ht. rewrite L2 in Ht.
          rewrite H2 by lia. rewrite nthZ_mapzr by lia. fold (sgs t). destruct (t <? k) eqn:Et; [reflexivity|]. rewrite Hsn by lia. reflexivity. }
        assert (nmk = map (nmask c) (map (seg c) (growsat iv))) as Enmk.
        { unfold growsat. rewrite !map_map. apply (nthZ_ext _ 0); [rewrite zlen_map, zlen_zrange by lia; lia|]. intros t Ht. rewrite L3 in Ht.
          rewrite H3 by lia. rewrite nthZ_mapzr by lia. fold (sgs t). destruct (t <? k) eqn:Et; [reflexivity|]. rewrite Hsn by lia. unfold nmask. destruct (n <? c + blk_width); reflexivity. }
        assert (flat_map (fun t => map snd (sgs t)) (zrange 0 k) = b_vals (c, map (seg c) (growsat iv))) as Evs.
        { unfold b_vals, growsat. cbn [snd]. rewrite map_map. rewrite flat_map_concat_map, (flat_map_concat_map (map snd)), map_map. fold sgs.
          rewrite <- !flat_map_concat_map. rewrite (zrange_app 0 k nb), flat_map_app by lia.
          rewrite (flat_map_rest_nil (fun t => map snd (seg c (grow iv t))) k nb); [now rewrite app_nil_r|]. intros s Hs. fold (sgs s). rewrite Hsn by lia. reflexivity. }
        rewrite Evs.
        replace (if n <? c + blk_width then (cols ++ [n - blk_width], vals ++ b_vals (c, map (seg c) (growsat iv)), masks ++ nmk) else (cols ++ [c], vals ++ b_vals (c, map (seg c) (growsat iv)), masks ++ mk))
          with (cols ++ [ccol c], vals ++ b_vals (c, map (seg c) (growsat iv)), masks ++ b_masks (c, map (seg c) (growsat iv))).
        2:{ rewrite Emk, Enmk. unfold b_masks, ccol, nmask. cbn [fst snd]. destruct (n <? c + blk_width); reflexivity. }
        rewrite IH; [|eapply iv_next_ok; eauto|rewrite (iv_next_rows c iv iv') by auto; lia].
        rewrite (iv_next_rows c iv iv') by auto. unfold add_out. cbn [map flat_map fst]. rewrite zlen_cons, <- !app_assoc. cbn [app]. do 2 f_equal. now rewrite Z.add_assoc.
    Qed.
  End Group.
End C.
