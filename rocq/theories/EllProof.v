From Coq Require Import ZArith List Bool Lia.
From Verif Require Import Base BaseFacts Algebra Csr CsrFacts DescrModel EllModel EllSpec Writes.
Import ListNotations.
Open Scope Z_scope.

Lemma ell_width_ok : forall m n nnz b ptr ind w0, csr_wf m n nnz b ptr ind ->
  exists wd, csr2ell_width m nnz (Some ptr) (Some w0) = Some (success, Some wd) /\ is_max_row m ptr wd.
Proof.
  intros m n nnz b ptr ind w0 W. unfold csr2ell_width.
  destruct (wf_len _ _ _ _ _ _ W) as [L1 _]. pose proof (wf_m _ _ _ _ _ _ W).
  replace (m <? 0) with false by lia.
  match goal with |- context [for_ 0 m ?f 0] =>
    destruct (for_inv _ (fun i wd => (forall i', 0 <= i' < i -> row_len ptr i' <= wd) /\ 0 <= wd /\
       (wd = 0 \/ exists i', 0 <= i' < i /\ row_len ptr i' = wd)) 0 m f 0) as (wd & E & H1 & H2 & H3) end.
  - lia.
  - repeat split; try lia.
  - intros i wd Hi (H1 & H2 & H3). rewrite !(rd_nthZ _ 0) by lia. eexists; split; [reflexivity|].
    fold (row_len ptr i). destruct (wd <? row_len ptr i) eqn:E.
    + split; [|split; [lia|right; exists i; lia]]. intros i' Hi'.
      destruct (Z.eq_dec i' i) as [->|]; [lia|]. specialize (H1 i' ltac:(lia)). lia.
    + split; [|split; [lia|]].
      * intros i' Hi'. destruct (Z.eq_dec i' i) as [->|]; [lia|]. apply H1; lia.
      * destruct H3 as [?|(i' & ? & ?)]; [now left|right; exists i'; lia].
  - rewrite E. exists wd. split; [reflexivity|]. split; auto.
Qed.

Section E.
  Context {T : Type} (z : T).

  Definition slot_good (m wd : Z) (slot : Z -> Z -> Z) (len : Z) : Prop :=
    (forall i k, 0 <= i < m -> 0 <= k < wd -> 0 <= slot i k < len) /\
    (forall i k i' k', 0 <= i < m -> 0 <= k < wd -> 0 <= i' < m -> 0 <= k' < wd ->
       slot i k = slot i' k' -> i = i' /\ k = k').

  Lemma ell_slot_good : forall m wd, slot_good m wd (ell_slot wd) (m * wd).
  Proof.
    intros m wd. unfold ell_slot. split; [intros; nia|].
    intros i k i' k' Hi Hk Hi' Hk' E. assert (i = i') by nia. subst; lia.
  Qed.
  Lemma ellt_slot_good : forall m wd, slot_good m wd (ellt_slot m) (m * wd).
  Proof.
    intros m wd. unfold ellt_slot. split; [intros; nia|].
    intros i k i' k' Hi Hk Hi' Hk' E. assert (k = k') by nia. subst; lia.
  Qed.

  Definition filled {X} (d : X) (m wd : Z) slot (F : Z -> Z -> X) (i k : Z) (a : list X) : Prop :=
    zlen a = m * wd /\
    forall i' k', 0 <= i' < m -> 0 <= k' < wd -> (i' < i \/ i' = i /\ k' < k) -> nthZ d a (slot i' k') = F i' k'.

  Lemma filled_step : forall X (d : X) m wd slot F i k a x, slot_good m wd slot (m * wd) ->
    0 <= i < m -> 0 <= k < wd -> filled d m wd slot F i k a -> x = F i k ->
    wr a (slot i k) x = Some (upd a (slot i k) x) /\ filled d m wd slot F i (k + 1) (upd a (slot i k) x).
  Proof.
    intros X d m wd slot F i k a x [G1 G2] Hi Hk [L H] ->. pose proof (G1 i k Hi Hk).
    split; [apply wr_upd; lia|]. split; [now rewrite zlen_upd|]. intros i' k' Hi' Hk' Hc.
    pose proof (G1 i' k' Hi' Hk'). rewrite nthZ_upd by lia. destruct (slot i' k' =? slot i k) eqn:E.
    - apply Z.eqb_eq in E. destruct (G2 i' k' i k) as [-> ->]; auto.
    - apply H; auto. assert (i' <> i \/ k' <> k) by (destruct (Z.eq_dec i' i), (Z.eq_dec k' k); subst; auto; lia). lia.
  Qed.
  Lemma filled_next : forall X (d : X) m wd slot F i a, filled d m wd slot F i wd a -> filled d m wd slot F (i + 1) 0 a.
  Proof. intros X d m wd slot F i a [L H]. split; [exact L|]. intros. apply H; auto; lia. Qed.

  Definition Fc (b : Z) (ptr ind : list Z) (padc : Z -> Z) (i k : Z) : Z :=
    if k <? row_len ptr i then zn ind (zn ptr i - b + k) else padc i.
  Definition Fv (b : Z) (ptr : list Z) (val : list T) (i k : Z) : T :=
    if k <? row_len ptr i then nthZ z val (zn ptr i - b + k) else z.

  Lemma filled_rows : forall m wd slot b ptr ind val padc c v,
    filled 0 m wd slot (Fc b ptr ind padc) m 0 c -> filled z m wd slot (Fv b ptr val) m 0 v ->
    forall i, 0 <= i < m -> ell_row_ok z slot b wd ptr ind val (padc i) c v i.
  Proof.
    intros m wd slot b ptr ind val padc c v [_ Hc] [_ Hv] i Hi k Hk.
    rewrite Hc, Hv by (auto; lia). unfold Fc, Fv. destruct (k <? row_len ptr i); auto.
  Qed.

  Section Rows.
    Variables (m n nnz b wd : Z) (ptr ind : list Z) (val : list T).
    Hypotheses (W : csr_wf m n nnz b ptr ind) (Lv : zlen val = nnz).

    (** The copy loop of a row no longer than the width. *)
    Lemma copy_inv : forall slot Fc' Fv' i c v, slot_good m wd slot (m * wd) -> 0 <= i < m -> row_len ptr i <= wd ->
      (forall k, 0 <= k < row_len ptr i -> Fc' i k = zn ind (zn ptr i - b + k)) ->
      (forall k, 0 <= k < row_len ptr i -> Fv' i k = nthZ z val (zn ptr i - b + k)) ->
      filled 0 m wd slot Fc' i 0 c -> filled z m wd slot Fv' i 0 v ->
      forall k0 (at_ : Z -> Z), (forall k, at_ k = slot i (k - k0)) ->
      exists c' v',
        for_ (zn ptr i - b) (zn ptr (i + 1) - b) (fun j '(p, c, v) =>
          let* cj := rd ind j in
          let* c := wr c (at_ p) cj in
          let* vj := rd val j in
          let* v := wr v (at_ p) vj in
          Some (p + 1, c, v)) (k0, c, v) = Some (k0 + row_len ptr i, c', v') /\
        filled 0 m wd slot Fc' i (row_len ptr i) c' /\
        filled z m wd slot Fv' i (row_len ptr i) v'.
    Proof.
      intros slot Fc' Fv' i c v G Hi Hl HFc HFv Hc Hv k0 at_ Hat.
      destruct (wf_len _ _ _ _ _ _ W) as [L1 L2].
      destruct (wf_ptr _ _ _ _ _ _ W) as (_ & _ & Hm). pose proof (Hm i Hi) as Hmi.
      match goal with |- context [for_ ?lo ?hi ?f ?s] =>
        destruct (for_inv _ (fun j (st : Z * list Z * list T) => let '(p, c, v) := st in
           p = k0 + (j - lo) /\ filled 0 m wd slot Fc' i (j - lo) c /\
           filled z m wd slot Fv' i (j - lo) v) lo hi f s) as (st & E & R) end.
      - lia.
      - rewrite Z.sub_diag. repeat split; auto; try lia; [apply Hc|apply Hc|apply Hv|apply Hv]; auto.
      - intros j [[p c1] v1] Hj (Hp & Hc1 & Hv1).
        pose proof (in_row_range _ _ _ _ (wf_ptr _ _ _ _ _ _ W) i j Hi Hj).
        rewrite (rd_nthZ _ 0 ind), (rd_nthZ _ z val) by lia. rewrite Hat.
        replace (p - k0) with (j - (zn ptr i - b)) by lia.
        assert (Hk : 0 <= j - (zn ptr i - b) < wd) by (unfold row_len in Hl; lia).
        destruct (filled_step _ 0 m wd slot Fc' i (j - (zn ptr i - b)) c1 (zn ind j) G Hi Hk Hc1) as [E1 H1].
        { rewrite HFc by (unfold row_len; lia). f_equal; lia. }
        rewrite E1.
        destruct (filled_step _ z m wd slot Fv' i (j - (zn ptr i - b)) v1 (nthZ z val j) G Hi Hk Hv1) as [E2 H2].
        { rewrite HFv by (unfold row_len; lia). f_equal; lia. }
        rewrite E2. eexists; split; [reflexivity|]. cbv beta iota.
        replace (j + 1 - (zn ptr i - b)) with (j - (zn ptr i - b) + 1) by lia. split; [lia|]. split; assumption.
      - destruct st as [[p c1] v1]. destruct R as (Hp & Hc1 & Hv1). exists c1, v1.
        replace (zn ptr (i + 1) - b - (zn ptr i - b)) with (row_len ptr i) in * by (unfold row_len; lia).
        rewrite E. subst p. auto.
    Qed.

    Lemma csr2ell_row_ok : forall i c v, 0 <= i < m -> row_len ptr i <= wd ->
      filled 0 m wd (ell_slot wd) (Fc b ptr ind (fun _ => -1)) i 0 c ->
      filled z m wd (ell_slot wd) (Fv b ptr val) i 0 v ->
      exists c' v', csr2ell_row z b wd ptr ind val i (c, v) = Some (c', v') /\
        filled 0 m wd (ell_slot wd) (Fc b ptr ind (fun _ => -1)) (i + 1) 0 c' /\
        filled z m wd (ell_slot wd) (Fv b ptr val) (i + 1) 0 v'.
    Proof.
      intros i c v Hi Hl Hc Hv. unfold csr2ell_row. pose proof (ell_slot_good m wd) as G.
      destruct (wf_len _ _ _ _ _ _ W) as [L1 L2].
      destruct (wf_ptr _ _ _ _ _ _ W) as (_ & _ & Hm). pose proof (Hm i Hi) as Hmi.
      rewrite !(rd_nthZ _ 0 ptr) by lia.
      destruct (copy_inv _ (Fc b ptr ind (fun _ => -1)) (Fv b ptr val) i c v G Hi Hl) with (3 := Hc) (4 := Hv) (k0 := i * wd) (at_ := fun p : Z => p) as (c1 & v1 & E & Hc1 & Hv1).
      { intros k Hk. unfold Fc. now replace (_ <? _) with true by lia. }
      { intros k Hk. unfold Fv. now replace (_ <? _) with true by lia. }
      { intros k. unfold ell_slot. lia. }
      cbv beta in E. rewrite E.
      replace (zn ptr (i + 1) - b - (zn ptr i - b)) with (row_len ptr i) by (unfold row_len; lia).
      match goal with |- context [for_ ?lo ?hi ?f ?s] =>
        destruct (for_inv _ (fun j (st : Z * list Z * list T) => let '(p, c, v) := st in
           p = i * wd + j /\ filled 0 m wd (ell_slot wd) (Fc b ptr ind (fun _ => -1)) i j c /\
           filled z m wd (ell_slot wd) (Fv b ptr val) i j v) lo hi f s) as (st & E2 & R) end.
      - lia.
      - auto.
      - intros j [[p c2] v2] Hj (Hp & Hc2 & Hv2). subst p. change (i * wd + j) with (ell_slot wd i j).
        assert (Hk : 0 <= j < wd) by (unfold row_len in Hj; lia).
        destruct (filled_step _ 0 m wd _ (Fc b ptr ind (fun _ => -1)) i j c2 (-1) G Hi Hk Hc2) as [E1 H1].
        { unfold Fc. replace (_ <? _) with false by lia. reflexivity. }
        rewrite E1.
        destruct (filled_step _ z m wd _ (Fv b ptr val) i j v2 z G Hi Hk Hv2) as [E3 H3].
        { unfold Fv. replace (_ <? _) with false by lia. reflexivity. }
        rewrite E3. eexists; split; [reflexivity|]. cbv beta iota. unfold ell_slot. split; [lia|]. auto.
      - destruct st as [[p c2] v2]. destruct R as (Hp & Hc2 & Hv2). rewrite E2.
        eexists _, _; split; [reflexivity|]. split; apply filled_next; assumption.
    Qed.

    Definition lastc (i : Z) : Z := zn ind (zn ptr (i + 1) - b - 1).

    Lemma pad_loop : forall i k0 c v, 0 <= i < m -> 0 <= k0 <= wd -> row_len ptr i <= k0 \/ wd < row_len ptr i ->
      (k0 < wd -> 0 <= zn ptr (i + 1) - b - 1 < nnz) ->
      forall Fc' Fv', (forall k, k0 <= k < wd -> Fc' i k = lastc i) -> (forall k, k0 <= k < wd -> Fv' i k = z) ->
      filled 0 m wd (ellt_slot m) Fc' i k0 c ->
      filled z m wd (ellt_slot m) Fv' i k0 v ->
      exists c' v', for_ k0 wd (fun k '(c, v) =>
        let* cl := rd ind (zn ptr (i + 1) - b - 1) in
        let* c := wr c (k * m + i) cl in
        let* v := wr v (k * m + i) z in
        Some (c, v)) (c, v) = Some (c', v') /\
        filled 0 m wd (ellt_slot m) Fc' (i + 1) 0 c' /\ filled z m wd (ellt_slot m) Fv' (i + 1) 0 v'.
    Proof.
      intros i k0 c v Hi Hk0 Hl Hs Fc' Fv' HFc HFv Hc Hv. pose proof (ellt_slot_good m wd) as G.
      destruct (wf_len _ _ _ _ _ _ W) as [L1 L2].
      match goal with |- context [for_ ?lo ?hi ?f ?s] =>
        destruct (for_inv _ (fun j (st : list Z * list T) => let '(c, v) := st in
           filled 0 m wd (ellt_slot m) Fc' i j c /\ filled z m wd (ellt_slot m) Fv' i j v) lo hi f s) as (st & E2 & R) end.
      - lia.
      - auto.
      - intros j [c2 v2] Hj (Hc2 & Hv2). rewrite (rd_nthZ _ 0 ind) by lia.
        change (j * m + i) with (ellt_slot m i j). fold (lastc i).
        assert (Hk : 0 <= j < wd) by lia.
        destruct (filled_step _ 0 m wd _ Fc' i j c2 (lastc i) G Hi Hk Hc2) as [E1 H1]; [symmetry; apply HFc; lia|].
        rewrite E1.
        destruct (filled_step _ z m wd _ Fv' i j v2 z G Hi Hk Hv2) as [E3 H3]; [symmetry; apply HFv; lia|].
        rewrite E3. eexists; split; [reflexivity|]. cbv beta iota. split; assumption.
      - destruct st as [c2 v2]. destruct R as (Hc2 & Hv2). rewrite E2.
        eexists _, _; split; [reflexivity|]. split; apply filled_next; assumption.
    Qed.

    Lemma row_end_range : forall i, 0 <= i < m -> 0 < zn ptr (i + 1) - b -> 0 <= zn ptr (i + 1) - b - 1 < nnz.
    Proof.
      intros i Hi Hp. pose proof (ptr_range _ _ _ _ (wf_ptr _ _ _ _ _ _ W) (i + 1) ltac:(lia)). lia.
    Qed.

    Lemma ellt_row_ok : forall Fc' Fv' i c v, 0 <= i < m -> row_len ptr i <= wd -> pad_source m b wd ptr ->
      (forall k, Fc' i k = Fc b ptr ind lastc i k) -> (forall k, Fv' i k = Fv b ptr val i k) ->
      filled 0 m wd (ellt_slot m) Fc' i 0 c ->
      filled z m wd (ellt_slot m) Fv' i 0 v ->
      exists c' v', ellt_row z b m wd ptr ind val i (c, v) = Some (c', v') /\
        filled 0 m wd (ellt_slot m) Fc' (i + 1) 0 c' /\
        filled z m wd (ellt_slot m) Fv' (i + 1) 0 v'.
    Proof.
      intros Fc' Fv' i c v Hi Hl Hs HFc HFv Hc Hv. unfold ellt_row. pose proof (ellt_slot_good m wd) as G.
      destruct (wf_len _ _ _ _ _ _ W) as [L1 L2].
      destruct (wf_ptr _ _ _ _ _ _ W) as (_ & _ & Hm). pose proof (Hm i Hi) as Hmi.
      rewrite !(rd_nthZ _ 0 ptr) by lia.
      destruct (copy_inv _ Fc' Fv' i c v G Hi Hl) with (3 := Hc) (4 := Hv) (k0 := 0) (at_ := fun p : Z => p * m + i) as (c1 & v1 & E & Hc1 & Hv1).
      { intros k Hk. rewrite HFc. unfold Fc. now replace (_ <? _) with true by lia. }
      { intros k Hk. rewrite HFv. unfold Fv. now replace (_ <? _) with true by lia. }
      { intros k. unfold ellt_slot. rewrite Z.sub_0_r. reflexivity. }
      cbv beta in E. rewrite E. cbn [Z.add].
      apply pad_loop; auto.
      - unfold row_len in *; lia.
      - left; lia.
      - intros. apply row_end_range; auto. apply (Hs i Hi). unfold row_len in *; lia.
      - intros k Hk. rewrite HFc. unfold Fc. replace (_ <? _) with false by lia. reflexivity.
      - intros k Hk. rewrite HFv. unfold Fv. replace (_ <? _) with false by lia. reflexivity.
    Qed.

    (** Hybrid: long rows hold only padding. *)
    Definition Hc_ (i k : Z) : Z := if wd <? row_len ptr i then lastc i else Fc b ptr ind lastc i k.
    Definition Hv_ (i k : Z) : T := if wd <? row_len ptr i then z else Fv b ptr val i k.

    Lemma hyb_row_ok : forall t rmap i c v, 0 <= i < m -> pad_source m b wd ptr -> 0 <= wd ->
      (wd < row_len ptr i -> 0 <= t < zlen rmap) ->
      filled 0 m wd (ellt_slot m) Hc_ i 0 c ->
      filled z m wd (ellt_slot m) Hv_ i 0 v ->
      exists c' v',
        hyb_row z b m wd ptr ind val i (t, rmap, c, v) =
          Some (if wd <? row_len ptr i then (t + 1, upd rmap t i, c', v') else (t, rmap, c', v')) /\
        filled 0 m wd (ellt_slot m) Hc_ (i + 1) 0 c' /\
        filled z m wd (ellt_slot m) Hv_ (i + 1) 0 v'.
    Proof.
      intros t rmap i c v Hi Hs Hw Ht Hc Hv. unfold hyb_row.
      destruct (wf_len _ _ _ _ _ _ W) as [L1 L2].
      destruct (wf_ptr _ _ _ _ _ _ W) as (_ & _ & Hm). pose proof (Hm i Hi) as Hmi.
      rewrite !(rd_nthZ _ 0 ptr) by lia.
      replace (zn ptr (i + 1) - b - (zn ptr i - b)) with (row_len ptr i) by (unfold row_len; lia).
      destruct (wd <? row_len ptr i) eqn:E.
      - rewrite wr_upd by lia.
        destruct (pad_loop i 0 c v Hi ltac:(lia) ltac:(lia)) with (Fc' := Hc_) (Fv' := Hv_) (5 := Hv) as (c' & v' & E' & H1 & H2); auto.
        + intros. apply row_end_range; auto.
        + intros k Hk. unfold Hc_. now rewrite E.
        + intros k Hk. unfold Hv_. now rewrite E.
        + rewrite E'. eauto.
      - destruct (ellt_row_ok Hc_ Hv_ i c v Hi ltac:(lia) Hs) as (c' & v' & E' & H1 & H2); auto.
        + intros k. unfold Hc_. now rewrite E.
        + intros k. unfold Hv_. now rewrite E.
        + rewrite E'. eauto.
    Qed.
  End Rows.
End E.

Section Top.
  Context {T : Type} (z : T).

  Lemma ell_row_ents : forall m n nnz b wd slot ptr ind (val : list T) padc c v i j,
    csr_wf m n nnz b ptr ind -> zlen val = nnz -> 0 <= i < m -> row_len ptr i <= wd ->
    ell_row_ok z slot b wd ptr ind val padc c v i ->
    ell_ents z slot b wd c v i j = ents b ptr ind val i j ++
      (if padc =? j + b then repeat z (Z.to_nat (wd - row_len ptr i)) else []).
  Proof.
    intros m n nnz b wd slot ptr ind val padc c v i j W Lv Hi Hl H. unfold ell_ents.
    destruct (wf_ptr _ _ _ _ _ _ W) as (_ & _ & Hm). pose proof (Hm i Hi) as Hmi.
    assert (0 <= row_len ptr i) by (unfold row_len; lia).
    rewrite (zrange_app 0 (row_len ptr i) wd) by lia. rewrite flat_map_app. f_equal.
    - unfold ents.
      replace (zrange (zn ptr i - b) (zn ptr (i + 1) - b)) with (zrange (0 + (zn ptr i - b)) (row_len ptr i + (zn ptr i - b)))
        by (unfold row_len; f_equal; lia).
      rewrite zrange_shift, flat_map_concat_map, flat_map_concat_map, map_map. f_equal. apply map_ext_in.
      intros k Hk. apply in_zrange in Hk. specialize (H k ltac:(lia)). replace (k <? row_len ptr i) with true in H by lia.
      destruct H as [-> ->]. replace (zn ptr i - b + k) with (k + (zn ptr i - b)) by lia.
      pose proof (in_row_range _ _ _ _ (wf_ptr _ _ _ _ _ _ W) i (k + (zn ptr i - b)) Hi) as R.
      unfold in_row, row_len in *. rewrite (rd_nthZ _ z) by lia. reflexivity.
    - transitivity (flat_map (fun k : Z => if padc =? j + b then [z] else []) (zrange (row_len ptr i) wd)).
      + apply flat_map_ext_in. intros k Hk. apply in_zrange in Hk. specialize (H k ltac:(lia)).
        replace (k <? row_len ptr i) with false in H by lia. destruct H as [-> ->]. reflexivity.
      + destruct (padc =? j + b).
        * rewrite <- (zlen_zrange (row_len ptr i) wd) by lia. unfold zlen. rewrite Nat2Z.id.
          generalize (zrange (row_len ptr i) wd). intros l. induction l; cbn; [reflexivity|]. now f_equal.
        * apply flat_map_nil. reflexivity.
  Qed.

  Lemma filled0 : forall X (d : X) m wd slot F a, zlen a = m * wd -> filled d m wd slot F 0 0 a.
  Proof. intros. split; [assumption|]. intros; lia. Qed.

  Lemma wd0_ents : forall b ptr ind (val : list T) i j, row_len ptr i <= 0 -> ents b ptr ind val i j = [].
  Proof. intros. unfold ents. rewrite zrange_nil by (unfold row_len in *; lia). reflexivity. Qed.

  Lemma csr2ell_ok : forall m n nnz d ptr ind (val : list T) c v wd,
    (md_base d = 0 \/ md_base d = 1) ->
    csr_wf m n nnz (md_base d) ptr ind -> zlen val = nnz -> 0 <= wd ->
    (forall i, 0 <= i < m -> row_len ptr i <= wd) -> zlen c = m * wd -> zlen v = m * wd ->
    exists c' v',
      csr2ell z m (Some d) (Some ptr) (Some ind) (Some val) (Some c) (Some v) wd = Some (success, Some c', Some v') /\
      zlen c' = m * wd /\ zlen v' = m * wd /\
      (forall i, 0 <= i < m -> ell_row_ok z (ell_slot wd) (md_base d) wd ptr ind val (-1) c' v' i) /\
      (forall i j, 0 <= i < m -> 0 <= j < n ->
         ell_ents z (ell_slot wd) (md_base d) wd c' v' i j = ents (md_base d) ptr ind val i j).
  Proof.
    intros m n nnz d ptr ind val c v wd Hb W Lv Hw Hl Lc Lvv. unfold csr2ell.
    pose proof (wf_m _ _ _ _ _ _ W). replace ((m <? 0) || (wd <? 0)) with false by lia.
    assert (Fin : forall c' v', (forall i, 0 <= i < m -> ell_row_ok z (ell_slot wd) (md_base d) wd ptr ind val (-1) c' v' i) ->
      forall i j, 0 <= i < m -> 0 <= j < n -> ell_ents z (ell_slot wd) (md_base d) wd c' v' i j = ents (md_base d) ptr ind val i j).
    { intros c' v' R i j Hi Hj. rewrite (ell_row_ents m n nnz (md_base d) wd (ell_slot wd) ptr ind val (-1)) by auto.
      replace (-1 =? j + md_base d) with false by lia. apply app_nil_r. }
    destruct ((m =? 0) || (wd =? 0)) eqn:E0.
    { exists c, v. assert (R : forall i, 0 <= i < m -> ell_row_ok z (ell_slot wd) (md_base d) wd ptr ind val (-1) c v i)
        by (intros i Hi k Hk; lia). auto 10. }
    match goal with |- context [for_ 0 m ?f ?s] =>
      destruct (for_inv _ (fun i (st : list Z * list T) => let '(c, v) := st in
        filled 0 m wd (ell_slot wd) (Fc (md_base d) ptr ind (fun _ => -1)) i 0 c /\
        filled z m wd (ell_slot wd) (Fv z (md_base d) ptr val) i 0 v) 0 m f s) as (st & E & R) end.
    - lia.
    - split; apply filled0; assumption.
    - intros i [c1 v1] Hi [H1 H2].
      destruct (csr2ell_row_ok z m n nnz (md_base d) wd ptr ind val W Lv i c1 v1 Hi (Hl i Hi) H1 H2) as (c2 & v2 & E & H3 & H4).
      rewrite E. eexists; split; [reflexivity|]. cbv beta iota. auto.
    - destruct st as [c' v']. destruct R as [H1 H2]. rewrite E. exists c', v'.
      pose proof (filled_rows z m wd _ _ _ _ _ _ _ _ H1 H2) as R.
      split; [reflexivity|]. split; [apply H1|]. split; [apply H2|]. auto.
  Qed.

  Lemma csr2ellt_ok : forall m n nnz d ptr ind (val : list T) c v wd,
    csr_wf m n nnz (md_base d) ptr ind -> zlen val = nnz -> 0 <= wd ->
    (forall i, 0 <= i < m -> row_len ptr i <= wd) -> zlen c = m * wd -> zlen v = m * wd ->
    pad_source m (md_base d) wd ptr ->
    exists c' v',
      csr2ellt z m (Some d) (Some ptr) (Some ind) (Some val) (Some c) (Some v) wd = Some (success, Some c', Some v') /\
      zlen c' = m * wd /\ zlen v' = m * wd /\
      (forall i, 0 <= i < m -> ell_row_ok z (ellt_slot m) (md_base d) wd ptr ind val (zn ind (zn ptr (i + 1) - md_base d - 1)) c' v' i) /\
      (forall i j, 0 <= i < m -> 0 <= j < n -> exists q,
         ell_ents z (ellt_slot m) (md_base d) wd c' v' i j = ents (md_base d) ptr ind val i j ++ repeat z q).
  Proof.
    intros m n nnz d ptr ind val c v wd W Lv Hw Hl Lc Lvv Hs. unfold csr2ellt.
    pose proof (wf_m _ _ _ _ _ _ W). replace ((m <? 0) || (wd <? 0)) with false by lia.
    assert (Fin : forall c' v', (forall i, 0 <= i < m -> ell_row_ok z (ellt_slot m) (md_base d) wd ptr ind val (zn ind (zn ptr (i + 1) - md_base d - 1)) c' v' i) ->
      forall i j, 0 <= i < m -> 0 <= j < n -> exists q, ell_ents z (ellt_slot m) (md_base d) wd c' v' i j = ents (md_base d) ptr ind val i j ++ repeat z q).
    { intros c' v' R i j Hi Hj. rewrite (ell_row_ents m n nnz (md_base d) wd (ellt_slot m) ptr ind val (zn ind (zn ptr (i + 1) - md_base d - 1))) by auto.
      destruct (_ =? j + md_base d); [eauto|]. exists 0%nat. reflexivity. }
    destruct ((m =? 0) || (wd =? 0)) eqn:E0.
    { exists c, v. assert (R : forall i, 0 <= i < m -> ell_row_ok z (ellt_slot m) (md_base d) wd ptr ind val (zn ind (zn ptr (i + 1) - md_base d - 1)) c v i)
        by (intros i Hi k Hk; lia). auto 10. }
    match goal with |- context [for_ 0 m ?f ?s] =>
      destruct (for_inv _ (fun i (st : list Z * list T) => let '(c, v) := st in
        filled 0 m wd (ellt_slot m) (Fc (md_base d) ptr ind (lastc (md_base d) ptr ind)) i 0 c /\
        filled z m wd (ellt_slot m) (Fv z (md_base d) ptr val) i 0 v) 0 m f s) as (st & E & R) end.
    - lia.
    - split; apply filled0; assumption.
    - intros i [c1 v1] Hi [H1 H2].
      destruct (ellt_row_ok z m n nnz (md_base d) wd ptr ind val W Lv _ _ i c1 v1 Hi (Hl i Hi) Hs (fun _ => eq_refl) (fun _ => eq_refl) H1 H2) as (c2 & v2 & E & H3 & H4).
      rewrite E. eexists; split; [reflexivity|]. cbv beta iota. auto.
    - destruct st as [c' v']. destruct R as [H1 H2]. rewrite E. exists c', v'.
      pose proof (filled_rows z m wd _ _ _ _ _ _ _ _ H1 H2) as R.
      split; [reflexivity|]. split; [apply H1|]. split; [apply H2|]. auto.
  Qed.

  Lemma long_step : forall wd ptr i, 0 <= i -> long_rows (i + 1) wd ptr =
    long_rows i wd ptr ++ (if wd <? row_len ptr i then [i] else []).
  Proof. intros. unfold long_rows. rewrite zrange_last, filter_app by lia. f_equal. Qed.
  Lemma long_mono : forall wd ptr i m, 0 <= i <= m -> zlen (long_rows i wd ptr) <= zlen (long_rows m wd ptr).
  Proof.
    intros. unfold long_rows. rewrite (zrange_app 0 i m) by lia. rewrite filter_app, zlen_app.
    pose proof (zlen_nonneg _ (filter (fun k => wd <? row_len ptr k) (zrange i m))). lia.
  Qed.

  Lemma csr2ellthybrid_ok : forall m n nnz b em ptr ind (val : list T) rmap c v wd,
    csr_wf m n nnz b ptr ind -> zlen val = nnz -> 0 < m -> 0 <= wd ->
    zlen (long_rows m wd ptr) <= zlen rmap -> zlen c = m * wd -> zlen v = m * wd ->
    pad_source m b wd ptr ->
    exists rmap' c' v',
      csr2ellthybrid z m b (Some em) (Some ptr) (Some ind) (Some val) (Some rmap) (Some c) (Some v) wd
        = Some (success, Some (m - zlen (long_rows m wd ptr)), Some rmap', Some c', Some v') /\
      zlen c' = m * wd /\ zlen v' = m * wd /\
      firstn (length (long_rows m wd ptr)) rmap' = long_rows m wd ptr /\
      (forall i, 0 <= i < m -> row_len ptr i <= wd ->
         ell_row_ok z (ellt_slot m) b wd ptr ind val (zn ind (zn ptr (i + 1) - b - 1)) c' v' i) /\
      (forall i k, 0 <= i < m -> wd < row_len ptr i -> 0 <= k < wd ->
         nthZ z v' (ellt_slot m i k) = z /\ zn c' (ellt_slot m i k) = zn ind (zn ptr (i + 1) - b - 1)).
  Proof.
    intros m n nnz b em ptr ind val rmap c v wd W Lv Hm0 Hw Lr Lc Lvv Hs. unfold csr2ellthybrid.
    replace ((m <? 0) || (wd <? 0)) with false by lia. replace (m =? 0) with false by lia.
    destruct (wf_len _ _ _ _ _ _ W) as [L1 L2].
    match goal with |- context [for_ 0 m ?f 0] =>
      destruct (for_inv _ (fun i me => me = i - zlen (long_rows i wd ptr)) 0 m f 0) as (me & E & R) end.
    - lia.
    - reflexivity.
    - intros i me Hi ->. rewrite !(rd_nthZ _ 0) by lia. eexists; split; [reflexivity|]. fold (row_len ptr i).
      rewrite long_step, zlen_app by lia.
      destruct (wd <? row_len ptr i) eqn:E; [replace (row_len ptr i <=? wd) with false by lia|replace (row_len ptr i <=? wd) with true by lia];
        unfold zlen; cbn [length]; lia.
    - rewrite E. clear E. subst me.
      match goal with |- context [for_ 0 m ?f ?s] =>
        destruct (for_inv _ (fun i (st : Z * list Z * list Z * list T) => let '(t, rmap', c, v) := st in
          t = zlen (long_rows i wd ptr) /\ zlen rmap' = zlen rmap /\
          (forall q, 0 <= q < t -> zn rmap' q = zn (long_rows i wd ptr) q) /\
          filled 0 m wd (ellt_slot m) (Hc_ b wd ptr ind) i 0 c /\
          filled z m wd (ellt_slot m) (Hv_ z b wd ptr val) i 0 v) 0 m f s) as (st & E & R) end.
      + lia.
      + ands; auto; try (apply filled0; assumption). intros q Hq. cbn in Hq. lia.
      + intros i [[[t r1] c1] v1] Hi (-> & Lr1 & Hr & H1 & H2).
        pose proof (long_mono wd ptr (i + 1) m ltac:(lia)) as Mo. rewrite long_step, zlen_app in Mo by lia.
        assert (Ht : wd < row_len ptr i -> 0 <= zlen (long_rows i wd ptr) < zlen r1).
        { intros Hlt. replace (wd <? row_len ptr i) with true in Mo by lia. rewrite zlen_cons, zlen_nil in Mo.
          pose proof (zlen_nonneg _ (long_rows i wd ptr)). lia. }
        destruct (hyb_row_ok z m n nnz b wd ptr ind val W Lv (zlen (long_rows i wd ptr)) r1 i c1 v1 Hi Hs Hw Ht H1 H2)
          as (c2 & v2 & E & H3 & H4).
        rewrite E. eexists; split; [reflexivity|]. rewrite long_step by lia.
        destruct (wd <? row_len ptr i) eqn:El; cbv beta iota.
        * specialize (Ht ltac:(lia)). ands; auto.
          { now rewrite zlen_app. }
          { now rewrite zlen_upd. }
          intros q Hq. rewrite nthZ_upd by lia. destruct (q =? zlen (long_rows i wd ptr)) eqn:Eq.
          { rewrite nthZ_app2 by lia. replace (q - _) with 0 by lia. reflexivity. }
          { rewrite nthZ_app1 by lia. apply Hr. lia. }
        * rewrite app_nil_r. ands; auto.
      + destruct st as [[[t r'] c'] v']. destruct R as (-> & Lr' & Hr & H1 & H2). rewrite E. exists r', c', v'.
        split; [reflexivity|]. split; [apply H1|]. split; [apply H2|]. split; [|split].
        * apply (nthZ_ext _ 0).
          { unfold zlen in *. rewrite firstn_length. lia. }
          intros q Hq. assert (Lf : zlen (firstn (length (long_rows m wd ptr)) r') = zlen (long_rows m wd ptr))
            by (unfold zlen in *; rewrite firstn_length; lia). 
          rewrite <- Hr by lia. unfold nthZ. unfold zlen in *.
          rewrite <- (firstn_skipn (length (long_rows m wd ptr)) r') at 2. rewrite app_nth1; [reflexivity|]. lia.
        * intros i Hi Hl k Hk. destruct H1 as [_ H1], H2 as [_ H2]. rewrite H1, H2 by (auto; lia).
          unfold Hc_, Hv_. replace (wd <? row_len ptr i) with false by lia. unfold Fc, Fv.
          destruct (k <? row_len ptr i); auto.
        * intros i k Hi Hl Hk. destruct H1 as [_ H1], H2 as [_ H2]. rewrite H1, H2 by (auto; lia).
          unfold Hc_, Hv_. replace (wd <? row_len ptr i) with true by lia. auto.
  Qed.

  Lemma ell_reject : forall (tr : bool) m d_p ptr_p ind_p (val_p : option (list T)) c_p v_p wd,
    let f := if tr then csr2ellt z else csr2ell z in
    (m < 0 \/ wd < 0 -> f m d_p ptr_p ind_p val_p c_p v_p wd = Some (invalid_size, c_p, v_p)) /\
    (0 < m -> 0 < wd -> (ptr_p = None \/ ind_p = None \/ val_p = None \/ c_p = None \/ v_p = None) ->
       f m d_p ptr_p ind_p val_p c_p v_p wd = Some (invalid_pointer, c_p, v_p)).
  Proof.
    intros. assert (forall b1 b2 : bool, True) by auto. subst f. destruct tr; split; intros.
    1,3: cbv [csr2ell csr2ellt]; replace ((m <? 0) || (wd <? 0)) with true by lia; reflexivity.
    all: cbv [csr2ell csr2ellt]; replace ((m <? 0) || (wd <? 0)) with false by lia;
      replace ((m =? 0) || (wd =? 0)) with false by lia;
      destruct ptr_p, ind_p, val_p, c_p, v_p; try reflexivity; exfalso; intuition congruence.
  Qed.
End Top.

(** An empty first row: the padding reads csr_col_ind[-1]. *)
Lemma csr2ellt_empty_first_row :
  csr2ellt 0 2 (Some (mkMD 0 0 0 0)) (Some [0;0;1]) (Some [0]) (Some [5]) (Some [9;9]) (Some [9;9]) 1 = None /\
  csr2ellthybrid 0 2 0 (Some 0) (Some [0;0;1]) (Some [0]) (Some [5]) (Some [9;9]) (Some [9;9]) (Some [9;9]) 1 = None.
Proof. split; reflexivity. Qed.

(** A null descriptor is dereferenced. *)
Lemma csr2ell_null_descr :
  csr2ell 0 2 None (Some [0;1;1]) (Some [0]) (Some [5]) (Some [9;9]) (Some [9;9]) 1 = None.
Proof. reflexivity. Qed.

Lemma width_then_ell : forall T (z : T) m n nnz d ptr ind (val : list T) w0,
  (md_base d = 0 \/ md_base d = 1) ->
  csr_wf m n nnz (md_base d) ptr ind -> zlen val = nnz ->
  exists wd, csr2ell_width m nnz (Some ptr) (Some w0) = Some (success, Some wd) /\ is_max_row m ptr wd /\ 0 <= wd /\
  forall c v, zlen c = m * wd -> zlen v = m * wd ->
    exists c' v',
      csr2ell z m (Some d) (Some ptr) (Some ind) (Some val) (Some c) (Some v) wd = Some (success, Some c', Some v') /\
      zlen c' = m * wd /\ zlen v' = m * wd /\
      (forall i, 0 <= i < m -> ell_row_ok z (ell_slot wd) (md_base d) wd ptr ind val (-1) c' v' i) /\
      (forall i j, 0 <= i < m -> 0 <= j < n ->
         ell_ents z (ell_slot wd) (md_base d) wd c' v' i j = ents (md_base d) ptr ind val i j).
Proof.
  intros T z m n nnz d ptr ind val w0 Hb W Lv.
  destruct (ell_width_ok m n nnz (md_base d) ptr ind w0 W) as (wd & E & M). exists wd. split; [exact E|]. split; [exact M|].
  assert (Hw : 0 <= wd).
  { destruct M as [_ [->|(i & Hi & <-)]]; [lia|]. destruct (wf_ptr _ _ _ _ _ _ W) as (_ & _ & Hm). specialize (Hm i Hi). unfold row_len. lia. }
  split; [exact Hw|].
  intros c v Lc Lvv. apply (csr2ell_ok z m n nnz); auto. apply M.
Qed.

(** csr2ellthyb_width: the width is the length of an existing row (or 0, or nnz),
    and ell_m counts the rows that fit. *)
Lemma hyb_width_ok : forall m n nnz b ptr ind e0 w0, csr_wf m n nnz b ptr ind -> 0 < m ->
  exists wd, csr2ellthyb_width m nnz (Some ptr) (Some e0) (Some w0)
    = Some (success, Some (m - zlen (long_rows m wd ptr)), Some wd) /\ 0 <= wd <= nnz /\
    (exists i, 0 <= i < m /\ row_len ptr i <= wd).
Proof.
  intros m n nnz b ptr ind e0 w0 W Hm0. unfold csr2ellthyb_width.
  destruct (wf_len _ _ _ _ _ _ W) as [L1 L2]. pose proof (wf_nnz _ _ _ _ _ _ W) as Hnn.
  replace (m <? 0) with false by lia. replace (m =? 0) with false by lia.
  set (a := Z.quot nnz m).
  assert (RL : forall i, 0 <= i < m -> 0 <= row_len ptr i <= nnz).
  { intros i Hi. unfold row_len. pose proof (ptr_range _ _ _ _ (wf_ptr _ _ _ _ _ _ W) i ltac:(lia)).
    pose proof (ptr_range _ _ _ _ (wf_ptr _ _ _ _ _ _ W) (i + 1) ltac:(lia)).
    destruct (wf_ptr _ _ _ _ _ _ W) as (_ & _ & Hm). specialize (Hm i Hi). lia. }
  match goal with |- context [for_ 0 m ?f (0, nnz, 0, 0)] =>
    destruct (for_inv _ (fun i (st : Z * Z * Z * Z) => let '(mx, mn, cmx, cmn) := st in
      0 <= mx <= nnz /\ 0 <= mn <= nnz /\ 0 <= cmx /\ 0 <= cmn /\ cmx + cmn = i /\
      (0 < cmx -> exists i', 0 <= i' < i /\ row_len ptr i' <= mx) /\
      (mn = nnz \/ exists i', 0 <= i' < i /\ row_len ptr i' = mn) /\
      (0 < cmn -> exists i', 0 <= i' < i /\ row_len ptr i' <= mn)) 0 m f (0, nnz, 0, 0)) as (st & E & R) end.
  - lia.
  - ands; try lia.
  - intros i [[[mx mn] cmx] cmn] Hi (H1 & H2 & H3 & H4 & H5 & H6 & H8 & H7). rewrite !(rd_nthZ _ 0) by lia.
    eexists; split; [reflexivity|]. fold (row_len ptr i). pose proof (RL i Hi).
    destruct (row_len ptr i <=? a) eqn:Ea.
    + rewrite andb_true_r. replace (a <? row_len ptr i) with false by lia. rewrite andb_false_r.
      assert (G : forall x, row_len ptr i <= x -> exists i', 0 <= i' < i + 1 /\ row_len ptr i' <= x) by (intros; exists i; lia).
      destruct (mx <? row_len ptr i) eqn:Ex; ands; try lia;
        try (destruct H8 as [?|(i' & ? & ?)]; [now left|right; exists i'; lia]); intros; try (apply G; lia);
        destruct (H7 ltac:(lia)) as (i' & ? & ?); exists i'; lia.
    + rewrite andb_false_r. replace (a <? row_len ptr i) with true by lia. rewrite andb_true_r.
      assert (G : forall x, row_len ptr i <= x -> exists i', 0 <= i' < i + 1 /\ row_len ptr i' <= x) by (intros; exists i; lia).
      destruct (row_len ptr i <? mn) eqn:Ex; ands; try lia;
        try (right; exists i; lia); intros;
        try (destruct (H6 ltac:(lia)) as (i' & ? & ?); exists i'; lia); try (apply G; lia).
      * destruct H8 as [?|(i' & ? & ?)]; [now left|right; exists i'; lia].
      * destruct H8 as [?|(i' & ? & ?)]; [apply G; lia|exists i'; lia].
  - destruct st as [[[mx mn] cmx] cmn]. destruct R as (H1 & H2 & H3 & H4 & H5 & H6 & _ & H7). rewrite E.
    set (wd := if cmn <=? cmx then mx else mn).
    assert (Hw : 0 <= wd <= nnz) by (unfold wd; destruct (cmn <=? cmx); lia).
    assert (Hx : exists i, 0 <= i < m /\ row_len ptr i <= wd).
    { unfold wd. destruct (cmn <=? cmx) eqn:Ec; [apply H6|apply H7]; lia. }
    clearbody wd.
    match goal with |- context [for_ 0 m ?f 0] =>
      destruct (for_inv _ (fun i me => me = i - zlen (long_rows i wd ptr)) 0 m f 0) as (me & E2 & R) end.
    + lia.
    + reflexivity.
    + intros i me Hi ->. rewrite !(rd_nthZ _ 0) by lia. eexists; split; [reflexivity|]. fold (row_len ptr i).
      rewrite long_step, zlen_app by lia.
      destruct (wd <? row_len ptr i) eqn:E3; [replace (row_len ptr i <=? wd) with false by lia|replace (row_len ptr i <=? wd) with true by lia];
        unfold zlen; cbn [length]; lia.
    + rewrite E2. subst me. exists wd. auto.
Qed.
