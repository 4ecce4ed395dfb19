From Coq Require Import ZArith List Bool Lia ZifyBool Ring.
From Verif Require Import Base BaseFacts Algebra Vec DoidModel DoidSpec Csr CsrFacts MvModel MvSpec.
Import ListNotations.
Open Scope Z_scope.

Section F.
  Context {T : Type} (O : ops T) (L : laws O).
  Local Notation zero := (o0 O).
  Local Notation one := (o1 O).
  Local Infix "+!" := (oadd O) (at level 50, left associativity).
  Local Infix "*!" := (omul O) (at level 40, left associativity).
  Local Notation "a ==! b" := (oeqb O a b) (at level 70).
  Local Notation tn := (nthZ zero).
  Let rth := l_ring L.
  Add Ring Tr : rth.

  Lemma acc_ok : forall y i t, 0 <= i < zlen y ->
    acc O y i t = Some (upd y i (tn y i +! t)).
  Proof. intros y i t H. unfold acc. rewrite (rd_nthZ _ zero) by lia. apply wr_upd; lia. Qed.

  Lemma beta_scale_ok : forall beta n y, 0 <= n -> zlen y = n ->
    exists y', beta_scale O beta n y = Some y' /\ zlen y' = n /\
      forall i, 0 <= i < n -> tn y' i = beta *! tn y i.
  Proof.
    intros beta n y Hn Ly. unfold beta_scale.
    destruct (beta ==! zero) eqn:E0.
    - apply (l_eqb L) in E0. subst beta.
      destruct (for_inv _ (fun e st => zlen st = n /\ forall i, 0 <= i < n -> tn st i = if i <? e then zero else tn y i)
                  0 n (fun i y => wr y i zero) y ltac:(lia)) as (st & E & Ls & R).
      + split; auto. intros i Hi. replace (i <? 0) with false by lia. reflexivity.
      + intros e st He (Ls & R). rewrite wr_upd by lia. eexists; split; [reflexivity|].
        split; [rewrite zlen_upd; lia|]. intros i Hi. rewrite nthZ_upd by lia.
        destruct (Z.eqb_spec i e).
        * subst. replace (e <? e + 1) with true by lia. reflexivity.
        * rewrite R by lia. replace (i <? e + 1) with (i <? e) by lia. reflexivity.
      + exists st. ands; auto. intros i Hi. rewrite R by lia. replace (i <? n) with true by lia. ring.
    - destruct (beta ==! one) eqn:E1; cbn [negb].
      + apply (l_eqb L) in E1. subst beta. exists y. ands; auto. intros; ring.
      + destruct (for_inv _ (fun e st => zlen st = n /\ forall i, 0 <= i < n -> tn st i = if i <? e then beta *! tn y i else tn y i)
                  0 n (fun i y => let* v := rd y i in wr y i (beta *! v)) y ltac:(lia)) as (st & E & Ls & R).
        * split; auto. intros i Hi. replace (i <? 0) with false by lia. reflexivity.
        * intros e st He (Ls & R). rewrite (rd_nthZ _ zero) by lia. rewrite wr_upd by lia. eexists; split; [reflexivity|].
          split; [rewrite zlen_upd; lia|]. intros i Hi. rewrite nthZ_upd by lia.
          destruct (Z.eqb_spec i e).
          -- subst. replace (e <? e + 1) with true by lia. rewrite R by lia. replace (e <? e) with false by lia. reflexivity.
          -- rewrite R by lia. replace (i <? e + 1) with (i <? e) by lia. reflexivity.
        * exists st. ands; auto. intros i Hi. rewrite R by lia. replace (i <? n) with true by lia. reflexivity.
  Qed.

  Lemma vscale_ok : forall c n y, 0 <= n -> zlen y = n ->
    exists y', vscale O y c n = Some y' /\ zlen y' = n /\
      forall i, 0 <= i < n -> tn y' i = c *! tn y i.
  Proof.
    intros c n y Hn Ly. unfold vscale.
    destruct (c ==! zero) eqn:E0; cbn [negb].
    - apply (l_eqb L) in E0. subst c.
      destruct (for_inv _ (fun e st => zlen st = n /\ forall i, 0 <= i < n -> tn st i = if i <? e then zero else tn y i)
                  0 n (fun i y => wr y i zero) y ltac:(lia)) as (st & E & Ls & R).
      + split; auto. intros i Hi. replace (i <? 0) with false by lia. reflexivity.
      + intros e st He (Ls & R). rewrite wr_upd by lia. eexists; split; [reflexivity|].
        split; [rewrite zlen_upd; lia|]. intros i Hi. rewrite nthZ_upd by lia.
        destruct (Z.eqb_spec i e).
        * subst. replace (e <? e + 1) with true by lia. reflexivity.
        * rewrite R by lia. replace (i <? e + 1) with (i <? e) by lia. reflexivity.
      + exists st. ands; auto. intros i Hi. rewrite R by lia. replace (i <? n) with true by lia. ring.
    - destruct (for_inv _ (fun e st => zlen st = n /\ forall i, 0 <= i < n -> tn st i = if i <? e then c *! tn y i else tn y i)
                  0 n (fun i y => let* v := rd y i in wr y i (c *! v)) y ltac:(lia)) as (st & E & Ls & R).
        * split; auto. intros i Hi. replace (i <? 0) with false by lia. reflexivity.
        * intros e st He (Ls & R). rewrite (rd_nthZ _ zero) by lia. rewrite wr_upd by lia. eexists; split; [reflexivity|].
          split; [rewrite zlen_upd; lia|]. intros i Hi. rewrite nthZ_upd by lia.
          destruct (Z.eqb_spec i e).
          -- subst. replace (e <? e + 1) with true by lia. rewrite R by lia. replace (e <? e) with false by lia. reflexivity.
          -- rewrite R by lia. replace (i <? e + 1) with (i <? e) by lia. reflexivity.
        * exists st. ands; auto. intros i Hi. rewrite R by lia. replace (i <? n) with true by lia. reflexivity.
  Qed.

  (** Loop whose iterations each add [D i j] to every [y j]. *)
  Lemma rows_add : forall n (D : Z -> Z -> T) lo hi body y,
    lo <= hi -> zlen y = n ->
    (forall i y, lo <= i < hi -> zlen y = n -> exists y', body i y = Some y' /\ zlen y' = n /\
        forall j, 0 <= j < n -> tn y' j = tn y j +! D i j) ->
    exists y', for_ lo hi body y = Some y' /\ zlen y' = n /\
      forall j, 0 <= j < n -> tn y' j = tn y j +! sumz O lo hi (fun i => D i j).
  Proof.
    intros n D lo hi body y H Ly Hb.
    destruct (for_inv _ (fun e st => zlen st = n /\ forall j, 0 <= j < n -> tn st j = tn y j +! sumz O lo e (fun i => D i j))
                lo hi body y H) as (st & E & Ls & R).
    - split; auto. intros j Hj. rewrite (sumz_nil O) by lia. ring.
    - intros e st He (Ls & R). destruct (Hb e st He Ls) as (y' & E & Ly' & R'). exists y'. split; auto.
      split; auto. intros j Hj. rewrite R' by lia. rewrite R by lia. rewrite (sumz_last O L) by lia. ring.
    - exists st. ands; auto.
  Qed.

  (** Loop that rewrites [y i] in iteration [i] and reads nothing else of it. *)
  Lemma rows_set : forall m (R : Z -> T -> T) body y,
    0 <= m -> zlen y = m ->
    (forall i y, 0 <= i < m -> zlen y = m -> body i y = Some (upd y i (R i (tn y i)))) ->
    exists y', for_ 0 m body y = Some y' /\ zlen y' = m /\
      forall i, 0 <= i < m -> tn y' i = R i (tn y i).
  Proof.
    intros m R body y H Ly Hb.
    destruct (for_inv _ (fun e st => zlen st = m /\ forall i, 0 <= i < m -> tn st i = if i <? e then R i (tn y i) else tn y i)
                0 m body y H) as (st & E & Ls & P).
    - split; auto. intros i Hi. replace (i <? 0) with false by lia. reflexivity.
    - intros e st He (Ls & P). rewrite Hb by lia. eexists; split; [reflexivity|].
      split; [rewrite zlen_upd; lia|]. intros i Hi. rewrite nthZ_upd by lia. destruct (Z.eqb_spec i e).
      + subst. rewrite P by lia. replace (e <? e) with false by lia. replace (e <? e + 1) with true by lia. reflexivity.
      + rewrite P by lia. replace (i <? e + 1) with (i <? e) by lia. reflexivity.
    - exists st. ands; auto. intros i Hi. rewrite P by lia. replace (i <? m) with true by lia. reflexivity.
  Qed.

  (** Scatter: [y (c k) += t k]. *)
  Lemma scatter_ok : forall n lo hi (c : Z -> Z) (t : Z -> T) body y,
    lo <= hi -> zlen y = n ->
    (forall k, lo <= k < hi -> 0 <= c k < n) ->
    (forall k y, lo <= k < hi -> zlen y = n -> body k y = acc O y (c k) (t k)) ->
    exists y', for_ lo hi body y = Some y' /\ zlen y' = n /\
      forall j, 0 <= j < n -> tn y' j = tn y j +! sumz O lo hi (fun k => if c k =? j then t k else zero).
  Proof.
    intros n lo hi c t body y H Ly Hc Hb.
    apply (rows_add n (fun k j => if c k =? j then t k else zero) lo hi body y H Ly).
    intros k y0 Hk Ly0. specialize (Hc k Hk). rewrite Hb by auto. rewrite acc_ok by lia. eexists; split; [reflexivity|].
    split; [rewrite zlen_upd; lia|]. intros j Hj. rewrite nthZ_upd by lia.
    destruct (Z.eqb_spec j (c k)).
    - subst. rewrite Z.eqb_refl. reflexivity.
    - replace (c k =? j) with false by lia. ring.
  Qed.

  (** An additive map (identity or conjugation). *)
  Definition additive (h : T -> T) : Prop := forall a b, h (a +! b) = h a +! h b.
  Lemma additive_0 : forall h, additive h -> h zero = zero.
  Proof.
    intros h H. assert (E : h zero +! h zero = h zero) by (rewrite <- H; f_equal; ring).
    transitivity ((h zero +! h zero) +! oopp O (h zero)); [ring|]. rewrite E. ring.
  Qed.
  Lemma additive_id : additive (fun v => v). Proof. intros a b; reflexivity. Qed.
  Lemma additive_cj : additive (ocj O). Proof. intros a b; apply (l_cj_add L). Qed.
  Lemma additive_cjh : forall hm, additive (cjh O hm).
  Proof. intros []; [apply additive_cj|apply additive_id]. Qed.
  Lemma additive_suml : forall X h (f : X -> T) l, additive h -> h (suml O f l) = suml O (fun x => h (f x)) l.
  Proof.
    intros X h f l H. induction l as [|a l IH]; cbn [suml fold_right].
    - apply additive_0; auto.
    - rewrite H. f_equal. exact IH.
  Qed.
  Lemma additive_sumz : forall h lo hi f, additive h -> h (sumz O lo hi f) = sumz O lo hi (fun k => h (f k)).
  Proof. intros. unfold sumz. apply additive_suml; auto. Qed.

  (** A matrix element as a sum over the stored positions of its row. *)
  Lemma csr_mat_sum : forall b ptr ind val i j,
    (forall k, in_row ptr b i k -> 0 <= k < zlen val) ->
    csr_mat O b ptr ind val i j =
    sumz O (zn ptr i - b) (zn ptr (i + 1) - b) (fun k => if zn ind k =? j + b then tn val k else zero).
  Proof.
    intros b ptr ind val i j H. unfold csr_mat, ents, sumz. rewrite (suml_flat_map O L).
    apply suml_ext. intros k Hk. apply in_zrange in Hk.
    destruct (zn ind k =? j + b).
    - rewrite (rd_nthZ _ zero) by (apply H; unfold in_row; lia). cbn [olist suml fold_right]. ring.
    - reflexivity.
  Qed.

  (** Sum over the stored positions [lo, hi) of a row that hold exactly the columns
      selected by [P], as a sum over columns. *)
  Lemma row_sum_cols : forall m n nnz b ptr ind val i lo hi (P : Z -> bool) (h : T -> T) (g : Z -> T),
    csr_wf m n nnz b ptr ind -> zlen val = nnz -> 0 <= i < m -> additive h ->
    (forall k, in_row ptr b i k -> (lo <= k < hi <-> P (zn ind k - b) = true)) ->
    zn ptr i - b <= lo -> lo <= hi -> hi <= zn ptr (i + 1) - b ->
    sumz O lo hi (fun k => h (tn val k) *! g (zn ind k - b)) =
    sumz O 0 n (fun j => if P j then h (csr_mat O b ptr ind val i j) *! g j else zero).
  Proof.
    intros m n nnz b ptr ind val i lo hi P h g W Lv Hi Ha HP H1 H2 H3.
    assert (Hr : forall k, in_row ptr b i k -> 0 <= k < zlen val)
      by (intros k Hk; rewrite Lv; eapply in_row_range; eauto using wf_ptr).
    pose proof (additive_0 h Ha) as h0.
    transitivity (sumz O 0 n (fun j => sumz O (zn ptr i - b) (zn ptr (i+1) - b)
        (fun k => if (zn ind k =? j + b) && P j then h (tn val k) *! g j else zero))).
    - rewrite (sumz_swap O L).
      rewrite (sumz_split O L (zn ptr i - b) lo) by lia.
      rewrite (sumz_split O L lo hi (zn ptr (i+1) - b)) by lia.
      assert (Hcol : forall k, in_row ptr b i k -> 0 <= zn ind k - b < n).
      { intros k Hk. pose proof (Hr k Hk). pose proof (wf_ind _ _ _ _ _ _ W k ltac:(lia)). lia. }
      assert (Z0 : forall k, in_row ptr b i k -> P (zn ind k - b) = false ->
        sumz O 0 n (fun j => if (zn ind k =? j + b) && P j then h (tn val k) *! g j else zero) = zero).
      { intros k Hk E. apply (sumz_zero O L). intros j Hj. destruct (Z.eqb_spec (zn ind k) (j + b)); [|reflexivity].
        replace j with (zn ind k - b) by lia. rewrite E. reflexivity. }
      rewrite (sumz_zero O L (zn ptr i - b) lo).
      2:{ intros k Hk. apply Z0; [unfold in_row; lia|].
          destruct (P (zn ind k - b)) eqn:E; auto. apply HP in E; [lia|unfold in_row; lia]. }
      rewrite (sumz_zero O L hi).
      2:{ intros k Hk. apply Z0; [unfold in_row; lia|].
          destruct (P (zn ind k - b)) eqn:E; auto. apply HP in E; [lia|unfold in_row; lia]. }
      transitivity (sumz O lo hi (fun k => h (tn val k) *! g (zn ind k - b))); [reflexivity|].
      transitivity (sumz O lo hi (fun k => sumz O 0 n (fun j => if (zn ind k =? j + b) && P j then h (tn val k) *! g j else zero))); [|ring].
      apply sumz_ext. intros k Hk.
      assert (Hk' : in_row ptr b i k) by (unfold in_row; lia).
      pose proof (Hcol k Hk'). rewrite (sumz_ext O 0 n _ (fun j => if j =? zn ind k - b then h (tn val k) *! g j else zero)).
      2:{ intros j Hj. destruct (Z.eqb_spec (zn ind k) (j + b)).
          - replace (j =? zn ind k - b) with true by lia. replace j with (zn ind k - b) by lia.
            destruct (HP k Hk') as [A _]. rewrite A by lia. reflexivity.
          - replace (j =? zn ind k - b) with false by lia. reflexivity. }
      rewrite (sumz_delta O L 0 n (zn ind k - b)).
      + rewrite Z.eqb_refl. reflexivity.
      + lia.
      + intros j Hj Hne. replace (j =? zn ind k - b) with false by lia. reflexivity.
    - apply sumz_ext. intros j Hj. destruct (P j) eqn:E.
      + rewrite (csr_mat_sum b ptr ind val i j Hr). rewrite (additive_sumz h) by auto.
        rewrite <- (sumz_mul_r O L). apply sumz_ext. intros k Hk. rewrite andb_true_r.
        destruct (zn ind k =? j + b); [reflexivity|]. rewrite h0. ring.
      + apply (sumz_zero O L). intros k Hk. rewrite andb_false_r. reflexivity.
  Qed.

  Lemma sumz_reindex : forall lo hi b f, sumz O lo hi (fun k => f (k - b)) = sumz O (lo - b) (hi - b) f.
  Proof.
    intros. unfold sumz. replace (zrange lo hi) with (map (fun k => k + b) (zrange (lo - b) (hi - b))).
    - rewrite (suml_map O). apply suml_ext. intros k _. f_equal. lia.
    - unfold zrange. rewrite map_map. replace (hi - b - (lo - b)) with (hi - lo) by lia.
      apply map_ext. intros; lia.
  Qed.

  (** The inner product of one row. *)
  Lemma dot_row_ok : forall b lo hi val col x r,
    lo <= hi -> 0 <= lo - b -> hi - b <= zlen val -> hi - b <= zlen col ->
    (forall k, lo - b <= k < hi - b -> 0 <= zn col k - b < zlen x) ->
    dot_row O b lo hi val col x r =
      Some (r +! sumz O (lo - b) (hi - b) (fun k => tn val k *! tn x (zn col k - b))).
  Proof.
    intros b lo hi val col x r H H1 H2 H3 Hc. unfold dot_row.
    match goal with |- for_ lo hi ?f r = _ =>
      destruct (for_inv _ (fun e st => st = r +! sumz O (lo - b) (e - b) (fun k => tn val k *! tn x (zn col k - b)))
              lo hi f r H) as (st & E & R) end.
    - rewrite (sumz_nil O) by lia. ring.
    - intros e st He R. rewrite (rd_nthZ _ zero) by lia. rewrite (rd_nthZ _ 0) by lia.
      rewrite (rd_nthZ _ zero) by (apply Hc; lia). eexists; split; [reflexivity|].
      rewrite R. replace (e + 1 - b) with (e - b + 1) by lia. rewrite (sumz_last O L) by lia. ring.
    - rewrite E, R. reflexivity.
  Qed.

  Lemma scatter_row_ok : forall h b lo hi val col axi y n,
    lo <= hi -> 0 <= lo - b -> hi - b <= zlen val -> hi - b <= zlen col -> zlen y = n ->
    (forall k, lo - b <= k < hi - b -> 0 <= zn col k - b < n) ->
    exists y', scatter_row O h b lo hi val col axi y = Some y' /\ zlen y' = n /\
      forall j, 0 <= j < n -> tn y' j = tn y j +!
        sumz O (lo - b) (hi - b) (fun k => if zn col k - b =? j then h (tn val k) *! axi else zero).
  Proof.
    intros h b lo hi val col axi y n H H1 H2 H3 Ly Hc. unfold scatter_row.
    match goal with |- context [for_ lo hi ?f y] =>
    destruct (scatter_ok n lo hi (fun k => zn col (k - b) - b) (fun k => h (tn val (k - b)) *! axi) f y H Ly) as (y' & E & Ly' & R) end.
    - intros k Hk. apply Hc. lia.
    - intros k y0 Hk Ly0. rewrite (rd_nthZ _ 0) by lia. rewrite (rd_nthZ _ zero) by lia. reflexivity.
    - exists y'. ands; auto. intros j Hj. rewrite R by lia. f_equal.
      rewrite <- (sumz_reindex lo hi b (fun k => if zn col k - b =? j then h (tn val k) *! axi else zero)). reflexivity.
  Qed.

  (** Contribution of one (sub)row to [y j] under scatter. *)
  Lemma row_scatter_col : forall m n nnz b ptr ind val i lo hi (P : Z -> bool) (h : T -> T) axi j,
    csr_wf m n nnz b ptr ind -> zlen val = nnz -> 0 <= i < m -> additive h ->
    (forall k, in_row ptr b i k -> (lo <= k < hi <-> P (zn ind k - b) = true)) ->
    zn ptr i - b <= lo -> lo <= hi -> hi <= zn ptr (i + 1) - b -> 0 <= j < n ->
    sumz O lo hi (fun k => if zn ind k - b =? j then h (tn val k) *! axi else zero) =
    if P j then h (csr_mat O b ptr ind val i j) *! axi else zero.
  Proof.
    intros m n nnz b ptr ind val i lo hi P h axi j W Lv Hi Ha HP H1 H2 H3 Hj.
    rewrite (sumz_ext O lo hi _ (fun k => h (tn val k) *! (fun c => if c =? j then axi else zero) (zn ind k - b))).
    2:{ intros k Hk. cbv beta. destruct (zn ind k - b =? j); [reflexivity|ring]. }
    rewrite (row_sum_cols m n nnz b ptr ind val i lo hi P h (fun c => if c =? j then axi else zero) W Lv Hi Ha HP H1 H2 H3).
    rewrite (sumz_ext O 0 n _ (fun j' => if j' =? j then (if P j then h (csr_mat O b ptr ind val i j) *! axi else zero) else zero)).
    2:{ intros j' Hj'. cbv beta. destruct (Z.eqb_spec j' j); [subst; reflexivity|]. destruct (P j'); [ring|reflexivity]. }
    rewrite (sumz_delta O L 0 n j).
    - rewrite Z.eqb_refl. reflexivity.
    - lia.
    - intros k Hk Hne. replace (k =? j) with false by lia. reflexivity.
  Qed.
End F.
