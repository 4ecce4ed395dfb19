From Coq Require Import ZArith List Bool Lia ZifyBool Ring.
From Verif Require Import Base BaseFacts Algebra DoidModel DoidSpec Csr CsrFacts CheckModel MvModel MvFacts HandleModel HandleSpec IluModel IluSpec.
Import ListNotations.
Open Scope Z_scope.

Lemma narrow_id : forall v, -2147483648 <= v < 2147483648 -> narrow v = v.
Proof. intros v H. unfold narrow. rewrite Z.mod_small by lia. lia. Qed.

Section F.
  Context {T : Type} (O : ops T) (L : laws O) (HD : div_law O).
  Let rth := l_ring L.
  Add Ring TrI : rth.
  Local Notation zero := (o0 O).
  Local Notation tn := (nthZ zero).
  Variable near0 : T -> bool.
  Hypothesis N0 : near0 zero = true.
  Variables (n b nnz : Z) (ptr ind : list Z).
  Hypothesis W : csr_wf n n nnz b ptr ind.
  Hypothesis SO : rows_sorted n b ptr ind.
  Hypothesis DU : diag_unique n b ptr ind.
  Hypothesis FD : full_diag n n b ptr ind.
  Hypothesis (IN : nnz < 2147483648) (IM : n < 2147483648).
  Local Notation rlo i := (zn ptr i - b).
  Local Notation col q := (zn ind q - b).

  Lemma wp : ptr_ok n nnz b ptr. Proof. exact (wf_ptr _ _ _ _ _ _ W). Qed.
  Lemma lens : zlen ptr = n + 1 /\ zlen ind = nnz /\ 0 <= n /\ 0 <= nnz.
  Proof. destruct (wf_len _ _ _ _ _ _ W). pose proof (wf_m _ _ _ _ _ _ W). pose proof (wf_nnz _ _ _ _ _ _ W). auto. Qed.
  Lemma rb : forall i, 0 <= i < n -> 0 <= rlo i /\ rlo i <= rlo (i + 1) /\ rlo (i + 1) <= nnz.
  Proof.
    intros i Hi. pose proof (ptr_range _ _ _ _ wp i ltac:(lia)). pose proof (ptr_range _ _ _ _ wp (i + 1) ltac:(lia)).
    pose proof (ptr_mono _ _ _ _ wp i (i + 1) ltac:(lia) ltac:(lia) ltac:(lia)). lia.
  Qed.
  Lemma rlo_mono : forall i j, 0 <= i -> i <= j -> j <= n -> rlo i <= rlo j.
  Proof. intros i j H1 H2 H3. pose proof (ptr_mono _ _ _ _ wp i j ltac:(lia) ltac:(lia) ltac:(lia)). lia. Qed.
  Lemma colb : forall q, 0 <= q < nnz -> 0 <= col q < n.
  Proof. intros q Hq. pose proof (wf_ind _ _ _ _ _ _ W q Hq). lia. Qed.

  (** [d] is the position of the diagonal of row [i] *)
  Definition isdiag (i d : Z) : Prop := rlo i <= d < rlo (i + 1) /\ col d = i.
  Lemma diag_ex : forall i, 0 <= i < n -> exists d, isdiag i d.
  Proof. intros i Hi. destruct (FD i Hi ltac:(lia)) as (k & R & E). exists k. unfold in_row in R. split; lia. Qed.
  Lemma sorted : forall i q q', 0 <= i < n -> rlo i <= q -> q <= q' -> q' < rlo (i + 1) -> col q <= col q'.
  Proof.
    intros i q q' Hi H1 H2 H3. destruct (Z.eq_dec q q'); [subst; lia|].
    pose proof (SO i q q' Hi) as S0. unfold in_row in S0. specialize (S0 ltac:(lia) ltac:(lia) ltac:(lia)). lia.
  Qed.
  Lemma split_lo : forall i d q, 0 <= i < n -> isdiag i d -> rlo i <= q < d -> col q < i.
  Proof.
    intros i d q Hi (Hd & Ed) Hq. pose proof (sorted i q d Hi ltac:(lia) ltac:(lia) ltac:(lia)).
    destruct (Z.eq_dec (col q) i) as [E|]; [|lia]. pose proof (DU i q d Hi) as U. unfold in_row in U. specialize (U ltac:(lia) ltac:(lia) ltac:(lia) ltac:(lia)). lia.
  Qed.
  Lemma split_hi : forall i d q, 0 <= i < n -> isdiag i d -> d < q < rlo (i + 1) -> i < col q.
  Proof.
    intros i d q Hi (Hd & Ed) Hq. pose proof (sorted i d q Hi ltac:(lia) ltac:(lia) ltac:(lia)).
    destruct (Z.eq_dec (col q) i) as [E|]; [|lia]. pose proof (DU i q d Hi) as U. unfold in_row in U. specialize (U ltac:(lia) ltac:(lia) ltac:(lia) ltac:(lia)). lia.
  Qed.

  (** column sums over a range of positions *)
  Definition cs (v : list T) (lo hi c : Z) : T := sumz O lo hi (fun q => if col q =? c then tn v q else zero).
  Lemma cs_ext : forall v v' lo hi c, (forall q, lo <= q < hi -> tn v q = tn v' q) -> cs v lo hi c = cs v' lo hi c.
  Proof. intros v v' lo hi c H. apply sumz_ext. intros q Hq. rewrite H by auto. reflexivity. Qed.
  Lemma cs_zero : forall v lo hi c, (forall q, lo <= q < hi -> col q <> c) -> cs v lo hi c = zero.
  Proof. intros v lo hi c H. apply (sumz_zero O L). intros q Hq. specialize (H q Hq). replace (col q =? c) with false by lia. reflexivity. Qed.
  Lemma cs_nil : forall v lo c, cs v lo lo c = zero.
  Proof. intros. apply (sumz_nil O). lia. Qed.
  Lemma cs_last : forall v lo hi c, lo <= hi -> cs v lo (hi + 1) c = oadd O (cs v lo hi c) (if col hi =? c then tn v hi else zero).
  Proof. intros. unfold cs. now rewrite (sumz_last O L) by lia. Qed.
  Lemma cs_first : forall v lo hi c, lo < hi -> cs v lo hi c = oadd O (if col lo =? c then tn v lo else zero) (cs v (lo + 1) hi c).
  Proof. intros. unfold cs. now rewrite (sumz_first O) by lia. Qed.
  Lemma cs_upd : forall v lo hi c p x, 0 <= p < zlen v -> lo <= p < hi -> 0 <= lo ->
    cs (upd v p (osub O (tn v p) x)) lo hi c = if col p =? c then osub O (cs v lo hi c) x else cs v lo hi c.
  Proof.
    intros v lo hi c p x Hp Hr H0. unfold cs.
    rewrite (sumz_split O L lo p hi) by lia. rewrite (sumz_first O p hi) by lia.
    rewrite (sumz_split O L lo p hi (fun q => if col q =? c then tn v q else zero)) by lia. rewrite (sumz_first O p hi (fun q => if col q =? c then tn v q else zero)) by lia.
    rewrite nthZ_upd by lia. rewrite Z.eqb_refl.
    rewrite (sumz_ext O lo p _ (fun q => if col q =? c then tn v q else zero)); [|intros q Hq; rewrite nthZ_upd by lia; replace (q =? p) with false by lia; reflexivity].
    rewrite (sumz_ext O (p + 1) hi _ (fun q => if col q =? c then tn v q else zero)); [|intros q Hq; rewrite nthZ_upd by lia; replace (q =? p) with false by lia; reflexivity].
    destruct (col p =? c); ring.
  Qed.
  Lemma mat_cs : forall v i c, 0 <= i < n -> zlen v = nnz -> csr_mat O b ptr ind v i c = cs v (rlo i) (rlo (i + 1)) c.
  Proof.
    intros v i c Hi Lv. rewrite (csr_mat_sum O L).
    - apply sumz_ext. intros q Hq. replace (zn ind q =? c + b) with (col q =? c) by lia. reflexivity.
    - intros k Hk. rewrite Lv. exact (in_row_range _ _ _ _ wp i k Hi Hk).
  Qed.
  Local Notation F v := (csr_mat O b ptr ind v).
  Lemma mat_ext : forall v v' i c, 0 <= i < n -> zlen v = nnz -> zlen v' = nnz -> (forall q, rlo i <= q < rlo (i + 1) -> tn v q = tn v' q) -> F v i c = F v' i c.
  Proof. intros v v' i c Hi L1 L2 H. rewrite !mat_cs by auto. now apply cs_ext. Qed.

  Lemma diag_val : forall v i d, 0 <= i < n -> zlen v = nnz -> isdiag i d -> F v i i = tn v d.
  Proof.
    intros v i d Hi Lv D. rewrite mat_cs by auto. pose proof D as (D1 & D2). unfold cs. rewrite (sumz_delta O L _ _ d); auto.
    - rewrite D2, Z.eqb_refl. reflexivity.
    - intros q Hq Nq. assert (col q <> i).
      { destruct (Z.lt_trichotomy q d) as [C|[C|C]]; [pose proof (split_lo i d q Hi D ltac:(lia)); lia | lia | pose proof (split_hi i d q Hi D ltac:(lia)); lia]. }
      replace (col q =? i) with false by lia. reflexivity.
  Qed.
  Lemma U_cs : forall v k d c, 0 <= k < n -> zlen v = nnz -> isdiag k d ->
    facU O (F v) k c = oadd O (if k =? c then tn v d else zero) (cs v (d + 1) (rlo (k + 1)) c).
  Proof.
    intros v k d c Hk Lv D. pose proof D as (D1 & D2). unfold facU.
    destruct (Z.leb_spec k c).
    - rewrite mat_cs by auto. unfold cs at 1. rewrite (sumz_split O L _ d) by lia. rewrite (sumz_first O d) by lia. rewrite D2.
      rewrite (sumz_zero O L (rlo k) d); [|intros q Hq; pose proof (split_lo k d q Hk D ltac:(lia)); replace (col q =? c) with false by lia; reflexivity].
      fold (cs v (d + 1) (rlo (k + 1)) c). ring.
    - replace (k =? c) with false by lia. rewrite cs_zero; [ring|]. intros q Hq. pose proof (split_hi k d q Hk D ltac:(lia)). lia.
  Qed.

  Lemma delta_in : forall i (g : Z -> T), 0 <= i < n -> g i = sumz O 0 n (fun k => if k =? i then g k else zero).
  Proof.
    intros i g Hi. rewrite (sumz_delta O L 0 n i) by (try lia; intros k Hk Nk; replace (k =? i) with false by lia; reflexivity).
    now rewrite Z.eqb_refl.
  Qed.

  (** the product of the factors, row by row *)
  Lemma LU_row : forall v i d c, 0 <= i < n -> zlen v = nnz -> isdiag i d -> 0 <= c < n ->
    LU O n (F v) i c = oadd O (cs v d (rlo (i + 1)) c) (sumz O (rlo i) d (fun q => omul O (tn v q) (facU O (F v) (col q) c))).
  Proof.
    intros v i d c Hi Lv D Hc. pose proof D as (D1 & D2). pose proof (rb i Hi).
    assert (E1 : sumz O (rlo i) d (fun q => omul O (tn v q) (facU O (F v) (col q) c)) =
                 sumz O 0 n (fun k => if k <? i then omul O (F v i k) (facU O (F v) k c) else zero)).
    { apply (row_sum_cols O L n n nnz b ptr ind v i (rlo i) d (fun k => k <? i) (fun x => x) (fun k => facU O (F v) k c)); auto; try lia.
      - apply (additive_id O).
      - intros q Hq. unfold in_row in Hq. split.
        + intros Hr. pose proof (split_lo i d q Hi D ltac:(lia)). lia.
        + intros Hr. destruct (Z_lt_dec q d); [lia|]. destruct (Z.eq_dec q d); [subst; lia|]. pose proof (split_hi i d q Hi D ltac:(lia)). lia. }
    rewrite E1. unfold LU.
    assert (E2 : cs v d (rlo (i + 1)) c = facU O (F v) i c).
    { rewrite (U_cs v i d) by auto. unfold cs at 1. rewrite (sumz_first O d) by lia. rewrite D2. reflexivity. }
    rewrite E2. rewrite (delta_in i (fun k => facU O (F v) k c) Hi).
    rewrite <- (sumz_add O L). apply sumz_ext. intros k Hk. unfold facL. destruct (Z.ltb_spec k i).
    - replace (k =? i) with false by lia. ring.
    - destruct (k =? i); ring.
  Qed.
  Lemma facU_ext : forall v v' k c, 0 <= k < n -> zlen v = nnz -> zlen v' = nnz -> (forall q, rlo k <= q < rlo (k + 1) -> tn v q = tn v' q) -> facU O (F v) k c = facU O (F v') k c.
  Proof. intros. unfold facU. destruct (k <=? c); auto. now apply mat_ext. Qed.
  Lemma LU_ext : forall v v' i c, 0 <= i < n -> 0 <= c < n -> zlen v = nnz -> zlen v' = nnz -> (forall q, 0 <= q < rlo (i + 1) -> tn v q = tn v' q) -> LU O n (F v) i c = LU O n (F v') i c.
  Proof.
    intros v v' i c Hi Hc L1 L2 H. destruct (diag_ex i Hi) as (d & D). rewrite !(LU_row _ i d c) by auto. destruct D as (D1 & D2). pose proof (rb i Hi).
    f_equal; [apply cs_ext; intros; apply H; lia|]. apply sumz_ext. intros q Hq. rewrite H by lia. f_equal.
    pose proof (split_lo i d q Hi (conj D1 D2) Hq). pose proof (colb q ltac:(lia)).
    pose proof (rlo_mono (col q + 1) (i + 1) ltac:(lia) ltac:(lia) ltac:(lia)). pose proof (rb (col q) ltac:(lia)).
    apply facU_ext; auto. intros; apply H; lia.
  Qed.

  (** mapper *)
  Lemma set_map_ok : forall i mp, 0 <= i < n -> zlen mp = n -> (forall c, 0 <= c < n -> zn mp c = 0) ->
    exists mp', set_map b (rlo i) (rlo (i + 1)) ind mp = Some mp' /\ zlen mp' = n /\
      forall c, 0 <= c < n -> (zn mp' c = 0 /\ (forall q, rlo i <= q < rlo (i + 1) -> col q <> c)) \/ (rlo i <= zn mp' c < rlo (i + 1) /\ col (zn mp' c) = c).
  Proof.
    intros i mp Hi Lm Z0. pose proof (rb i Hi). destruct lens as (_ & Li & _). unfold set_map.
    match goal with |- context [for_ ?lo ?hi ?f ?s] => destruct (for_inv _ (fun e st => zlen st = n /\
      forall c, 0 <= c < n -> (zn st c = 0 /\ (forall q, lo <= q < e -> col q <> c)) \/ (lo <= zn st c < e /\ col (zn st c) = c)) lo hi f s ltac:(lia)) as (st & E & R) end.
    - split; auto. intros c Hc. left. split; auto. intros; lia.
    - intros q st Hq (Ls & I). rewrite (rd_nthZ _ 0) by lia. pose proof (colb q ltac:(lia)). rewrite wr_upd by lia. eexists. split; [reflexivity|].
      split; [now rewrite zlen_upd|]. intros c Hc. rewrite nthZ_upd by lia. destruct (Z.eqb_spec c (col q)) as [->|Ne].
      + right. split; [lia|reflexivity].
      + destruct (I c Hc) as [(I1 & I2)|I1]; [left|right; lia]. split; auto. intros q' Hq'. destruct (Z.eq_dec q' q); [subst; lia|apply I2; lia].
    - exists st. rewrite E. destruct R. auto.
  Qed.
  Lemma reset_map_ok : forall i mp, 0 <= i < n -> zlen mp = n ->
    (forall c, 0 <= c < n -> (zn mp c = 0 /\ (forall q, rlo i <= q < rlo (i + 1) -> col q <> c)) \/ (rlo i <= zn mp c < rlo (i + 1) /\ col (zn mp c) = c)) ->
    exists mp', reset_map b (rlo i) (rlo (i + 1)) ind mp = Some mp' /\ zlen mp' = n /\ forall c, 0 <= c < n -> zn mp' c = 0.
  Proof.
    intros i mp Hi Lm I. pose proof (rb i Hi). destruct lens as (_ & Li & _). unfold reset_map.
    match goal with |- context [for_ ?lo ?hi ?f ?s] => destruct (for_inv _ (fun e st => zlen st = n /\
      forall c, 0 <= c < n -> zn st c = 0 \/ exists q, e <= q < hi /\ col q = c) lo hi f s ltac:(lia)) as (st & E & R) end.
    - split; auto. intros c Hc. destruct (I c Hc) as [(I1 & _)|I1]; [now left|right]. exists (zn mp c). lia.
    - intros q st Hq (Ls & J). rewrite (rd_nthZ _ 0) by lia. pose proof (colb q ltac:(lia)). rewrite narrow_id by lia. rewrite wr_upd by lia. eexists. split; [reflexivity|].
      split; [now rewrite zlen_upd|]. intros c Hc. rewrite nthZ_upd by lia. destruct (Z.eqb_spec c (col q)) as [->|Ne]; auto.
      destruct (J c Hc) as [J1|(q' & J1 & J2)]; auto. right. exists q'. split; auto. destruct (Z.eq_dec q q'); [subst; lia|lia].
    - exists st. rewrite E. destruct R as (R1 & R2). split; auto. split; auto. intros c Hc. destruct (R2 c Hc) as [|(q & Q & _)]; auto. lia.
  Qed.

  (** one elimination step *)
  Lemma sub_row_ok : forall i k j dk mp v, 0 <= k < i -> i < n -> zlen mp = n -> zlen v = nnz ->
    (forall c, 0 <= c < n -> (zn mp c = 0 /\ (forall q, rlo i <= q < rlo (i + 1) -> col q <> c)) \/ (rlo i <= zn mp c < rlo (i + 1) /\ col (zn mp c) = c)) ->
    rlo i <= j < rlo (i + 1) -> col j = k -> isdiag k dk ->
    exists v', sub_row O b (dk + 1) (rlo (k + 1)) j ind mp v = Some v' /\ zlen v' = nnz /\
      (forall q, 0 <= q < nnz -> ~ (j < q < rlo (i + 1)) -> tn v' q = tn v q) /\
      forall c, (exists q, rlo i <= q < rlo (i + 1) /\ col q = c) ->
        cs v' (j + 1) (rlo (i + 1)) c = osub O (cs v (j + 1) (rlo (i + 1)) c) (omul O (tn v j) (cs v (dk + 1) (rlo (k + 1)) c)).
  Proof.
    intros i k j dk mp v Hk Hi Lm Lv MP Hj Ej D. pose proof D as (D1 & D2). destruct lens as (_ & Li & _). pose proof (rb i ltac:(lia)). pose proof (rb k ltac:(lia)).
    pose proof (rlo_mono (k + 1) i ltac:(lia) ltac:(lia) ltac:(lia)). unfold sub_row.
    assert (P0 : 0 < rlo i). { destruct (diag_ex 0 ltac:(lia)) as (d0 & (D0 & _)). pose proof (rb 0 ltac:(lia)). pose proof (rlo_mono (0 + 1) i ltac:(lia) ltac:(lia) ltac:(lia)). lia. }
    match goal with |- context [for_ ?lo ?hi ?f ?s] => destruct (for_inv _ (fun e st => zlen st = nnz /\
      (forall q, 0 <= q < nnz -> ~ (j < q < rlo (i + 1)) -> tn st q = tn v q) /\
      forall c, (exists q, rlo i <= q < rlo (i + 1) /\ col q = c) ->
        cs st (j + 1) (rlo (i + 1)) c = osub O (cs v (j + 1) (rlo (i + 1)) c) (omul O (tn v j) (cs v (dk + 1) e c))) lo hi f s ltac:(lia)) as (st & E & R) end.
    - split; auto. split; auto. intros c _. rewrite cs_nil. ring.
    - intros jj st Hjj (Ls & R1 & R2). rewrite (rd_nthZ _ 0) by lia. pose proof (colb jj ltac:(lia)). pose proof (split_hi k dk jj ltac:(lia) D ltac:(lia)) as Hgt.
      rewrite narrow_id by lia. rewrite (rd_nthZ _ 0) by lia. cbv zeta.
      assert (RN : -2147483648 <= zn mp (col jj) < 2147483648) by (destruct (MP (col jj) ltac:(lia)) as [(Q & _)|(Q & _)]; lia).
      rewrite (narrow_id _ RN). destruct (MP (col jj) ltac:(lia)) as [(Q1 & Q2)|(Q1 & Q2)].
      + rewrite Q1. cbn [Z.eqb]. eexists. split; [reflexivity|]. split; auto. split; auto. intros c Hc. rewrite R2 by auto.
        rewrite (cs_last v (dk + 1)) by lia. destruct Hc as (q & Hq & Ec). specialize (Q2 q Hq).
        replace (col jj =? c) with false by lia. ring.
      + set (jw := zn mp (col jj)) in *. replace (jw =? 0) with false by lia.
        assert (Hjw : j < jw). { destruct (Z_lt_dec j jw); auto. pose proof (sorted i jw j ltac:(lia) ltac:(lia) ltac:(lia) ltac:(lia)). lia. }
        rewrite !(rd_nthZ _ zero) by lia. rewrite (R1 j) by lia. rewrite (R1 jj) by lia. rewrite wr_upd by lia. eexists. split; [reflexivity|].
        split; [now rewrite zlen_upd|]. split.
        * intros q Hq Nq. rewrite nthZ_upd by lia. replace (q =? jw) with false by lia. now apply R1.
        * intros c Hc. rewrite cs_upd by lia. rewrite R2 by auto. rewrite Q2.
          rewrite (cs_last v (dk + 1)) by lia. destruct (col jj =? c); ring.
    - exists st. rewrite E. auto.
  Qed.

  Variable a : list T.
  Hypothesis La : zlen a = nnz.

  (** elimination of row [i] *)
  Definition row_eq (v0 v : list T) (i j c : Z) : Prop :=
    oadd O (cs v j (rlo (i + 1)) c) (sumz O (rlo i) j (fun q => omul O (tn v q) (facU O (F v0) (col q) c))) = F a i c.
  Lemma elim_ok : forall i lu mp v0 ko, 0 <= i < n -> zlen lu = n -> zlen mp = n -> zlen v0 = nnz ->
    (forall c, 0 <= c < n -> (zn mp c = 0 /\ (forall q, rlo i <= q < rlo (i + 1) -> col q <> c)) \/ (rlo i <= zn mp c < rlo (i + 1) /\ col (zn mp c) = c)) ->
    (forall r, 0 <= r < i -> isdiag r (zn lu r) /\ near0 (tn v0 (zn lu r)) = false) ->
    (forall q, rlo i <= q < nnz -> tn v0 q = tn a q) ->
    exists v d, elim_row O near0 b i ptr ind lu mp (rlo i) (rlo (i + 1)) (v0, rlo i, ko) = Some (inl (v, d, Some i)) /\
      isdiag i d /\ zlen v = nnz /\ (forall q, 0 <= q < nnz -> ~ (rlo i <= q < rlo (i + 1)) -> tn v q = tn v0 q) /\
      forall c, (exists q, rlo i <= q < rlo (i + 1) /\ col q = c) -> row_eq v0 v i d c.
  Proof.
    intros i lu mp v0 ko Hi Ll Lm Lv MP PIV A0. destruct lens as (Lp & Li & _). pose proof (rb i Hi). unfold elim_row.
    set (EI := fun (j : Z) (v : list T) => zlen v = nnz /\ (forall q, 0 <= q < nnz -> ~ (rlo i <= q < rlo (i + 1)) -> tn v q = tn v0 q) /\
       (forall q, rlo i <= q < j -> col q < i) /\ forall c, (exists q, rlo i <= q < rlo (i + 1) /\ col q = c) -> row_eq v0 v i j c).
    match goal with |- context [forc ?lo ?hi ?f ?s] => destruct (forc_inv _ _
      (fun j st => let '(v, jj, k) := st in jj = j /\ EI j v)
      (fun st => let '(v, j, k) := st in EI j v /\ rlo i <= j < rlo (i + 1) /\ i <= col j /\ k = Some (col j)) (fun _ => False) lo hi f s ltac:(lia)) as [(((v & j) & k) & E & R)|(r & _ & [])] end.
    - split; auto. split; auto. split; auto. split; [intros; lia|]. intros c _. unfold row_eq. rewrite (sumz_nil O) by lia.
      rewrite mat_cs by auto. rewrite (cs_ext v0 a) by (intros; apply A0; lia). ring.
    - intros j ((v & j0) & k0) Hj (-> & Lv' & R1 & R2 & R3). rewrite (rd_nthZ _ 0) by lia. cbv zeta. pose proof (colb j ltac:(lia)) as Hc.
      destruct (Z.ltb_spec (col j) i) as [Hlt|Hge].
      2:{ right; left. eexists. split; [reflexivity|]. unfold EI. ands; auto; lia. }
      left. set (k := col j) in *. destruct (PIV k ltac:(lia)) as (D & NZ). pose proof D as (D1 & D2). pose proof (rb k ltac:(lia)).
      pose proof (rlo_mono (k + 1) i ltac:(lia) ltac:(lia) ltac:(lia)).
      rewrite (rd_nthZ _ 0) by lia. rewrite (rd_nthZ _ zero) by lia. rewrite (R1 (zn lu k)) by lia. rewrite NZ.
      rewrite (rd_nthZ _ zero) by lia. rewrite wr_upd by lia. rewrite (rd_nthZ _ 0) by lia.
      set (de := tn v0 (zn lu k)) in *. assert (de <> zero) by (intros Q; rewrite Q in NZ; congruence).
      set (v1 := upd v j (odiv O (tn v j) de)).
      assert (L1 : zlen v1 = nnz) by (unfold v1; now rewrite zlen_upd).
      assert (V1j : tn v1 j = odiv O (tn v j) de) by (unfold v1; rewrite nthZ_upd by lia; now rewrite Z.eqb_refl).
      assert (V1o : forall q, 0 <= q < nnz -> q <> j -> tn v1 q = tn v q) by (intros q Hq Nq; unfold v1; rewrite nthZ_upd by lia; now replace (q =? j) with false by lia).
      destruct (sub_row_ok i k j (zn lu k) mp v1 ltac:(lia) ltac:(lia) Lm L1 MP Hj eq_refl D) as (v2 & E2 & L2 & S1 & S2). rewrite E2.
      eexists. split; [reflexivity|]. split; [reflexivity|]. split; auto. split; [|split].
      + intros q Hq Nq. rewrite S1, V1o by lia. auto.
      + intros q Hq. destruct (Z.eq_dec q j); [subst; auto|]. apply R2. lia.
      + intros c Hcp. specialize (R3 c Hcp). specialize (S2 c Hcp). unfold row_eq in *. rewrite S2. rewrite V1j. rewrite (sumz_last O L) by lia.
        fold k. rewrite (S1 j) by lia. rewrite V1j.
        rewrite (sumz_ext O (rlo i) j _ (fun q => omul O (tn v q) (facU O (F v0) (col q) c))) by (intros q Hq; rewrite S1, V1o by lia; reflexivity).
        rewrite <- R3. rewrite (cs_first v j) by lia. fold k.
        rewrite (cs_ext v1 v (j + 1)) by (intros q Hq; apply V1o; lia).
        rewrite (cs_ext v1 v0 (zn lu k + 1)) by (intros q Hq; rewrite V1o by lia; apply R1; lia).
        rewrite (U_cs v0 k (zn lu k) c) by (auto; lia). fold de.
        pose proof (HD (tn v j) de ltac:(auto)) as DV. destruct (k =? c); [rewrite <- DV at 3; ring | ring].
    - destruct (diag_ex i Hi) as (d & D). pose proof D as (D1 & D2). destruct R as [(-> & Lv' & R1 & R2 & R3)|((Lv' & R1 & R2 & R3) & Hj & Hge & ->)].
      + exfalso. specialize (R2 d ltac:(lia)). lia.
      + assert (j <= d). { destruct (Z_lt_dec d j); [|lia]. specialize (R2 d ltac:(lia)). lia. }
        pose proof (sorted i j d Hi ltac:(lia) ltac:(lia) ltac:(lia)). exists v, j. replace (col j) with i in E by lia. split; auto. split; [split; lia|]. auto.
  Qed.

  Definition fact_inv (i : Z) (lu : list Z) (v : list T) : Prop :=
    zlen lu = n /\ zlen v = nnz /\ (forall r, 0 <= r < i -> isdiag r (zn lu r) /\ near0 (tn v (zn lu r)) = false) /\
    ilu_rows O n b ptr ind (F v) (F a) i.
  Lemma fact_ok : forall lu, zlen lu = n -> 0 < n ->
    exists st lu' v, ilu0_fact O near0 n b ptr ind lu a = Some (st, lu', v) /\ zlen lu' = n /\ zlen v = nnz /\
      (st = success /\ fact_inv n lu' v \/
       st = numerical_error /\ exists i, 0 <= i < n /\ ilu_rows O n b ptr ind (F v) (F a) (i + 1) /\ near0 (F v i i) = true /\
         forall r, 0 <= r < i -> near0 (F v r r) = false).
  Proof.
    intros lu Ll Hn. destruct lens as (Lp & Li & _). unfold ilu0_fact.
    match goal with |- context [forc ?lo ?hi ?f ?s] => destruct (forc_inv _ _
      (fun i st => let '(lu, v, mp, ko) := st in fact_inv i lu v /\ (forall q, rlo i <= q < nnz -> tn v q = tn a q) /\ zlen mp = n /\ forall c, 0 <= c < n -> zn mp c = 0)
      (fun st => False)
      (fun r => let '(st, lu', v) := r in zlen lu' = n /\ zlen v = nnz /\ st = numerical_error /\ exists i, 0 <= i < n /\ ilu_rows O n b ptr ind (F v) (F a) (i + 1) /\ near0 (F v i i) = true /\
         forall r, 0 <= r < i -> near0 (F v r r) = false) lo hi f s ltac:(lia)) as [((((lu' & v) & mp) & ko) & E & R)|(r & E & R)] end.
    - split; [split; [|split; [|split]]; auto; [intros; lia | intros i j Hi; lia]|]. split; auto. split; [apply zlen_zrep; lia|]. intros c Hc. apply nthZ_zrep; lia.
    - intros i (((lu0 & v0) & mp) & ko) Hi ((L0 & Lv & PIV & IR) & A0 & Lm & M0). rewrite !(rd_nthZ _ 0) by lia. cbv zeta. pose proof (rb i Hi).
      destruct (set_map_ok i mp Hi Lm M0) as (mp1 & E1 & Lm1 & M1). rewrite E1.
      destruct (elim_ok i lu0 mp1 v0 ko Hi L0 Lm1 Lv M1 PIV A0) as (v & d & E2 & D & Lv2 & R1 & R2). rewrite E2. pose proof D as (D1 & D2).
      rewrite wr_upd by lia. rewrite Z.eqb_refl. cbn [negb]. rewrite (rd_nthZ _ zero) by lia.
      assert (SAME : forall r q, 0 <= r < i -> rlo r <= q < rlo (r + 1) -> tn v q = tn v0 q).
      { intros r q Hr Hq. pose proof (rb r ltac:(lia)). pose proof (rlo_mono (r + 1) i ltac:(lia) ltac:(lia) ltac:(lia)). apply R1; lia. }
      assert (IR' : ilu_rows O n b ptr ind (F v) (F a) (i + 1)).
      { intros r c Hr Hc (q & Hq & Eq). destruct (Z.eq_dec r i) as [->|Ne].
        - rewrite (LU_row v i d) by auto. assert (X : exists q, rlo i <= q < rlo (i + 1) /\ col q = c) by (exists q; unfold in_row in Hq; lia).
          specialize (R2 c X). unfold row_eq in R2. rewrite <- R2. f_equal. apply sumz_ext. intros q' Hq'. f_equal.
          pose proof (split_lo i d q' Hi D ltac:(lia)). pose proof (colb q' ltac:(lia)). apply facU_ext; auto; try lia. intros q2 Hq2. apply (SAME (col q')); lia.
        - rewrite (LU_ext v v0) by (auto; try lia; intros q' Hq'; pose proof (rlo_mono (r + 1) i ltac:(lia) ltac:(lia) ltac:(lia)); apply R1; lia).
          apply IR; auto; [lia|]. exists q; auto. }
      assert (PIV' : forall r, 0 <= r < i -> isdiag r (zn lu0 r) /\ near0 (tn v (zn lu0 r)) = false).
      { intros r Hr. destruct (PIV r Hr) as (P1 & P2). split; auto. rewrite (SAME r); auto. apply P1. }
      destruct (near0 (tn v d)) eqn:Ed.
      + right; right. eexists. split; [reflexivity|]. split; [now rewrite zlen_upd|]. split; auto. split; auto. exists i. split; [lia|]. split; [exact IR'|]. split.
        * rewrite (diag_val v i d) by auto. exact Ed.
        * intros r Hr. destruct (PIV' r Hr) as (P1 & P2). rewrite (diag_val v r (zn lu0 r)) by (auto; lia). exact P2.
      + left. destruct (reset_map_ok i mp1 Hi Lm1 M1) as (mp2 & E3 & Lm2 & M2). rewrite E3. eexists. split; [reflexivity|].
        split; [|split; [|split]]; auto.
        * split; [now rewrite zlen_upd|]. split; auto. split; auto. intros r Hr. rewrite nthZ_upd by lia. destruct (Z.eqb_spec r i) as [->|]; [auto|]. apply PIV'. lia.
        * intros q Hq. rewrite R1 by lia. apply A0. lia.
    - rewrite E. destruct R as [(R1 & R2 & _)|[]]. exists success, lu', v. split; auto. destruct R1 as (Q1 & Q2 & Q3). split; auto. split; auto. left. split; auto. split; auto.
    - rewrite E. destruct r as ((st & lu') & v). exists st, lu', v. split; auto. destruct R as (Q1 & Q2 & Q3 & Q4). auto.
  Qed.

  (** the triangular solves *)
  Section Solve.
    Variables (lu : list Z) (v bv : list T).
    Hypothesis (Ll : zlen lu = n) (Lv : zlen v = nnz) (Lb : zlen bv = n).
    Hypothesis PIV : forall r, 0 <= r < n -> isdiag r (zn lu r) /\ near0 (tn v (zn lu r)) = false.

    Lemma low_sum : forall i (x : list T), 0 <= i < n ->
      sumz O (rlo i) (zn lu i) (fun k => omul O (tn v k) (tn x (col k))) = sumz O 0 n (fun k => if k <? i then omul O (F v i k) (tn x k) else zero).
    Proof.
      intros i x Hi. destruct (PIV i Hi) as (D & _). pose proof D as (D1 & D2). pose proof (rb i Hi).
      apply (row_sum_cols O L n n nnz b ptr ind v i (rlo i) (zn lu i) (fun k => k <? i) (fun x => x) (fun k => tn x k)); auto; try lia.
      - apply (additive_id O).
      - intros q Hq. unfold in_row in Hq. split.
        + intros Hr. pose proof (split_lo i _ q Hi D ltac:(lia)). lia.
        + intros Hr. destruct (Z_lt_dec q (zn lu i)); [lia|]. destruct (Z.eq_dec q (zn lu i)); [subst; lia|]. pose proof (split_hi i _ q Hi D ltac:(lia)). lia.
    Qed.
    Lemma up_sum : forall i (x : list T), 0 <= i < n ->
      sumz O (zn lu i + 1) (rlo (i + 1)) (fun k => omul O (tn v k) (tn x (col k))) = sumz O 0 n (fun k => if i <? k then omul O (F v i k) (tn x k) else zero).
    Proof.
      intros i x Hi. destruct (PIV i Hi) as (D & _). pose proof D as (D1 & D2). pose proof (rb i Hi).
      apply (row_sum_cols O L n n nnz b ptr ind v i (zn lu i + 1) (rlo (i + 1)) (fun k => i <? k) (fun x => x) (fun k => tn x k)); auto; try lia.
      - apply (additive_id O).
      - intros q Hq. unfold in_row in Hq. split.
        + intros Hr. pose proof (split_hi i _ q Hi D ltac:(lia)). lia.
        + intros Hr. destruct (Z_lt_dec (zn lu i) q); [lia|]. destruct (Z.eq_dec q (zn lu i)); [subst; lia|]. pose proof (split_lo i _ q Hi D ltac:(lia)). lia.
    Qed.

    Lemma fwd_ok : forall x, zlen x = n -> exists y, ilu_fwd O n b ptr ind lu v bv x = Some y /\ zlen y = n /\
      forall i, 0 <= i < n -> sumz O 0 n (fun k => omul O (facL O (F v) i k) (tn y k)) = tn bv i.
    Proof.
      intros x Lx. destruct lens as (Lp & Li & Hn & _). unfold ilu_fwd.
      match goal with |- context [for_ ?lo ?hi ?f ?s] => destruct (for_inv _ (fun e y => zlen y = n /\
        forall i, 0 <= i < e -> oadd O (tn y i) (sumz O 0 n (fun k => if k <? i then omul O (F v i k) (tn y k) else zero)) = tn bv i) lo hi f s ltac:(lia)) as (y & E & Ly & R) end.
      - split; auto. intros; lia.
      - intros i y Hi (Ly & R). rewrite (rd_nthZ _ zero) by lia. rewrite !(rd_nthZ _ 0) by lia. destruct (PIV i Hi) as (D & _). pose proof D as (D1 & D2). pose proof (rb i Hi).
        match goal with |- context [for_ (rlo i) ?hi ?f ?s] => destruct (for_inv _ (fun e s' => s' = osub O (tn bv i) (sumz O (rlo i) e (fun k => omul O (tn v k) (tn y (col k))))) (rlo i) hi f s ltac:(lia)) as (s' & E' & R') end.
        + rewrite (sumz_nil O) by lia. ring.
        + intros k s0 Hk ->. pose proof (colb k ltac:(lia)). rewrite (rd_nthZ _ 0) by lia. rewrite !(rd_nthZ _ zero) by lia. eexists. split; [reflexivity|].
          rewrite (sumz_last O L) by lia. ring.
        + rewrite E'. rewrite wr_upd by lia. eexists. split; [reflexivity|]. split; [now rewrite zlen_upd|]. intros r Hr.
          rewrite (sumz_ext O 0 n _ (fun k => if k <? r then omul O (F v r k) (tn y k) else zero)).
          2:{ intros k Hk. destruct (Z.ltb_spec k r); auto. rewrite nthZ_upd by lia. now replace (k =? i) with false by lia. }
          rewrite nthZ_upd by lia. destruct (Z.eqb_spec r i) as [->|]; [|apply R; lia]. rewrite R', (low_sum i y) by auto. ring.
      - exists y. rewrite E. split; auto. split; auto. intros i Hi. rewrite <- R by auto.
        rewrite (delta_in i (fun k => tn y k) Hi).
        rewrite <- (sumz_add O L). apply sumz_ext. intros k Hk. unfold facL. destruct (Z.ltb_spec k i); [replace (k =? i) with false by lia; ring|]. destruct (k =? i); ring.
    Qed.

    Lemma bwd_ok : forall y, zlen y = n -> exists x, ilu_bwd O near0 n b ptr ind lu v y = Some x /\ zlen x = n /\
      forall i, 0 <= i < n -> sumz O 0 n (fun k => omul O (facU O (F v) i k) (tn x k)) = tn y i.
    Proof.
      intros y Ly. destruct lens as (Lp & Li & Hn & _). unfold ilu_bwd.
      match goal with |- context [for_down ?lo ?hi ?f ?s] => destruct (for_down_inv _ (fun e x => zlen x = n /\ (forall i, 0 <= i < e -> tn x i = tn y i) /\
        forall i, e <= i < n -> oadd O (omul O (F v i i) (tn x i)) (sumz O 0 n (fun k => if i <? k then omul O (F v i k) (tn x k) else zero)) = tn y i) lo hi f s ltac:(lia)) as (x & E & Lx & _ & R) end.
      - split; auto. split; auto. intros; lia.
      - intros i x Hi (Lx & Rlo & R). rewrite !(rd_nthZ _ 0) by lia. destruct (PIV i Hi) as (D & NZ). pose proof D as (D1 & D2). pose proof (rb i Hi).
        match goal with |- context [for_ ?lo (rlo (i + 1)) ?f ?s] => destruct (for_inv _ (fun e s' => zlen s' = n /\ (forall k, 0 <= k < n -> k <> i -> tn s' k = tn x k) /\
           tn s' i = osub O (tn y i) (sumz O lo e (fun k => omul O (tn v k) (tn x (col k))))) lo (rlo (i + 1)) f s ltac:(lia)) as (x1 & E' & L1 & R1 & R1') end.
        + split; auto. split; auto. rewrite (sumz_nil O) by lia. rewrite Rlo by lia. ring.
        + intros k s0 Hk (L0 & S1 & S2). pose proof (colb k ltac:(lia)). pose proof (split_hi i _ k Hi D ltac:(lia)).
          rewrite (rd_nthZ _ 0) by lia. rewrite !(rd_nthZ _ zero) by lia. rewrite wr_upd by lia. eexists. split; [reflexivity|].
          split; [now rewrite zlen_upd|]. split.
          * intros q Hq Nq. rewrite nthZ_upd by lia. replace (q =? i) with false by lia. auto.
          * rewrite nthZ_upd by lia. rewrite Z.eqb_refl, S2, (S1 (col k)) by lia. rewrite (sumz_last O L) by lia. ring.
        + rewrite E'. rewrite !(rd_nthZ _ zero) by lia. rewrite NZ. rewrite wr_upd by lia. eexists. split; [reflexivity|].
          split; [now rewrite zlen_upd|]. split.
          * intros r Hr. rewrite nthZ_upd by lia. replace (r =? i) with false by lia. rewrite R1 by lia. apply Rlo. lia.
          * intros r Hr.
            rewrite (sumz_ext O 0 n _ (fun k => if r <? k then omul O (F v r k) (tn x k) else zero)).
            2:{ intros k Hk. destruct (Z.ltb_spec r k); auto. rewrite nthZ_upd by lia. replace (k =? i) with false by lia. rewrite R1 by lia. reflexivity. }
            rewrite nthZ_upd by lia. destruct (Z.eqb_spec r i) as [->|].
            -- rewrite R1', (up_sum i x) by auto. rewrite (diag_val v i (zn lu i)) by auto.
               set (S := sumz O 0 n _). set (de := tn v (zn lu i)) in *. assert (de <> zero) by (intros Q; rewrite Q in NZ; congruence).
               pose proof (HD (osub O (tn y i) S) de ltac:(auto)) as DV.
               transitivity (oadd O (omul O (odiv O (osub O (tn y i) S) de) de) S); [ring|]. rewrite DV. ring.
            -- rewrite R1 by lia. apply R. lia.
      - exists x. rewrite E. split; auto. split; auto. intros i Hi. rewrite <- R by auto.
        rewrite (delta_in i (fun k => omul O (F v i i) (tn x k)) Hi).
        rewrite <- (sumz_add O L). apply sumz_ext. intros k Hk. unfold facU. destruct (Z.leb_spec i k), (Z.ltb_spec i k), (Z.eqb_spec k i); try lia; try subst k; ring.
    Qed.

    Lemma solve_ok : forall x, zlen x = n -> exists x', ilu_solve O near0 n b ptr ind lu v bv x = Some x' /\ lu_solves O n (F v) x' bv.
    Proof.
      intros x Lx. unfold ilu_solve. destruct (fwd_ok x Lx) as (y & E & Ly & R). rewrite E. destruct (bwd_ok y Ly) as (x' & E' & Lx' & R').
      exists x'. split; auto. split; [lia|]. intros i Hi. rewrite <- R by auto. apply sumz_ext. intros k Hk. rewrite R' by auto. reflexivity.
    Qed.
  End Solve.
End F.
