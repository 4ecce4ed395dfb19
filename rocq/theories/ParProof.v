(** Proof of schedule independence for loops whose iterations access disjoint elements. *)
From Coq Require Import ZArith List Bool Arith Lia Permutation.
From Coq Require Import ZifyBool.
From Verif Require Import Base BaseFacts Algebra Vec DoidModel MvModel FmtMvModel Br4Model RowProg ParModel ParSpec.
Import ListNotations.
Open Scope Z_scope.

Lemma rd_upd_eq : forall A (l : list A) i v k, 0 <= i < zlen l -> rd (upd l i v) k = if k =? i then Some v else rd l k.
Proof.
  intros A l i v k Hi. destruct (Z.eqb_spec k i) as [->|Ne].
  - rewrite (rd_nthZ _ v) by (rewrite zlen_upd; lia). rewrite nthZ_upd_same by lia. reflexivity.
  - destruct (Z_lt_le_dec k 0); [unfold rd; replace (k <? 0) with true by lia; reflexivity|].
    destruct (Z_lt_le_dec k (zlen l)).
    + rewrite !(rd_nthZ _ v) by (rewrite ?zlen_upd; lia). rewrite nthZ_upd by lia. replace (k =? i) with false by lia. reflexivity.
    + unfold rd. replace (k <? 0) with false by lia. pose proof (zlen_upd A l i v) as Z. unfold zlen in *. rewrite !(proj2 (nth_error_None _ _)) by lia. reflexivity.
Qed.
Lemma rd_in : forall A (l : list A) k v, rd l k = Some v -> 0 <= k < zlen l.
Proof.
  intros A l k v E. unfold rd in E. destruct (Z.ltb_spec k 0); [discriminate|]. assert (nth_error l (Z.to_nat k) <> None) by congruence.
  apply nth_error_Some in H0. unfold zlen. lia.
Qed.
Lemma wr_in : forall A (l l' : list A) k v, wr l k v = Some l' -> 0 <= k < zlen l /\ l' = upd l k v.
Proof. intros A l l' k v. unfold wr. destruct ((0 <=? k) && (k <? zlen l)) eqn:E; intros H; [|discriminate]. injection H as <-. split; [lia|reflexivity]. Qed.
Lemma rd_all_eq : forall A (l r : list A), (forall k, rd l k = rd r k) -> l = r.
Proof.
  intros A l r H. assert (E : forall n, nth_error l n = nth_error r n).
  { intros n. specialize (H (Z.of_nat n)). unfold rd in H. replace (Z.of_nat n <? 0) with false in H by lia. now rewrite Nat2Z.id in H. }
  clear H. revert r E. induction l as [|a l IH]; intros [|c r] E; auto; try (specialize (E 0%nat); discriminate E).
  f_equal. - specialize (E 0%nat). now injection E. - apply IH. intros n. apply (E (S n)).
Qed.
Lemma rd_Some_wr : forall A (l r : list A) k v l', (rd l k = rd r k) -> wr l k v = Some l' -> exists r', wr r k v = Some r' /\ l' = upd l k v /\ r' = upd r k v /\ 0 <= k < zlen l /\ 0 <= k < zlen r.
Proof.
  intros A l r k v l' E W. apply wr_in in W. destruct W as [W ->]. rewrite (rd_nthZ _ v) in E by lia. symmetry in E. apply rd_in in E.
  exists (upd r k v). rewrite wr_upd by lia. auto.
Qed.

Section P.
  Context {T : Type}.

  Fixpoint within (D : Z -> bool) (p : act T) : Prop :=
    match p with
    | a_end | a_bad => True
    | a_rd k f => D k = true /\ forall v, within D (f v)
    | a_wr k v n => D k = true /\ within D n
    end.

  Lemma within_mono : forall (D E : Z -> bool) p, (forall k, D k = true -> E k = true) -> within D p -> within E p.
  Proof. intros D E p H. induction p as [|k f IH|k v n IH|]; cbn; auto; intros [H1 H2]; split; auto. Qed.

  Lemma run_frame : forall D p y z, within D p -> run p y = Some z -> forall k, D k = false -> rd z k = rd y k.
  Proof.
    intros D p. induction p as [|k f IH|k v n IH|]; cbn; intros y z W R j Hj.
    - now injection R as <-.
    - destruct W as [W1 W2]. destruct (rd y k) as [v|] eqn:E; [|discriminate]. eapply IH; eauto.
    - destruct W as [W1 W2]. destruct (wr y k v) as [y'|] eqn:E; [|discriminate]. rewrite (IH y' z W2 R j Hj). apply wr_in in E. destruct E as [E ->].
      rewrite rd_upd_eq by lia. destruct (Z.eqb_spec j k); [congruence|reflexivity].
    - discriminate.
  Qed.
  Lemma run_local : forall D p y y' z, within D p -> (forall k, D k = true -> rd y k = rd y' k) -> run p y = Some z ->
    exists z', run p y' = Some z' /\ forall k, D k = true -> rd z k = rd z' k.
  Proof.
    intros D p. induction p as [|k f IH|k v n IH|]; cbn; intros y y' z W A R.
    - injection R as <-. eauto.
    - destruct W as [W1 W2]. rewrite <- (A k W1). destruct (rd y k) as [v|] eqn:E; [|discriminate]. eapply IH; eauto.
    - destruct W as [W1 W2]. destruct (wr y k v) as [y1|] eqn:E; [|discriminate]. destruct (rd_Some_wr _ _ _ _ _ _ (A k W1) E) as (y1' & E' & -> & -> & B1 & B2).
      rewrite E'. apply (IH (upd y k v) _ z W2); auto. intros j Hj. rewrite !rd_upd_eq by lia. destruct (j =? k); auto.
    - discriminate.
  Qed.
  Lemma run_seq : forall (p q : act T) y, run (a_seq p q) y = match run p y with Some y' => run q y' | None => None end.
  Proof.
    induction p as [|k f IH|k v n IH|]; intros q y; cbn; auto.
    - destruct (rd y k); auto. - destruct (wr y k v); auto.
  Qed.
  Lemma run_all : forall rows (body : Z -> act T) y, run (a_all rows body) y = foldM (fun i y => run (body i) y) rows y.
  Proof. induction rows as [|i r IH]; intros body y; cbn; auto. rewrite run_seq. destruct (run (body i) y); auto. Qed.
  Lemma within_seq : forall D p q, within D p -> within D q -> within D (a_seq p q).
  Proof. intros D p q. induction p as [|k f IH|k v n IH|]; cbn; auto; intros [H1 H2] H3; split; auto. Qed.

  (** ** Iterations on disjoint elements *)
  Variables (body : Z -> act T) (dom : Z -> Z -> bool) (lo hi : Z).
  Hypothesis Hw : forall i, lo <= i < hi -> within (dom i) (body i).
  Hypothesis Hd : forall i j k, lo <= i < hi -> lo <= j < hi -> dom i k = true -> dom j k = true -> i = j.

  Definition cells (rows : list Z) (k : Z) : bool := existsb (fun i => dom i k) rows.
  Lemma cells_in : forall rows k, cells rows k = true <-> exists i, In i rows /\ dom i k = true.
  Proof. intros rows k. apply existsb_exists. Qed.
  Lemma within_all : forall rows, (forall i, In i rows -> lo <= i < hi) -> within (cells rows) (a_all rows body).
  Proof.
    induction rows as [|i r IH]; cbn [a_all]; intros H; [exact I|]. apply within_seq.
    - apply (within_mono (dom i)); [|apply Hw, H; now left]. intros k Hk. apply cells_in. exists i. split; auto. now left.
    - apply (within_mono (cells r)); [|apply IH; intros; apply H; now right]. intros k Hk. apply cells_in in Hk. destruct Hk as (j & J1 & J2). apply cells_in. exists j. split; auto. now right.
  Qed.

  Lemma rows_inv : forall rows y z, NoDup rows -> (forall i, In i rows -> lo <= i < hi) -> foldM (fun i y => run (body i) y) rows y = Some z ->
    (forall i, In i rows -> exists r, run (body i) y = Some r /\ forall k, dom i k = true -> rd z k = rd r k) /\
    (forall k, cells rows k = false -> rd z k = rd y k).
  Proof.
    induction rows as [|i rows IH]; intros y z ND R E.
    - injection E as <-. split; [intros i []|auto].
    - cbn [foldM] in E. destruct (run (body i) y) as [y1|] eqn:E1; [|discriminate]. inversion ND as [|? ? N1 N2]; subst.
      destruct (IH y1 z N2 ltac:(intros; apply R; now right) E) as (A & B).
      assert (F : forall k, dom i k = false -> rd y1 k = rd y k) by (intros k Hk; eapply run_frame; [apply Hw, R; now left|exact E1|exact Hk]).
      assert (Dj : forall j k, In j rows -> dom j k = true -> dom i k = false).
      { intros j k Hj Hk. destruct (dom i k) eqn:Ei; auto. exfalso. apply N1. rewrite (Hd i j k); auto; apply R; [now left|now right]. }
      split.
      + intros j [<-|Hj].
        * exists y1. split; auto. intros k Hk. apply B. destruct (cells rows k) eqn:Ck; auto. apply cells_in in Ck. destruct Ck as (j & J1 & J2).
          rewrite (Dj j k J1 J2) in Hk. discriminate.
        * destruct (A j Hj) as (r & R1 & R2). destruct (run_local (dom j) (body j) y1 y r) as (r' & R3 & R4); [apply Hw, R; now right| |exact R1|].
          -- intros k Hk. apply F. eapply Dj; eauto.
          -- exists r'. split; auto. intros k Hk. rewrite R2, R4 by auto. reflexivity.
      + intros k Hk. unfold cells in Hk. cbn in Hk. apply orb_false_iff in Hk. destruct Hk as [K1 K2]. rewrite B by exact K2. apply F, K1.
  Qed.
  Lemma rows_fwd : forall rows y, NoDup rows -> (forall i, In i rows -> lo <= i < hi) -> (forall i, In i rows -> run (body i) y <> None) ->
    exists z, foldM (fun i y => run (body i) y) rows y = Some z.
  Proof.
    induction rows as [|i rows IH]; intros y ND R H; [cbn; eauto|]. cbn [foldM]. destruct (run (body i) y) as [y1|] eqn:E1; [|exfalso; apply (H i); [now left|auto]].
    inversion ND as [|? ? N1 N2]; subst. apply IH; auto; [intros; apply R; now right|]. intros j Hj.
    destruct (run (body j) y) as [r|] eqn:Ej; [|exfalso; apply (H j); [now right|auto]].
    destruct (run_local (dom j) (body j) y y1 r) as (r' & R3 & R4); [apply Hw, R; now right| |exact Ej|congruence].
    intros k Hk. symmetry. eapply run_frame; [apply Hw, R; now left|exact E1|]. destruct (dom i k) eqn:Ei; auto.
    exfalso. apply N1. rewrite (Hd i j k); auto; apply R; [now left|now right].
  Qed.

  (** ** The team *)
  Variables (owners : list (list Z)).
  Hypothesis HP : Permutation (concat owners) (zrange lo hi).
  Definition mine (t : nat) : Z -> bool := cells (nth t owners []).

  Lemma nodup_zrange : forall a c, NoDup (zrange a c).
  Proof. intros a c. unfold zrange. apply FinFun.Injective_map_NoDup; [intros p q E; lia|apply seq_NoDup]. Qed.
  Lemma owners_nodup : NoDup (concat owners).
  Proof. apply (Permutation_NoDup (Permutation_sym HP)). apply nodup_zrange. Qed.
  Lemma own_in : forall t i, In i (nth t owners []) -> In i (concat owners).
  Proof.
    intros t i H. apply in_concat. exists (nth t owners []). split; auto. apply nth_In.
    destruct (Nat.lt_ge_cases t (length owners)) as [|G]; auto. rewrite nth_overflow in H by exact G. destruct H.
  Qed.
  Lemma own_range : forall t i, In i (nth t owners []) -> lo <= i < hi.
  Proof. intros t i H. apply own_in in H. apply (Permutation_in _ HP) in H. now apply in_zrange in H. Qed.
  Lemma nth_nodup : forall (ow : list (list Z)) t, NoDup (concat ow) -> NoDup (nth t ow []).
  Proof.
    induction ow as [|a ow IH]; intros [|t] H; cbn; try constructor; cbn in H.
    - clear IH. induction a as [|x a IHa]; [constructor|]. cbn in H. inversion H; subst. constructor; auto. intros I. apply H2. apply in_app_iff. now left.
    - apply IH. clear IH. induction a as [|x a IHa]; auto. cbn in H. inversion H; auto.
  Qed.
  Lemma two_owners : forall (ow : list (list Z)) t u i, NoDup (concat ow) -> In i (nth t ow []) -> In i (nth u ow []) -> t = u.
  Proof.
    assert (NI : forall (ow : list (list Z)) u i, In i (nth u ow []) -> In i (concat ow)).
    { intros ow u i H. apply in_concat. exists (nth u ow []). split; auto. apply nth_In.
      destruct (Nat.lt_ge_cases u (length ow)) as [|G]; auto. rewrite nth_overflow in H by exact G. destruct H. }
    assert (DJ : forall (a c : list Z) i, NoDup (a ++ c) -> In i a -> In i c -> False).
    { induction a as [|x a IHa]; intros c i H A C; [destruct A|]. cbn in H. inversion H; subst. destruct A as [->|A]; [apply H2; apply in_app_iff; now right|eauto]. }
    induction ow as [|a ow IH]; intros [|t] [|u] i H A B; cbn in *; auto; try contradiction.
    - exfalso. eapply DJ; eauto. - exfalso. eapply DJ; eauto.
    - f_equal. apply (IH t u i); auto. clear - H. induction a as [|x a IHa]; auto. cbn in H. inversion H; auto.
  Qed.
  Lemma mine_one : forall t u k, mine t k = true -> mine u k = true -> t = u.
  Proof.
    intros t u k A B. apply cells_in in A. apply cells_in in B. destruct A as (i & A1 & A2), B as (j & B1 & B2).
    assert (i = j) by (apply (Hd i j k); auto; eapply own_range; eauto). subst j. eapply two_owners; eauto. apply owners_nodup.
  Qed.
  Lemma mine_some : forall k, cells (concat owners) k = true -> exists t, mine t k = true.
  Proof.
    intros k H. apply cells_in in H. destruct H as (i & H1 & H2). apply in_concat in H1. destruct H1 as (l & L1 & L2). apply (In_nth _ _ []) in L1. destruct L1 as (t & _ & <-).
    exists t. apply cells_in. eauto.
  Qed.

  Variables (y0 y1 : list T).
  Hypothesis Hseq : for_ lo hi (fun i y => run (body i) y) y0 = Some y1.

  Definition good (st : (nat -> act T) * list T) : Prop :=
    (forall t, within (mine t) (fst st t) /\ exists z, run (fst st t) (snd st) = Some z /\ forall k, mine t k = true -> rd z k = rd y1 k) /\
    (forall k, cells (concat owners) k = false -> rd (snd st) k = rd y1 k).

  Lemma cells_perm : forall k, cells (concat owners) k = cells (zrange lo hi) k.
  Proof.
    intros k. apply eq_true_iff_eq. rewrite !cells_in. split; intros (i & A & B); exists i; split; auto.
    - apply (Permutation_in _ HP A). - apply (Permutation_in _ (Permutation_sym HP) A).
  Qed.
  Lemma good_init : good (team_of owners body, y0).
  Proof.
    unfold for_ in Hseq. destruct (rows_inv _ _ _ (nodup_zrange lo hi) ltac:(intros i I; now apply in_zrange in I) Hseq) as (A & B). split; cbn [fst snd].
    - intros t. unfold team_of. split; [apply within_all; intros i I; eapply own_range; eauto|]. rewrite run_all.
      pose proof (nth_nodup owners t owners_nodup) as ND. destruct (rows_fwd (nth t owners []) y0 ND ltac:(intros i I; eapply own_range; eauto)) as (z & E).
      + intros i I. destruct (A i) as (r & R & _); [|congruence]. apply in_zrange. eapply own_range; eauto.
      + exists z. split; auto. intros k Hk. apply cells_in in Hk. destruct Hk as (i & I1 & I2). pose proof (own_range _ _ I1) as Ri.
        destruct (rows_inv _ _ _ ND ltac:(intros j J; eapply own_range; eauto) E) as (A' & _). destruct (A' i I1) as (r' & R1 & R2). destruct (A i) as (r & R3 & R4); [now apply in_zrange|].
        rewrite R2, R4 by auto. congruence.
    - intros k Hk. symmetry. apply B. now rewrite <- cells_perm.
  Qed.
  Lemma good_step : forall t st, good st -> exists st', step t st = Some st' /\ good st'.
  Proof.
    intros t (ths & y) (G1 & G2). cbn [fst snd] in *. destruct (G1 t) as (W & z & R & Z). unfold step. destruct (ths t) as [|k f|k v n|] eqn:E; cbn in R.
    - eexists. split; [reflexivity|]. split; auto.
    - destruct W as [W1 W2]. destruct (rd y k) as [v|] eqn:Ek; [|discriminate]. eexists. split; [reflexivity|]. split; cbn [fst snd]; auto.
      intros u. destruct (Nat.eqb_spec u t) as [->|]; auto. split; auto. eauto.
    - destruct W as [W1 W2]. destruct (wr y k v) as [y'|] eqn:Ek; [|discriminate]. eexists. split; [reflexivity|]. apply wr_in in Ek. destruct Ek as (Ek & ->). split; cbn [fst snd].
      + intros u. destruct (Nat.eqb_spec u t) as [->|Ne]; [eauto|]. destruct (G1 u) as (Wu & zu & Ru & Zu). split; auto.
        destruct (run_local (mine u) (ths u) y (upd y k v) zu Wu) as (z' & Z1 & Z2); auto.
        * intros j Hj. rewrite rd_upd_eq by lia. destruct (Z.eqb_spec j k) as [->|]; auto. exfalso. apply Ne. eapply mine_one; eauto.
        * exists z'. split; auto. intros j Hj. rewrite <- Z2 by auto. auto.
      + intros j Hj. rewrite rd_upd_eq by lia. destruct (Z.eqb_spec j k) as [->|]; auto. exfalso. apply cells_in in W1. destruct W1 as (i & I1 & I2).
        assert (cells (concat owners) k = true) by (apply cells_in; exists i; split; auto; eapply own_in; eauto). congruence.
    - discriminate R.
  Qed.
  Lemma good_exec : forall sched st, good st -> exists st', exec sched st = Some st' /\ good st'.
  Proof.
    induction sched as [|t s IH]; intros st G; cbn; eauto. destruct (good_step t st G) as (st' & E & G'). rewrite E. auto.
  Qed.
  Lemma good_final : forall ths y, good (ths, y) -> finished ths -> y = y1.
  Proof.
    intros ths y (G1 & G2) F. cbn [fst snd] in *. apply rd_all_eq. intros k. destruct (cells (concat owners) k) eqn:C; auto.
    destruct (mine_some k C) as (t & Ht). destruct (G1 t) as (_ & z & R & Z). rewrite (F t) in R. cbn in R. injection R as <-. auto.
  Qed.
  Lemma good_race : forall ths y, good (ths, y) -> no_race ths.
  Proof.
    intros ths y (G1 & _) t u k Ne A B. cbn [fst] in *. apply Ne. destruct (G1 t) as (Wt & _), (G1 u) as (Wu & _). apply (mine_one t u k).
    - destruct (ths t); cbn in A; try discriminate; injection A as ->; apply Wt.
    - destruct (ths u); cbn in B; try discriminate; injection B as ->; apply Wu.
  Qed.
  Lemma exec_app : forall a c (st : (nat -> act T) * list T), exec (a ++ c) st = match exec a st with Some st' => exec c st' | None => None end.
  Proof. induction a as [|t a IH]; intros c st; cbn; auto. destruct (step t st); auto. Qed.

  (** One thread can always be run to its end, leaving the others where they are. *)
  Lemma finish_one : forall t st, good st -> exists more ths' y', exec more st = Some (ths', y') /\ good (ths', y') /\ ths' t = a_end /\ forall u, u <> t -> ths' u = fst st u.
  Proof.
    intros t (ths & y) G. remember (ths t) as p eqn:Ep. revert ths y Ep G. induction p as [|k f IH|k v n IH|]; intros ths y Ep G.
    - exists [], ths, y. cbn. auto.
    - destruct (good_step t (ths, y) G) as (st' & E & G'). pose proof E as E0. unfold step in E. rewrite <- Ep in E. destruct (rd y k) as [v|]; [|discriminate]. injection E as <-.
      destruct (IH v (fun u => if Nat.eqb u t then f v else ths u) y ltac:(cbn; now rewrite Nat.eqb_refl) G') as (more & ths' & y' & A & B & C & D). exists (t :: more), ths', y'. cbn [exec]. rewrite E0. split; auto. split; auto. split; auto.
      intros u Hu. rewrite D by auto. cbn [fst]. destruct (Nat.eqb_spec u t); congruence.
    - destruct (good_step t (ths, y) G) as (st' & E & G'). pose proof E as E0. unfold step in E. rewrite <- Ep in E. destruct (wr y k v) as [y2|]; [|discriminate]. injection E as <-.
      destruct (IH (fun u => if Nat.eqb u t then n else ths u) y2 ltac:(cbn; now rewrite Nat.eqb_refl) G') as (more & ths' & y' & A & B & C & D). exists (t :: more), ths', y'. cbn [exec]. rewrite E0. split; auto. split; auto. split; auto.
      intros u Hu. rewrite D by auto. cbn [fst]. destruct (Nat.eqb_spec u t); congruence.
    - destruct G as (G1 & _). destruct (G1 t) as (_ & z & R & _). cbn [fst snd] in R. rewrite <- Ep in R. discriminate.
  Qed.
  Lemma finish_all : forall n st, good st -> (forall t, (n <= t)%nat -> fst st t = a_end) -> exists more ths' y', exec more st = Some (ths', y') /\ finished ths'.
  Proof.
    induction n as [|n IH]; intros st G H.
    - destruct st as (ths & y). exists [], ths, y. split; auto. intros t. apply H. lia.
    - destruct (finish_one n st G) as (more & ths' & y' & A & B & C & D). destruct (IH (ths', y') B) as (more2 & ths2 & y2 & A2 & F).
      + intros t Ht. cbn [fst]. destruct (Nat.eq_dec t n) as [->|Ne]; auto. rewrite D by auto. apply H. lia.
      + exists (more ++ more2), ths2, y2. rewrite exec_app, A. auto.
  Qed.
  Lemma idle : forall sched (ths : nat -> act T) y st', exec sched (ths, y) = Some st' -> forall t, ths t = a_end -> fst st' t = a_end.
  Proof.
    induction sched as [|u s IH]; intros ths y st' E t Ht; cbn [exec] in E; [injection E as <-; auto|].
    unfold step in E. destruct (ths u) as [|k f|k v n|] eqn:Eu.
    - eapply IH; eauto.
    - destruct (rd y k); [|discriminate]. eapply IH; [exact E|]. cbn. destruct (Nat.eqb_spec t u); congruence.
    - destruct (wr y k v); [|discriminate]. eapply IH; [exact E|]. cbn. destruct (Nat.eqb_spec t u); congruence.
    - discriminate.
  Qed.
  Lemma team_ok : forall sched, exists ths y', exec sched (team_of owners body, y0) = Some (ths, y') /\ (finished ths -> y' = y1) /\ no_race ths /\
    exists more ths2 y2, exec more (ths, y') = Some (ths2, y2) /\ finished ths2.
  Proof.
    intros sched. destruct (good_exec sched _ good_init) as ((ths & y') & E & G). exists ths, y'. split; auto. split; [now apply good_final|]. split; [eapply good_race; eauto|].
    apply (finish_all (length owners) (ths, y') G). intros t Ht. apply (idle _ _ _ _ E). unfold team_of. rewrite nth_overflow by exact Ht. reflexivity.
  Qed.
End P.

Lemma disjoint_loop : forall T (body : Z -> act T) dom lo hi y y1,
  (forall i, lo <= i < hi -> within (dom i) (body i)) ->
  (forall i j k, lo <= i < hi -> lo <= j < hi -> dom i k = true -> dom j k = true -> i = j) ->
  for_ lo hi (fun i y => run (body i) y) y = Some y1 -> any_schedule body lo hi y y1.
Proof. intros T body dom lo hi y y1 Hw Hd Hs owners sched HP. eapply team_ok; eauto. Qed.

(** ** The loop bodies as programs *)
Section K.
  Context {T : Type} (O : ops T).
  Definition row_dom (i k : Z) : bool := k =? i.
  Definition blk_dom (w j k : Z) : bool := (j * w <=? k) && (k <? (j + 1) * w).

  Lemma run_of : forall (r : option T) k y, run (a_of r k) y = match r with Some v => run (k v) y | None => None end.
  Proof. intros [v|] k y; reflexivity. Qed.
  Lemma within_of : forall D (r : option T) k, (forall v, within D (k v)) -> within D (a_of r k).
  Proof. intros D [v|] k H; cbn; auto. Qed.
  Lemma run_fin : forall alpha beta i r y, run (fin_act O alpha beta i r) y = finish_row O alpha beta y i r.
  Proof.
    intros. unfold fin_act, finish_row. destruct (negb (oeqb O beta (o0 O))); cbn.
    - destruct (rd y i); auto. destruct (wr y i _); auto. - destruct (wr y i _); auto.
  Qed.
  Lemma within_fin : forall D alpha beta i r, D i = true -> within D (fin_act O alpha beta i r).
  Proof. intros. unfold fin_act. destruct (negb (oeqb O beta (o0 O))); cbn; auto. Qed.
  Lemma run_load : forall lanes p k (y : list T), run (a_load lanes p k) y = match mapM (fun t => rd y (p + t)) lanes with Some l => run (k l) y | None => None end.
  Proof.
    induction lanes as [|t l IH]; intros p k y; cbn; auto. destruct (rd y (p + t)); auto. rewrite IH. destruct (mapM _ l); auto.
  Qed.
  Lemma within_load : forall D lanes p (k : list T -> act T), (forall t, In t lanes -> D (p + t) = true) -> (forall l, within D (k l)) -> within D (a_load lanes p k).
  Proof.
    induction lanes as [|t l IH]; intros p k H1 H2; cbn; auto. split; [apply H1; now left|]. intros v. apply IH; auto. intros; apply H1; now right.
  Qed.
  Lemma run_store : forall w v p (y : list T), run (a_store w v p) y = vstore w v y p.
  Proof.
    intros. unfold a_store, vstore. rewrite run_all. unfold for_. apply foldM_ext. intros l s _. destruct (rd v l); cbn; auto. destruct (wr s (p + l) t); auto.
  Qed.
  Lemma within_store : forall (D : Z -> bool) w (v : list T) p, (forall l, 0 <= l < w -> D (p + l) = true) -> within D (a_store w v p).
  Proof.
    intros D w v p H. unfold a_store. assert (G : forall l, In l (zrange 0 w) -> D (p + l) = true) by (intros l I; apply H; now apply in_zrange in I). clear H.
    induction (zrange 0 w) as [|l ls IH]; cbn; auto. apply within_seq; [|apply IH; intros; apply G; now right]. destruct (rd v l); cbn; auto. split; auto. apply G. now left.
  Qed.
  Lemma within_block : forall k alpha beta j res, 0 <= k -> within (blk_dom k j) (block_act O k alpha beta (j * k) res).
  Proof.
    intros k alpha beta j [res|] Hk; cbn; auto. assert (D : forall l, 0 <= l < k -> blk_dom k j (j * k + l) = true) by (intros; unfold blk_dom; nia).
    destruct (negb (oeqb O beta (o0 O))); [|apply within_store; auto]. apply within_load; [intros t I; apply D; now apply in_zrange in I|]. intros; apply within_store; auto.
  Qed.
  Lemma run_block : forall k alpha beta joff (res : option (list T)) y, run (block_act O k alpha beta joff res) y =
    match res with None => None | Some res =>
      let res := if negb (oeqb O alpha (o1 O)) then map (fun r => omul O alpha r) res else res in
      match (if negb (oeqb O beta (o0 O)) then match vload k y joff with Some vy => Some (map2 (fun v r => oadd O (omul O beta v) r) vy res) | None => None end else Some res) with
      | Some res => vstore k res y joff | None => None end end.
  Proof.
    intros k alpha beta joff [res|] y; cbn; auto. destruct (negb (oeqb O beta (o0 O))).
    - rewrite run_load. unfold vload. destruct (mapM _ _); auto. apply run_store.
    - apply run_store.
  Qed.
  Lemma row_dom_one : forall i j k, row_dom i k = true -> row_dom j k = true -> i = j.
  Proof. unfold row_dom. lia. Qed.
  Lemma blk_dom_one : forall w i j k, 0 < w -> blk_dom w i k = true -> blk_dom w j k = true -> i = j.
  Proof. unfold blk_dom. intros. nia. Qed.
End K.
