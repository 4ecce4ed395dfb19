(** The blocks of a group of rows as a pure function of the rows, and the masks. *)
From Coq Require Import ZArith List Bool Lia ZifyBool Sorted.
From Verif Require Import Base BaseFacts Algebra Vec BlkModel.
Import ListNotations.
Open Scope Z_scope.

Section P.
  Context {T : Type}.
  Definition row := list (Z * T).
  Definition asc (r : row) : Prop := StronglySorted (fun a b => fst a < fst b) r.

  Fixpoint seg (c : Z) (r : row) : row :=
    match r with e :: r' => if fst e <? c + blk_width then e :: seg c r' else [] | [] => [] end.
  Fixpoint after (c : Z) (r : row) : row :=
    match r with e :: r' => if fst e <? c + blk_width then after c r' else r | [] => [] end.
  Definition isnil (r : row) : bool := match r with [] => true | _ => false end.
  Definition hd_min (c : Z) (r : row) : Z := match r with [] => c | e :: _ => Z.min c (fst e) end.
  Definition hmin (rows : list row) : Z := fold_left hd_min rows int_max.
  Definition block : Type := (Z * list row)%type.
  Fixpoint blocks (fuel : nat) (rows : list row) : list block :=
    match fuel with
    | O => []
    | S f => if forallb isnil rows then []
             else (hmin rows, map (seg (hmin rows)) rows) :: blocks f (map (after (hmin rows)) rows)
    end.

  Lemma seg_after : forall c r, r = seg c r ++ after c r.
  Proof. induction r as [|e r IH]; cbn; [reflexivity|]. destruct (fst e <? c + blk_width); cbn; [f_equal; exact IH|reflexivity]. Qed.

  Lemma seg_lt : forall c r e, In e (seg c r) -> fst e < c + blk_width.
  Proof. induction r as [|a r IH]; cbn; intros e H; [tauto|]. destruct (fst a <? c + blk_width) eqn:E; [|destruct H]. destruct H as [<-|H]; [lia|auto]. Qed.

  Lemma seg_in : forall c r e, In e (seg c r) -> In e r.
  Proof. intros c r e H. rewrite (seg_after c r). apply in_or_app. auto. Qed.
  Lemma after_in : forall c r e, In e (after c r) -> In e r.
  Proof. intros c r e H. rewrite (seg_after c r). apply in_or_app. auto. Qed.

  Lemma asc_app : forall a b : row, asc (a ++ b) -> asc a /\ asc b /\ (forall x y, In x a -> In y b -> fst x < fst y).
  Proof.
    induction a as [|e a IH]; intros b H; cbn in *.
    - split; [constructor|]. split; [exact H|]. tauto.
    - apply StronglySorted_inv in H. destruct H as [H F]. destruct (IH _ H) as (A & B & C). rewrite Forall_forall in F. split; [|split; auto].
      + constructor; auto. apply Forall_forall. intros x Hx. apply F, in_or_app; auto.
      + intros x y [<-|Hx] Hy; auto. apply F, in_or_app; auto.
  Qed.

  Lemma asc_seg : forall c r, asc r -> asc (seg c r).
  Proof. intros c r H. rewrite (seg_after c r) in H. apply (asc_app _ _ H). Qed.
  Lemma asc_after : forall c r, asc r -> asc (after c r).
  Proof. intros c r H. rewrite (seg_after c r) in H. apply (asc_app _ _ H). Qed.

  Lemma asc_head : forall e r, asc (e :: r) -> forall x, In x (e :: r) -> fst e <= fst x.
  Proof. intros e r H x [<-|Hx]; [lia|]. apply StronglySorted_inv in H. destruct H as [_ F]. rewrite Forall_forall in F. specialize (F _ Hx). lia. Qed.

  (** ** The smallest head *)
  Lemma hmin_from_le : forall rows c0, fold_left hd_min rows c0 <= c0.
  Proof. induction rows as [|r rows IH]; intros; cbn; [lia|]. eapply Z.le_trans; [apply IH|]. destruct r; cbn; lia. Qed.

  Lemma hmin_from_le_head : forall rows c0 e r, In (e :: r) rows -> fold_left hd_min rows c0 <= fst e.
  Proof.
    induction rows as [|a rows IH]; intros c0 e r H; [destruct H|]. cbn. destruct H as [->|H]; [|eauto].
    eapply Z.le_trans; [apply hmin_from_le|]. cbn. lia.
  Qed.

  Lemma hmin_from_att : forall rows c0, fold_left hd_min rows c0 = c0 \/ exists e r, In (e :: r) rows /\ fold_left hd_min rows c0 = fst e.
  Proof.
    induction rows as [|a rows IH]; intros c0; [left; reflexivity|]. cbn.
    destruct (IH (hd_min c0 a)) as [-> | (e & r & Hi & E)].
    - destruct a as [|e a]; cbn; [auto|]. destruct (Z.min_spec c0 (fst e)) as [[? ->]|[? ->]]; [auto|]. right. exists e, a. auto.
    - right. exists e, r. auto.
  Qed.

  Definition in_cols (n : Z) (rows : list row) : Prop := forall r e, In r rows -> In e r -> 0 <= fst e < n.

  Lemma hmin_att : forall n rows, n <= int_max -> in_cols n rows -> forallb isnil rows = false ->
    exists e r, In (e :: r) rows /\ hmin rows = fst e.
  Proof.
    intros n rows Hn Hc Hf. destruct (hmin_from_att rows int_max) as [E | H]; [|exact H]. exfalso.
    assert (exists e r, In (e :: r) rows) as (e & r & Hi).
    { clear - Hf. induction rows as [|a rows IH]; [discriminate Hf|]. cbn in Hf. destruct a as [|e a].
      - destruct (IH Hf) as (e & r & H). exists e, r. right; auto.
      - exists e, a. left; auto. }
    pose proof (hmin_from_le_head rows int_max _ _ Hi). pose proof (Hc _ e Hi (or_introl eq_refl)). lia.
  Qed.

  (** ** Facts about the blocks *)
  Fixpoint total (rows : list row) : nat := match rows with [] => 0%nat | r :: rs => (length r + total rs)%nat end.

  Lemma total_after_le : forall c rows, (total (map (after c) rows) <= total rows)%nat.
  Proof.
    intros c rows. induction rows as [|r rows IH]; cbn; [lia|]. pose proof (f_equal (@length _) (seg_after c r)) as E. rewrite app_length in E. lia.
  Qed.

  Lemma total_after_lt : forall c rows e r, In (e :: r) rows -> c = fst e -> (total (map (after c) rows) < total rows)%nat.
  Proof.
    intros c rows e r. induction rows as [|a rows IH]; intros H E; [destruct H|]. cbn [map total].
    pose proof (f_equal (@length _) (seg_after c a)) as L. rewrite app_length in L. destruct H as [->|H].
    - pose proof (total_after_le c rows). cbn [seg] in L. replace (fst e <? c + blk_width) with true in L by (unfold blk_width; lia). cbn [length] in *. lia.
    - specialize (IH H E). lia.
  Qed.

  Lemma in_cols_after : forall n c rows, in_cols n rows -> in_cols n (map (after c) rows).
  Proof. intros n c rows H r e Hr He. apply in_map_iff in Hr. destruct Hr as (r0 & <- & H0). eapply H; [exact H0|]. eapply after_in; eauto. Qed.

  Definition all_asc (rows : list row) : Prop := forall r, In r rows -> asc r.
  Lemma all_asc_after : forall c rows, all_asc rows -> all_asc (map (after c) rows).
  Proof. intros c rows H r Hr. apply in_map_iff in Hr. destruct Hr as (r0 & <- & H0). apply asc_after. auto. Qed.

  (** c is not above any entry *)
  Lemma hmin_below : forall rows r e, all_asc rows -> In r rows -> In e r -> hmin rows <= fst e.
  Proof.
    intros rows r e Ha Hr He. destruct r as [|h r]; [destruct He|]. pose proof (hmin_from_le_head rows int_max _ _ Hr).
    pose proof (asc_head _ _ (Ha _ Hr) _ He). unfold hmin. lia.
  Qed.

  (** What every block satisfies: the rows of the block ascend and stay inside the eight
      columns that start at its first one. *)
  Definition good (n : Z) (nb : nat) (B : block) : Prop :=
    0 <= fst B < n /\ length (snd B) = nb /\
    forall sg, In sg (snd B) -> asc sg /\ forall e, In e sg -> fst B <= fst e < fst B + blk_width /\ fst e < n.

  Lemma blocks_good : forall n fuel rows, n <= int_max -> in_cols n rows -> all_asc rows ->
    Forall (good n (length rows)) (blocks fuel rows).
  Proof.
    intros n fuel. induction fuel as [|f IH]; intros rows Hn Hc Ha; cbn [blocks]; [constructor|].
    destruct (forallb isnil rows) eqn:E; constructor.
    - destruct (hmin_att n rows Hn Hc E) as (e & r & Hi & Em). split; [|split].
      + cbn. rewrite Em. eapply Hc; [exact Hi|left; auto].
      + cbn. apply map_length.
      + cbn. intros sg Hs. apply in_map_iff in Hs. destruct Hs as (r0 & <- & H0). split; [apply asc_seg; auto|].
        intros e0 He. pose proof (seg_lt _ _ _ He). apply seg_in in He. pose proof (hmin_below rows _ _ Ha H0 He). pose proof (Hc _ _ H0 He). lia.
    - specialize (IH (map (after (hmin rows)) rows)). rewrite map_length in IH. apply IH; auto using in_cols_after, all_asc_after.
  Qed.

  (** Nothing is lost: the segments of a row over all blocks make up the row. *)
  Definition brow (s : nat) (B : block) : row := nth s (snd B) [].
  Lemma blocks_rows : forall n fuel rows s, n <= int_max -> in_cols n rows -> (total rows < fuel)%nat ->
    flat_map (brow s) (blocks fuel rows) = nth s rows [].
  Proof.
    intros n fuel. induction fuel as [|f IH]; intros rows s Hn Hc Hf; [lia|]. cbn [blocks].
    destruct (forallb isnil rows) eqn:E; cbn [flat_map].
    - clear - E. revert s. induction rows as [|r rows IH]; intros s; [destruct s; reflexivity|]. cbn in E. apply andb_true_iff in E. destruct E as [E1 E2].
      destruct s; cbn; [destruct r; [reflexivity|discriminate]|auto].
    - destruct (hmin_att n rows Hn Hc E) as (e & r & Hi & Em). pose proof (total_after_lt _ _ _ _ Hi Em).
      rewrite IH by (auto using in_cols_after; lia). unfold brow. cbn [snd].
      change (@nil (Z * T)) with (seg (hmin rows) []) at 1. rewrite map_nth. change (@nil (Z * T)) with (after (hmin rows) []) at 2. rewrite map_nth.
      symmetry. apply seg_after.
  Qed.

  (** Every block takes at least one entry. *)
  Lemma blocks_le : forall n fuel rows, n <= int_max -> in_cols n rows ->
    (length (blocks fuel rows) <= total rows)%nat.
  Proof.
    intros n fuel. induction fuel as [|f IH]; intros rows Hn Hc; cbn [blocks]; [cbn; lia|].
    destruct (forallb isnil rows) eqn:E; cbn [length]; [lia|].
    destruct (hmin_att n rows Hn Hc E) as (e & r & Hi & Em). pose proof (total_after_lt _ _ _ _ Hi Em).
    specialize (IH _ Hn (in_cols_after _ (hmin rows) _ Hc)). lia.
  Qed.

  (** ** Masks *)
  Definition maskof (c : Z) (sg : row) : Z := fold_left (fun a e => Z.lor a (Z.shiftl 1 (fst e - c))) sg 0.

  Lemma maskof_snoc : forall c sg e, maskof c (sg ++ [e]) = Z.lor (maskof c sg) (Z.shiftl 1 (fst e - c)).
  Proof. intros. unfold maskof. rewrite fold_left_app. reflexivity. Qed.

  Lemma lor_byte : forall a b, 0 <= a < 256 -> 0 <= b < 256 -> 0 <= Z.lor a b < 256.
  Proof.
    intros a b Ha Hb. split; [apply Z.lor_nonneg; lia|].
    destruct (Z.eq_dec (Z.lor a b) 0); [lia|]. apply (Z.log2_lt_cancel _ 256).
    rewrite Z.log2_lor by lia. change (Z.log2 256) with 8.
    assert (forall z, 0 <= z < 256 -> Z.log2 z < 8).
    { intros z Hz. destruct (Z.eq_dec z 0) as [->|]; [cbn; lia|]. apply Z.log2_lt_pow2; [lia|]. exact (proj2 Hz). }
    pose proof (H _ Ha). pose proof (H _ Hb). lia.
  Qed.

  Lemma bit_byte : forall d, 0 <= d < 8 -> 0 <= Z.shiftl 1 d < 256.
  Proof.
    intros d H. assert (d = 0 \/ d = 1 \/ d = 2 \/ d = 3 \/ d = 4 \/ d = 5 \/ d = 6 \/ d = 7) as C by lia.
    repeat (destruct C as [->|C]; [cbn; lia|]). subst. cbn. lia.
  Qed.

  Lemma maskof_byte : forall c sg, (forall e, In e sg -> c <= fst e < c + 8) -> 0 <= maskof c sg < 256.
  Proof.
    intros c sg. induction sg as [|e sg IH] using rev_ind; intros H; [cbn; lia|]. rewrite maskof_snoc. apply lor_byte.
    - apply IH. intros; apply H, in_or_app; auto.
    - apply bit_byte. assert (In e (sg ++ [e])) as Hi by (apply in_or_app; right; left; auto). specialize (H _ Hi). lia.
  Qed.

  Lemma maskof_bit : forall c sg l, 0 <= l -> (forall e, In e sg -> c <= fst e) ->
    Z.testbit (maskof c sg) l = existsb (fun e => fst e =? c + l) sg.
  Proof.
    intros c sg l Hl. induction sg as [|e sg IH] using rev_ind; intros H; [cbn; apply Z.bits_0|].
    rewrite maskof_snoc, Z.lor_spec, existsb_app, IH by (intros; apply H, in_or_app; auto). cbn [existsb]. rewrite orb_false_r. f_equal.
    assert (c <= fst e) by (apply H, in_or_app; right; left; auto).
    rewrite Z.shiftl_1_l, Z.pow2_bits_eqb by lia. lia.
  Qed.

  (** the shifted mask of the last columns *)
  Lemma maskof_shift : forall c k sg, (forall e, In e sg -> c <= fst e) -> 0 <= k ->
    Z.shiftl (maskof c sg) k = maskof (c - k) sg.
  Proof.
    intros c k sg. induction sg as [|e sg IH] using rev_ind; intros H Hk; [cbn; apply Z.shiftl_0_l|].
    rewrite !maskof_snoc, Z.shiftl_lor, IH by (auto; intros; apply H, in_or_app; auto). f_equal.
    assert (c <= fst e) by (apply H, in_or_app; right; left; auto).
    rewrite Z.shiftl_shiftl by lia. f_equal. lia.
  Qed.
End P.
