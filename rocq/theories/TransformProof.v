(** Copies made for hinted products hold the hinted matrix. *)
From Coq Require Import ZArith List Bool Lia.
From Coq Require Import ZifyBool.
From Verif Require Import Base BaseFacts Algebra Vec DoidModel DoidSpec DoidProof Csr CsrFacts CountSort Csr2CscModel Csr2CscProof
  MvModel MvSpec HandleModel HandleSpec HandleFacts ExpandModel ExpandSpec ExpandProof.
Import ListNotations.
Open Scope Z_scope.

  Lemma ents_diag_le1 : forall T m n nnz b ptr ind (val : list T) i, csr_wf m n nnz b ptr ind -> diag_unique m b ptr ind -> zlen val = nnz -> 0 <= i < m ->
    (length (ents b ptr ind val i i) <= 1)%nat.
  Proof.
    intros T m n nnz b ptr ind val i W U Lv Hi.
    destruct (ents b ptr ind val i i) as [|a [|a' l]] eqn:E; cbn; try lia. exfalso.
    assert (G : forall lo hi, zn ptr i - b <= lo -> hi <= zn ptr (i + 1) - b -> le 2 (length (flat_map (fun k => if zn ind k =? i + b then olist (rd val k) else []) (zrange lo hi))) -> False).
    { intros lo hi Hlo Hhi HL. destruct (Z_le_gt_dec hi lo) as [C|C]; [rewrite zrange_nil in HL by lia; cbn in HL; lia|].
      replace hi with (lo + Z.of_nat (Z.to_nat (hi - lo))) in * by lia. remember (Z.to_nat (hi - lo)) as q eqn:Eq. clear Eq C. revert lo Hlo Hhi HL.
      induction q as [|q IH]; intros lo Hlo Hhi HL; [rewrite zrange_nil in HL by lia; cbn in HL; lia|].
      rewrite zrange_first in HL by lia. cbn [flat_map] in HL. rewrite app_length in HL.
      destruct (Z.eqb_spec (zn ind lo) (i + b)) as [E1|E1].
      - assert (G2 : flat_map (fun k => if zn ind k =? i + b then olist (rd val k) else []) (zrange (lo + 1) (lo + Z.of_nat (Datatypes.S q))) = []).
        { apply flat_map_nil. intros k Hk. apply in_zrange in Hk. destruct (Z.eqb_spec (zn ind k) (i + b)) as [E2|]; auto. exfalso.
          assert (lo = k); [|lia]. apply (U i lo k); auto; unfold in_row; lia. }
        rewrite G2 in HL. destruct (rd val lo); cbn in HL; lia.
      - apply (IH (lo + 1)); try lia. replace (lo + 1 + Z.of_nat q) with (lo + Z.of_nat (Datatypes.S q)) by lia. exact HL. }
    apply (G (zn ptr i - b) (zn ptr (i + 1) - b)); try lia. unfold ents in E. rewrite E. cbn. lia.
  Qed.

Section P.
  Context {T : Type} (O : ops T) (L : laws O) (re : T -> T).
  Hypothesis Hre : forall v, ocj O v = v -> re v = v.
  Variables (fz : Z -> list Z) (ft : Z -> list T).
  Hypothesis Hfz : forall k, 0 <= k -> zlen (fz k) = k.
  Hypothesis Hft : forall k, 0 <= k -> zlen (ft k) = k.

  Lemma conj_all_ok : forall n v, 0 <= n <= zlen v -> exists v', conj_all O n v = Some v' /\ zlen v' = zlen v /\
    (forall i, 0 <= i < zlen v -> nthZ (o0 O) v' i = if i <? n then ocj O (nthZ (o0 O) v i) else nthZ (o0 O) v i).
  Proof.
    intros n v Hn. unfold conj_all.
    match goal with |- context [for_ 0 n ?F ?s] => destruct (for_inv _ (fun e v' => zlen v' = zlen v /\
      (forall i, 0 <= i < zlen v -> nthZ (o0 O) v' i = if i <? e then ocj O (nthZ (o0 O) v i) else nthZ (o0 O) v i)) 0 n F s) as (v' & E & R1 & R2) end.
    - lia.
    - split; auto. intros i Hi. replace (i <? 0) with false by lia. reflexivity.
    - intros k v' Hk (I1 & I2). rewrite (rd_nthZ _ (o0 O)) by lia. rewrite wr_upd by lia. eexists; split; [reflexivity|].
      rewrite zlen_upd. split; auto. intros i Hi. rewrite nthZ_upd by lia. rewrite !I2 by lia.
      destruct (Z.eqb_spec i k) as [->|].
      + replace (k <? k) with false by lia. replace (k <? k + 1) with true by lia. reflexivity.
      + replace (i <? k + 1) with (i <? k) by lia. reflexivity.
    - eauto.
  Qed.

  Lemma ents_conj : forall m n nnz b ptr ind v v' i j, csr_wf m n nnz b ptr ind -> zlen v = nnz -> zlen v' = nnz ->
    (forall k, 0 <= k < nnz -> nthZ (o0 O) v' k = ocj O (nthZ (o0 O) v k)) -> 0 <= i < m ->
    ents b ptr ind v' i j = map (ocj O) (ents b ptr ind v i j).
  Proof.
    intros m n nnz b ptr ind v v' i j W L1 L2 H Hi. unfold ents.
    assert (B : forall k, In k (zrange (zn ptr i - b) (zn ptr (i + 1) - b)) -> 0 <= k < nnz).
    { intros k Hk. apply in_zrange in Hk. eapply in_row_range; eauto using wf_ptr. }
    induction (zrange (zn ptr i - b) (zn ptr (i + 1) - b)) as [|k l IH]; auto. cbn [flat_map]. rewrite map_app. f_equal.
    - destruct (zn ind k =? j + b); auto. assert (Hk : 0 <= k < nnz) by (apply B; now left).
      rewrite !(rd_nthZ _ (o0 O)) by lia. rewrite H by auto. reflexivity.
    - apply IH. intros; apply B; now right.
  Qed.
  Lemma suml_cj : forall l, suml O (fun v => v) (map (ocj O) l) = ocj O (suml O (fun v => v) l).
  Proof. induction l as [|a l IH]; cbn; [symmetry; apply (cj_0 O L)|]. unfold suml in *. now rewrite IH, (l_cj_add L). Qed.

  Lemma diag_of_mat : forall herm m n nnz b ptr ind (val : list T) i, csr_wf m n nnz b ptr ind -> diag_unique m b ptr ind -> zlen val = nnz -> 0 <= i < m ->
    (herm = true -> ocj O (csr_mat O b ptr ind val i i) = csr_mat O b ptr ind val i i) ->
    diag_of O re herm b ptr ind val i = csr_mat O b ptr ind val i i.
  Proof.
    intros herm m n nnz b ptr ind val i W U Lv Hi Hh. pose proof (ents_diag_le1 T m n nnz b ptr ind val i W U Lv Hi) as Hl.
    unfold diag_of, csr_mat in *. destruct (ents b ptr ind val i i) as [|a [|a' l]]; cbn in Hl |- *; try lia; auto.
    cbn in Hh. pose proof (l_ring L) as RT. rewrite (Radd_comm RT), (Radd_0_l RT) in *.
    destruct herm; auto.
  Qed.

  Lemma wf_len_uniq : forall m nnz ptr ind (val : list T) dg, csr_wf m m nnz 0 ptr ind -> zlen val = nnz ->
    (forall i, 0 <= i < m -> ents 0 ptr ind val i i = [dg i]) -> diag_unique m 0 ptr ind.
  Proof.
    intros m nnz ptr ind val dg W Lv H i k k' Hi K K' E E'.
    pose proof (in_row_range _ _ _ _ (wf_ptr _ _ _ _ _ _ W) i k Hi K). pose proof (in_row_range _ _ _ _ (wf_ptr _ _ _ _ _ _ W) i k' Hi K').
    destruct (Z.lt_trichotomy k k') as [C|[C|C]]; auto; exfalso.
    - pose proof (ents_two T 0 ptr ind val i i k k' K K' C E E' ltac:(lia) ltac:(lia)) as X. rewrite H in X by auto. cbn in X. lia.
    - pose proof (ents_two T 0 ptr ind val i i k' k K' K C E' E ltac:(lia) ltac:(lia)) as X. rewrite H in X by auto. cbn in X. lia.
  Qed.

  Lemma suml_ents : forall b ptr ind (val : list T) i j, csr_mat O b ptr ind val i j = suml O (fun v => v) (ents b ptr ind val i j).
  Proof. reflexivity. Qed.

  (** General transposed copies. *)
  Lemma gen_copy : forall h u t d fm0 A, user_mat h u ->
    t = (if c_doid u =? gt then trans_doid d else d) -> (t = gt \/ t = gh) ->
    A = csr_mat O (c_b u) (c_ptr u) (c_ind u) (c_val u) ->
    exists c, make_copy O re fz ft h u d fm0 = Some (success, Some c) /\ c_doid c = d /\ c_b c = 0 /\ c_opt c = false /\
      c_m c = c_n u /\ c_n c = c_m u /\ csr_wf (c_m c) (c_n c) (c_nnz c) 0 (c_ptr c) (c_ind c) /\ zlen (c_val c) = c_nnz c /\
      c_mdiag c = dg_non_unit /\ c_dval c = None /\
      forall i j, 0 <= i < c_m c -> 0 <= j < c_n c -> csr_mat O 0 (c_ptr c) (c_ind c) (c_val c) i j = doid_sem O t A i j.
  Proof.
    intros h u t d fm0 A (HA & Hn & _ & _ & _) Et Ht EA. destruct HA as (W & U & Lv & Hb).
    pose proof (wf_n _ _ _ _ _ _ W) as Wn. pose proof (wf_nnz _ _ _ _ _ _ W) as Wz.
    unfold make_copy. rewrite <- Et. replace ((t =? gt) || (t =? gh)) with true by lia.
    destruct (csr2csc_ok T (c_m u) (c_n u) (c_nnz u) (c_b u) 0 (c_ptr u) (c_ind u) (c_val u) (fz (c_n u + 1)) (fz (c_nnz u)) (ft (c_nnz u)))
      as (cp & ri & cv & E & W2 & L2 & _ & R); auto; try (rewrite Hfz; lia); try (rewrite Hft; lia).
    rewrite E. destruct (Z.eqb_spec t gh) as [G|G].
    - destruct (conj_all_ok (H_nnz h) cv ltac:(lia)) as (v' & E2 & L3 & R3). rewrite E2. eexists. split; [reflexivity|]. cbn.
      repeat (split; [first [reflexivity | exact W2 | lia]|]). intros i j Hi Hj. subst t A. rewrite G. cbn. unfold mC, mT.
      rewrite !suml_ents. rewrite (ents_conj (c_n u) (c_m u) (c_nnz u) 0 cp ri cv v' i j W2 L2 ltac:(lia)); auto.
      2:{ intros k Hk. rewrite R3 by lia. now replace (k <? H_nnz h) with true by lia. }
      rewrite suml_cj. now rewrite R by lia.
    - eexists. split; [reflexivity|]. cbn. repeat (split; [first [reflexivity | exact W2 | lia]|]). intros i j Hi Hj.
      assert (G2 : t = gt) by tauto. rewrite G2, EA. cbn. unfold mT. rewrite !suml_ents. now rewrite R by lia.
  Qed.

  (** What the expansion holds, by operation id. *)
  Lemma suml_one : forall a, suml O (fun v => v) [a] = a.
  Proof. intros a. cbn. rewrite (Radd_comm (l_ring L)). apply (Radd_0_l (l_ring L)). Qed.
  Definition plain (t : Z) : Z := if (t =? slc) || (t =? suc) || (t =? hlc) || (t =? huc) then conj_doid t else t.

  Lemma sym_sem : forall t fm (A : Z -> Z -> T) i j, is_one_tri t = true -> is_upper fm = negb (lower_doid t) ->
    doid_sem O t A i j = (let v := if i =? j then A i i else if (if is_upper fm then i <? j else j <? i) then A i j
                          else if Z.shiftr t 2 =? 2 then ocj O (A j i) else A j i in
      if (t =? slc) || (t =? suc) || (t =? hlc) || (t =? huc) then ocj O v else v).
  Proof.
    intros t fm A i j Ht Hf. assert (B : 0 <= t < 20) by (unfold is_one_tri in Ht; lia). rewrite Hf. clear Hf.
    dcases B; try discriminate Ht; cbn; unfold mC, mSL, mSU, mHL, mHU;
      destruct (Z.eqb_spec i j) as [<-|Ne]; try (rewrite Z.leb_refl); auto;
      destruct (Z.ltb_spec i j); destruct (Z.ltb_spec j i); destruct (Z.leb_spec i j); destruct (Z.leb_spec j i); auto; lia.
  Qed.

  Lemma sym_copy : forall h u t fm d fm0 A, user_mat h u -> H_m h = H_n h ->
    t = (if c_doid u =? gt then trans_doid d else d) -> fm = (if c_doid u =? gt then flip_fill fm0 else fm0) ->
    is_one_tri t = true -> is_upper fm = negb (lower_doid t) ->
    A = csr_mat O (c_b u) (c_ptr u) (c_ind u) (c_val u) -> (is_herm_doid t -> real_diag O A) ->
    exists c idiag dg, make_copy O re fz ft h u d fm0 = Some (success, Some c) /\ c_doid c = d /\ c_b c = 0 /\ c_opt c = false /\
      c_m c = H_m h /\ c_n c = H_m h /\ csr_wf (c_m c) (c_n c) (c_nnz c) 0 (c_ptr c) (c_ind c) /\ zlen (c_val c) = c_nnz c /\
      c_mdiag c = dg_non_unit /\
      c_idiag c = Some idiag /\ c_dval c = Some dg /\ zlen idiag = c_m c /\ zlen dg = c_m c /\ diag_unique (c_m c) 0 (c_ptr c) (c_ind c) /\
      (forall i, 0 <= i < c_m c -> in_row (c_ptr c) 0 i (zn idiag i) /\ zn (c_ind c) (zn idiag i) = i /\
        nthZ (o0 O) dg i = doid_sem O t A i i) /\
      forall i j, 0 <= i < c_m c -> 0 <= j < c_n c -> csr_mat O 0 (c_ptr c) (c_ind c) (c_val c) i j = doid_sem O t A i j.
  Proof.
    intros h u t fm d fm0 A (HA & Hn & _ & _ & Hd) Hsq Et Ef Ht Hf EA Hh. destruct HA as (W & U & Lv & Hb).
    assert (Mu : c_m u = H_m h /\ c_n u = H_m h) by lia. destruct Mu as (M1 & M2). rewrite M1, M2 in W. rewrite M1 in U.
    unfold make_copy. rewrite <- Et, <- Ef.
    assert (B : 0 <= t < 20) by (unfold is_one_tri in Ht; lia).
    assert (K : (t =? gt) || (t =? gh) = false /\ (Z.shiftr t 2 =? 1) || (Z.shiftr t 2 =? 2) = true /\ ((Z.shiftr t 2 =? 2) = true -> is_herm_doid t)).
    { clear - B Ht. unfold is_herm_doid. dcases B; try discriminate Ht; cbn; repeat split; try discriminate; auto; lia. }
    destruct K as (K1 & K2 & K3). rewrite K1, K2. replace (negb (H_m h =? H_n h)) with false by lia.
    destruct (convert_ok O re fz ft Hfz Hft (Z.shiftr t 2 =? 2) (H_m h) (c_nnz u) (c_b u) (c_ptr u) (c_ind u) (c_val u) fm d W Lv)
      as (c & idiag & dg & E & C1 & C2 & C3 & C4 & C5 & C6 & C7 & C8 & C9 & C10 & C11 & C12 & C13 & C14).
    rewrite E.
    assert (DG : forall i, 0 <= i < H_m h -> diag_of O re (Z.shiftr t 2 =? 2) (c_b u) (c_ptr u) (c_ind u) (c_val u) i = A i i).
    { intros i Hi. rewrite EA. eapply diag_of_mat; eauto. intros Hq. rewrite <- EA. apply (Hh (K3 Hq)). }
    assert (MAT : forall i j, 0 <= i < H_m h -> 0 <= j < H_m h -> csr_mat O 0 (c_ptr c) (c_ind c) (c_val c) i j =
       if i =? j then A i i else if (if is_upper fm then i <? j else j <? i) then A i j
                          else if Z.shiftr t 2 =? 2 then ocj O (A j i) else A j i).
    { intros i j Hi Hj. rewrite suml_ents, C9 by auto. destruct (Z.eqb_spec i j) as [<-|Ne].
      - rewrite suml_one. now apply DG.
      - destruct (if is_upper fm then i <? j else j <? i); [now rewrite EA|].
        destruct (Z.shiftr t 2 =? 2); [rewrite suml_cj, EA; reflexivity|]. rewrite map_id, EA. reflexivity. }
    assert (UQ : diag_unique (H_m h) 0 (c_ptr c) (c_ind c)).
    { eapply (wf_len_uniq (H_m h) (c_nnz c) _ _ (c_val c)); eauto. intros i Hi. rewrite C9 by auto. rewrite Z.eqb_refl. reflexivity. }
    destruct ((t =? slc) || (t =? suc) || (t =? hlc) || (t =? huc)) eqn:Ec.
    - pose proof (wf_nnz _ _ _ _ _ _ C7). pose proof (wf_m _ _ _ _ _ _ C7).
      destruct (conj_all_ok (c_nnz c) (c_val c) ltac:(lia)) as (v' & E2 & L2 & R2). rewrite E2, C11.
      destruct (conj_all_ok (c_m c) dg ltac:(lia)) as (dg' & E3 & L3 & R3). rewrite E3.
      eexists _, idiag, dg'. split; [reflexivity|]. cbn. rewrite C1, C2. repeat (split; [first [assumption | reflexivity | lia]|]). split.
      + intros i Hi. destruct (C14 i Hi) as (D1 & D2 & D3). split; [|split]; auto. rewrite R3 by lia. replace (i <? c_m c) with true by lia.
        rewrite D3, DG by auto. rewrite (sym_sem t fm) by auto. rewrite Ec, Z.eqb_refl. reflexivity.
      + intros i j Hi Hj. rewrite suml_ents, (ents_conj (H_m h) (H_m h) (c_nnz c) 0 (c_ptr c) (c_ind c) (c_val c) v' i j C7 C8 ltac:(lia)); auto.
        2:{ intros k Hk. rewrite R2 by lia. now replace (k <? c_nnz c) with true by lia. }
        rewrite suml_cj, <- suml_ents, MAT by auto. rewrite (sym_sem t fm) by auto. rewrite Ec. reflexivity.
    - eexists c, idiag, dg. split; [reflexivity|]. rewrite C1, C2. repeat (split; [first [assumption | reflexivity | lia]|]). split.
      + intros i Hi. destruct (C14 i Hi) as (D1 & D2 & D3). split; [|split]; auto.
        rewrite D3, DG by auto. rewrite (sym_sem t fm) by auto. rewrite Ec, Z.eqb_refl. reflexivity.
      + intros i j Hi Hj. rewrite MAT by auto. rewrite (sym_sem t fm) by auto. rewrite Ec. reflexivity.
  Qed.

  Lemma user_sem : forall h u d i j, user_mat h u -> 0 <= d < 20 -> (is_herm_doid d -> real_diag O (hnd_mat O u)) ->
    doid_sem O (if c_doid u =? gt then trans_doid d else d) (csr_mat O (c_b u) (c_ptr u) (c_ind u) (c_val u)) i j = doid_sem O d (hnd_mat O u) i j.
  Proof.
    intros h u d i j _ Hd Hh. unfold hnd_mat, stored_as in *. destruct (c_doid u =? gt) eqn:E; auto.
    destruct (trans_ok O L d (mT (csr_mat O (c_b u) (c_ptr u) (c_ind u) (c_val u))) Hd Hh) as (_ & R). apply R.
  Qed.

  Lemma make_copy_ok : forall h u d fm, user_mat h u -> 0 <= d < 20 ->
    (is_one_tri d = true -> is_upper fm = negb (lower_doid d)) -> (is_one_tri d = true -> H_m h = H_n h) ->
    (is_herm_doid d -> real_diag O (hnd_mat O u)) ->
    if copied (c_doid u) d
    then exists c, make_copy O re fz ft h u d fm = Some (success, Some c) /\ copy_ok O (H_m h) (H_n h) (hnd_mat O u) d c /\
           c_opt c = false /\ c_mdiag c = dg_non_unit
    else make_copy O re fz ft h u d fm = Some (success, None).
  Proof.
    intros h u d fm Hu Hd Hf Hsq Hh. pose proof (fun i j => user_sem h u d i j Hu Hd Hh) as SEM. destruct Hu as (HA & Hnz & Hmd & Hdv & Hdd).
    assert (Hu : user_mat h u) by (split; auto). set (t := if c_doid u =? gt then trans_doid d else d) in *.
    unfold copied. destruct (is_one_tri d) eqn:Eo; cbn [orb].
    - assert (X : is_one_tri t = true /\ is_upper (if c_doid u =? gt then flip_fill fm else fm) = negb (lower_doid t) /\ (is_herm_doid t -> is_herm_doid d)).
      { specialize (Hf eq_refl). unfold t, is_herm_doid. clear - Hd Eo Hf. destruct (c_doid u =? gt); [|auto].
        dcases Hd; try discriminate Eo; cbn in Hf |- *; destruct fm; try discriminate Hf; repeat split; auto; lia. }
      destruct X as (X1 & X2 & X3).
      destruct (sym_copy h u t _ d fm _ Hu (Hsq eq_refl) eq_refl eq_refl X1 X2 eq_refl) as (c & idiag & dg & E & R1 & R2 & R3 & R4 & R5 & R6 & R7 & R8 & R9 & R10 & R11 & R12 & R13 & R14 & R15).
      { intros Q. specialize (Hh (X3 Q)). unfold hnd_mat, stored_as in Hh. intros i. specialize (Hh i). destruct (c_doid u =? gt); auto. }
      exists c. split; auto. split; [|auto].
      assert (Sw : swaps d = false) by (clear - Hd Eo; dcases Hd; try discriminate Eo; reflexivity).
      split; auto; rewrite ?Sw; auto; try (rewrite R5; apply Hsq; reflexivity).
      + intros i j Hi Hj. rewrite R15 by auto. apply SEM.
      + intros _. exists idiag, dg. ands; auto. intros i Hi. destruct (R14 i Hi) as (Q1 & Q2 & Q3). split; [|split]; auto. rewrite Q3. apply SEM.
    - destruct (if c_doid u =? gt then (d =? gn) || (d =? gc) else (d =? gt) || (d =? gh)) eqn:Ec.
      + assert (X : (t = gt \/ t = gh) /\ swaps d = negb (c_doid u =? gt)).
        { unfold t, swaps. clear - Hd Ec. destruct (c_doid u =? gt); [|split; [lia | cbn; lia]]. dcases Hd; try discriminate Ec; cbn; auto. }
        destruct X as (X1 & X2).
        destruct (gen_copy h u t d fm _ Hu eq_refl X1 eq_refl) as (c & E & R1 & R2 & R3 & R4 & R5 & R6 & R7 & R8 & R9 & R10).
        exists c. split; auto. split; [|auto].
        split; auto; rewrite ?X2.
        * rewrite R4. destruct Hdd as [(D1 & D2 & D3)|(D1 & D2 & D3)]; rewrite D1; cbn; lia.
        * rewrite R5. destruct Hdd as [(D1 & D2 & D3)|(D1 & D2 & D3)]; rewrite D1; cbn; lia.
        * intros i j Hi Hj. rewrite R10 by auto. apply SEM.
        * intros; congruence.
      + unfold make_copy. fold t. assert (X : (t =? gt) || (t =? gh) = false /\ (Z.shiftr t 2 =? 1) || (Z.shiftr t 2 =? 2) = false).
        { unfold t. clear - Hd Eo Ec. destruct (c_doid u =? gt); dcases Hd; try discriminate Eo; try discriminate Ec; cbn; auto. }
        destruct X as (X1 & X2). rewrite X1, X2. reflexivity.
  Qed.

  (** The walk over the hints. *)
  Definition hs_pre (h : hnd T) (u : cmat T) (e : mhint) : Prop :=
    hint_ok e /\ (is_one_tri (mh_doid e) = true -> H_m h = H_n h) /\ (is_herm_doid (mh_doid e) -> real_diag O (hnd_mat O u)).

  Lemma has_doid_app : forall l l' d, @has_doid T (l ++ l') d = has_doid l d || has_doid l' d.
  Proof. induction l as [|[c|] l IH]; intros l' d; cbn; auto. rewrite IH. apply orb_assoc. Qed.

  Lemma loop_ok : forall hs done h u, user_mat h u -> Forall (hs_pre h u) hs ->
    exists copies done', transform_loop O re fz ft hs done h u = Some (success, set_mats h (H_mats h ++ map Some copies), done ++ done') /\
      Forall (fun c => exists e, In e hs /\ copied (c_doid u) (mh_doid e) = true /\ copy_ok O (H_m h) (H_n h) (hnd_mat O u) (mh_doid e) c /\
                          c_opt c = false /\ c_mdiag c = dg_non_unit) copies /\
      map mh_doid done' = map mh_doid hs /\ map mh_fill done' = map mh_fill hs /\
      (forall e, In e hs -> mh_done e = false -> copied (c_doid u) (mh_doid e) = true -> has_doid (H_mats h ++ map Some copies) (mh_doid e) = true).
  Proof.
    induction hs as [|e hs IH]; intros done h u Hu F.
    - exists [], []. cbn. rewrite !app_nil_r. destruct h; cbn. ands; auto.
    - apply Forall_cons_iff in F. destruct F as (((Fd & Ff) & Fs & Fh) & F). cbn [transform_loop].
      destruct (mh_done e || has_doid (H_mats h) (mh_doid e)) eqn:Es.
      { destruct (IH (done ++ [e]) h u Hu F) as (cs & dn & E & R1 & R2 & R3 & R4). exists cs, (e :: dn). rewrite E, <- app_assoc. cbn.
        ands; auto; try congruence.
        - eapply Forall_impl; [|exact R1]. intros c (e' & I & Q). exists e'. auto.
        - intros e' [<-|I] Hd Hc; auto. rewrite has_doid_app. rewrite Hd in Es. cbn in Es. rewrite Es. reflexivity. }
      pose proof (make_copy_ok h u (mh_doid e) (mh_fill e) Hu Fd Ff Fs Fh) as MC.
      destruct (copied (c_doid u) (mh_doid e)) eqn:Ec.
      + destruct MC as (c & E & R & Ho & Hm). rewrite E.
        destruct (IH (done ++ [mkHint (mh_doid e) (mh_fill e) true]) (set_mats h (H_mats h ++ [Some c])) u) as (cs & dn & E2 & R1 & R2 & R3 & R4); auto.
        exists (c :: cs), (mkHint (mh_doid e) (mh_fill e) true :: dn). rewrite E2, <- app_assoc. cbn [H_mats set_mats]. cbn in R4 |- *.
        replace ((H_mats h ++ [Some c]) ++ map Some cs) with (H_mats h ++ Some c :: map Some cs) in * by (rewrite <- app_assoc; reflexivity).
        split; [destruct h; reflexivity|]. ands; try congruence.
        * constructor; [exists e; ands; auto|]. eapply Forall_impl; [|exact R1]. intros c' (e' & I & Q). exists e'. auto.
        * intros e' [<-|I] Hd Hc; auto. rewrite has_doid_app. cbn. rewrite (cp_doid _ _ _ _ _ _ R), Z.eqb_refl. cbn. apply orb_true_r.
      + rewrite MC. destruct (IH (done ++ [e]) h u Hu F) as (cs & dn & E & R1 & R2 & R3 & R4). exists cs, (e :: dn). rewrite E, <- app_assoc. cbn.
        ands; auto; try congruence.
        * eapply Forall_impl; [|exact R1]. intros c (e' & I & Q). exists e'. auto.
        * intros e' [<-|I] Hd Hc; auto. congruence.
  Qed.
End P.

Section Q.
  Context {T : Type} (O : ops T) (L : laws O) (re : T -> T).
  Hypothesis Hre : forall v, ocj O v = v -> re v = v.
  Variables (fz : Z -> list Z) (ft : Z -> list T).
  Hypothesis Hfz : forall k, 0 <= k -> zlen (fz k) = k.
  Hypothesis Hft : forall k, 0 <= k -> zlen (ft k) = k.

  Lemma expand_mat : forall herm m nnz b ptr ind (val : list T) fm doid A,
    csr_wf m m nnz b ptr ind -> diag_unique m b ptr ind -> zlen val = nnz -> A = csr_mat O b ptr ind val ->
    exists c, convert_mat_to_general O re fz ft herm m ptr ind val fm b doid = Some c /\
      c_m c = m /\ c_n c = m /\ c_b c = 0 /\ csr_wf m m (c_nnz c) 0 (c_ptr c) (c_ind c) /\ zlen (c_val c) = c_nnz c /\
      forall i j, 0 <= i < m -> 0 <= j < m -> csr_mat O 0 (c_ptr c) (c_ind c) (c_val c) i j =
        if i =? j then (if herm then re (A i i) else A i i)
        else if (if is_upper fm then i <? j else j <? i) then A i j
        else if herm then ocj O (A j i) else A j i.
  Proof.
    intros herm m nnz b ptr ind val fm doid A W U Lv EA.
    destruct (convert_ok O re fz ft Hfz Hft herm m nnz b ptr ind val fm doid W Lv)
      as (c & idiag & dg & E & C1 & C2 & C3 & C4 & C5 & C6 & C7 & C8 & C9 & _).
    exists c. split; auto. ands; auto. intros i j Hi Hj. rewrite suml_ents, C9 by auto. destruct (Z.eqb_spec i j) as [<-|Ne].
    - rewrite (suml_one O L). pose proof (ents_diag_le1 T m m nnz b ptr ind val i W U Lv Hi) as Hl.
      rewrite EA, suml_ents. unfold diag_of. destruct (ents b ptr ind val i i) as [|a [|a' l]]; cbn [length] in Hl; try lia.
      + cbn. destruct herm; auto. symmetry. apply Hre. apply (cj_0 O L).
      + rewrite (suml_one O L). cbn. destruct herm; auto.
    - destruct (if is_upper fm then i <? j else j <? i); [now rewrite EA|].
      destruct herm; [rewrite (suml_cj O L), EA; reflexivity|]. rewrite map_id, EA. reflexivity.
  Qed.

  Lemma transform_ok : forall h u rest hs, user_mat h u -> H_mats h = Some u :: rest ->
    (forall e, In e hs -> hint_ok e /\ (is_one_tri (mh_doid e) = true -> H_m h = H_n h) /\
       (is_herm_doid (mh_doid e) -> real_diag O (hnd_mat O u))) ->
    exists copies hs', matrix_transform O re fz ft (Some h) hs = Some (success, Some (set_mats h (H_mats h ++ map Some copies)), hs') /\
      (forall c, In c copies -> exists e, In e hs /\ copied (c_doid u) (mh_doid e) = true /\
         copy_ok O (H_m h) (H_n h) (hnd_mat O u) (mh_doid e) c /\ c_opt c = false /\ c_mdiag c = dg_non_unit) /\
      map mh_doid hs' = map mh_doid hs /\ map mh_fill hs' = map mh_fill hs /\
      (forall e, In e hs -> mh_done e = false -> copied (c_doid u) (mh_doid e) = true ->
         exists c, In (Some c) (H_mats h ++ map Some copies) /\ c_doid c = mh_doid e).
  Proof.
    intros h u rest hs Hu Hm Hp. destruct (loop_ok O L re Hre fz ft Hfz Hft hs [] h u Hu) as (cs & dn & E & R1 & R2 & R3 & R4).
    { apply Forall_forall. intros e I. destruct (Hp e I) as (P1 & P2 & P3). split; auto. }
    exists cs, dn. unfold matrix_transform. rewrite Hm at 1. rewrite E. ands; auto.
    - intros c I. rewrite Forall_forall in R1. apply R1; auto.
    - intros e I D C. specialize (R4 e I D C). clear - R4. induction (H_mats h ++ map Some cs) as [|[c|] l IH]; cbn in R4; try discriminate.
      + apply orb_prop in R4. destruct R4 as [Q|Q]; [exists c; split; [now left | lia]|]. destruct (IH Q) as (c' & I' & Q'). exists c'. split; [now right|auto].
      + destruct (IH R4) as (c' & I' & Q'). exists c'. split; [now right|auto].
  Qed.

  Lemma transform_rect : forall h u rest e hs, user_mat h u -> H_mats h = Some u :: rest -> H_m h <> H_n h ->
    0 <= mh_doid e < 20 -> is_one_tri (mh_doid e) = true -> mh_done e = false -> (forall c, In (Some c) (H_mats h) -> c_doid c <> mh_doid e) ->
    matrix_transform O re fz ft (Some h) (e :: hs) = Some (invalid_size, Some h, e :: hs).
  Proof.
    intros h u rest e hs Hu Hm Hn He Ho Hd Hc. unfold matrix_transform. rewrite Hm at 1. cbn [transform_loop]. rewrite Hd. cbn [orb].
    assert (X : has_doid (H_mats h) (mh_doid e) = false).
    { clear - Hc. induction (H_mats h) as [|[c|] l IH]; auto.
      - cbn. rewrite IH by (intros c' I; apply Hc; now right). pose proof (Hc c (or_introl eq_refl)). lia.
      - cbn. apply IH. intros c' I; apply Hc; now right. }
    rewrite X. assert (Y : make_copy O re fz ft h u (mh_doid e) (mh_fill e) = Some (invalid_size, None)); [|rewrite Y; reflexivity].
    unfold make_copy. set (t := if c_doid u =? gt then trans_doid (mh_doid e) else mh_doid e).
    assert (K : (t =? gt) || (t =? gh) = false /\ (Z.shiftr t 2 =? 1) || (Z.shiftr t 2 =? 2) = true).
    { unfold t. clear - He Ho. generalize dependent (mh_doid e). intros d He Ho. destruct (c_doid u =? gt); dcases He; try discriminate Ho; cbn; auto. }
    destruct K as (K1 & K2). rewrite K1, K2. now replace (negb (H_m h =? H_n h)) with true by lia.
  Qed.
End Q.
