(** The shared analysis keeps the user's data and yields an optimised matrix with
    the same entries. *)
From Coq Require Import ZArith List Bool Lia ZifyBool Permutation.
From Verif Require Import Base BaseFacts Algebra Vec DoidModel MvModel MvSpec Csr CsrFacts CheckModel CheckSpec CheckProof
  IndicesProof CountSort Csr2CscProof SortModel SortSpec SortProof FillProof CsrmvModel HandleModel HandleSpec.
Import ListNotations.
Open Scope Z_scope.

Lemma mat_check_success : forall m n nnz b ptr ind, csr_wf m n nnz b ptr ind -> diag_unique m b ptr ind ->
  exists so fd, mat_check m n nnz (Some ptr) (Some ind) false shape_general b false = Some (success, Some (so, fd)) /\
    sort_says so m b ptr ind /\ (fd = true <-> full_diag m n b ptr ind).
Proof.
  intros m n nnz b ptr ind W U. pose proof W as [Hm Hn Hz [L1 L2] _ _].
  assert (SOK : structure_ok shape_general m n nnz b ptr ind) by (apply structure_ok_wf; auto).
  destruct (mat_check_spec shape_general m n nnz b ptr ind) as (st & res & E & C); auto.
  rewrite E. destruct SOK as (SP & SB & SD).
  destruct C as [(-> & _ & _ & so & fd & -> & S1 & S2)|[(_ & C)|[(_ & _ & C)|[(_ & _ & _ & k & C & _)|(_ & _ & _ & k & C & _)]]]].
  - eauto 6.
  - exfalso; apply C; auto.
  - contradiction.
  - exfalso. eapply SB; eauto.
  - exfalso. eapply SD; eauto.
Qed.

Lemma nthZ_mapzr : forall A (d : A) (f : Z -> A) hi k, 0 <= k < hi -> nthZ d (map f (zrange 0 hi)) k = f k.
Proof.
  intros A d f hi k Hk. rewrite (nthZ_map _ _ f 0 d) by (rewrite zlen_zrange; lia).
  rewrite nthZ_zrange by lia. reflexivity.
Qed.

Lemma distinct_unique : forall m b ptr ind, rows_distinct m b ptr ind -> diag_unique m b ptr ind.
Proof.
  intros m b ptr ind H i k k' Hi Hk Hk' E E'. destruct (Z.eq_dec k k'); auto.
  exfalso. apply (H i k k'); auto; lia.
Qed.

(** Re-basing: copies of the arrays with the base subtracted. *)
Section B.
  Context {T : Type}.
  Variables (m n nnz b : Z) (ptr ind : list Z) (val : list T).
  Hypothesis W : csr_wf m n nnz b ptr ind.
  Definition ptr0 := map (fun i => zn ptr i - b) (zrange 0 (m + 1)).
  Definition ind0 := map (fun i => zn ind i - b) (zrange 0 nnz).
  Lemma zn_ptr0 : forall i, 0 <= i <= m -> zn ptr0 i = zn ptr i - b.
  Proof. intros i Hi. unfold ptr0. rewrite nthZ_mapzr by lia. reflexivity. Qed.
  Lemma zn_ind0 : forall k, 0 <= k < nnz -> zn ind0 k = zn ind k - b.
  Proof. intros k Hk. unfold ind0. rewrite nthZ_mapzr by lia. reflexivity. Qed.
  Lemma in_row0 : forall i k, 0 <= i < m -> (in_row ptr0 0 i k <-> in_row ptr b i k).
  Proof. intros i k Hi. unfold in_row. rewrite !zn_ptr0 by lia. lia. Qed.
  Lemma in_row0_rng : forall i k, 0 <= i < m -> in_row ptr b i k -> zn ind0 k = zn ind k - b.
  Proof. intros i k Hi Hk. apply zn_ind0. eapply in_row_range; eauto. apply W. Qed.
  Lemma wf0 : csr_wf m n nnz 0 ptr0 ind0.
  Proof.
    destruct W as [Hm Hn Hz [L1 L2] (P0 & Pm & PM) HI]. constructor; auto.
    - split; [unfold ptr0|unfold ind0]; rewrite zlen_map, zlen_zrange; lia.
    - repeat split; intros; rewrite !zn_ptr0 by lia; try lia.
    - intros k Hk. rewrite zn_ind0 by lia. specialize (HI k Hk). lia.
  Qed.
  Lemma unique0 : diag_unique m b ptr ind -> diag_unique m 0 ptr0 ind0.
  Proof.
    intros U i k k' Hi Hk Hk' E E'. apply in_row0 in Hk, Hk'; auto.
    rewrite (in_row0_rng i) in E by auto. rewrite (in_row0_rng i) in E' by auto. apply (U i k k'); auto; lia.
  Qed.
  Lemma grouped0 : rows_grouped m b ptr ind -> rows_grouped m 0 ptr0 ind0.
  Proof.
    intros U i k k' Hi Hk Hk' Hlt. apply in_row0 in Hk, Hk'; auto.
    rewrite !(in_row0_rng i) by auto. specialize (U i k k' Hi Hk Hk' Hlt). lia.
  Qed.
  Lemma full0 : full_diag m n b ptr ind <-> full_diag m n 0 ptr0 ind0.
  Proof.
    split; intros F i Hi Hin; destruct (F i Hi Hin) as (k & Hk & E); exists k.
    - split; [apply in_row0; auto|]. rewrite (in_row0_rng i) by auto. lia.
    - apply in_row0 in Hk; auto. split; auto. rewrite (in_row0_rng i) in E by auto. lia.
  Qed.
  Lemma ents0 : forall i j, 0 <= i < m -> ents 0 ptr0 ind0 val i j = ents b ptr ind val i j.
  Proof.
    intros i j Hi. unfold ents. rewrite !zn_ptr0 by lia. rewrite !Z.sub_0_r.
    apply flat_map_ext_in. intros k Hk. apply in_zrange in Hk.
    rewrite (in_row0_rng i) by (auto; unfold in_row; lia).
    replace (zn ind k - b =? j + 0) with (zn ind k =? j + b) by lia. reflexivity.
  Qed.
End B.

Section P.
  Context {T : Type} (O : ops T).
  Variable srt : (Z -> Z -> bool) -> list Z -> list Z.
  Variables (fz : Z -> list Z) (ft : Z -> list T).
  Hypothesis Hsrt : sort_contract srt.
  Hypothesis Hfz : forall z, 0 <= z -> zlen (fz z) = z.
  Hypothesis Hft : forall z, 0 <= z -> zlen (ft z) = z.

  Lemma build_copy_ok : forall (u : cmat T) sorted fulldiag, arrays_ok u -> sortable u ->
    (sorted = true <-> rows_grouped (c_m u) (c_b u) (c_ptr u) (c_ind u)) ->
    (fulldiag = true <-> rows_grouped (c_m u) (c_b u) (c_ptr u) (c_ind u) /\ full_diag (c_m u) (c_n u) (c_b u) (c_ptr u) (c_ind u)) ->
    exists c fd, build_copy O srt fz ft u (c_nnz u) sorted fulldiag = Some (success, Some (c, fd)) /\
      (fd = true <-> full_diag (c_m u) (c_n u) (c_b u) (c_ptr u) (c_ind u)) /\
      c_opt c = true /\ opt_ready c /\ arrays_ok c /\ c_b c = 0 /\ same_entries (o0 O) u c /\
      c_mdiag c = dg_non_unit /\ c_dval c = None.
  Proof.
    intros u sorted fulldiag (W & U & Lv & Hb) Hs H1 H2.
    set (m := c_m u) in *. set (n := c_n u) in *. set (nnz := c_nnz u) in *. set (b := c_b u) in *.
    set (ptr := c_ptr u) in *. set (ind := c_ind u) in *. set (val := c_val u) in *.
    pose proof W as [Hm Hn Hz [L1 L2] _ _].
    unfold build_copy. fold m n nnz b ptr ind val.
    rewrite (mapM_map _ _ _ (fun i => zn ptr i - b)).
    2:{ intros k Hk. apply in_zrange in Hk. rewrite (rd_nthZ _ 0) by lia. reflexivity. }
    rewrite (mapM_map _ _ _ (fun i => zn ind i - b)).
    2:{ intros k Hk. apply in_zrange in Hk. rewrite (rd_nthZ _ 0) by lia. reflexivity. }
    rewrite (mapM_map _ _ _ (nthZ (o0 O) val)).
    2:{ intros k Hk. apply in_zrange in Hk. rewrite (rd_nthZ _ (o0 O)) by lia. reflexivity. }
    replace (map (nthZ (o0 O) val) (zrange 0 nnz)) with val by (rewrite <- Lv; symmetry; apply map_nthZ_zrange).
    fold (ptr0 m b ptr). fold (ind0 nnz b ind).
    pose proof (wf0 m n nnz b ptr ind W) as W0. pose proof W0 as [_ _ _ [L1' L2'] _ _].
    (* after the optional sort: zero-based, grouped, same entries *)
    match goal with |- context [if negb sorted then ?X else ?Y] =>
      assert (MID : exists ind1 val1 fd, (if negb sorted then X else Y) = Some (success, ind1, val1, fd) /\
        csr_wf m n nnz 0 (ptr0 m b ptr) ind1 /\ zlen val1 = nnz /\
        rows_grouped m 0 (ptr0 m b ptr) ind1 /\ diag_unique m 0 (ptr0 m b ptr) ind1 /\
        (fd = true <-> full_diag m n b ptr ind) /\
        (fd = true <-> full_diag m n 0 (ptr0 m b ptr) ind1) /\
        forall i j, 0 <= i < m -> ents 0 (ptr0 m b ptr) ind1 val1 i j = ents b ptr ind val i j) end.
    { destruct sorted; cbn [negb].
      - exists (ind0 nnz b ind), val, fulldiag. destruct H1 as [H1 _]. specialize (H1 eq_refl). ands; auto.
        + apply grouped0 with (n := n); auto.
        + apply unique0 with (n := n); auto.
        + rewrite H2. tauto.
        + rewrite <- full0 by auto. rewrite H2. tauto.
        + intros i j Hi. apply ents0 with (n := n); auto.
      - destruct Hs as [Hg|Hd]; [exfalso; apply H1 in Hg; discriminate|].
        destruct (sort_idx_val_ok srt Hsrt m n nnz b ptr ind val 0 (ind0 nnz b ind) val) as (ind1 & val1 & E & La & Lb & R); auto.
        rewrite E.
        assert (HB : b = 0 \/ b = 1 /\ 0 = 0) by lia.
        assert (HP : forall i, 0 <= i <= m -> zn (ptr0 m b ptr) i - 0 = zn ptr i - b)
          by (intros i Hi; rewrite zn_ptr0 by lia; lia).
        pose proof (sorted_wf m n nnz b ptr ind val 0 (ptr0 m b ptr) ind1 val1 W HB L1' HP La R) as W1.
        pose proof (sorted_distinct m b ptr ind val 0 (ptr0 m b ptr) ind1 val1 HP R) as D1.
        pose proof (sorted_sorted m b ptr ind val 0 (ptr0 m b ptr) ind1 val1 HP R) as S1.
        pose proof (rows_sorted_grouped _ _ _ _ S1) as G1.
        pose proof (sorted_full m n nnz b ptr ind val 0 (ptr0 m b ptr) ind1 val1 W HB HP R) as F1.
        destruct (check_sort_diag_ok m n nnz 0 (ptr0 m b ptr) ind1) as (so & fd & E2 & C1 & C2); auto.
        { apply W1. } { apply W1. } { apply distinct_unique; auto. }
        rewrite E2. exists ind1, val1, fd. ands; auto.
        + apply distinct_unique; auto.
        + rewrite C2, F1. tauto.
        + rewrite C2. tauto.
        + intros i j Hi. apply sorted_ents with (m := m) (n := n) (nnz := nnz); auto. }
    destruct MID as (ind1 & val1 & fd & -> & W1 & Lv1 & G1 & U1 & F1 & F1' & E1).
    match goal with |- context [if negb fd then ?X else ?Y] =>
      assert (MID : exists ptr2 ind2 val2 nnz2, (if negb fd then X else Y) = Some (ptr2, ind2, val2) /\
        csr_wf m n nnz2 0 ptr2 ind2 /\ zlen val2 = nnz2 /\ rows_grouped m 0 ptr2 ind2 /\ diag_unique m 0 ptr2 ind2 /\
        full_diag m n 0 ptr2 ind2 /\
        forall i j, 0 <= i < m -> ents 0 ptr2 ind2 val2 i j =
          match ents b ptr ind val i j with [] => if (i =? j) && (i <? n) then [o0 O] else [] | l => l end) end.
    { destruct fd; cbn [negb].
      - exists (ptr0 m b ptr), ind1, val1, nnz. destruct F1' as [F1' _]. specialize (F1' eq_refl). ands; auto.
        intros i j Hi. rewrite E1 by auto. destruct (ents b ptr ind val i j) eqn:Ee; auto.
        destruct ((i =? j) && (i <? n)) eqn:C; auto. exfalso.
        destruct (F1' i) as (k & Hk & Ek); [lia|lia|].
        rewrite <- E1 in Ee by auto.
        assert (X : exists v, In v (ents 0 (ptr0 m b ptr) ind1 val1 i j)).
        { pose proof (in_row_range _ _ _ _ (wf_ptr _ _ _ _ _ _ W1) i k Hi Hk) as Hr.
          exists (nthZ (o0 O) val1 k). unfold ents. apply in_flat_map. exists k. unfold in_row in Hk. split; [apply in_zrange; lia|].
          replace (zn ind1 k =? j + 0) with true by lia. rewrite (rd_nthZ _ (o0 O)) by lia. left; reflexivity. }
        destruct X as (v & X). rewrite Ee in X. destruct X.
      - destruct (fill_diag_ok T (o0 O) m n nnz (ptr0 m b ptr) ind1 val1 (fun z => (fz z, ft z, fz (m + 1)))) as
          (ptr2 & ind2 & val2 & nnz2 & E & A1 & A2 & A3 & A4 & A5 & _ & A7); auto.
        { intros z Hz'. rewrite !Hfz, Hft by lia. auto. }
        rewrite E. exists ptr2, ind2, val2, nnz2. ands; auto.
        intros i j Hi. rewrite A7 by auto. rewrite E1 by auto. reflexivity. }
    destruct MID as (ptr2 & ind2 & val2 & nnz2 & -> & W2 & Lv2 & G2 & U2 & F2 & E2).
    pose proof W2 as [_ _ Hz2 [La Lb] (Pa & Pb & Pc) _].
    destruct (indices_ok m nnz2 0 ptr2 ind2) with (idiag0 := fz m) (iurow0 := fz m) as (idiag & iurow & Ei & Li & Lu & Sp); auto.
    { apply W2. } { apply W2. }
    rewrite Ei. rewrite (rd_nthZ _ 0) by lia.
    eexists _, fd. split; [reflexivity|]. split; [exact F1|]. split; [reflexivity|].
    assert (EN : zn ptr2 m = nnz2) by lia. rewrite EN.
    split; [|split; [|split; [reflexivity|split; [|split; reflexivity]]]].
    - exists idiag, iurow. cbn. ands; auto. constructor; auto.
    - unfold arrays_ok. cbn. ands; auto.
    - unfold same_entries, centries. cbn. fold m n b ptr ind val. ands; auto.
  Qed.

  Lemma entries_full : forall u : cmat T, arrays_ok u -> full_diag (c_m u) (c_n u) (c_b u) (c_ptr u) (c_ind u) ->
    forall c, same_data u c -> same_entries (o0 O) u c.
  Proof.
    intros u (W & _ & Lv & _) F c (E1 & E2 & E3 & E4 & E5 & E6 & E7 & E8).
    unfold same_entries, centries. rewrite E1, E2, E4, E5, E6, E7, E8. ands; auto.
    intros i j Hi. destruct (ents (c_b u) (c_ptr u) (c_ind u) (c_val u) i j) eqn:Ee; auto.
    destruct ((i =? j) && (i <? c_n u)) eqn:C; auto. exfalso.
    destruct (F i) as (k & Hk & Ek); [lia|lia|].
    pose proof (in_row_range _ _ _ _ (wf_ptr _ _ _ _ _ _ W) i k Hi Hk) as Hr.
    assert (X : In (nthZ (o0 O) (c_val u) k) (ents (c_b u) (c_ptr u) (c_ind u) (c_val u) i j)).
    { unfold ents. apply in_flat_map. exists k. unfold in_row in Hk. split; [apply in_zrange; lia|].
      replace (zn (c_ind u) k =? j + c_b u) with true by lia. rewrite (rd_nthZ _ (o0 O)) by lia. left; reflexivity. }
    rewrite Ee in X. destruct X.
  Qed.

  Lemma opt_mats : forall h u rest, hnd_ok (o0 O) h u -> H_mats h = Some u :: rest ->
    (c_opt u = true -> opt_ready u) /\
    Forall (fun e => exists c, e = Some c /\ c_opt c = true /\ opt_ready c /\ arrays_ok c /\ same_entries (o0 O) u c /\
                          c_mdiag c = dg_non_unit /\ c_dval c = None) rest.
  Proof. intros h u rest (_ & r & E & H1 & H2) E'. rewrite E in E'. inversion E'; subst. auto. Qed.

  Lemma optimize_ok : forall h u, hnd_ok (o0 O) h u -> sortable u ->
    exists h' i c u', csr_csc_optimize O srt fz ft h = Some (success, h', Some i) /\
      hnd_ok (o0 O) h' u' /\ same_data u u' /\
      H_m h' = H_m h /\ H_n h' = H_n h /\ H_nnz h' = H_nnz h /\ H_hints h' = H_hints h /\
      rd (H_mats h') i = Some (Some c) /\ c_opt c = true /\ opt_ready c /\ arrays_ok c /\ same_entries (o0 O) u c /\
      c_mdiag c = dg_non_unit /\ c_dval c = None /\
      (h' = h \/ H_optimized h' = true /\ sort_says (H_sort h') (c_m u) (c_b u) (c_ptr u) (c_ind u) /\
        (H_full h' = true <-> full_diag (c_m u) (c_n u) (c_b u) (c_ptr u) (c_ind u)) /\
        (H_optfull h' = true <-> full_diag (c_m u) (c_n u) (c_b u) (c_ptr u) (c_ind u))).
  Proof.
    intros h u HOK Hs. pose proof HOK as (UM & rest & EM & HO & HF).
    pose proof UM as (AOK & EN & EMD & EDV & EDIM). pose proof AOK as (W & U & Lv & Hb).
    unfold csr_csc_optimize. rewrite EM. cbn [first_opt first_csr].
    destruct (c_opt u) eqn:Eo.
    { specialize (HO eq_refl). exists h, 0, u, u. rewrite EM. split; [reflexivity|]. split; [exact HOK|].
      split; [unfold same_data; tauto|]. do 4 (split; [reflexivity|]). split; [reflexivity|]. split; [exact Eo|].
      split; [exact HO|]. split; [exact AOK|]. split.
      { apply entries_full; auto. - destruct HO as (x1 & x2 & _ & _ & _ & F); exact F. - unfold same_data; tauto. }
      auto. }
    destruct rest as [|e rest'].
    2:{ inversion HF as [|? ? HE HF']; subst. destruct HE as (c & -> & Ec & OR & AR & SE & MD & DV). cbn [first_opt]. rewrite Ec.
        exists h, 1, c, u. rewrite EM. split; [reflexivity|]. split; [exact HOK|]. split; [unfold same_data; tauto|].
        do 4 (split; [reflexivity|]). split; [reflexivity|]. ands; auto. }
    cbn [first_opt]. replace (negb ((c_b u =? 0) || (c_b u =? 1))) with false by lia.
    unfold optimize_slow. rewrite EN.
    destruct (mat_check_success (c_m u) (c_n u) (c_nnz u) (c_b u) (c_ptr u) (c_ind u) W U) as (so & fd & -> & SS & FF).
    pose proof W as [Hm Hn Hz HL HP _].
    destruct (check_sort_diag_ok (c_m u) (c_n u) (c_nnz u) (c_b u) (c_ptr u) (c_ind u)) as (sorted & fulldiag & -> & C1 & C2); auto.
    destruct (sorted && fulldiag) eqn:Esf.
    - apply andb_true_iff in Esf. destruct Esf as [-> ->]. destruct C2 as [C2 _]. destruct (C2 eq_refl) as [G F].
      destruct (indices_ok (c_m u) (c_nnz u) (c_b u) (c_ptr u) (c_ind u)) with (idiag0 := fz (c_m u)) (iurow0 := fz (c_m u))
        as (idiag & iurow & -> & Li & Lu & Sp); auto.
      set (c := with_indices u idiag iurow).
      assert (OR : opt_ready c) by (exists idiag, iurow; cbn; ands; auto; constructor; auto).
      assert (SD : same_data u c) by (unfold same_data; cbn; tauto).
      eexists _, 0, c, c. split; [reflexivity|]. cbn. rewrite EM. cbn. split.
      { split.
        - unfold user_mat. cbn. rewrite EN, EMD, EDV. ands; auto.
        - exists []. cbn. ands; auto. }
      split; [exact SD|]. rewrite EN, EMD, EDV. do 4 (split; [reflexivity|]). split; [reflexivity|]. split; [reflexivity|].
      split; [exact OR|]. split; [exact AOK|]. split; [apply entries_full; auto|]. do 2 (split; [reflexivity|]).
      right. tauto.
    - rewrite <- EN. change (H_nnz (set_class h so fd)) with (H_nnz h). rewrite EN.
      destruct (build_copy_ok u sorted fulldiag AOK Hs C1 C2) as (c & fd2 & -> & F2 & Oc & OR & AR & B0 & SE & MD & DV).
      eexists _, _, c, u. split; [reflexivity|]. cbn. rewrite EM. cbn. split.
      { split.
        - unfold user_mat. cbn. rewrite EN. ands; auto.
        - exists [Some c]. cbn. ands; auto.
          + rewrite Eo; discriminate.
          + constructor; [|constructor]. exists c. ands; auto. }
      split; [unfold same_data; tauto|]. rewrite EN. do 4 (split; [reflexivity|]). split; [reflexivity|]. ands; auto.
  Qed.

  Lemma first_opt_some : forall (l : list (option (cmat T))) i k c, 0 <= i -> rd l i = Some (Some c) -> c_opt c = true ->
    exists j c', first_opt l k = Some (j, c').
  Proof.
    induction l as [|e l IH]; intros i k c Hi R Oc.
    - unfold rd in R. destruct (i <? 0); [discriminate|]. destruct (Z.to_nat i); discriminate.
    - cbn [first_opt]. destruct (Z.eq_dec i 0) as [->|Hn].
      + cbn in R. inversion R; subst. rewrite Oc. eauto.
      + assert (R' : rd l (i - 1) = Some (Some c)).
        { unfold rd in *. replace (i <? 0) with false in R by lia. replace (i - 1 <? 0) with false by lia.
          replace (Z.to_nat i) with (S (Z.to_nat (i - 1))) in R by lia. exact R. }
        destruct (IH (i - 1) (k + 1) c ltac:(lia) R' Oc) as (j & c' & E).
        destruct e as [e|]; [destruct (c_opt e); eauto|eauto].
  Qed.

  Lemma optimize_twice : forall h u, hnd_ok (o0 O) h u -> sortable u ->
    exists h' i, csr_csc_optimize O srt fz ft h = Some (success, h', Some i) /\
      csr_csc_optimize O srt fz ft h' = Some (success, h', Some i).
  Proof.
    intros h u HOK Hs. pose proof HOK as (UM & rest & EM & HO & HF).
    destruct (optimize_ok h u HOK Hs) as (h' & i & c & u' & E & (UM' & rest' & EM' & HO' & HF') & SD & _ & _ & _ & _ & Rc & Oc & _).
    exists h', i. split; [exact E|]. unfold csr_csc_optimize in *. rewrite EM in E. rewrite EM' in *.
    cbn [first_opt first_csr] in *.
    assert (Hi : 0 <= i) by (unfold rd in Rc; destruct (i <? 0) eqn:?; [discriminate|lia]).
    destruct (c_opt u') eqn:Eu'.
    - (* the user's matrix is marked *)
      destruct (c_opt u) eqn:Eu; [inversion E; subst; reflexivity|].
      destruct rest as [|e rest].
      + cbn [first_opt] in E. destruct (negb _); [discriminate|].
        unfold optimize_slow in E. destruct (mat_check _ _ _ _ _ _ _ _ _) as [[st r]|]; [|discriminate].
        destruct st; try discriminate. destruct r as [[so fd]|]; [|discriminate].
        destruct (check_sort_diag _ _ _ _ _) as [[[st sorted] fulldiag]|]; [|discriminate].
        destruct st; try discriminate. destruct (sorted && fulldiag).
        * destruct (csr_csc_indices _ _ _ _ _ _) as [[idiag iurow]|]; [|discriminate]. inversion E; subst. reflexivity.
        * destruct (build_copy _ _ _ _ _ _ _ _) as [[st [[c0 fd0]|]]|]; [|discriminate|discriminate]. inversion E; subst. cbn in EM'. rewrite EM in EM'. inversion EM'; subst. congruence.
      + inversion HF as [|? ? HE HF2]; subst. destruct HE as (c1 & -> & Oc1 & _). cbn [first_opt] in E. rewrite Oc1 in E. inversion E; subst.
        rewrite EM in EM'. inversion EM'; subst. congruence.
    - destruct rest' as [|e rest'].
      + (* position 0 would be unmarked *)
        exfalso. destruct (Z.eq_dec i 0) as [->|]; [cbn in Rc; inversion Rc; subst; congruence|].
        unfold rd in Rc. replace (i <? 0) with false in Rc by lia. replace (Z.to_nat i) with (S (Z.to_nat (i - 1))) in Rc by lia. cbn in Rc. destruct (Z.to_nat (i - 1)); discriminate.
      + inversion HF' as [|? ? HE HF2]; subst. destruct HE as (c1 & -> & Oc1 & _). cbn [first_opt]. rewrite Oc1.
        replace i with 1; [reflexivity|].
        destruct (c_opt u) eqn:Eu; [inversion E; subst; rewrite EM in EM'; inversion EM'; subst; congruence|].
        destruct rest as [|e rest].
        * cbn [first_opt] in E. destruct (negb _); [discriminate|].
          unfold optimize_slow in E. destruct (mat_check _ _ _ _ _ _ _ _ _) as [[st r]|]; [|discriminate].
          destruct st; try discriminate. destruct r as [[so fd]|]; [|discriminate].
          destruct (check_sort_diag _ _ _ _ _) as [[[st sorted] fulldiag]|]; [|discriminate].
          destruct st; try discriminate. destruct (sorted && fulldiag).
          -- destruct (csr_csc_indices _ _ _ _ _ _) as [[idiag iurow]|]; [|discriminate]. inversion E; subst. cbn in EM'. rewrite EM in EM'. cbn in EM'. discriminate.
          -- destruct (build_copy _ _ _ _ _ _ _ _) as [[st [[c0 fd0]|]]|]; [|discriminate|discriminate]. inversion E; subst. cbn. rewrite EM. reflexivity.
        * inversion HF as [|? ? HE HF3]; subst. destruct HE as (c2 & -> & Oc2 & _). cbn [first_opt] in E. rewrite Oc2 in E. inversion E; subst. reflexivity.
  Qed.

  Lemma optimize_in_place : forall h u, hnd_ok (o0 O) h u -> H_mats h = [Some u] ->
    rows_grouped (c_m u) (c_b u) (c_ptr u) (c_ind u) -> full_diag (c_m u) (c_n u) (c_b u) (c_ptr u) (c_ind u) ->
    exists h' u', csr_csc_optimize O srt fz ft h = Some (success, h', Some 0) /\ H_mats h' = [Some u'] /\ same_data u u'.
  Proof.
    intros h u ((AOK & EN & _ & _ & _) & _) EM G F. pose proof AOK as (W & U & Lv & Hb).
    unfold csr_csc_optimize. rewrite EM. cbn [first_opt first_csr].
    destruct (c_opt u) eqn:Eo.
    { exists h, u. rewrite EM. ands; auto. unfold same_data; tauto. }
    replace (negb ((c_b u =? 0) || (c_b u =? 1))) with false by lia.
    unfold optimize_slow. rewrite EN.
    destruct (mat_check_success (c_m u) (c_n u) (c_nnz u) (c_b u) (c_ptr u) (c_ind u) W U) as (so & fd & -> & SS & FF).
    pose proof W as [Hm Hn Hz HL HP _].
    destruct (check_sort_diag_ok (c_m u) (c_n u) (c_nnz u) (c_b u) (c_ptr u) (c_ind u)) as (sorted & fulldiag & -> & C1 & C2); auto.
    replace sorted with true by (symmetry; apply C1; auto). replace fulldiag with true by (symmetry; apply C2; auto). cbn [andb].
    destruct (indices_ok (c_m u) (c_nnz u) (c_b u) (c_ptr u) (c_ind u)) with (idiag0 := fz (c_m u)) (iurow0 := fz (c_m u))
      as (idiag & iurow & -> & Li & Lu & Sp); auto.
    eexists _, _. split; [reflexivity|]. cbn. rewrite EM. cbn. split; [reflexivity|]. unfold same_data; cbn; tauto.
  Qed.
End P.
