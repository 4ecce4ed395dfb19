(** Symmetric triple product into a sparse matrix. *)
From Coq Require Import ZArith List Bool Lia ZifyBool Permutation Ring.
From Verif Require Import Base BaseFacts Algebra Vec UtilModel UtilProof Csr CsrFacts CheckModel CheckSpec CheckProof IndicesProof SortModel SortSpec SortProof FillProof DoidModel DoidSpec MvModel MvSpec MvFacts MvProof CsrmvModel HandleModel HandleSpec HandleFacts OptProof TrsvHandleProof
  AddSpec AddProof Csr2CscModel Csr2CscProof Csr2mModel Csr2mSpec Csr2mProof Csr2mHandleProof RowProg WinFacts OftModel OftProof SyrkdSpec SyrkdProof SyrkModel SyrkSpec SyrkProof AtbProof SyprModel SymabProof SyprdSpec SyprSpec.
Import ListNotations.
Open Scope Z_scope.

(** ** Optimised copies of sorted rows are sorted *)
Section Q.
  Context {T : Type} (O : ops T).
  Variable srt : (Z -> Z -> bool) -> list Z -> list Z.
  Variables (fz : Z -> list Z) (ft : Z -> list T).
  Hypothesis Hfz : forall z, 0 <= z -> zlen (fz z) = z.
  Hypothesis Hft : forall z, 0 <= z -> zlen (ft z) = z.
  Lemma build_copy_sorted : forall (u : cmat T) fulldiag st c fd, arrays_ok u -> cmat_sorted u ->
    build_copy O srt fz ft u (c_nnz u) true fulldiag = Some (st, Some (c, fd)) -> cmat_sorted c.
  Proof.
    intros u fulldiag st c fd (W & U & Lv & Hb) SO. unfold cmat_sorted in *.
    set (m := c_m u) in *. set (n := c_n u) in *. set (nnz := c_nnz u) in *. set (b := c_b u) in *.
    set (ptr := c_ptr u) in *. set (ind := c_ind u) in *. set (val := c_val u) in *.
    pose proof W as [Hm Hn Hz [L1 L2] _ _].
    unfold build_copy. fold m n nnz b ptr ind val.
    rewrite (mapM_map _ _ _ (fun i => zn ptr i - b)).
    2:{ intros k Hk. apply in_zrange in Hk. rewrite (rd_nthZ _ 0) by lia. reflexivity. }
    rewrite (mapM_map _ _ _ (fun i => zn ind i - b)).
    2:{ intros k Hk. apply in_zrange in Hk. rewrite (rd_nthZ _ 0) by lia. reflexivity. }
    rewrite (mapM_map _ _ _ (nthZ (o0 O) val)).
    2:{ intros k Hk. apply in_zrange in Hk. rewrite (rd_nthZ _ (o0 O)) by lia. reflexivity. }
    replace (map (nthZ (o0 O) val) (zrange 0 nnz)) with val by (rewrite <- Lv; symmetry; apply map_nthZ_zrange).
    fold (ptr0 m b ptr). fold (ind0 nnz b ind).
    pose proof (wf0 m n nnz b ptr ind W) as W0. cbn [negb].
    assert (S0 : rows_sorted m 0 (ptr0 m b ptr) (ind0 nnz b ind)).
    { intros i k k' Hi Hk Hk' Hlt. apply (in_row0 m b ptr) in Hk, Hk'; auto. rewrite !(in_row0_rng m n nnz b ptr ind W i) by auto. specialize (SO i k k' Hi Hk Hk' Hlt). lia. }
    pose proof (rows_sorted_grouped _ _ _ _ S0) as G0.
    intros H. destruct fulldiag; cbn [negb] in H.
    - destruct (csr_csc_indices m 0 (ptr0 m b ptr) (ind0 nnz b ind) (fz m) (fz m)) as [(x, y)|]; [|discriminate]. destruct (rd (ptr0 m b ptr) m); [|discriminate]. inversion H; subst c. exact S0.
    - destruct (fill_diag_ok T (o0 O) m n nnz (ptr0 m b ptr) (ind0 nnz b ind) val (fun z => (fz z, ft z, fz (m + 1)))) as
        (ptr2 & ind2 & val2 & nnz2 & E & A1 & A2 & A3 & A4 & A5 & A6 & A7); auto.
      { apply unique0 with (n := n); auto. }
      { intros z Hz'. rewrite !Hfz, Hft by lia. auto. }
      rewrite E in H. destruct (csr_csc_indices m 0 ptr2 ind2 (fz m) (fz m)) as [(x, y)|]; [|discriminate]. destruct (rd ptr2 m); [|discriminate]. inversion H; subst c. exact (A6 S0).
  Qed.

  Lemma sort_full : forall so m b ptr ind, sort_says so m b ptr ind -> rows_sorted m b ptr ind -> so = fully_sorted.
  Proof. intros so m b ptr ind H S. pose proof (rows_sorted_grouped _ _ _ _ S). unfold sort_says in H. destruct so; tauto. Qed.

  Lemma rd_in : forall A (l : list A) i x, rd l i = Some x -> In x l.
  Proof. intros A l i x. unfold rd. destruct (i <? 0); [discriminate|]. apply nth_error_In. Qed.
  Lemma optimize_sorted : forall h u h' i c, hnd_ok (o0 O) h u -> copies_sorted h -> csr_csc_optimize O srt fz ft h = Some (success, h', Some i) -> rd (H_mats h') i = Some (Some c) ->
    cmat_sorted c /\ copies_sorted h' /\ (H_sort h = fully_sorted -> H_sort h' = fully_sorted).
  Proof.
    intros h u h' i c HOK HS E Rc. pose proof HOK as (UM & rest & EM & HO & HF).
    pose proof UM as (AOK & EN & EMD & EDV & EDIM). pose proof AOK as (W & U & Lv & Hb).
    assert (SU : cmat_sorted u) by (apply HS; rewrite EM; left; reflexivity).
    assert (SAME : h' = h -> cmat_sorted c /\ copies_sorted h' /\ (H_sort h = fully_sorted -> H_sort h' = fully_sorted)).
    { intros ->. split; [|auto]. apply HS. eapply rd_in; eauto. }
    unfold csr_csc_optimize in E. rewrite EM in E. destruct (first_opt (Some u :: rest) 0) as [(j, c0)|] eqn:FO; [apply SAME; congruence|].
    cbn [first_csr] in E. replace (negb ((c_b u =? 0) || (c_b u =? 1))) with false in E by lia.
    unfold optimize_slow in E. rewrite EN in E.
    destruct (mat_check_success (c_m u) (c_n u) (c_nnz u) (c_b u) (c_ptr u) (c_ind u) W U) as (so & fd & E1 & SS & FF). rewrite E1 in E.
    pose proof W as [Hm Hn Hz HL HP _]. rewrite (sort_full _ _ _ _ _ SS SU) in E.
    destruct (check_sort_diag_ok (c_m u) (c_n u) (c_nnz u) (c_b u) (c_ptr u) (c_ind u)) as (sorted & fulldiag & E2 & C1 & C2); auto. rewrite E2 in E.
    assert (sorted = true) as -> by (apply C1; eapply rows_sorted_grouped; eauto). cbn [andb] in E. destruct fulldiag.
    - destruct (csr_csc_indices (c_m u) (c_b u) (c_ptr u) (c_ind u) (fz (c_m u)) (fz (c_m u))) as [(x, y)|]; [|discriminate]. inversion E; subst h' i. cbn in Rc. rewrite EM in Rc. cbn in Rc. inversion Rc; subst c.
      split; [exact SU|]. split; [|reflexivity]. intros c. cbn. rewrite EM. cbn. intros [Q|Q]; [inversion Q; subst c; exact SU|]. apply HS. rewrite EM. now right.
    - change (H_nnz (set_class h fully_sorted fd)) with (H_nnz h) in E. rewrite EN in E.
      destruct (build_copy O srt fz ft u (c_nnz u) true false) as [(st, r)|] eqn:EB; [|discriminate]. destruct r as [(c1, fd1)|]; [|discriminate].
      pose proof (build_copy_sorted u false st c1 fd1 AOK SU EB) as S1. inversion E; subst h' i. cbn in Rc. rewrite EM in Rc. assert (c = c1) as ->.
      { unfold rd in Rc. destruct (zlen (Some u :: rest) <? 0); [discriminate|]. unfold zlen in Rc. rewrite Nat2Z.id in Rc. rewrite nth_error_app2 in Rc by lia. rewrite Nat.sub_diag in Rc. cbn in Rc. congruence. }
      split; [exact S1|]. split; [|reflexivity]. intros c. cbn. intros Q. apply in_app_iff in Q. destruct Q as [Q|[Q|[]]]; [now apply HS|inversion Q; subst c; exact S1].
  Qed.
End Q.

(** ** Sizes depend on the positions only *)
Definition counts (k : Z) (P : Z -> Z -> Prop) (c : Z) : Prop :=
  exists R : Z -> list Z, (forall i, 0 <= i < k -> NoDup (R i) /\ forall j, In j (R i) <-> P i j) /\ c = sumz Zops 0 k (fun i => zlen (R i)).
Lemma counts_unique : forall k P P' c c', (forall i j, 0 <= i < k -> (P i j <-> P' i j)) -> counts k P c -> counts k P' c' -> c = c'.
Proof.
  intros k P P' c c' H (R & HR & ->) (R' & HR' & ->). apply (sumz_ext Zops). intros i Hi. destruct (HR i Hi) as (N1 & M1). destruct (HR' i Hi) as (N2 & M2).
  assert (PM : Permutation (R i) (R' i)) by (apply NoDup_Permutation; auto; intros j; rewrite M1, M2; apply H; exact Hi).
  unfold zlen. now rewrite (Permutation_length PM).
Qed.
Lemma counts_offs : forall A k (R : Z -> list (Z * A)) P, (forall i, 0 <= i < k -> NoDup (map fst (R i))) -> (forall i j, 0 <= i < k -> (In j (map fst (R i)) <-> P i j)) -> counts k P (offs R k).
Proof. intros A k R P H1 H2. exists (fun i => map fst (R i)). split; [intros i Hi; split; [auto|intros j; auto]|]. unfold offs. apply (sumz_ext Zops). intros i Hi. symmetry. apply zlen_map. Qed.
Lemma arow_mem : forall T (O : ops T) u cA cB (vA : list T) bB pB iB vB V i j,
  In j (map fst (arow O u cA cB vA bB pB iB vB 0 V i)) <-> keep u i j = true /\ exists r q, In (r, q) (V i) /\ stored bB pB iB r j.
Proof.
  intros T O u cA cB vA bB pB iB vB V i j. unfold arow. rewrite map_map. cbn [fst]. rewrite in_map_iff. split.
  - intros (c & E & H). assert (c = j) as -> by lia. apply (proj1 (firsts_in _ _)) in H. unfold contribs in H. apply in_map_iff in H. destruct H as ((c, v) & Ec & H). cbn [fst] in Ec. subst c.
    apply in_flat_map in H. destruct H as ((r, q) & H1 & H2). cbn [fst snd] in H2. unfold terms in H2. apply in_flat_map in H2. destruct H2 as (k & H2 & H3). apply in_zrange in H2. destruct (keep u i (zn iB k - bB)) eqn:EK; [|destruct H3]. destruct H3 as [H3|[]]. injection H3 as H3 _. rewrite H3 in EK.
    split; [exact EK|]. exists r, q. split; [exact H1|]. exists k. unfold in_row. lia.
  - intros (EK & r & q & H1 & k & H2 & H3). exists j. split; [lia|]. apply (proj2 (firsts_in _ _)). apply in_map_iff. unfold contribs. eexists (j, _). split; [reflexivity|]. apply in_flat_map. exists (r, q). split; [exact H1|]. cbn [fst snd]. unfold terms. apply in_flat_map.
    exists k. split; [apply in_zrange; exact H2|]. replace (zn iB k - bB) with j by lia. rewrite EK. left. reflexivity.
Qed.

(** ** Both products *)
Section P.
  Context {T : Type} (O : ops T) (L : laws O).
  Local Notation z := (o0 O).
  Local Infix "*!" := (omul O) (at level 40, left associativity).
  Add Ring TringP : (l_ring L).
  Variables (w : Z) (fz : Z -> list Z) (ft : Z -> list T).
  Hypothesis (Hw : 0 < w <= 63) (Hfz : forall k, 0 <= k -> zlen (fz k) = k) (Hft : forall k, 0 <= k -> zlen (ft k) = k).

  Lemma len_le : forall A (l : list (Z * A)) n, 0 <= n -> NoDup (map fst l) -> (forall p, In p l -> 0 <= fst p < n) -> zlen l <= n.
  Proof.
    intros A l n Hn ND H. assert (I : incl (map fst l) (zrange 0 n)). { intros x Hx. apply in_map_iff in Hx. destruct Hx as (p & <- & Hp). apply in_zrange. auto. }
    pose proof (NoDup_incl_length ND I) as Q. rewrite map_length in Q. pose proof (zlen_zrange 0 n Hn) as QZ. unfold zlen in *. lia.
  Qed.
  Lemma offs_le : forall A (R : Z -> list (Z * A)) k n, 0 <= k -> 0 <= n -> (forall i, 0 <= i < k -> NoDup (map fst (R i))) -> (forall i p, 0 <= i < k -> In p (R i) -> 0 <= fst p < n) -> offs R k <= k * n.
  Proof.
    intros A R k n Hk Hn ND H. assert (Q : forall j, (Z.of_nat j <= k) -> offs R (Z.of_nat j) <= Z.of_nat j * n).
    { induction j as [|j IH]; intros Hj.
      - unfold offs. cbn [Z.of_nat]. rewrite (sumz_nil Zops) by lia. cbn. lia.
      - replace (Z.of_nat (S j)) with (Z.of_nat j + 1) by lia. rewrite offs_S by lia. specialize (IH ltac:(lia)). assert (HJ : Z.of_nat j < k) by lia. pose proof (len_le A (R (Z.of_nat j)) n Hn (ND _ (conj (Zle_0_nat j) HJ)) (fun p Hp => H _ p (conj (Zle_0_nat j) HJ) Hp)). nia. }
    specialize (Q (Z.to_nat k) ltac:(lia)). rewrite Z2Nat.id in Q by lia. exact Q.
  Qed.

  Variables (low cf : bool) (m n : Z) (bo : cmat T) (nW bW : Z) (pW iW : list Z) (vW : list T).
  Hypothesis (Em : c_m bo = m) (En : c_n bo = m) (AO : arrays_ok bo) (OR : opt_ready bo) (SO : cmat_sorted bo)
    (DI : rows_distinct (c_m bo) (c_b bo) (c_ptr bo) (c_ind bo)).
  Hypothesis (WW : csr_wf m n nW bW pW iW) (LW : zlen vW = nW) (SW : rows_sorted m bW pW iW) (DW : rows_distinct m bW pW iW) (NW : 0 < nW).
  Local Notation M := (csr_mat O (c_b bo) (c_ptr bo) (c_ind bo) (c_val bo)).
  Local Notation Wm := (csr_mat O bW pW iW vW).
  Definition Fpr (i j : Z) : T := sumz O 0 m (fun r => cj_if O (negb cf) (Wm r i) *! sumz O 0 m (fun l => herm O low M r l *! cj_if O cf (Wm l j))).

  (** Positions stored in the intermediate product and in the result *)
  Definition Bst (r l : Z) : Prop := half low r l = true /\ stored (c_b bo) (c_ptr bo) (c_ind bo) r l \/ strict low l r = true /\ stored (c_b bo) (c_ptr bo) (c_ind bo) l r.
  Definition Tst (r j : Z) : Prop := exists l, 0 <= l < m /\ Bst r l /\ stored bW pW iW l j.
  Definition Cst (i j : Z) : Prop := i <= j /\ exists r, 0 <= r < m /\ stored bW pW iW r i /\ Tst r j.
  Definition ready (nC : Z) (h : hnd T) (c : cmat T) : Prop := sized n h c /\ H_nnz h = nC.

  Lemma products_ok : exists nT nC, 0 < nT <= m * n /\ 0 <= nC <= n * n /\ counts m Tst nT /\ counts n Cst nC /\
    let over := int_sum_overflow 63 w in
    (over nT = true -> forall rq C, sypr_products O w fz ft cf low rq m n bo bW pW iW vW C = Some (invalid_size, C)) /\
    (over nT = false -> over nC = true -> forall rq, rq <> rq_finalize -> sypr_products O w fz ft cf low rq m n bo bW pW iW vW None = Some (invalid_size, None)) /\
    (over nT = false -> over nC = false ->
      (exists h c, sypr_products O w fz ft cf low rq_count m n bo bW pW iW vW None = Some (success, Some h) /\ ready nC h c) /\
      (exists h c, sypr_products O w fz ft cf low rq_full m n bo bW pW iW vW None = Some (success, Some h) /\ upper_result O n 0 Fpr h c /\ H_nnz h = nC)) /\
    (over nT = false -> forall h c, ready nC h c -> exists h' c', sypr_products O w fz ft cf low rq_finalize m n bo bW pW iW vW (Some h) = Some (success, Some h') /\ upper_result O n 0 Fpr h' c' /\ H_nnz h' = H_nnz h).
  Proof.
    destruct OR as (idg & iu & EI & EU & TR & FD). destruct AO as (WA & UA & LA & BA). unfold cmat_sorted in SO. rewrite Em, En in *.
    set (nA := c_nnz bo) in *. set (bA := c_b bo) in *. set (pA := c_ptr bo) in *. set (iA := c_ind bo) in *. set (vA := c_val bo) in *.
    pose proof (wf_m _ _ _ _ _ _ WW) as Hm. pose proof (wf_n _ _ _ _ _ _ WW) as Hn.
    destruct (symab_ok O L low m nA bA pA iA idg iu vA TR FD LA SO DI cf n bW nW pW iW vW WW LW) as (V1 & HV1 & K1). cbv zeta in K1.
    set (R1 := arow O false false cf (vX O vA) bW pW iW vW 0 (G low nA bA pA iA idg V1)) in *.
    pose proof (G_vok O low m nA bA pA iA idg iu vA TR FD LA SO DI V1 HV1) as VK.
    destruct (K1 (zrep (m + 1) 0) ltac:(apply zlen_zrep; lia)) as (pT & EC1 & LpT & K2). set (nT := offs R1 m) in *.
    assert (T0 : 0 < nT).
    { destruct (row_of m nW bW pW Hm (wf_ptr _ _ _ _ _ _ WW) 0 ltac:(lia)) as (r & Hr & Hin). pose proof (row_in O low m nA bA pA iA idg iu vA TR FD SO DI cf bW pW iW vW V1 r 0 HV1 Hr Hin) as Q. fold R1 in Q.
      assert (1 <= zlen (R1 r)) by (destruct (R1 r); [destruct Q|rewrite zlen_cons; pose proof (zlen_nonneg _ l); lia]).
      pose proof (offs_S R1 r ltac:(lia)). pose proof (offs_mono R1 0 r ltac:(lia)). pose proof (offs_mono R1 (r + 1) m ltac:(lia)). unfold nT. lia. }
    assert (TB : nT <= m * n).
    { apply offs_le; auto. - intros i Hi. apply arow_nodup. - intros i p Hi Hp. destruct (arow_cols O false false cf m m n (vX O vA) bW nW pW iW vW WW 0 _ i p VK Hi Hp). lia. }
    destruct (K2 (zrep nT 0) (zrep nT z)) as (pT' & iT & vT & EF & WT & LT & KT & MT); try (apply zlen_zrep; lia).
    destruct (atb_runs m n bW nW pW iW vW nW vW WW SW DW) as (V2 & HV2 & RV2).
    pose proof (visits_ok m n bW nW pW iW vW WW LW V2 HV2) as VK2.
    set (R2 := arow O true (negb cf) false vW 0 pT' iT vT 0 V2) in *. set (nC := offs R2 n) in *.
    assert (C0 : 0 <= nC) by (apply (offs_mono R2 0 n); lia).
    assert (CB : nC <= n * n).
    { apply offs_le; auto. - intros i Hi. apply arow_nodup. - intros i p Hi Hp. destruct (arow_cols O true (negb cf) false m n n vW 0 nT pT' iT vT WT 0 V2 i p VK2 Hi Hp). lia. }
    assert (UP : forall cap ic jc vc, built O n 0 R2 ic jc vc -> exists c, upper_result O n 0 Fpr (syrk_handle n 0 cap nC ic jc vc) c).
    { intros cap ic jc vc B. destruct (built_upper O L n 0 cap R2 Fpr ic jc vc Hn B) as (c & Hc).
      - intros i p Hi Hp. destruct (arow_cols O true (negb cf) false m n n vW 0 nT pT' iT vT WT 0 V2 i p VK2 Hi Hp) as (Q1 & Q2). unfold keep in Q2. lia.
      - intros i Hi. apply arow_nodup.
      - intros i j Hij Hj. unfold R2. rewrite (arow_colsum O L true (negb cf) false m n vW 0 nT pT' iT vT WT LT). rewrite (contribs_sum O L true (negb cf) false m n n bW nW pW iW vW 0 nT pT' iT vT WW LW WT LT V2 i j HV2) by (unfold keep; lia).
        unfold Fpr. apply sumz_ext. intros r Hr. cbn [cj_if]. rewrite MT by lia. reflexivity.
      - exists c. exact Hc. }
    assert (CNT : forall ic, zlen ic = n + 1 -> exists ic', atb_count true m n n bW pW iW vW 0 pT' iT ic = Some (ic', nC) /\ zlen ic' = n + 1 /\ forall q, 0 <= q <= n -> 0 <= zn ic' q <= nC).
    { intros ic Lc. destruct (rows_counted O true (negb cf) false m n n vW 0 nT pT' iT vT Hn WT V2 (upd ic 0 0) VK2) as (nz & ic' & E & L1 & P1).
      { rewrite zlen_upd. exact Lc. } { rewrite nthZ_upd_same by lia. reflexivity. }
      fold R2 nC in E. exists ic'. split; [|split; [exact L1|intros q Hq; rewrite P1 by lia; apply (offs_mono R2); lia]]. unfold atb_count. destruct RV2 as (o & -> & EV). rewrite wr_upd by lia.
      specialize (EV _ (cbody true vW 0 pT' iT) count_end ((zrep n (-1), 0), upd ic 0 0)). rewrite E in EV. unfold cbody in EV.
      match type of EV with (match ?x with _ => _ end) = _ => destruct x as [(o', ((nz', t'), ic''))|] eqn:EX; [|discriminate] end. cbn [snd] in EV. inversion EV; subst. 
      reflexivity. }
    assert (FIL : forall c, zlen (c_ptr c) = n + 1 -> nC <= zlen (c_ind c) -> nC <= zlen (c_val c) ->
      exists ic jc vc nz, online_atb O true (negb cf) false m n n bW pW iW vW 0 pT' iT vT 0 (c_ptr c) (c_ind c) (c_val c) = Some (ic, jc, vc, nz) /\ built O n 0 R2 ic jc vc).
    { intros c Q1 Q2 Q3. destruct (atb_fill O L true (negb cf) false m n n bW nW pW iW vW 0 nT pT' iT vT WW LW WT LT V2 HV2 RV2 0 (c_ptr c) (c_ind c) (c_val c)) as (ic & jc & vc & E & B & _); auto. exists ic, jc, vc. eexists. split; [exact E|exact B]. }
    assert (MT1 : forall r j, 0 <= r < m -> (In j (map fst (R1 r)) <-> Tst r j)).
    { intros r j Hr. unfold R1. rewrite arow_mem. destruct (windows low m nA bA pA iA idg iu TR FD SO DI r Hr) as (N1 & N2 & N3 & _ & _ & _ & NWd). split.
      - intros (_ & l & q & H1 & H2). destruct (VK r l q Hr H1) as (Hl & _). exists l. split; [exact Hl|]. split; [|exact H2]. unfold G in H1. apply in_app_iff in H1. destruct H1 as [H1|H1]; apply in_map_iff in H1.
        + destruct H1 as (k & E & H1). injection E as E1 E2. apply in_zrange in H1. left. destruct (NWd k ltac:(unfold in_row; lia)) as (Q & _). rewrite E1 in Q. split; [apply Q; lia|]. exists k. fold bA pA iA. unfold in_row. lia.
        + destruct H1 as ((l', k) & E & H1). cbn [fst snd] in E. injection E as -> _. apply (HV1 r Hr) in H1. destruct H1 as (_ & H1 & H3). right. destruct (windows low m nA bA pA iA idg iu TR FD SO DI l Hl) as (_ & _ & _ & T1 & T2 & T3 & TW).
          destruct (TW k ltac:(unfold in_row; lia)) as (_ & Q). rewrite H3 in Q. split; [apply Q; lia|]. exists k. fold bA pA iA. unfold in_row. lia.
      - intros (l & Hl & HB & HW). split; [reflexivity|]. destruct HB as [(HB & k & K1' & K2')|(HB & k & K1' & K2')]; fold bA pA iA in K1', K2'.
        + exists l, k. split; [|exact HW]. unfold G. apply in_app_iff. left. apply in_map_iff. exists k. split; [f_equal; lia|]. apply in_zrange. apply (NWd k K1'). replace (zn iA k - bA) with l by lia. exact HB.
        + exists l, (nA + k). split; [|exact HW]. unfold G. apply in_app_iff. right. apply in_map_iff. exists (l, k). split; [reflexivity|]. apply (HV1 r Hr). split; [exact Hl|]. destruct (windows low m nA bA pA iA idg iu TR FD SO DI l Hl) as (_ & _ & _ & T1 & T2 & T3 & TW).
          split; [|lia]. apply (TW k K1'). replace (zn iA k - bA) with r by lia. exact HB. }
    assert (ST : forall r j, 0 <= r < m -> (stored 0 pT' iT r j <-> Tst r j)).
    { intros r j Hr. rewrite <- (MT1 r j Hr). exact (KT r j Hr). }
    exists nT, nC. split; [lia|]. split; [lia|].
    split; [apply counts_offs; [intros i Hi; apply arow_nodup|exact MT1]|].
    split. { apply counts_offs; [intros i Hi; apply arow_nodup|]. intros i j Hi. unfold R2. rewrite arow_mem. unfold Cst, keep. split.
      - intros (EK & r & q & H1 & H2). split; [lia|]. apply (HV2 i Hi) in H1. destruct H1 as (Hr & H1 & H3). exists r. split; [exact Hr|]. split; [exists q; split; [exact H1|lia]|]. apply (ST r j Hr). exact H2.
      - intros (Hij & r & Hr & (q & H1 & H3) & H2). split; [lia|]. exists r, q. split; [|apply (ST r j Hr); exact H2]. apply (HV2 i Hi). split; [exact Hr|]. split; [exact H1|lia]. }
    cbv zeta.
    assert (RUN : forall rq C, sypr_products O w fz ft cf low rq m n bo bW pW iW vW C = if int_sum_overflow 63 w nT then Some (invalid_size, C) else
      let fill c h :=
            let* (ic, jc, vc, _) := online_atb O true (negb cf) false m n n bW pW iW vW 0 pT' iT vT 0 (c_ptr c) (c_ind c) (c_val c) in
            Some (success, Some (mkHnd (H_m h) (H_n h) (H_nnz h) (upd (H_mats h) 0 (Some (with_arrays c ic jc vc))) (H_sort h) (H_full h) (H_optfull h) (H_optimized h) (H_hints h))) in
          match rq with
          | rq_finalize =>
              match C with
              | Some h => match first_mtx h with Some c => fill c h | None => Some (invalid_value, C) end
              | None => Some (invalid_value, C)
              end
          | _ =>
              let* (ic, nC) := atb_count true m n n bW pW iW vW 0 pT' iT (fz (n + 1)) in
              if int_sum_overflow 63 w nC then Some (invalid_size, None)
              else
                let h := syrk_handle n 0 (-1) nC ic (fz nC) (ft nC) in
                match rq with
                | rq_full => match first_mtx h with Some c => fill c h | None => Some (invalid_value, C) end
                | _ => Some (success, Some h)
                end
          end).
    { intros rq C. unfold sypr_products. rewrite EI. fold bA pA iA vA. rewrite EC1. destruct (int_sum_overflow 63 w nT); [reflexivity|]. replace (nT =? 0) with false by lia. rewrite EF. reflexivity. }
    split; [|split; [|split]].
    - intros EO rq C. rewrite RUN, EO. reflexivity.
    - intros EO1 EO2 rq Hrq. rewrite RUN, EO1. cbv zeta. destruct (CNT (fz (n + 1))) as (ic' & -> & _); [apply Hfz; lia|]. rewrite EO2. destruct rq; try reflexivity. congruence.
    - intros EO1 EO2. split.
      + rewrite RUN, EO1. cbv zeta. destruct (CNT (fz (n + 1))) as (ic' & -> & L1 & L3); [apply Hfz; lia|]. rewrite EO2. eexists. eexists. split; [reflexivity|]. unfold ready, sized. cbn [syrk_handle H_m H_n H_nnz H_mats]. split; [|reflexivity]. split; [reflexivity|]. split; [reflexivity|]. split; [reflexivity|]. cbn [c_m c_n c_doid c_b c_ptr c_ind c_val]. rewrite Hfz, Hft by lia. ands; auto; lia.
      + rewrite RUN, EO1. cbv zeta. destruct (CNT (fz (n + 1))) as (ic' & -> & L1 & L3); [apply Hfz; lia|]. rewrite EO2. cbn [first_mtx syrk_handle H_mats].
        match goal with |- context [with_arrays ?c _ _ _] => destruct (FIL c) as (ic2 & jc2 & vc2 & nz2 & -> & B) end; try (cbn; rewrite ?Hfz, ?Hft by lia; lia).
        destruct (UP (-1) ic2 jc2 vc2 B) as (c & Hc). eexists. exists c. split; [reflexivity|]. split; [exact Hc|reflexivity].
    - intros EO1 h c ((Q1 & Q2 & Q4 & Q5 & Q6 & Q7 & Q8 & Q9 & Q10 & Q11 & _) & Q3). rewrite Q3 in Q10, Q11. rewrite RUN, EO1. cbv zeta. unfold first_mtx. rewrite Q4.
      destruct (FIL c Q9 Q10 Q11) as (ic2 & jc2 & vc2 & nz2 & -> & B). eexists. exists (with_arrays c ic2 jc2 vc2). split; [reflexivity|]. split; [|reflexivity].
      destruct (UP 0 ic2 jc2 vc2 B) as (c' & [U1 U2 U3 U4 U5 U6 U7 U8 U9 U10 U11 U12]). cbn in U3. inversion U3; subst c'. cbn in U4, U5, U6, U7, U8, U9, U10, U11, U12.
      constructor; cbn; rewrite ?Q1, ?Q2, ?Q3, ?Q4, ?Q5, ?Q6, ?Q7, ?Q8; auto.
  Qed.
End P.

(** ** The call *)
Section R.
  Context {T : Type} (O : ops T) (L : laws O) (is_real : bool) (HR : is_real = true -> forall v : T, ocj O v = v).
  Local Notation z := (o0 O).
  Local Infix "*!" := (omul O) (at level 40, left associativity).
  Add Ring TringR : (l_ring L).
  Variables (w : Z) (srt : (Z -> Z -> bool) -> list Z -> list Z) (fz : Z -> list Z) (ft : Z -> list T).
  Hypothesis (Hw : 0 < w <= 63) (Hsrt : sort_contract srt) (Hfz : forall k, 0 <= k -> zlen (fz k) = k) (Hft : forall k, 0 <= k -> zlen (ft k) = k).

  Definition cflip (op : operation) (a : cmat T) : bool := (c_doid a =? gt) && (match op with op_none => true | _ => false end) && negb is_real.
  Definition getW (op : operation) (A : hnd T) (a : cmat T) : option (option (list Z * list Z * list T)) :=
    if negb (if c_doid a =? gt then negb (match op with op_none => true | _ => false end) else match op with op_none => true | _ => false end) then Some (Some (c_ptr a, c_ind a, c_val a))
    else
      let* r := csr2csc (c_m a) (c_n a) (H_nnz A) (c_b a) (c_b a) (Some (c_ptr a)) (Some (c_ind a)) (Some (c_val a))
                  (Some (zrep (H_nnz A) 0)) (Some (zrep (c_n a + 1) 0)) (Some (zrep (H_nnz A) z)) in
      match r with
      | (success, Some cp, Some ri, Some cv) =>
          let* cv := if c_doid a =? gt then Some cv else for_ 0 (H_nnz A) (fun q cv => let* x := rd cv q in wr cv q (ocj O x)) cv in
          Some (Some (cp, ri, cv))
      | _ => Some None
      end.
  Lemma W_ok : forall op (A : hnd T) a, holds A a -> valid_op op = true -> (is_real = false -> op <> op_transpose) ->
    (stored_rows op a = true -> rows_sorted (c_m a) (c_b a) (c_ptr a) (c_ind a)) -> rows_distinct (c_m a) (c_b a) (c_ptr a) (c_ind a) ->
    exists pW iW vW, getW op A a = Some (Some (pW, iW, vW)) /\ csr_wf (cols_of op A) (rows_of op A) (c_nnz a) (c_b a) pW iW /\ zlen vW = c_nnz a /\
      rows_sorted (cols_of op A) (c_b a) pW iW /\ rows_distinct (cols_of op A) (c_b a) pW iW /\
      (forall l i, 0 <= l < cols_of op A -> 0 <= i < rows_of op A -> (stored (c_b a) pW iW l i <-> op_stored op a i l)) /\
      forall l i, 0 <= l < cols_of op A -> 0 <= i < rows_of op A ->
        op_sem O op (hnd_mat O a) i l = cj_if O (negb (cflip op a)) (csr_mat O (c_b a) pW iW vW l i) /\
        ocj O (op_sem O op (hnd_mat O a) i l) = cj_if O (cflip op a) (csr_mat O (c_b a) pW iW vW l i).
  Proof.
    intros op A a HA Ho Hc So Di. destruct (dims_of op A a HA Ho) as (RA & CA).
    assert (UA : arrays_ok a /\ H_nnz A = c_nnz a /\ (c_doid a = gn \/ c_doid a = gt)) by (destruct HA as ((? & ? & _ & _ & ?) & _); intuition). destruct UA as ((WA & _ & LA & BA) & NZ & DA).
    assert (SW : stored_rows op a = swp op (c_doid a)) by (unfold stored_rows, swp; destruct DA as [-> | ->], op; try discriminate; reflexivity). rewrite SW in So.
    pose proof (wf_m _ _ _ _ _ _ WA) as M0. pose proof (wf_n _ _ _ _ _ _ WA) as N0. pose proof (wf_nnz _ _ _ _ _ _ WA) as Z0.
    unfold getW. replace (negb (if c_doid a =? gt then negb (match op with op_none => true | _ => false end) else match op with op_none => true | _ => false end)) with (swp op (c_doid a)) by (unfold swp; destruct DA as [-> | ->], op; try discriminate; reflexivity).
    rewrite RA, CA. destruct (swp op (c_doid a)) eqn:ESW.
    - exists (c_ptr a), (c_ind a), (c_val a). split; [reflexivity|]. split; [exact WA|]. split; [exact LA|]. split; [auto|]. split; [exact Di|]. split.
      { intros l i Hl Hi. rewrite (stored_ents _ (c_m a) (c_n a) (c_nnz a) (c_b a) (c_ptr a) (c_ind a) (c_val a)) by auto. unfold op_stored, stored_at, swp in *. destruct DA as [D|D]; rewrite D in *; destruct op; try discriminate; reflexivity. }
      intros l i Hl Hi. unfold cflip, hnd_mat, stored_as, swp in *. destruct DA as [D|D]; rewrite D in *; destruct op; try discriminate; cbn [gt gn Z.eqb Pos.eqb andb negb op_sem mT mC cj_if];
        destruct is_real; cbn [andb negb cj_if]; unfold mT, mC; rewrite ?HR by reflexivity; rewrite ?(l_cj_cj L); auto; exfalso; apply Hc; reflexivity.
    - rewrite NZ. destruct (csr2csc_ok _ (c_m a) (c_n a) (c_nnz a) (c_b a) (c_b a) (c_ptr a) (c_ind a) (c_val a) (zrep (c_n a + 1) 0) (zrep (c_nnz a) 0) (zrep (c_nnz a) z) BA BA WA LA) as (cp & ri & cv & E1 & W1 & L1 & S2 & X1); try (rewrite zlen_zrep; lia).
      assert (D1 : rows_distinct (c_n a) (c_b a) cp ri).
      { apply (ents_distinct _ (c_n a) (c_m a) (c_nnz a) (c_b a) cp ri cv W1 L1). intros i j Hi Hj. rewrite X1 by auto. apply (distinct_ents _ (c_m a) (c_n a) (c_nnz a)); auto. }
      rewrite E1.
      assert (CV : exists cv', (if c_doid a =? gt then Some cv else for_ 0 (c_nnz a) (fun q cv => let* x := rd cv q in wr cv q (ocj O x)) cv) = Some cv' /\ zlen cv' = c_nnz a /\
        forall k, 0 <= k < c_nnz a -> nthZ z cv' k = cj_if O (negb (c_doid a =? gt)) (nthZ z cv k)).
      { destruct (c_doid a =? gt); cbn [negb cj_if]; [exists cv; auto|].
        destruct (for_inv _ (fun k (v : list T) => zlen v = c_nnz a /\ forall q, 0 <= q < c_nnz a -> nthZ z v q = if q <? k then ocj O (nthZ z cv q) else nthZ z cv q) 0 (c_nnz a) (fun q cv => let* x := rd cv q in wr cv q (ocj O x)) cv) as (cv' & E2 & L2 & H2); auto.
        - split; auto. intros q Hq. replace (q <? 0) with false by lia. reflexivity.
        - intros k v Hk (Lv & Hv). rewrite (rd_nthZ _ z) by lia. rewrite wr_upd by lia. eexists. split; [reflexivity|]. rewrite zlen_upd. split; auto. intros q Hq. rewrite nthZ_upd by lia. destruct (Z.eqb_spec q k) as [->|Ne].
          + replace (k <? k + 1) with true by lia. rewrite Hv by lia. replace (k <? k) with false by lia. reflexivity.
          + rewrite Hv by lia. replace (q <? k + 1) with (q <? k) by lia. reflexivity.
        - exists cv'. split; auto. split; auto. intros k Hk. rewrite H2 by lia. replace (k <? c_nnz a) with true by lia. reflexivity. }
      destruct CV as (cv' & -> & L2 & H2).
      assert (M1 : forall r i, 0 <= r < c_n a -> 0 <= i < c_m a -> csr_mat O (c_b a) cp ri cv' r i = cj_if O (negb (c_doid a =? gt)) (csr_mat O (c_b a) (c_ptr a) (c_ind a) (c_val a) i r)).
      { intros r i Hr Hi. transitivity (cj_if O (negb (c_doid a =? gt)) (csr_mat O (c_b a) cp ri cv r i)); [|unfold csr_mat; rewrite X1 by lia; reflexivity].
        destruct (row_bounds _ _ _ _ _ _ r W1 Hr) as (_ & _ & B1 & B2 & B3). unfold csr_mat at 2. rewrite <- (cj_if_sum O L). rewrite <- (filter_ents O L (c_nnz a)) by auto.
        unfold csr_mat. rewrite <- (filter_ents O L (c_nnz a) (c_b a) cp ri cv' (fun v => v)) by auto. apply suml_ext. intros k Hk. apply filter_In in Hk. destruct Hk as (Hk & _). apply in_zrange in Hk. apply H2. lia. }
      exists cp, ri, cv'. split; [reflexivity|]. split; [exact W1|]. split; [exact L2|]. split; [exact S2|]. split; [exact D1|]. split.
      { intros l i Hl Hi. rewrite (stored_ents _ (c_n a) (c_m a) (c_nnz a) (c_b a) cp ri cv) by auto. rewrite X1 by auto. unfold op_stored, stored_at, swp in *. destruct DA as [D|D]; rewrite D in *; destruct op; try discriminate; reflexivity. }
      intros l i Hl Hi. rewrite M1 by auto. unfold cflip, hnd_mat, stored_as, swp in *. destruct DA as [D|D]; rewrite D in *; destruct op; try discriminate; cbn [gt gn Z.eqb Pos.eqb andb negb op_sem cj_if]; unfold mT, mC;
        destruct is_real; cbn [andb negb cj_if]; rewrite ?HR by reflexivity; rewrite ?(l_cj_cj L); auto; exfalso; apply Hc; reflexivity.
  Qed.

  Lemma triple_F : forall op (A : hnd T) a low M bW pW iW vW i j, 0 <= i < rows_of op A -> 0 <= j < rows_of op A ->
    (forall l i, 0 <= l < cols_of op A -> 0 <= i < rows_of op A ->
        op_sem O op (hnd_mat O a) i l = cj_if O (negb (cflip op a)) (csr_mat O bW pW iW vW l i) /\
        ocj O (op_sem O op (hnd_mat O a) i l) = cj_if O (cflip op a) (csr_mat O bW pW iW vW l i)) ->
    sumz O 0 (cols_of op A) (fun r => cj_if O (negb (cflip op a)) (csr_mat O bW pW iW vW r i) *! sumz O 0 (cols_of op A) (fun l => herm O low M r l *! cj_if O (cflip op a) (csr_mat O bW pW iW vW l j)))
    = triple O op (cols_of op A) a (herm O low M) i j.
  Proof.
    intros op A a low M bW pW iW vW i j Hi Hj H. unfold triple. set (m := cols_of op A) in *.
    transitivity (sumz O 0 m (fun r => sumz O 0 m (fun l => op_sem O op (hnd_mat O a) i r *! herm O low M r l *! ocj O (op_sem O op (hnd_mat O a) j l)))).
    { apply sumz_ext. intros r Hr. rewrite <- (sumz_mul_l O L). apply sumz_ext. intros l Hl. destruct (H r i Hr Hi) as (<- & _). destruct (H l j Hl Hj) as (_ & <-). ring. }
    rewrite (sumz_swap O L). apply sumz_ext. intros q Hq. rewrite <- (sumz_mul_r O L). reflexivity.
  Qed.

  (** The matrix described by [d] *)
  Lemma herm_sem : forall d b, c_doid b = gn -> d_type d = (if is_real then mt_symmetric else mt_hermitian) -> forall i j,
    herm O (match d_fill d with fm_lower => true | _ => false end) (csr_mat O (c_b b) (c_ptr b) (c_ind b) (c_val b)) i j = descr_sem O (d_type d) (d_fill d) (hnd_mat O b) i j.
  Proof.
    intros d b D Ty i j. unfold hnd_mat, stored_as. rewrite D, Ty. cbn [gn gt Z.eqb]. destruct is_real; unfold herm, half; destruct (d_fill d); cbn [descr_sem]; unfold mSL, mSU, mHL, mHU.
    all: try reflexivity.
    all: rewrite ?HR by reflexivity; reflexivity.
  Qed.

  (** Positions stored in the two products, in terms of the user's matrices *)
  Definition lowf (d : descr) : bool := match d_fill d with fm_lower => true | _ => false end.
  Definition Bpos (d : descr) (b : cmat T) (r l : Z) : Prop := r = l \/ strict (lowf d) r l = true /\ centries b r l <> [] \/ strict (lowf d) l r = true /\ centries b l r <> [].
  Definition Tpos (op : operation) (m n : Z) (d : descr) (a b : cmat T) (r j : Z) : Prop := 0 <= j < n /\ exists l, 0 <= l < m /\ Bpos d b r l /\ op_stored op a j l.
  Definition Cpos (op : operation) (m n : Z) (d : descr) (a b : cmat T) (i j : Z) : Prop := i <= j /\ exists r, 0 <= r < m /\ op_stored op a i r /\ Tpos op m n d a b r j.
  Definition quickf (op : operation) (A B : hnd T) : bool := (H_m B =? 0) || (rows_of op A =? 0) || (H_nnz A =? 0) || (H_nnz B =? 0).
  Definition sizes (op : operation) (A : hnd T) (a : cmat T) (B : hnd T) (b : cmat T) (d : descr) (nC : Z) (over : bool) : Prop :=
    if quickf op A B then nC = 0 /\ over = false
    else exists nT, counts (H_m B) (Tpos op (H_m B) (rows_of op A) d a b) nT /\ counts (rows_of op A) (Cpos op (H_m B) (rows_of op A) d a b) nC /\
      over = int_sum_overflow 63 w nT || int_sum_overflow 63 w nC.
  Lemma sizes_unique : forall op A a A' a' B b B' b' d n1 o1 n2 o2, valid_op op = true -> H_m B = H_n B -> cols_of op A = H_m B -> same_pattern A a A' a' -> same_pattern B b B' b' -> c_doid b = gn -> c_doid b' = gn ->
    sizes op A a B b d n1 o1 -> sizes op A' a' B' b' d n2 o2 -> n1 = n2 /\ o1 = o2.
  Proof.
    intros op A a A' a' B b B' b' d n1 o1 n2 o2 Ho Hsq Hdim (A1 & A2 & A3 & A4) (B1 & B2 & B3 & B4) Db Db' S1 S2. unfold sizes, quickf in *.
    assert (RO : rows_of op A' = rows_of op A) by (unfold rows_of; destruct op; congruence). rewrite RO, A3, B1, B3 in S2. set (m := H_m B) in *. set (n := rows_of op A) in *.
    destruct ((m =? 0) || (n =? 0) || (H_nnz A =? 0) || (H_nnz B =? 0)); [lia|].
    assert (AP : forall i l, 0 <= i < n -> 0 <= l < m -> (op_stored op a' i l <-> op_stored op a i l)).
    { intros i l Hi Hl. unfold n, rows_of, cols_of in *. unfold op_stored. destruct op; try discriminate; apply A4; lia. }
    assert (BP : forall r l, 0 <= r < m -> 0 <= l < m -> (Bpos d b' r l <-> Bpos d b r l)).
    { intros r l Hr Hl. rewrite <- Hsq in B4. pose proof (B4 r l Hr Hl) as Q1. pose proof (B4 l r Hl Hr) as Q2. unfold stored_at in Q1, Q2. rewrite Db, Db' in Q1, Q2. cbn [gn gt Z.eqb] in Q1, Q2. unfold Bpos. tauto. }
    assert (TP : forall r j, 0 <= r < m -> (Tpos op m n d a' b' r j <-> Tpos op m n d a b r j)).
    { intros r j Hr. unfold Tpos. split; intros (Hj & l & Hl & Q1 & Q2); (split; [exact Hj|]); exists l; (split; [exact Hl|]); (split; [apply BP; auto|apply AP; auto]). }
    destruct S1 as (t1 & T1 & C1 & ->). destruct S2 as (t2 & T2 & C2 & ->).
    assert (t1 = t2) as ->. { apply (counts_unique _ _ _ _ _ (fun r j Hr => iff_sym (TP r j Hr)) T1 T2). }
    assert (n1 = n2) as ->; [|auto]. refine (counts_unique _ _ _ _ _ _ C1 C2). intros i j Hi. unfold Cpos. split; intros (Hij & r & Hr & Q1 & Q2); (split; [exact Hij|]); exists r; (split; [exact Hr|]); (split; [apply AP; auto|apply TP; auto]).
  Qed.
  Lemma counts_ext : forall k P P' c, (forall i j, 0 <= i < k -> (P i j <-> P' i j)) -> counts k P c -> counts k P' c.
  Proof. intros k P P' c H (R & HRc & ->). exists R. split; [|reflexivity]. intros i Hi. destruct (HRc i Hi) as (Q1 & Q2). split; [exact Q1|]. intros j. rewrite Q2. apply H. exact Hi. Qed.

  Lemma sypr_run : forall op (A : hnd T) a B b d, sypr_call z is_real op A a B b d ->
    let m := H_m B in let n := rows_of op A in let F := triple O op m a (descr_sem O (d_type d) (d_fill d) (hnd_mat O b)) in
    let run rq C := sypr O is_real w srt fz ft op (Some A) (Some B) (Some d) rq (Some C) in
    exists B' b', sypr_call z is_real op A a B' b' d /\ same_data b b' /\
    exists nC over, sizes op A a B b d nC over /\ (over = true -> int_max w < n * Z.max m n) /\
      (over = true -> forall rq C, rq = rq_full \/ rq = rq_count -> run rq C = Some (invalid_size, Some B', None)) /\
      (over = false ->
        (forall C0, exists C c, run rq_full C0 = Some (success, Some B', Some C) /\ upper_result O n 0 F C c /\ H_nnz C = nC) /\
        (forall C0, exists C c, run rq_count C0 = Some (success, Some B', Some C) /\ sized n C c /\ H_nnz C = nC)) /\
      (over = false -> forall C c, sized n C c -> H_nnz C = nC -> exists C' c', run rq_finalize (Some C) = Some (success, Some B', Some C') /\ upper_result O n 0 F C' c' /\ H_nnz C' = nC).
  Proof.
    intros op A a B b d HC m n F run. destruct HC as [HA Ho Hc HB DB Hbase Hty Hdg Hsq Hdim HsA SA DA HsB SB DiB].
    destruct (dims_of op A a HA Ho) as (RA & CA).
    assert (UA : arrays_ok a /\ H_nnz A = c_nnz a /\ (c_doid a = gn \/ c_doid a = gt)) by (destruct HA as ((? & ? & _ & _ & ?) & _); intuition). destruct UA as ((WA & _ & LA & BA) & NZ & DO).
    assert (MA : first_mtx A = Some a) by (unfold first_mtx; destruct HA as (_ & rest & ->); reflexivity).
    assert (MB : first_mtx B = Some b) by (unfold first_mtx; destruct HB as (_ & rest & -> & _); reflexivity).
    pose proof HB as (UB & _). destruct UB as (AB & NB & MDB & DVB & DIMB). pose proof AB as (WB & UBd & LB & BB).
    assert (DIM : c_m b = m /\ c_n b = m). { unfold m. destruct DIMB as [(_ & Q1 & Q2)|(Q & _)]; [lia|rewrite DB in Q; discriminate]. } destruct DIM as (Dm & Dn).
    assert (SW : stored_rows op a = swp op (c_doid a)) by (unfold stored_rows, swp; destruct DO as [-> | ->], op; try discriminate; reflexivity).
    set (low := match d_fill d with fm_lower => true | _ => false end).
    set (quick := (m =? 0) || (n =? 0) || (H_nnz A =? 0) || (H_nnz B =? 0)).
    assert (RUN : forall rq C, rq <> rq_other -> run rq C =
      let C := match rq with rq_finalize => C | _ => None end in
      if match rq with
         | rq_finalize => match C with
                          | Some h => match first_mtx h with Some _ => negb (H_m h =? n) || negb (H_n h =? n) | None => true end
                          | None => true
                          end
         | _ => false
         end then Some (invalid_value, Some B, C)
      else if quick then
        Some (success, Some B, match C with Some h => Some h | None => Some (syrk_handle n 0 0 0 (zrep (n + 1) 0) (fz 0) (ft 0)) end)
      else
        let* W := getW op A a in
        match W with
        | None => Some (memory_error, Some B, C)
        | Some (pW, iW, vW) =>
            let* (st, hB', bo) := csr_csc_optimize O srt fz ft B in
            match st, bo with
            | success, Some i =>
                match rd (H_mats hB') i with
                | Some (Some bo) =>
                    let* (st, C) := sypr_products O w fz ft (cflip op a) low rq m n bo (c_b a) pW iW vW C in
                    Some (st, Some hB', C)
                | _ => Some (internal_error, Some hB', C)
                end
            | success, None => Some (internal_error, Some hB', C)
            | st, _ => Some (st, Some hB', C)
            end
        end).
    { intros rq C Hrq. unfold run, sypr. replace (match rq with rq_other => true | _ => false end) with false by (destruct rq; congruence). rewrite Ho, MA, MB. cbn [negb]. cbv zeta.
      replace (negb (c_doid a =? gt) && negb (c_doid a =? gn)) with false by (destruct DO as [-> | ->]; reflexivity). rewrite DB. cbn [gn Z.eqb negb].
      replace (negb is_real && match op with op_transpose => true | _ => false end) with false by (destruct is_real; [reflexivity|]; destruct op; try reflexivity; exfalso; apply (Hc eq_refl eq_refl)).
      replace (c_b b =? d_base d) with true by (clear - Hbase; lia). cbn [negb].
      replace (negb (if is_real then match d_type d with mt_symmetric => true | _ => false end else match d_type d with mt_hermitian => true | _ => false end)) with false by (rewrite Hty; destruct is_real; reflexivity).
      rewrite Hdg. replace (H_m B =? H_n B) with true by (clear - Hsq; lia). cbn [negb].
      replace (H_m B =? (if match op with op_none => true | _ => false end then H_n A else H_m A)) with true by (clear - Hdim; unfold cols_of in Hdim; destruct op; lia). cbn [negb].
      replace (negb ((c_b a =? 0) || (c_b a =? 1))) with false by (clear - BA; lia).
      replace (if match op with op_none => true | _ => false end then H_m A else H_n A) with n by (unfold n, rows_of; destruct op; reflexivity).
      rewrite HsB. cbn [negb orb]. rewrite orb_false_r.
      replace (negb match H_sort A with fully_sorted => true | _ => false end && negb (if c_doid a =? gt then negb match op with op_none => true | _ => false end else match op with op_none => true | _ => false end)) with false; [reflexivity|].
      destruct (stored_rows op a) eqn:Q.
      - rewrite (HsA eq_refl). reflexivity.
      - symmetry. apply andb_false_iff. right. unfold stored_rows in Q. destruct op, (c_doid a =? gt); try discriminate; reflexivity. }
    assert (M0 : 0 <= m) by (rewrite <- Dm; apply WB). assert (N0 : 0 <= n) by (unfold n; rewrite RA; destruct (swp op (c_doid a)); apply WA).
    destruct quick eqn:EQ.
    { exists B, b. split; [constructor; auto|]. split; [unfold same_data; tauto|]. exists 0, false. split; [unfold sizes, quickf; fold m n quick; rewrite EQ; auto|]. split; [discriminate|]. split; [discriminate|].
      assert (FZ : forall i j, 0 <= i < n -> 0 <= j < n -> F i j = z).
      { intros i j Hi Hj. unfold F, triple. apply (sumz_zero O L). intros q Hq. unfold quick in EQ.
        assert (Q : c_nnz a = 0 \/ c_nnz b = 0) by (clear - EQ Hq Hi NZ NB; lia). destruct Q as [Q|Q].
        - assert (X : forall p q, 0 <= p < c_m a -> csr_mat O (c_b a) (c_ptr a) (c_ind a) (c_val a) p q = z) by (intros p q' Hp; apply (no_entries O is_real HR (c_m a) (c_n a) (c_nnz a)); auto).
          rewrite (sumz_zero O L 0 m (fun l => op_sem O op (hnd_mat O a) i l *! _)); [ring|]. intros l Hl.
          assert (Y : op_sem O op (hnd_mat O a) i l = z).
          { rewrite <- (sem_of O is_real HR op a i l DO Ho). unfold n in Hi. fold m in Hdim. rewrite RA, CA in *. destruct (swp op (c_doid a)); rewrite X by (clear - Hi Hl Hdim; lia); unfold cjh; destruct (cjf is_real op); auto; apply (cj_0 O L). }
          rewrite Y. ring.
        - assert (X : forall p q, 0 <= p < m -> csr_mat O (c_b b) (c_ptr b) (c_ind b) (c_val b) p q = z) by (intros p q' Hp; apply (no_entries O is_real HR (c_m b) (c_n b) (c_nnz b)); auto; clear - Hp Dm; lia).
          rewrite (sumz_zero O L 0 m (fun l => op_sem O op (hnd_mat O a) i l *! _)); [ring|]. intros l Hl.
          rewrite <- (herm_sem d b DB Hty). unfold herm. destruct (half _ l q); rewrite X by (clear - Hl Hq; lia); [ring|]. rewrite (cj_0 O L). ring. }
      assert (EMP : forall c h, H_m h = n -> H_n h = n -> H_nnz h = 0 -> H_mats h = [Some c] -> c_m c = n -> c_n c = n -> c_doid c = gn -> c_b c = 0 -> zlen (c_ptr c) = n + 1 -> (forall i, 0 <= i <= n -> zn (c_ptr c) i = 0) -> upper_result O n 0 F h c).
      { intros c h Q1 Q2 Q3 Q4 Q5 Q6 Q7 Q8 Q9 Q10.
        assert (B0 : built O n 0 (fun _ => []) (c_ptr c) (c_ind c) (c_val c)).
        { assert (OZ : forall i, offs (fun _ : Z => @nil (Z * T)) i = 0) by (intros i; unfold offs; now apply (sumz_zero Zops Zlaws)). unfold built.
          split; [exact Q9|split; [intros i Hi; rewrite OZ, Q10 by (clear - Hi; lia); reflexivity|split; [rewrite OZ; apply zlen_nonneg|split; [rewrite OZ; apply zlen_nonneg|intros i Hi; rewrite !OZ; reflexivity]]]]. }
        destruct (built_upper O L n 0 0 (fun _ => []) F _ _ _ N0 B0) as (c' & [U1 U2 U3 U4 U5 U6 U7 U8 U9 U10 U11 U12]).
        - intros i p Hi [].
        - intros i Hi. constructor.
        - intros i j Hij Hj. rewrite FZ by (clear - Hij Hj; lia). reflexivity.
        - replace (offs (fun _ : Z => @nil (Z * T)) n) with 0 in * by (unfold offs; symmetry; now apply (sumz_zero Zops Zlaws)).
          cbn in U3. inversion U3; subst c'. cbn in U8, U9, U10, U11, U12. constructor; rewrite ?Q3, ?Q8; auto. }
      split; [|].
      - intros _. split; intros C0.
        + rewrite RUN by discriminate. cbv beta iota zeta. eexists. eexists. split; [reflexivity|]. split; [|reflexivity]. apply EMP; try reflexivity; cbn [c_ptr]; [apply zlen_zrep; clear - N0; lia|intros i Hi; apply nthZ_zrep; clear - Hi; lia].
        + rewrite RUN by discriminate. cbv beta iota zeta. eexists. eexists. split; [reflexivity|]. split; [|reflexivity]. unfold sized. cbn [syrk_handle H_m H_n H_mats H_nnz]. split; [reflexivity|]. split; [reflexivity|]. split; [reflexivity|].
          cbn [c_m c_n c_doid c_b c_ptr c_ind c_val]. rewrite Hfz, Hft by (clear; lia). do 4 (split; [reflexivity|]). split; [apply zlen_zrep; clear - N0; lia|]. split; [reflexivity|]. split; [reflexivity|]. intros i Hi. rewrite nthZ_zrep by (clear - Hi; lia). clear; lia.
      - intros _ C c SZ NZC. rewrite RUN by discriminate. cbv beta iota zeta. destruct SZ as (Q1 & Q2 & Q3 & Q4 & Q5 & Q6 & Q7 & Q8 & Q9 & Q10 & Q11). unfold first_mtx. rewrite Q3. replace (negb (H_m C =? n) || negb (H_n C =? n)) with false by (clear - Q1 Q2; lia).
        exists C, c. split; [reflexivity|]. split; [|exact NZC]. apply EMP; auto. intros i Hi. specialize (Q11 i Hi). clear - Q11 NZC; lia. }
    destruct (W_ok op A a HA Ho Hc SA DA) as (pW & iW & vW & EW & WW & LW & SWW & DWW & STW & SEM). rewrite Hdim in *. fold m n in WW, SWW, DWW, STW, SEM.
    destruct (optimize_ok O srt fz ft Hsrt Hfz Hft B b HB (or_intror DiB)) as (B' & i & bo & b' & E & HOK' & SD & D1 & D2 & D3 & D4 & Rc & Oc & OR & AC & SE & MD & _ & HH).
    destruct (optimize_sorted O srt fz ft Hfz Hft B b B' i bo HB SB E Rc) as (SBo & SB' & HS').
    pose proof SD as (S1 & S2 & S3 & S4 & S5 & S6 & S7 & S8).
    assert (Em : c_m bo = m /\ c_n bo = m) by (destruct SE as (-> & -> & _); auto). destruct Em as (Em & En).
    pose proof (distinct_copy O b bo AB AC SE DiB) as DBo.
    pose proof (same_entries_mat O L b bo AB AC SE) as ME.
    assert (NW : 0 < c_nnz a) by (pose proof (wf_nnz _ _ _ _ _ _ WA) as Q; unfold quick in EQ; clear - Q EQ NZ; lia).
    assert (FE : forall i j, 0 <= i < n -> 0 <= j < n -> Fpr O low (cflip op a) m bo (c_b a) pW iW vW i j = F i j).
    { intros p q Hp Hq. unfold Fpr, F. pose proof (triple_F op A a low (csr_mat O (c_b bo) (c_ptr bo) (c_ind bo) (c_val bo)) (c_b a) pW iW vW p q Hp Hq) as TF. rewrite Hdim in TF. fold m in TF. rewrite TF by exact SEM.
      unfold triple. apply sumz_ext. intros x Hx. f_equal. apply sumz_ext. intros y Hy. f_equal. rewrite <- (herm_sem d b DB Hty). fold low. unfold herm. rewrite !ME. reflexivity. }
    assert (UF : forall h c, upper_result O n 0 (Fpr O low (cflip op a) m bo (c_b a) pW iW vW) h c -> upper_result O n 0 F h c).
    { intros h c [U1 U2 U3 U4 U5 U6 U7 U8 U9 U10 U11 U12]. constructor; auto. intros p q Hp Hq. rewrite U12 by auto. apply FE; clear - Hp Hq; lia. }
    destruct (products_ok O L w fz ft Hw Hfz Hft low (cflip op a) m n bo (c_nnz a) (c_b a) pW iW vW Em En AC OR SBo DBo WW LW SWW DWW NW) as (nT & nC & BT & BC & CT & CC & P1 & P2 & P3 & P4). cbv zeta in P1, P2, P3, P4.
    exists B', b'. split.
    { constructor; auto; try congruence. rewrite S1, S5, S6, S7. exact DiB. }
    split; [exact SD|]. exists nC, (int_sum_overflow 63 w nT || int_sum_overflow 63 w nC).
    assert (BE : forall r l, 0 <= r < m -> 0 <= l < m -> (Bst low bo r l <-> Bpos d b r l)).
    { intros r l Hr Hl. assert (SB1 : forall x y, 0 <= x < m -> (stored (c_b bo) (c_ptr bo) (c_ind bo) x y <-> centries b x y <> [] \/ x = y)).
      { intros x y Hx. destruct AC as (WC & _ & LC & _). rewrite (stored_ents _ (c_m bo) (c_n bo) (c_nnz bo) (c_b bo) (c_ptr bo) (c_ind bo) (c_val bo)) by (auto; rewrite Em; exact Hx).
        destruct SE as (_ & _ & _ & SE). change (ents (c_b bo) (c_ptr bo) (c_ind bo) (c_val bo) x y) with (centries bo x y). rewrite SE by (rewrite Dm; exact Hx). rewrite Dn. destruct (centries b x y) as [|v vs].
        - destruct (Z.eqb_spec x y) as [->|Ne]; [replace (y <? m) with true by (clear - Hx; lia); cbn [andb]; split; [auto|intros _; discriminate]|cbn [andb]; split; [congruence|intros [Q|Q]; [exact Q|congruence]]].
        - split; [auto|intros _; discriminate]. }
      unfold Bst, Bpos, lowf. fold low. rewrite !SB1 by auto. unfold half, strict. destruct low; destruct (Z.eq_dec r l) as [->|Ne]; split; intros Q; (destruct Q as [Q|Q]; [|try destruct Q as [Q|Q]]); try (destruct Q as (Q1 & [Q2|Q2])); try (destruct Q as (Q1 & Q2)); subst; try (exfalso; clear - Q1 Q2; lia); try (exfalso; clear - Q1; lia); try (left; reflexivity); try congruence;
        try (left; split; [clear - Q1; lia|auto]; fail); try (right; left; split; [clear - Q1 Ne; lia|auto]; fail); try (right; right; split; [clear - Q1 Ne; lia|auto]; fail); try (right; split; [clear - Q1 Ne; lia|auto]; fail); try (left; split; [clear; lia|right; reflexivity]). }
    assert (JW : forall l j, 0 <= l < m -> stored (c_b a) pW iW l j -> 0 <= j < n).
    { intros l j Hl (k & K1 & K2). destruct (row_bounds _ _ _ _ _ _ l WW Hl) as (_ & _ & Q1 & Q2 & Q3). pose proof (wf_ind _ _ _ _ _ _ WW k) as Q. unfold in_row in K1. clear - Q K1 K2 Q1 Q2 Q3. lia. }
    assert (TE : forall r j, 0 <= r < m -> (Tst low m bo (c_b a) pW iW r j <-> Tpos op m n d a b r j)).
    { intros r j Hr. unfold Tst, Tpos. split.
      - intros (l & Hl & Q1 & Q2). pose proof (JW l j Hl Q2) as Hj. split; [exact Hj|]. exists l. split; [exact Hl|]. split; [apply BE; auto|apply STW; auto].
      - intros (Hj & l & Hl & Q1 & Q2). exists l. split; [exact Hl|]. split; [apply BE; auto|apply STW; auto]. }
    split.
    { unfold sizes, quickf. fold m n quick. rewrite EQ. exists nT. split; [exact (counts_ext _ _ _ _ TE CT)|]. split; [|reflexivity]. refine (counts_ext _ _ _ _ _ CC). intros p q Hp. unfold Cst, Cpos.
      split; intros (Hij & r & Hr & Q1 & Q2); (split; [exact Hij|]); exists r; (split; [exact Hr|]); (split; [apply STW; auto|apply TE; auto]). }
    assert (GO : forall rq C, rq <> rq_other -> (rq = rq_finalize -> exists h, C = Some h /\ exists c, sized n h c) -> run rq C = let* (st, C) := sypr_products O w fz ft (cflip op a) low rq m n bo (c_b a) pW iW vW (match rq with rq_finalize => C | _ => None end) in Some (st, Some B', C)).
    { intros rq C Hrq HF. rewrite RUN by auto. cbv zeta. rewrite EW, E, Rc. destruct rq; try reflexivity. destruct (HF eq_refl) as (h & -> & c & (Q1 & Q2 & Q3 & _)). unfold first_mtx. rewrite Q3. replace (negb (H_m h =? n) || negb (H_n h =? n)) with false by (clear - Q1 Q2; lia). reflexivity. }
    split; [|split; [|split]].
    - intros EO. unfold int_sum_overflow in EO. destruct (w <? 63); [|discriminate]. clear - EO BT BC N0 M0. nia.
    - intros EO rq C Hrq. rewrite GO; [|destruct Hrq; congruence|destruct Hrq; congruence]. apply orb_true_iff in EO. destruct (int_sum_overflow 63 w nT) eqn:E1.
      + rewrite (P1 eq_refl). destruct Hrq as [-> | ->]; reflexivity.
      + destruct EO as [EO|EO]; [discriminate|]. pose proof (P2 eq_refl EO rq ltac:(destruct Hrq; congruence)) as Q. destruct Hrq as [-> | ->]; rewrite Q; reflexivity.
    - intros EO. apply orb_false_iff in EO. destruct EO as (E1 & E2). destruct (P3 E1 E2) as ((h1 & c1 & Q1 & Q2 & Q2') & (h2 & c2 & Q3 & Q4 & Q4')). split; intros C0.
      + rewrite GO by discriminate. rewrite Q3. exists h2, c2. split; [reflexivity|]. split; [apply UF; exact Q4|exact Q4'].
      + rewrite GO by discriminate. rewrite Q1. exists h1, c1. split; [reflexivity|]. split; [exact Q2|exact Q2'].
    - intros EO C c SZ NZC. apply orb_false_iff in EO. destruct EO as (E1 & E2). rewrite GO; [|discriminate|eauto]. destruct (P4 E1 C c (conj SZ NZC)) as (C' & c' & Q1 & Q2 & Q3). rewrite Q1. exists C', c'. split; [reflexivity|]. split; [apply UF; exact Q2|]. clear - Q3 NZC; lia.
  Qed.
End R.
