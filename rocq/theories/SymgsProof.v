From Coq Require Import ZArith List Bool Lia ZifyBool Ring Permutation.
From Verif Require Import Base BaseFacts Algebra DoidModel DoidSpec Csr CsrFacts CheckModel SortSpec MvModel MvSpec MvFacts CsrmvModel HandleModel HandleSpec HandleFacts OptProof MvHandleProof
  TrsvModel TrsvSpec TrsvHandleProof SymgsModel SymgsSpec.
Import ListNotations.
Open Scope Z_scope.

Section P.
  Context {T : Type} (O : ops T) (L : laws O) (HD : div_law O).
  Let rth := l_ring L.
  Add Ring TrG : rth.
  Local Notation zero := (o0 O).
  Local Notation tn := (nthZ zero).
  Variable srt : (Z -> Z -> bool) -> list Z -> list Z.
  Variables (fz : Z -> list Z) (ft : Z -> list T).
  Hypothesis Hsrt : sort_contract srt.
  Hypothesis Hfz : forall z, 0 <= z -> zlen (fz z) = z.
  Hypothesis Hft : forall z, 0 <= z -> zlen (ft z) = z.
  Variables (sup : Z -> bool) (dt : dtype) (mvc : Z -> option Z) (nthreads : Z) (team : list Z) (tsc : Z -> option Z) (w : Z).
  Hypothesis Hsup : sup 1 = true.
  Hypothesis Hteam : nthreads <= 1 \/ Permutation team (zrange 0 nthreads).
  Hypothesis Hreal : is_cplx dt = false -> forall a, ocj O a = a.
  Hypothesis Hmvc : forall k, mvc k <> None.
  Hypothesis Htsc : tsc (-1) <> None.

  Lemma same_data_trans : forall a b c : cmat T, same_data a b -> same_data b c -> same_data a c.
  Proof. unfold same_data. intros a b c H1 H2. ands; destruct H1 as (?&?&?&?&?&?&?&?), H2 as (?&?&?&?&?&?&?&?); congruence. Qed.
  Lemma same_data_mat : forall u u' : cmat T, same_data u u' -> hnd_mat O u' = hnd_mat O u.
  Proof. intros u u' (E1 & E2 & E3 & E4 & E5 & E6 & E7 & E8). unfold hnd_mat. now rewrite E4, E5, E6, E7, E8. Qed.
  Lemma same_data_sortable : forall u u' : cmat T, same_data u u' -> sortable u -> sortable u'.
  Proof. intros u u' (E1 & E2 & E3 & E4 & E5 & E6 & E7 & E8). unfold sortable. now rewrite E1, E5, E6, E7. Qed.

  Section U.
    Variables (u0 : cmat T) (m nnz0 : Z).
    Hypothesis (Hm : 0 < m <= 2 ^ w - 1) (Hw : 0 < w) (Hz : 0 < nnz0).
    Hypothesis HS : sortable u0.
    Hypothesis HC : tsc (-1) = Some 0 \/ rows_distinct (c_m u0) (c_b u0) (c_ptr u0) (c_ind u0).
    Hypothesis HF : full_diag (c_m u0) (c_n u0) (c_b u0) (c_ptr u0) (c_ind u0).
    Hypothesis NZ : forall i, 0 <= i < m -> hnd_mat O u0 i i <> zero.
    Definition stH (h : hnd T) : Prop := exists u, hnd_ok zero h u /\ diag_flag_ok h u /\ same_data u0 u /\ H_m h = m /\ H_n h = m /\ H_nnz h = nnz0.

    Lemma one_nz : o1 O <> zero.
    Proof. intros E. apply (NZ 0); [lia|]. transitivity (omul O (o1 O) (hnd_mat O u0 0 0)); [ring|]. rewrite E. ring. Qed.

    Lemma smv_ok : forall h d op alpha x y, stH h -> d_base d = c_b u0 -> valid_op op = true ->
      declined dt (d_type d) op (c_doid u0) = false ->
      d_type d = mt_triangular /\ d_diag d <> dg_unit \/ d_diag d = dg_non_unit /\ (d_type d = mt_hermitian -> is_cplx dt = true /\ real_diag O (hnd_mat O u0)) ->
      zlen x = m -> zlen y = m ->
      exists y' h', smv O srt fz ft sup dt mvc nthreads team op alpha h d x zero y = Some (success, y', h') /\ stH h' /\ zlen y' = m /\
        forall i, 0 <= i < m -> tn y' i = omul O alpha (rowx O m (op_sem O op (described O (d_type d) (d_fill d) (d_diag d) (hnd_mat O u0))) x i).
    Proof.
      intros h d op alpha x y (u & HOK & FL & SD & D1 & D2 & D3) Hb Hop Hdc Hty Lx Ly. pose proof SD as (S1 & S2 & S3 & S4 & S5 & S6 & S7 & S8).
      unfold smv. pose proof (same_data_mat _ _ SD) as ME.
      destruct (mv_handle_flag O L srt fz ft Hsrt Hfz Hft sup Hsup dt mvc nthreads team Hteam Hreal h u d op alpha zero x y HOK) as (st & yr & h' & u' & E & E1 & E2 & E3 & E4 & E5 & E6 & E7 & R).
      - constructor; auto; try congruence.
        + intros Q. destruct Hty as [(Q' & _)|(_ & Q')]; [congruence|]. now apply Q'.
        + intros Q _. destruct Hty as [(Q' & _)|(_ & Q')]; [congruence|]. rewrite ME. now apply Q'.
        + intros Q. destruct Hty as [(Q' & _)|(Q' & _)]; [congruence|auto].
        + intros _. eapply same_data_sortable; eauto.
        + intros _ _. pose proof HOK as (UM & _). unfold user_mat in UM. lia.
        + intros _ Q Q'. destruct Hty as [(_ & Q2)|(Q2 & _)]; congruence.
      - destruct op; lia.
      - destruct op; lia.
      - rewrite E. destruct R as [(-> & y' & -> & Ly' & R)|[(-> & -> & (k & K))|(-> & -> & K)]].
        + exists y', h'. split; [reflexivity|]. split.
          * exists u'. ands; auto; try congruence. eapply same_data_trans; eauto.
          * replace (match op with op_none => H_m h | _ => H_n h end) with m in * by (destruct op; lia).
            replace (match op with op_none => H_n h | _ => H_m h end) with m in * by (destruct op; lia).
            split; auto. intros i Hi. rewrite R by auto. rewrite ME. unfold rowx. ring.
        + exfalso. exact (Hmvc k K).
        + rewrite S4 in K. congruence.
    Qed.

    Lemma strsv_ok : forall h d op rhs x, stH h -> d_base d = c_b u0 -> valid_op op = true -> d_type d = mt_triangular -> d_diag d = dg_non_unit ->
      zlen x = m -> zlen rhs = m ->
      exists x' h', strsv O srt fz ft dt tsc w op (o1 O) h d rhs x = Some (success, x', h') /\ stH h' /\ zlen x' = m /\
        forall i, 0 <= i < m -> rowx O m (op_sem O op (described O mt_triangular (d_fill d) (d_diag d) (hnd_mat O u0))) x' i = tn rhs i.
    Proof.
      intros h d op rhs x (u & HOK & FL & SD & D1 & D2 & D3) Hb Hop Hty Hdg Lx Lr. pose proof SD as (S1 & S2 & S3 & S4 & S5 & S6 & S7 & S8).
      unfold strsv. pose proof (same_data_mat _ _ SD) as ME.
      destruct (trsv_handle_ok O L HD srt fz ft Hsrt Hfz Hft dt tsc Hreal w h u d op (o1 O) rhs 1 x 1 (-1)) as (st & xr & h' & u' & E & E1 & E2 & E3 & E4 & E5 & E6 & E7 & R); auto; try lia; try congruence.
      - eapply same_data_sortable; eauto.
      - split; lia.
      - split; lia.
      - intros _ _ i Hi. rewrite ME. apply NZ. lia.
      - destruct HC as [HC'|HC']; [left; exact HC'|right; right]. split; [exact one_nz|]. now rewrite S1, S5, S6, S7.
      - rewrite E. assert (FIN : stH h') by (exists u'; ands; auto; try congruence; eapply same_data_trans; eauto).
        destruct R as [(-> & x1 & -> & (Q1 & Q2) & R)|[(-> & -> & _ & K)|[(-> & -> & K)|(-> & -> & K)]]].
        + exists x1, h'. split; [reflexivity|]. split; auto. split; [lia|]. intros i Hi. rewrite ME in R.
          specialize (R i ltac:(lia)). unfold comp in R. rewrite D1 in R. unfold rowx.
          rewrite (sumz_ext O 0 m _ (fun j => omul O (op_sem O op (described O mt_triangular (d_fill d) (d_diag d) (hnd_mat O u0)) i j) (tn x1 (j * 1)))) by (intros j Hj; now rewrite Z.mul_1_r).
          rewrite R. rewrite Z.mul_1_r. ring.
        + exfalso. apply K. now rewrite S1, S2, S5, S6, S7.
        + congruence.
        + exfalso. rewrite !Z.mul_1_r in K. lia.
    Qed.

    Lemma vdiff_ok : forall b q r, zlen b = m -> zlen q = m -> zlen r = m ->
      exists r', vdiff O m b q r = Some r' /\ zlen r' = m /\ forall i, 0 <= i < m -> tn r' i = osub O (tn b i) (tn q i).
    Proof.
      intros b q r Lb Lq Lr. unfold vdiff.
      match goal with |- context [for_ ?lo ?hi ?f ?s] => destruct (for_inv _ (fun e z => zlen z = m /\ forall i, 0 <= i < e -> tn z i = osub O (tn b i) (tn q i)) lo hi f s ltac:(lia)) as (z & Ez & R1 & R2) end.
      - split; auto. intros; lia.
      - intros i z Hi (R1 & R2). rewrite !(rd_nthZ _ zero) by lia. rewrite wr_upd by lia. eexists. split; [reflexivity|]. split; [now rewrite zlen_upd|].
        intros k Hk. rewrite nthZ_upd by lia. destruct (Z.eqb_spec k i) as [->|]; auto. apply R2; lia.
      - exists z. auto.
    Qed.
  End U.

  Lemma parts_ok : forall (A : Z -> Z -> T) ty fm op uf lf ut lt, ty <> mt_triangular -> valid_op op = true ->
    (ty = mt_general -> op <> op_conjugate_transpose) -> (ty = mt_symmetric -> is_cplx dt = true -> op <> op_conjugate_transpose) ->
    (ty = mt_hermitian -> op <> op_transpose /\ real_diag O A) ->
    symgs_parts ty fm op = (uf, lf, ut, lt) ->
    let R := op_sem O op (described O ty fm dg_non_unit A) in
    valid_op ut = true /\ valid_op lt = true /\
    (ty <> mt_hermitian -> ut <> op_conjugate_transpose /\ lt <> op_conjugate_transpose) /\
    forall i j,
      op_sem O ut (described O mt_triangular uf dg_zero A) i j = pU O R i j /\
      op_sem O ut (described O mt_triangular uf dg_non_unit A) i j = madd O (pU O R) (pD O R) i j /\
      op_sem O lt (described O mt_triangular lf dg_zero A) i j = pL O R i j /\
      op_sem O lt (described O mt_triangular lf dg_non_unit A) i j = madd O (pL O R) (pD O R) i j.
  Proof.
    intros A ty fm op uf lf ut lt NT Hop Hg Hs Hh E R. pose proof (cj_0 O L) as C0. pose proof (l_cj_cj L) as CC.
    assert (CR : ty = mt_symmetric -> op = op_conjugate_transpose -> forall a, ocj O a = a).
    { intros E1 E2. destruct (is_cplx dt) eqn:Ec; [exfalso; apply Hs; auto|auto]. }
    assert (RD : ty = mt_hermitian -> forall i, ocj O (A i i) = A i i) by (intros Q i; apply Hh; auto).
    destruct ty; try congruence; destruct op; try discriminate; try (exfalso; now apply Hg); try (exfalso; now apply (proj1 (Hh eq_refl)));
    destruct fm; cbn in E; injection E as <- <- <- <-; (split; [reflexivity|]); (split; [reflexivity|]); (split; [intros Q; try congruence; split; discriminate|]);
    intros i j; unfold R, described, op_sem, descr_sem, with_diag, mT, mC, mL, mU, mSL, mSU, mHL, mHU, madd, pU, pL, pD;
    destruct (Z.lt_trichotomy i j) as [Hc|[Hc|Hc]];
    repeat match goal with
    | |- context [?a <=? ?b] => first [replace (a <=? b) with true by lia | replace (a <=? b) with false by lia]
    | |- context [?a <? ?b] => first [replace (a <? b) with true by lia | replace (a <? b) with false by lia]
    | |- context [?a =? ?b] => first [replace (a =? b) with true by lia | replace (a =? b) with false by lia]
    end; try subst j; rewrite ?(RD eq_refl), ?CC, ?C0, ?(CR eq_refl eq_refl), ?(RD eq_refl); repeat split; try ring.
  Qed.

  Lemma rowx_ext : forall n A B x i, (forall j, 0 <= j < n -> A i j = B i j) -> rowx O n A x i = rowx O n B x i.
  Proof. intros n A B x i H. unfold rowx. apply sumz_ext. intros j Hj. now rewrite H. Qed.
  Lemma rowx_zero : forall n A x i, (forall j, 0 <= j < n -> A i j = zero) -> rowx O n A x i = zero.
  Proof. intros n A x i H. unfold rowx. apply (sumz_zero O L). intros j Hj. rewrite H by auto. ring. Qed.
  Lemma rowx_add : forall n A B x i, rowx O n (madd O A B) x i = oadd O (rowx O n A x i) (rowx O n B x i).
  Proof. intros n A B x i. unfold rowx, madd. rewrite <- (sumz_add O L). apply sumz_ext. intros j Hj. ring. Qed.
  Lemma rowx_diag : forall n A x i, 0 <= i < n -> rowx O n (pD O A) x i = omul O (A i i) (tn x i).
  Proof.
    intros n A x i Hi. unfold rowx, pD. rewrite (sumz_split O L 0 i n) by lia. rewrite (sumz_first O i n) by lia.
    rewrite (sumz_zero O L 0 i), (sumz_zero O L (i + 1) n).
    - rewrite Z.eqb_refl. ring.
    - intros j Hj. replace (i =? j) with false by lia. ring.
    - intros j Hj. replace (i =? j) with false by lia. ring.
  Qed.

  Lemma tri_sweep : forall n A alpha b x0 x, 0 < n -> zlen b = n -> zlen x = n ->
    (forall i, 0 <= i < n -> A i i <> zero) -> (forall i j, i < j -> A i j = zero) \/ (forall i j, j < i -> A i j = zero) ->
    (forall i, 0 <= i < n -> rowx O n A x i = tn b i) -> symgs_sweep O n A alpha b x0 x.
  Proof.
    intros n A alpha b x0 x Hn Lb Lx Nz Tri Sol. split; auto. destruct Tri as [Tr|Tr].
    - assert (PU : forall i z, rowx O n (pU O A) z i = zero).
      { intros i z. apply rowx_zero. intros j Hj. unfold pU. destruct (Z.ltb_spec i j); auto. }
      assert (EA : forall i z, rowx O n A z i = rowx O n (madd O (pL O A) (pD O A)) z i).
      { intros i z. apply rowx_ext. intros j Hj. unfold madd, pL, pD. destruct (Z.lt_trichotomy i j) as [Hc|[Hc|Hc]].
        - rewrite Tr by lia. replace (j <? i) with false by lia. replace (i =? j) with false by lia. ring.
        - replace (j <? i) with false by lia. replace (i =? j) with true by lia. ring.
        - replace (j <? i) with true by lia. replace (i =? j) with false by lia. ring. }
      exists x. split; auto. split; intros i Hi.
      + rewrite <- EA, Sol, PU by auto. ring.
      + pose proof (Sol i Hi) as Q. rewrite EA, rowx_add in Q. rewrite rowx_add, PU, <- Q. ring.
    - assert (PL : forall i z, rowx O n (pL O A) z i = zero).
      { intros i z. apply rowx_zero. intros j Hj. unfold pL. destruct (Z.ltb_spec j i); auto. }
      assert (EA : forall i z, rowx O n A z i = rowx O n (madd O (pU O A) (pD O A)) z i).
      { intros i z. apply rowx_ext. intros j Hj. unfold madd, pU, pD. destruct (Z.lt_trichotomy i j) as [Hc|[Hc|Hc]].
        - replace (i <? j) with true by lia. replace (i =? j) with false by lia. ring.
        - replace (i <? j) with false by lia. replace (i =? j) with true by lia. ring.
        - rewrite Tr by lia. replace (i <? j) with false by lia. replace (i =? j) with false by lia. ring. }
      set (f := fun i => odiv O (osub O (tn b i) (omul O alpha (rowx O n (pU O A) x0 i))) (A i i)).
      exists (map f (zrange 0 n)). assert (Lf : zlen (map f (zrange 0 n)) = n) by (rewrite zlen_map, zlen_zrange; lia).
      split; auto. split; intros i Hi.
      + rewrite rowx_add, PL, rowx_diag by auto. rewrite (nthZ_map _ _ _ 0) by (rewrite zlen_zrange; lia). rewrite nthZ_zrange by lia. replace (0 + i) with i by lia. unfold f. rewrite <- (HD (osub O (tn b i) (omul O alpha (rowx O n (pU O A) x0 i))) (A i i)) at 2 by auto. ring.
      + rewrite <- EA, Sol, PL by auto. ring.
  Qed.

  Theorem symgs_ok : forall h u d op alpha b x y_p fuse, symgs_pre O dt tsc w h u d op b x ->
    (fuse = true -> exists y, y_p = Some y /\ zlen y = H_m h) ->
    exists x' yr h' u', symgs O srt fz ft sup dt mvc nthreads team tsc w op (Some h) (Some d) alpha (Some b) (Some x) y_p fuse = Some (success, Some x', yr, Some h') /\
      hnd_ok zero h' u' /\ diag_flag_ok h' u' /\ same_data u u' /\ H_m h' = H_m h /\ H_n h' = H_n h /\ H_nnz h' = H_nnz h /\
      symgs_sweep O (H_m h) (req_mat O u d op) alpha b x x' /\
      (fuse = false -> yr = y_p) /\
      (fuse = true -> exists y', yr = Some y' /\ zlen y' = H_m h /\ forall i, 0 <= i < H_m h -> tn y' i = rowx O (H_m h) (req_mat O u d op) x' i).
  Proof.
    intros h u d op alpha b x y_p fuse PRE Hy. destruct PRE as [HOK FL HS HC SQ SZ Hw NN Hb Hdg Hop HF NZ Hge Hsy Hhe Htr Lx Lb].
    pose proof HOK as ((AR & UM) & rest & EM & _ & _). unfold arrays_ok in AR. pose proof AR as (W & DU & Lv & HB). pose proof UM as (UN & _ & _ & DIM).
    assert (Em : c_m u = H_m h) by lia.
    unfold symgs. replace (fuse && match y_p with None => true | Some _ => false end) with false.
    2: { destruct fuse; auto. destruct (Hy eq_refl) as (y & -> & _). reflexivity. }
    rewrite EM. replace (negb (c_b u =? d_base d)) with false by lia.
    replace (negb ((d_base d =? 0) || (d_base d =? 1))) with false by lia. rewrite Hop, Hdg. cbn [negb].
    replace (match d_type d, op with mt_general, op_conjugate_transpose => true | _, _ => false end) with false.
    2: { destruct (d_type d) eqn:Et, op; auto. exfalso. now apply Hge. }
    replace ((H_m h <? 0) || (H_nnz h <? 0) || (H_n h <? 0)) with false by lia.
    replace ((H_m h =? 0) || (H_n h =? 0) || (H_nnz h =? 0)) with false by lia.
    replace (negb (H_m h =? H_n h)) with false by lia.
    destruct (optimize_ok O srt fz ft Hsrt Hfz Hft h u HOK HS) as (h1 & i1 & c & u1 & E & HOK1 & SD & D1 & D2 & D3 & D4 & Rc & Oc & _ & _ & _ & _ & _ & HH).
    rewrite E. cbv beta iota. pose proof SD as (S1 & S2 & S3 & S4 & S5 & S6 & S7 & S8).
    assert (FL1 : H_optfull h1 = true <-> full_diag (c_m u) (c_n u) (c_b u) (c_ptr u) (c_ind u)).
    { destruct HH as [-> |HH]; [|tauto]. apply FL. exists c. split; auto. unfold rd in Rc. destruct (i1 <? 0); [discriminate|]. eapply nth_error_In; eauto. }
    replace (negb (H_optfull h1)) with false by (rewrite (proj2 FL1 HF); reflexivity).
    set (m := H_m h) in *.
    assert (G1 : stH u m (H_nnz h) h1).
    { exists u1. ands; auto; try lia. intros _. rewrite S1, S2, S5, S6, S7. exact FL1. }
    unfold symgs_ref. rewrite D1. fold m.
    set (y := match y_p with Some y => y | None => [] end).
    assert (FUSE : forall h2 x', stH u m (H_nnz h) h2 -> zlen x' = m -> symgs_sweep O m (req_mat O u d op) alpha b x x' ->
      exists x'' yr h' u',
      (let* (st, x, y, h) := (if fuse then let* (st, y, h) := smv O srt fz ft sup dt mvc nthreads team op (o1 O) h2 d x' zero y in Some (st, x', y, h) else Some (success, x', y, h2)) in
       Some (st, Some x, match y_p with Some _ => Some y | None => None end, Some h)) = Some (success, Some x'', yr, Some h') /\
      hnd_ok zero h' u' /\ diag_flag_ok h' u' /\ same_data u u' /\ H_m h' = m /\ H_n h' = H_n h /\ H_nnz h' = H_nnz h /\
      symgs_sweep O m (req_mat O u d op) alpha b x x'' /\
      (fuse = false -> yr = y_p) /\
      (fuse = true -> exists y', yr = Some y' /\ zlen y' = m /\ forall i, 0 <= i < m -> tn y' i = rowx O m (req_mat O u d op) x'' i)).
    { intros h2 x' G2 Lx' SW. destruct fuse.
      - destruct (Hy eq_refl) as (y0 & Ey & Ly). subst y y_p.
        assert (Dc : declined dt (d_type d) op (c_doid u) = false).
        { unfold declined. destruct (is_cplx dt) eqn:Ec; auto. destruct (Z.eqb_spec (c_doid u) gt) as [Eg|]; auto. destruct (d_type d) eqn:Et; auto; destruct op; auto; exfalso.
          - now apply Hge.
          - now apply Htr. }
        assert (Ty : d_type d = mt_triangular /\ d_diag d <> dg_unit \/ d_diag d = dg_non_unit /\ (d_type d = mt_hermitian -> is_cplx dt = true /\ real_diag O (hnd_mat O u))).
        { right. split; auto. intros Et. destruct (Hhe Et) as (? & ? & ? & ?). auto. }
        destruct (smv_ok u m (H_nnz h) SZ Hw NN HS NZ h2 d op (o1 O) x' y0 G2 Hb Hop Dc Ty Lx' Ly) as (y' & h3 & E3 & (u3 & K1 & K2 & K3 & K4 & K5 & K6) & Ly' & Ry).
        rewrite E3. exists x', (Some y'), h3, u3. ands; auto; try lia; try discriminate.
        intros _. exists y'. ands; auto. intros i Hi. rewrite Ry by auto. unfold req_mat. ring.
      - destruct G2 as (u3 & K1 & K2 & K3 & K4 & K5 & K6). exists x', y_p, h2, u3. ands; auto; try lia; try discriminate.
        subst y. destruct y_p; reflexivity. }
    assert (NT : d_type d = mt_triangular \/ d_type d <> mt_triangular) by (destruct (d_type d); auto; right; discriminate).
    destruct NT as [Et|Et].
    - rewrite Et. destruct (strsv_ok u m (H_nnz h) SZ Hw NN HS HC HF NZ h1 d op b x G1 Hb Hop Et Hdg Lx Lb) as (x' & h2 & E2 & G2 & Lx' & Rx). rewrite E2. apply FUSE; auto.
      assert (RM : req_mat O u d op = op_sem O op (described O mt_triangular (d_fill d) (d_diag d) (hnd_mat O u))) by (unfold req_mat; now rewrite Et).
      rewrite RM. apply tri_sweep; auto; try lia.
      + intros i Hi. pose proof (NZ i Hi) as Q. unfold op_sem, described, descr_sem, with_diag, mT, mC, mL, mU. rewrite Hdg.
        destruct op, (d_fill d); rewrite ?Z.leb_refl, ?Z.eqb_refl; auto; intros Q2; apply Q; rewrite <- (l_cj_cj L (hnd_mat O u i i)), Q2; apply (cj_0 O L).
      + rewrite Hdg. unfold op_sem, described, descr_sem, with_diag, mT, mC, mL, mU. pose proof (cj_0 O L).
        destruct op; try discriminate Hop; destruct (d_fill d); [left|right|right|left|right|left]; intros i j Hij; try replace (j <=? i) with false by lia; try replace (i <=? j) with false by lia; auto.
    - assert (EQ : forall (Q1 Q2 : option (status * list T * list T * hnd T)), match d_type d with mt_triangular => Q1 | _ => Q2 end = Q2) by (intros; destruct (d_type d); auto; congruence).
      rewrite EQ. clear EQ. destruct (symgs_parts (d_type d) (d_fill d) op) as (((uf, lf), ut), lt) eqn:Ep.
      destruct (parts_ok (hnd_mat O u) (d_type d) (d_fill d) op uf lf ut lt Et Hop Hge Hsy) as (Vu & Vl & Nct & PT); auto.
      { intros Eh. destruct (Hhe Eh) as (? & ? & ? & ?). auto. }
      set (R := op_sem O op (described O (d_type d) (d_fill d) dg_non_unit (hnd_mat O u))) in *.
      assert (Dcl : declined dt mt_triangular ut (c_doid u) = false /\ declined dt mt_triangular lt (c_doid u) = false).
      { unfold declined. destruct (is_cplx dt) eqn:Ec; auto. destruct (Z.eqb_spec (c_doid u) gt) as [Eg|]; auto.
        assert (Nh : d_type d <> mt_hermitian) by (intros Q; destruct (Hhe Q) as (_ & _ & Q2 & _); rewrite Q2 in Eg; discriminate).
        destruct (Nct Nh). destruct ut, lt; auto; congruence. }
      destruct Dcl as (Du & Dl).
      destruct (smv_ok u m (H_nnz h) SZ Hw NN HS NZ h1 (tri_descr uf dg_zero (d_base d)) ut alpha x (zrep m zero) G1 Hb Vu Du) as (q1 & h2 & E2 & G2 & Lq1 & Rq1); auto.
      { left. split; [reflexivity|discriminate]. } { now rewrite zlen_zrep by lia. }
      rewrite E2. destruct (vdiff_ok u m (H_nnz h) SZ Hw NN NZ b q1 (zrep m zero) Lb Lq1) as (r1 & E3 & Lr1 & Rr1). { now rewrite zlen_zrep by lia. }
      rewrite E3. destruct (strsv_ok u m (H_nnz h) SZ Hw NN HS HC HF NZ h2 (tri_descr lf dg_non_unit (d_base d)) lt r1 q1 G2 Hb Vl eq_refl eq_refl Lq1 Lr1) as (x1 & h3 & E4 & G3 & Lx1 & Rx1).
      rewrite E4. destruct (smv_ok u m (H_nnz h) SZ Hw NN HS NZ h3 (tri_descr lf dg_zero (d_base d)) lt (o1 O) x1 r1 G3 Hb Vl Dl) as (q2 & h4 & E5 & G4 & Lq2 & Rq2); auto.
      { left. split; [reflexivity|discriminate]. }
      rewrite E5. destruct (vdiff_ok u m (H_nnz h) SZ Hw NN NZ b q2 x1 Lb Lq2 Lx1) as (r2 & E6 & Lr2 & Rr2).
      rewrite E6. destruct (strsv_ok u m (H_nnz h) SZ Hw NN HS HC HF NZ h4 (tri_descr uf dg_non_unit (d_base d)) ut r2 x G4 Hb Vu eq_refl eq_refl Lx Lr2) as (x2 & h5 & E7 & G5 & Lx2 & Rx2).
      rewrite E7. apply FUSE; auto. split; auto. exists x1. split; auto. unfold req_mat. rewrite Hdg. fold R. split; intros i Hi.
      + rewrite (rowx_ext m _ _ x1 i (fun j _ => eq_sym (proj2 (proj2 (proj2 (PT i j)))))). cbn [tri_descr d_fill d_diag d_type] in Rx1, Rq1. rewrite Rx1, Rr1, Rq1 by auto.
        f_equal. f_equal. apply rowx_ext. intros j _. apply PT.
      + rewrite (rowx_ext m _ _ x2 i (fun j _ => eq_sym (proj1 (proj2 (PT i j))))). cbn [tri_descr d_fill d_diag d_type] in Rx2, Rq2. rewrite Rx2, Rr2, Rq2 by auto. 
        rewrite (rowx_ext m (pL O R) _ x1 i (fun j _ => eq_sym (proj1 (proj2 (proj2 (PT i j)))))). ring.
  Qed.
End P.

(** A 2 x 2 matrix with unit diagonal: the sweep determines x. *)
Section S2.
  Context {T : Type} (O : ops T) (L : laws O).
  Let rth := l_ring L.
  Add Ring TrG2 : rth.
  Lemma sweep2 : forall A alpha b x0 x, A 0 0 = o1 O -> A 1 1 = o1 O -> symgs_sweep O 2 A alpha b x0 x ->
    nthZ (o0 O) x 1 = osub O (nthZ (o0 O) b 1) (omul O (A 1 0) (osub O (nthZ (o0 O) b 0) (omul O alpha (omul O (A 0 1) (nthZ (o0 O) x0 1))))).
  Proof.
    intros A alpha b x0 x D0 D1 (_ & x1 & _ & E1 & E2).
    assert (X : forall M z i, rowx O 2 M z i = oadd O (omul O (M i 0) (nthZ (o0 O) z 0)) (omul O (M i 1) (nthZ (o0 O) z 1))).
    { intros M z i. unfold rowx. rewrite (sumz_first O 0 2), (sumz_first O (0 + 1) 2), (sumz_nil O) by lia. change (0 + 1) with 1. ring. }
    pose proof (E1 0 ltac:(lia)) as A0. pose proof (E2 1 ltac:(lia)) as B1. rewrite !X in A0, B1.
    unfold madd, pL, pU, pD in A0, B1. cbn [Z.ltb Z.eqb Z.compare Pos.compare Pos.compare_cont Pos.eqb] in A0, B1. rewrite D0 in A0. rewrite D1 in B1.
    transitivity (oadd O (omul O (oadd O (o0 O) (o0 O)) (nthZ (o0 O) x 0)) (omul O (oadd O (o0 O) (o1 O)) (nthZ (o0 O) x 1))); [ring|]. rewrite B1.
    transitivity (osub O (nthZ (o0 O) b 1) (omul O (A 1 0) (oadd O (omul O (oadd O (o0 O) (o1 O)) (nthZ (o0 O) x1 0)) (omul O (oadd O (o0 O) (o0 O)) (nthZ (o0 O) x1 1))))); [ring|]. rewrite A0. ring.
  Qed.
End S2.
