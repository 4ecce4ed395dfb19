From Coq Require Import ZArith List Bool Lia ZifyBool Permutation Ring.
From Verif Require Import Base BaseFacts Algebra DoidModel DoidSpec DoidProof UtilModel UtilProof Csr CsrFacts Csr2CscModel Csr2CscProof MvModel MvSpec MvFacts HandleModel HandleSpec CsrmvModel ExpandSpec TransformProof DenseSpec Csr2mSpec Sp2mdSpec Tiles CsrmmModel CsrmmKernProof CsrmmSymProof CsrmmSpec.
Import ListNotations.
Open Scope Z_scope.

Section H.
  Context {T : Type} (O : ops T) (L : laws O).
  Let rth := l_ring L.
  Add Ring TrH : rth.
  Local Notation zero := (o0 O).

  Lemma doid_ext : forall d (M M' : Z -> Z -> T), (forall i j, M i j = M' i j) -> forall i j, doid_sem O d M i j = doid_sem O d M' i j.
  Proof.
    intros d M M' E i j. unfold doid_sem.
    destruct d as [|p|p]; auto. do 5 (try (destruct p as [p|p|]; auto));
    unfold mC, mT, mSL, mSU, mHL, mHU, mL, mU; rewrite ?E; auto.
  Qed.

  Lemma with_diag_mT : forall dg (M : Z -> Z -> T) i j, with_diag O dg (mT M) i j = mT (with_diag O dg M) i j.
  Proof. intros dg M i j. unfold with_diag, mT. rewrite (Z.eqb_sym j i). destruct (Z.eqb_spec i j) as [->|]; auto. Qed.

  Lemma real_with_diag : forall dg (M : Z -> Z -> T), (dg = dg_non_unit -> real_diag O M) -> real_diag O (with_diag O dg M).
  Proof. intros dg M H i. unfold with_diag. rewrite Z.eqb_refl. destruct dg; [now apply H|apply (cj_1 O L)|apply (cj_0 O L)]. Qed.

  (** the matrix the one-triangle kernel multiplies with *)
  Lemma sym_elem_sem : forall eff b ptr ind val herm cj fill dg i l,
    0 <= eff < 20 -> is_one_tri eff = true -> herm = (8 <=? eff) -> cj = ((eff =? slc) || (eff =? suc) || (eff =? hlc) || (eff =? huc)) ->
    (fill = if lower_doid eff then fm_lower else fm_upper) ->
    sym_elem O b ptr ind val herm cj fill dg i l = doid_sem O eff (with_diag O dg (csr_mat O b ptr ind val)) i l.
  Proof.
    intros eff b ptr ind val herm cj fill dg i l He Ht -> -> ->. unfold sym_elem. set (M := csr_mat O b ptr ind val).
    pose proof (cj_1 O L) as C1. pose proof (cj_0 O L) as C0. pose proof (l_cj_cj L) as CC.
    dcases He; try discriminate Ht; cbn; unfold inside, h2, isnon, isunit, cval, mC, mSL, mSU, mHL, mHU, with_diag; cbn;
      destruct (Z.eqb_spec i l) as [E|Ne];
      [ rewrite E, ?Z.ltb_irrefl, ?Z.leb_refl, ?Z.eqb_refl; destruct dg; cbn; rewrite ?C1, ?C0; ring
      | .. ]; try (rewrite (proj2 (Z.eqb_neq l i)) by auto);
      destruct (Z.ltb_spec i l); destruct (Z.ltb_spec l i); destruct (Z.leb_spec i l); destruct (Z.leb_spec l i); try lia;
      rewrite ?andb_false_r; cbn; rewrite ?CC; try ring; destruct dg; cbn; rewrite ?C1, ?C0; ring.
  Qed.
End H.

Section D.
  Context {T : Type} (O : ops T) (L : laws O).
  Local Notation zero := (o0 O).
  Definition dsel (dg : diag_type) (v : T) : T := match dg with dg_non_unit => v | dg_unit => o1 O | dg_zero => zero end.

  Lemma sem_with_diag : forall d dg (A : Z -> Z -> T) i j, is_one_tri d = true ->
    doid_sem O d (with_diag O dg A) i j = if i =? j then dsel dg (doid_sem O d A i i) else doid_sem O d A i j.
  Proof.
    intros d dg A i j Ht. assert (B : 0 <= d < 20) by (unfold is_one_tri in Ht; lia).
    pose proof (cj_1 O L) as C1. pose proof (cj_0 O L) as C0. unfold dsel.
    dcases B; try discriminate Ht; cbn; unfold mC, mSL, mSU, mHL, mHU, with_diag;
      rewrite (Z.eqb_sym j i); destruct (Z.eqb_spec i j) as [<-|]; rewrite ?Z.leb_refl; destruct dg; rewrite ?C1, ?C0; auto;
      destruct (_ <=? _); auto.
  Qed.

  Lemma set_mat_diag_ok : forall m A c dg, copy_state O m m A c -> is_one_tri (c_doid c) = true ->
    exists c', set_mat_diag O m dg c = Some (success, c') /\ copy_state O m m A c' /\ c_mdiag c' = dg /\
      c_doid c' = c_doid c.
  Proof.
    intros m A c dg [Dd Cb Cm Cn W Lv Mt Dg] Ht. destruct (Dg Ht) as (idiag & dv & E1 & E2 & L1 & L2 & U & P).
    replace (if swaps (c_doid c) then m else m) with m in Cm, Cn by (destruct (swaps _); auto).
    rewrite Cm, Cn in *.
    unfold set_mat_diag. rewrite E1, E2.
    pose proof (wf_m _ _ _ _ _ _ W) as Hm. pose proof (wf_ptr _ _ _ _ _ _ W) as WP.
    assert (Rg : forall i, 0 <= i < m -> 0 <= zn idiag i < c_nnz c).
    { intros i Hi. destruct (P i Hi) as (R & _). eapply in_row_range; eauto. }
    assert (Inj : forall i i', 0 <= i < m -> 0 <= i' < m -> zn idiag i = zn idiag i' -> i = i').
    { intros i i' Hi Hi' Eq. destruct (P i Hi) as (_ & Q & _). destruct (P i' Hi') as (_ & Q' & _). congruence. }
    set (X := fun i => dsel dg (nthZ zero dv i)).
    match goal with |- context [for_ 0 m ?f ?s] =>
      destruct (for_inv _ (fun e st => zlen st = c_nnz c /\ (forall i, 0 <= i < e -> nthZ zero st (zn idiag i) = X i) /\
        forall k, 0 <= k < c_nnz c -> (forall i, 0 <= i < m -> zn idiag i <> k) -> nthZ zero st k = nthZ zero (c_val c) k) 0 m f s ltac:(lia)) as (st & E & Ls & R1 & R2) end.
    - ands; auto. lia.
    - intros i st Hi (Ls & R1 & R2). pose proof (Rg i ltac:(lia)).
      rewrite (rd_nthZ _ 0) by lia.
      assert (G : exists st', wr st (zn idiag i) (X i) = Some st' /\ (zlen st' = c_nnz c /\ (forall i', 0 <= i' < i + 1 -> nthZ zero st' (zn idiag i') = X i') /\
        forall k, 0 <= k < c_nnz c -> (forall i, 0 <= i < m -> zn idiag i <> k) -> nthZ zero st' k = nthZ zero (c_val c) k)).
      { rewrite wr_upd by lia. eexists. split; [reflexivity|]. split; [|split].
        - now rewrite zlen_upd.
        - intros i' Hi'. pose proof (Rg i' ltac:(lia)). rewrite nthZ_upd by lia. destruct (Z.eqb_spec (zn idiag i') (zn idiag i)) as [Eq|Ne].
          + apply Inj in Eq; try lia. now subst.
          + apply R1. destruct (Z.eq_dec i i'); [subst; congruence|lia].
        - intros k Hk Nk. rewrite nthZ_upd by lia. replace (k =? zn idiag i) with false by (specialize (Nk i ltac:(lia)); lia). now apply R2. }
      unfold X, dsel in G. destruct dg; auto. rewrite (rd_nthZ _ zero) by lia. exact G.
    - rewrite E. eexists. split; [reflexivity|]. cbn [c_mdiag c_doid]. split; [|split; reflexivity].
      assert (SW : (if swaps (c_doid c) then m else m) = m) by (destruct (swaps _); auto).
      constructor; cbn [c_doid c_b c_m c_n c_nnz c_ptr c_ind c_val c_mdiag c_idiag c_dval]; rewrite ?Cm, ?Cn, ?SW, ?Ht; auto.
      + intros i j Hi Hj. rewrite sem_with_diag by auto. specialize (Mt i j Hi Hj). rewrite Ht, sem_with_diag in Mt by auto.
        assert (IR : forall v : list T, zlen v = c_nnz c -> forall k, in_row (c_ptr c) 0 i k -> 0 <= k < zlen v).
        { intros v Lv' k Hk. rewrite Lv'. exact (in_row_range _ _ _ _ WP i k Hi Hk). }
        rewrite (csr_mat_sum O L) by (apply IR; auto). destruct (P i Hi) as (Q1 & Q2 & Q3). unfold in_row in Q1.
        destruct (Z.eqb_spec i j) as [Eq0|Ne].
        * subst j. rewrite (sumz_delta O L _ _ (zn idiag i)).
          -- replace (zn (c_ind c) (zn idiag i) =? i + 0) with true by lia. rewrite R1 by lia. unfold X. now rewrite Q3.
          -- lia.
          -- intros k Hk Nk. destruct (Z.eqb_spec (zn (c_ind c) k) (i + 0)); auto.
             exfalso. apply Nk. apply (U i k (zn idiag i)); auto; unfold in_row; lia.
        * rewrite (csr_mat_sum O L) in Mt by (apply IR; auto). rewrite <- Mt. apply sumz_ext. intros k Hk.
          destruct (Z.eqb_spec (zn (c_ind c) k) (j + 0)); auto.
          assert (IK : in_row (c_ptr c) 0 i k) by (unfold in_row; lia). pose proof (in_row_range _ _ _ _ WP i k Hi IK).
          apply R2; auto. intros i' Hi' Eq. destruct (P i' Hi') as (S1 & S2 & _). rewrite Eq in *.
          pose proof (row_unique _ _ _ _ WP i i' k Hi Hi' IK S1). lia.
      + intros _. exists idiag, dv. ands; auto.
  Qed.

  Lemma copy_ok_state : forall m n A d c, 0 <= d < 20 -> copy_ok O m n A d c -> c_mdiag c = dg_non_unit -> copy_state O m n A c.
  Proof.
    intros m n A d c Hd [E B R C W Lv M D] Hm. constructor; rewrite ?E; auto.
    intros i j Hi Hj. rewrite M by auto. destruct (is_one_tri d) eqn:Ht; auto.
    rewrite sem_with_diag, Hm by auto. destruct (Z.eqb_spec i j) as [->|]; auto.
  Qed.
End D.

Definition plain_gen (ty : mat_type) : bool := match ty with mt_general => true | _ => false end.
Definition is_none (op : operation) : bool := match op with op_none => true | _ => false end.

Lemma req_cases : forall is_real ty fm op req, valid_op op = true -> ty <> mt_triangular -> get_doid is_real ty fm op = Some req ->
  0 <= req < 20 /\
  if plain_gen ty then 0 <= req < 4 /\ swaps req = negb (is_none op) /\ (is_none op = true -> req = gn)
  else is_one_tri req = true /\ lower_doid req = match fm with fm_lower => true | fm_upper => false end.
Proof.
  intros is_real ty fm op req Ho Ht E.
  destruct op; try discriminate Ho; destruct ty, fm, is_real; try congruence; vm_compute in E; inversion E; subst req; vm_compute; intuition congruence.
Qed.

Lemma nthZ_cons : forall A (d a : A) l i, 0 <= i -> nthZ d (a :: l) i = if i =? 0 then a else nthZ d l (i - 1).
Proof. intros A d a l i Hi. unfold nthZ. destruct (Z.eqb_spec i 0) as [->|]; auto. replace (Z.to_nat i) with (S (Z.to_nat (i - 1))) by lia. reflexivity. Qed.

Lemma find_doid_ok : forall T (l : list (option (cmat T))) d i j c, find_doid l d i = Some (j, c) ->
  i <= j < i + zlen l /\ nthZ None l (j - i) = Some c /\ c_doid c = d.
Proof.
  induction l as [|e l IH]; intros d i j c E; [discriminate|]. cbn in E. pose proof (zlen_nonneg _ l).
  assert (R : find_doid l d (i + 1) = Some (j, c) -> i <= j < i + zlen (e :: l) /\ nthZ None (e :: l) (j - i) = Some c /\ c_doid c = d).
  { intros E'. apply IH in E'. destruct E' as (R & N & D). rewrite zlen_cons. split; [lia|]. split; auto.
    rewrite nthZ_cons by lia. replace (j - i =? 0) with false by lia. rewrite <- N. f_equal. lia. }
  destruct e as [c0|]; auto. destruct (Z.eqb_spec (c_doid c0) d); auto. inversion E; subst.
  rewrite zlen_cons. split; [lia|]. split; auto. now rewrite Z.sub_diag.
Qed.

Lemma Forall_upd : forall A (P : A -> Prop) l i v, Forall P l -> P v -> Forall P (upd l i v).
Proof.
  intros A P l i v F Pv. unfold upd. generalize (Z.to_nat i). clear i.
  induction F; intros [|n]; cbn; auto.
Qed.

Lemma upd_cons : forall A (a : A) l i v, 0 < i -> upd (a :: l) i v = a :: upd l (i - 1) v.
Proof. intros. unfold upd. replace (Z.to_nat i) with (S (Z.to_nat (i - 1))) by lia. reflexivity. Qed.

Section M.
  Context {T : Type} (O : ops T) (L : laws O).
  Let rth := l_ring L.
  Add Ring TrM : rth.
  Local Notation zero := (o0 O).
  Variables (is_real : bool) (fz : Z -> list Z) (ft : Z -> list T) (w : Z) (tm : list Z) (ord : Z -> list Z) (kr : mm_kernel).
  Hypothesis HR : is_real = true -> forall a, ocj O a = a.
  Hypothesis EN : mm_env fz ft tm ord kr.

  Section Call.
    Variables (op : operation) (alpha beta : T) (h : hnd T) (u : cmat T) (d : descr) (order : Z) (B : list T) (n ldb : Z) (C : list T) (ldc : Z).
    Hypothesis PRE : mm_pre O w op h u d order B n ldb C ldc.
    Local Notation A := (hnd_mat O u).
    Local Notation W := (mm_entry O op alpha h u d order B ldb beta C ldc).
    Local Notation OPA := (op_sem O op (described O (d_type d) (d_fill d) (d_diag d) A)).

    Lemma team_facts : Permutation tm (zrange 0 (zlen tm)) /\ 0 < zlen tm.
    Proof.
      destruct EN as [_ _ (N & P) _ _]. split; auto. destruct tm; [congruence|]. rewrite zlen_cons. pose proof (zlen_nonneg _ l). lia.
    Qed.

    Lemma run_case : forall cj b mb kk nnz ptr ind val, csr_wf mb kk nnz b ptr ind -> zlen val = nnz -> (b = 0 \/ b = 1) ->
      mb = rows_of op h -> kk = cols_of op h ->
      (order = 0 -> b = 1 -> kk * ldb + n - 1 <= int_max w) ->
      (forall i l, 0 <= i < mb -> 0 <= l < kk -> cval O cj (csr_mat O b ptr ind val i l) = OPA i l) ->
      exists C', run_kernel O w tm kr order cj alpha b mb ptr ind val B n ldb beta ldc C = Some C' /\
        holds_window zero order ldc (rows_of op h) n W C C'.
    Proof.
      intros cj b mb kk nnz ptr ind val Wf Lv Hb Em Ek OV SM. destruct team_facts as (T1 & T2).
      pose proof (mm_B _ _ _ _ _ _ _ _ _ _ _ _ PRE) as DB. pose proof (mm_C _ _ _ _ _ _ _ _ _ _ _ _ PRE) as DC.
      rewrite <- Ek in DB. rewrite <- Em in DC |- *.
      assert (OV' : order = 1 \/ (b + kk - 1) * ldb + n - 1 <= int_max w).
      { destruct DB as [B1 B2 B3 B4 B5 B6 B7]. destruct B2 as [-> | ->]; [right|now left]. unfold window_fits in B6. cbn in B6, B7.
        destruct Hb as [-> | ->]; [nia|]. specialize (OV eq_refl eq_refl). lia. }
      destruct (run_kernel_ok O L w tm T1 T2 order b mb n kk nnz ldb ldc ptr ind val B C alpha beta cj Wf Lv Hb DB OV' DC kr (me_kr _ _ _ _ _ EN)) as (C' & E & R).
      exists C'. split; auto. eapply WinFacts.hw_ext; [|exact R]. intros i j Hi Hj. cbv beta. unfold goal, CsrmmKernProof.prod, mm_entry. rewrite <- Ek.
      f_equal. f_equal. apply sumz_ext. intros l Hl. rewrite SM by auto. reflexivity.
    Qed.

    Lemma mat_user : forall i j, csr_mat O (c_b u) (c_ptr u) (c_ind u) (c_val u) i j = if c_doid u =? gt then mT A i j else A i j.
    Proof. intros i j. unfold hnd_mat, stored_as. destruct (c_doid u =? gt); reflexivity. Qed.

    Lemma csrmm_ok : exists C' h',
      csrmm O is_real fz ft w tm ord (Some kr) op alpha (Some h) (Some d) order (Some B) n ldb beta (Some C) ldc = Some (success, Some C', Some h') /\
      holds_window zero order ldc (rows_of op h) n W C C' /\ hinted O h' u /\ H_m h' = H_m h /\ H_n h' = H_n h.
    Proof.
      pose proof PRE as [Hh Ho Ht Hsq Hherm Hbase (Dm & Dn & Dk) DB DC Hext].
      destruct Hh as (UM & rest & EM & FR). pose proof UM as ((Wf & DU & Lv & Hb) & Hnnz & Hmd & Hdv & Hdims).
      assert (HIN : hinted O h u) by (split; eauto).
      unfold csrmm. cbv zeta. rewrite Ho. cbn [negb].
      replace (match d_type d with mt_triangular => true | _ => false end) with false by (destruct (d_type d); congruence).
      change (match d_type d with mt_general => true | _ => false end) with (plain_gen (d_type d)).
      change (match op with op_none => true | _ => false end) with (is_none op).
      assert (SQ : plain_gen (d_type d) = false -> H_m h = H_n h).
      { intros G. apply Hsq. intros Q. rewrite Q in G. discriminate. }
      replace (negb (plain_gen (d_type d)) && negb (H_m h =? H_n h)) with false by (destruct (plain_gen (d_type d)); cbn; auto; specialize (SQ eq_refl); lia).
      assert (OR : order = 0 \/ order = 1) by apply (do_layout _ _ _ _ _ _ DB).
      replace (negb (order =? 0) && negb (order =? 1)) with false by lia.
      rewrite EM, Hbase, Z.eqb_refl. cbn [negb].
      replace (negb ((c_doid u =? gt) || (c_doid u =? gn))) with false by lia.
      replace ((H_m h <? 0) || (n <? 0) || (H_n h <? 0)) with false by lia.
      replace ((H_m h =? 0) || (n =? 0) || (H_n h =? 0)) with false by lia.
      destruct (oeqb O alpha zero) eqn:Ea; cbn [andb];
        [destruct (oeqb O beta (o1 O)) eqn:Eb|].
      1:{ apply (l_eqb L) in Ea, Eb. exists C, h. split; [reflexivity|]. split; auto. split; [reflexivity|]. split; auto.
          intros i j Hi Hj. unfold mm_entry. rewrite Ea, Eb. ring. }
      all: destruct (get_doid_ok O L is_real (d_type d) (d_fill d) op (if plain_gen (d_type d) then A else with_diag O (d_diag d) A) HR) as (req & Er & Rr & Sr);
        [ intros Q; rewrite Q; cbn [plain_gen]; apply (real_with_diag O L); auto
        | destruct op; try discriminate Ho; auto | ].
      all: assert (Sr' : forall i j, doid_sem O req (if plain_gen (d_type d) then A else with_diag O (d_diag d) A) i j = OPA i j)
        by (intros i j; rewrite Sr; unfold described; destruct (d_type d); auto; congruence); clear Sr.
      all: rewrite Er; pose proof (req_cases _ _ _ _ _ Ho Ht Er) as (_ & RC).
      all: assert (LB : (ldb <? Z.max 1 (if is_none op then if order =? 1 then H_n h else n else if order =? 1 then H_m h else n)) = false /\
                   (ldc <? Z.max 1 (if is_none op then if order =? 1 then H_m h else n else if order =? 1 then H_n h else n)) = false)
        by (pose proof (do_fits _ _ _ _ _ _ DB) as F1; pose proof (do_fits _ _ _ _ _ _ DC) as F2; unfold window_fits, rows_of, cols_of in F1, F2;
            destruct op; try discriminate Ho; cbn [is_none]; destruct (order =? 1); lia).
      all: destruct LB as (LB1 & LB2); rewrite LB1, LB2.
      all: assert (Rows : (if is_none op then H_m h else H_n h) = rows_of op h) by (destruct op; try discriminate Ho; reflexivity).
      all: assert (Cols : (if is_none op then H_n h else H_m h) = cols_of op h) by (destruct op; try discriminate Ho; reflexivity).
      all: rewrite Rows, Cols.
      all: assert (OV1 : int_product_overflow w (if order =? 1 then n else rows_of op h) ldc = Some false)
        by (destruct DC as [C1 C2 C3 C4 C5 C6 C7]; destruct (int_product_exact_nonneg w (if order =? 1 then n else rows_of op h) ldc C1) as ([|] & E & Q);
            [destruct (order =? 1); lia | lia | exfalso; pose proof (proj1 Q eq_refl); lia | exact E]).
      all: assert (OV2 : int_product_overflow w (if order =? 1 then n else cols_of op h) ldb = Some false)
        by (destruct DB as [C1 C2 C3 C4 C5 C6 C7]; destruct (int_product_exact_nonneg w (if order =? 1 then n else cols_of op h) ldb C1) as ([|] & E & Q);
            [destruct (order =? 1); lia | lia | exfalso; pose proof (proj1 Q eq_refl); lia | exact E]).
      all: rewrite OV1, OV2; cbn [orb].
      1:{ apply (l_eqb L) in Ea. destruct (scale_dense_ok O L w ord order ldc (rows_of op h) n beta C (me_ord _ _ _ _ _ EN) DC) as (C' & E & R).
          rewrite E. exists C', h. split; [reflexivity|]. split; auto. eapply WinFacts.hw_ext; [|exact R]. intros i j Hi Hj. cbv beta.
          unfold mm_entry. rewrite Ea. ring. }
      assert (Gn : plain_gen (d_type d) = true -> d_type d = mt_general) by (destruct (d_type d); auto; discriminate).
      destruct (find_doid (Some u :: rest) req 0) as [(ix & c)|] eqn:Ef.
      - (* a stored matrix serves the request *)
        pose proof (find_doid_ok _ _ _ _ _ _ Ef) as (Rix & Nix & Dc). rewrite Z.sub_0_r in Nix. rewrite zlen_cons in Rix.
        cbn [find_doid] in Ef. destruct (Z.eqb_spec (c_doid u) req) as [Eu|Nu].
        + inversion Ef; subst ix c.
          assert (G : plain_gen (d_type d) = true).
          { destruct (plain_gen (d_type d)); auto. destruct RC as (RC & _). rewrite <- Eu in RC. destruct Hdims as [(Q & _) | (Q & _)]; rewrite Q in RC; discriminate. }
          rewrite G in *. cbn [negb]. rewrite andb_false_r. destruct RC as (RC1 & RC2 & RC3).
          assert (DM : c_m u = rows_of op h /\ c_n u = cols_of op h).
          { rewrite <- Rows, <- Cols. rewrite <- Eu in RC2. destruct Hdims as [(Q & ? & ?) | (Q & ? & ?)]; rewrite Q in RC2; destruct (is_none op); try discriminate RC2; auto. }
          destruct (run_case false (c_b u) (c_m u) (c_n u) (c_nnz u) (c_ptr u) (c_ind u) (c_val u) Wf Lv Hb (proj1 DM) (proj2 DM)) as (C' & E & R).
          * intros Q1 Q2. rewrite (proj2 DM). apply Hext; auto. now rewrite Hbase.
          * intros i l Hi Hl. cbn [cval]. rewrite mat_user, <- Sr', <- Eu. destruct Hdims as [(Q & _) | (Q & _)]; rewrite Q; reflexivity.
          * rewrite E. exists C', h. auto.
        + assert (Px : ix <> 0) by (pose proof (find_doid_ok _ _ _ _ _ _ Ef); lia).
          assert (CS : copy_state O (H_m h) (H_n h) A c).
          { rewrite nthZ_cons in Nix by lia. replace (ix =? 0) with false in Nix by lia.
            rewrite Forall_forall in FR. specialize (FR (Some c)). cbv beta iota in FR. destruct FR as [Q|Q]; auto; [|congruence].
            rewrite <- Nix. unfold nthZ. apply nth_In. unfold zlen in Rix. lia. }
          destruct (plain_gen (d_type d)) eqn:G.
          * cbn [negb]. rewrite andb_false_r. destruct RC as (RC1 & RC2 & RC3). destruct CS as [S1 S2 S3 S4 S5 S6 S7 _]. rewrite Dc in *.
            assert (NT : is_one_tri req = false) by (unfold is_one_tri; lia). rewrite NT in S7. rewrite RC2 in S3, S4.
            destruct (run_case false (c_b c) (c_m c) (c_n c) (c_nnz c) (c_ptr c) (c_ind c) (c_val c)) as (C' & E & R); rewrite ?S2; auto.
            -- rewrite S3, <- Rows. destruct (is_none op); auto.
            -- rewrite S4, <- Cols. destruct (is_none op); auto.
            -- intros; lia.
            -- intros i l Hi Hl. cbn [cval]. rewrite S7 by auto. apply Sr'.
            -- rewrite S2 in E. rewrite E. exists C', h. auto.
          * specialize (SQ eq_refl). destruct RC as (RC1 & RC2). rewrite <- SQ in CS.
            assert (RR : H_m h = rows_of op h /\ H_m h = cols_of op h) by (rewrite <- Rows, <- Cols; destruct (is_none op); lia). destruct RR as (RR1 & RR2).
            assert (FIN : forall c' h', copy_state O (H_m h) (H_m h) A c' -> c_mdiag c' = d_diag d -> c_doid c' = req -> hinted O h' u -> H_m h' = H_m h -> H_n h' = H_n h ->
              exists C' h'', (let* C0 := run_kernel O w tm kr order false alpha (c_b c') (c_m c') (c_ptr c') (c_ind c') (c_val c') B n ldb beta ldc C in Some (success, Some C0, Some h')) =
                Some (success, Some C', Some h'') /\ holds_window zero order ldc (rows_of op h) n W C C' /\ hinted O h'' u /\ H_m h'' = H_m h /\ H_n h'' = H_n h).
            { intros c' h' [S1 S2 S3 S4 S5 S6 S7 _] Md Dc' Hi1 Hi2 Hi3. rewrite Dc', RC1, Md in *.
              replace (if swaps req then H_m h else H_m h) with (H_m h) in S3, S4 by (destruct (swaps req); auto).
              destruct (run_case false (c_b c') (c_m c') (c_n c') (c_nnz c') (c_ptr c') (c_ind c') (c_val c')) as (C' & E & R); rewrite ?S2; auto; try lia.
              - intros i l Hi Hl. cbn [cval]. rewrite S7 by auto. apply Sr'.
              - rewrite S2 in E. rewrite E. exists C', h'. auto. }
            rewrite andb_true_r. 
            match goal with |- context [negb ?x] => destruct (negb x) eqn:Ed end.
            -- destruct (set_mat_diag_ok O L (H_m h) A c (d_diag d) CS) as (c' & E & CS' & Md & Dc'); [now rewrite Dc|].
               rewrite E. apply FIN; auto; [congruence|]. split.
               ++ exact UM.
               ++ exists (upd rest (ix - 1) (Some c')). cbn [set_mats H_mats H_m H_n]. split; [apply upd_cons; lia|].
                  apply Forall_upd; auto. right. now rewrite <- SQ.
            -- apply FIN; auto. destruct (d_diag d), (c_mdiag c); try discriminate Ed; reflexivity.
      - (* the user's arrays are used directly *)
        cbn [find_doid] in Ef. assert (NU : c_doid u <> req) by (destruct (Z.eqb_spec (c_doid u) req); congruence).
        set (eff := if c_doid u =? gt then trans_doid req else req).
        set (Mu := csr_mat O (c_b u) (c_ptr u) (c_ind u) (c_val u)).
        assert (EffR : 0 <= eff < 20).
        { unfold eff. destruct (c_doid u =? gt); auto. clear - Rr. dcases Rr; vm_compute; intuition congruence. }
        destruct (plain_gen (d_type d)) eqn:G; cbn [negb andb].
        + rewrite andb_false_r. destruct RC as (RC1 & RC2 & RC3).
          assert (Se : forall i j, doid_sem O eff Mu i j = OPA i j).
          { intros i j. rewrite <- Sr'. apply (user_sem O L h); auto. unfold is_herm_doid. lia. }
          assert (Eff4 : 0 <= eff < 4 /\ (c_m u = if swaps eff then cols_of op h else rows_of op h) /\ (c_n u = if swaps eff then rows_of op h else cols_of op h)).
          { rewrite <- Rows, <- Cols. unfold eff. clear - RC1 RC2 Hdims.
            assert (H4 : req = 0 \/ req = 1 \/ req = 2 \/ req = 3) by lia.
            destruct Hdims as [(Q & Q1 & Q2) | (Q & Q1 & Q2)]; rewrite Q, Q1, Q2; destruct H4 as [-> | [-> | [-> | ->]]];
              destruct (is_none op); try discriminate RC2; vm_compute; intuition congruence. }
          destruct Eff4 as (E4 & Em & En).
          replace ((eff =? sl) || (eff =? su) || (eff =? slc) || (eff =? suc)) with false by (unfold sl, su, slc, suc; lia).
          replace ((eff =? hl) || (eff =? hu) || (eff =? hlc) || (eff =? huc)) with false by (unfold hl, hu, hlc, huc; lia).
          assert (OVu : order = 0 -> c_b u = 1 -> cols_of op h * ldb + n - 1 <= int_max w) by (intros; apply Hext; auto; congruence).
          destruct ((eff =? gc) || (eff =? gn)) eqn:Eg.
          * assert (SF : swaps eff = false) by (unfold swaps, gt, gh, gc, gn in *; lia). rewrite SF in Em, En.
            destruct (run_case (eff =? gc) (c_b u) (c_m u) (c_n u) (c_nnz u) (c_ptr u) (c_ind u) (c_val u) Wf Lv Hb Em En) as (C' & E & R).
            -- now rewrite En.
            -- intros i l Hi Hl. rewrite <- Se. assert (Q : eff = 0 \/ eff = 1) by (unfold gc, gn in Eg; lia). destruct Q as [-> | ->]; reflexivity.
            -- rewrite E. exists C', h. auto.
          * assert (SF : swaps eff = true) by (unfold swaps, gt, gh, gc, gn in *; lia). rewrite SF in Em, En.
            change ((eff =? gt) || (eff =? gh)) with (swaps eff). rewrite SF.
            pose proof (wf_n _ _ _ _ _ _ Wf). pose proof (wf_nnz _ _ _ _ _ _ Wf). rewrite Hnnz.
            destruct (csr2csc_ok T (c_m u) (c_n u) (c_nnz u) (c_b u) (c_b u) (c_ptr u) (c_ind u) (c_val u) (fz (c_n u + 1)) (fz (c_nnz u)) (ft (c_nnz u)) Hb Hb Wf Lv)
              as (cp & ri & cv & E & Wc & Lc & _ & Ent);
              [apply (me_fz _ _ _ _ _ EN); lia | apply (me_fz _ _ _ _ _ EN); lia | apply (me_ft _ _ _ _ _ EN); lia|].
            rewrite E.
            destruct (run_case (eff =? gh) (c_b u) (c_n u) (c_m u) (c_nnz u) cp ri cv Wc Lc Hb En Em) as (C' & E' & R).
            -- now rewrite Em.
            -- intros i l Hi Hl. rewrite <- Se. unfold csr_mat. rewrite Ent by auto.
               assert (Q : eff = 2 \/ eff = 3) by (unfold swaps, gt, gh in SF; lia). destruct Q as [-> | ->]; reflexivity.
            -- rewrite E'. exists C', h. auto.
        + rewrite andb_true_r. specialize (SQ eq_refl). destruct RC as (RC1 & RC2).
          assert (RR : H_m h = rows_of op h /\ H_m h = cols_of op h) by (rewrite <- Rows, <- Cols; destruct (is_none op); lia). destruct RR as (RR1 & RR2).
          assert (Hreal : is_herm_doid req -> real_diag O (with_diag O (d_diag d) A)).
          { intros Hd. apply (real_with_diag O L). intros Q. destruct (d_type d) eqn:Td; auto; try congruence; try discriminate G.
            exfalso. clear - Er Hd Ho. unfold is_herm_doid in Hd. destruct op; try discriminate Ho; destruct is_real, (d_fill d); vm_compute in Er; inversion Er; subst; lia. }
          assert (Se : forall i j, doid_sem O eff (with_diag O (d_diag d) Mu) i j = OPA i j).
          { intros i j. rewrite <- Sr'. unfold eff, Mu, hnd_mat, stored_as in *. destruct (c_doid u =? gt) eqn:Eg; [|reflexivity].
            etransitivity; [|apply (proj2 (trans_ok O L req _ Rr Hreal))]. apply doid_ext. intros. symmetry. rewrite <- with_diag_mT. reflexivity. }
          set (fill := if c_doid u =? gt then flip_fill (d_fill d) else d_fill d).
          assert (EF : is_one_tri eff = true /\ fill = (if lower_doid eff then fm_lower else fm_upper)).
          { unfold eff, fill. clear - RC1 RC2 Rr. destruct (c_doid u =? gt); dcases Rr; try discriminate RC1; destruct (d_fill d); try discriminate RC2; vm_compute; auto. }
          destruct EF as (EF1 & EF2).
          assert (Du : c_m u = H_m h /\ c_n u = H_m h) by lia. destruct Du as (Du1 & Du2). rewrite Du1, Du2 in Wf.
          assert (SYM : forall herm, herm = (8 <=? eff) -> exists C' h',
             (let* C0 := scale_dense O w ord order ldc (rows_of op h) n beta C in
              let* C1 := sym_ref O w herm ((eff =? slc) || (eff =? suc) || (eff =? hlc) || (eff =? huc)) fill (d_diag d) order alpha (c_b u) (H_n h) (c_ptr u) (c_ind u) (c_val u) B n ldb ldc C0 in
              Some (success, Some C1, Some h)) = Some (success, Some C', Some h') /\
             holds_window zero order ldc (rows_of op h) n W C C' /\ hinted O h' u /\ H_m h' = H_m h /\ H_n h' = H_n h).
          { intros herm Eh. destruct (scale_dense_ok O L w ord order ldc (rows_of op h) n beta C (me_ord _ _ _ _ _ EN) DC) as (C0 & E0 & R0).
            rewrite E0, <- SQ. rewrite <- RR1 in *. rewrite <- RR2 in DB.
            assert (DC0 : dense_ok w order ldc (H_m h) n C0).
            { destruct DC as [C1 C2 C3 C4 C5 C6 C7]. constructor; auto. unfold window_fits in *. rewrite (proj1 R0). exact C6. }
            destruct (sym_ref_ok O L w order (c_b u) (H_m h) n (c_nnz u) ldb ldc (c_ptr u) (c_ind u) (c_val u) B alpha herm
              ((eff =? slc) || (eff =? suc) || (eff =? hlc) || (eff =? huc)) fill (d_diag d) Wf Lv DB C0 DC0) as (C1 & E1 & R1).
            rewrite E1. exists C1, h. split; [reflexivity|]. split; auto.
            pose proof (tile_comp O order ldc (H_m h) n _ (fun i j x => oadd O x (omul O alpha (sumz O 0 (H_m h) (fun l => omul O (sym_elem O (c_b u) (c_ptr u) (c_ind u) (c_val u) herm ((eff =? slc) || (eff =? suc) || (eff =? hlc) || (eff =? huc)) fill (d_diag d) i l) (bm O order ldb B l j))))) _ _ _ R0 R1) as R. cbv beta in R.
            eapply WinFacts.hw_ext; [|exact R]. intros i j Hi Hj. cbv beta. unfold mm_entry. rewrite <- RR2.
            rewrite (sumz_ext O 0 (H_m h) _ (fun l => omul O (OPA i l) (nthZ zero B (dense_at order ldb l j)))); [ring|].
            intros l Hl. rewrite (sym_elem_sem O L eff) by auto. fold Mu. rewrite Se. reflexivity. }
          destruct ((eff =? sl) || (eff =? su) || (eff =? slc) || (eff =? suc)) eqn:E1.
          * apply SYM. unfold sl, su, slc, suc in E1. lia.
          * assert (E2 : (eff =? hl) || (eff =? hu) || (eff =? hlc) || (eff =? huc) = true) by (unfold sl, su, slc, suc, hl, hu, hlc, huc, is_one_tri in *; lia).
            rewrite E2. apply SYM. unfold hl, hu, hlc, huc in E2. lia.
    Qed.
  End Call.
End M.
