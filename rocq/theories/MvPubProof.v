(** The symmetric kernel behind the public csrmv entry points, and the bridge from
    kernel matrices to descriptors. *)
From Coq Require Import ZArith List Bool Lia ZifyBool Ring Permutation.
From Verif Require Import Base BaseFacts Algebra Vec DoidModel DoidSpec Csr CsrFacts CheckSpec
  MvModel MvSpec MvFacts MvProof MvSymProof.
Import ListNotations.
Open Scope Z_scope.

Section P.
  Context {T : Type} (O : ops T) (L : laws O).
  Local Notation zero := (o0 O).
  Local Notation one := (o1 O).
  Local Infix "+!" := (oadd O) (at level 50, left associativity).
  Local Infix "*!" := (omul O) (at level 40, left associativity).
  Local Notation "a ==! b" := (oeqb O a b) (at level 70).
  Local Notation tn := (nthZ zero).
  Let rth := l_ring L.
  Add Ring Tr6 : rth.

  Lemma csrmv_symm_ok : forall m nnz b ptr ind val alpha beta x y,
    csr_wf m m nnz b ptr ind -> zlen val = nnz -> zlen x = m -> zlen y = m ->
    lower_diag_last m b ptr ind -> zn ptr 0 < zn ptr 1 \/ m = 0 ->
    exists y', csrmv_symm O b alpha m val ind ptr x beta y = Some y' /\
      mv_spec O m m alpha beta (mSL (csr_mat O b ptr ind val)) x y y'.
  Proof.
    intros m nnz b ptr ind val alpha beta x y W Lv Lx Ly Hl H0.
    pose proof (wf_m _ _ _ _ _ _ W) as Hm. unfold csrmv_symm.
    destruct (beta_scale_ok O L beta m y Hm Ly) as (y1 & E1 & Ly1 & R1). rewrite E1.
    set (A := csr_mat O b ptr ind val).
    match goal with |- context [for_ 0 m ?f y1] =>
    destruct (rows_add O L m (fun i j => sym_row O fm_lower (fun v => v) (fun v => v) (fun i => A i i) A m alpha x i j) 0 m f y1 Hm Ly1) as (y' & E & Ly' & P) end.
    - intros i y0 Hi Ly0.
      destruct (row_bounds _ _ _ _ _ _ i W Hi) as (? & ? & B1 & B2 & B3).
      pose proof (ptr_range _ _ _ _ (wf_ptr _ _ _ _ _ _ W) (i + 1) ltac:(lia)) as Pr.
      pose proof (ptr_mono _ _ _ _ (wf_ptr _ _ _ _ _ _ W) 1 (i + 1) ltac:(lia)) as Pm.
      destruct (wf_ptr _ _ _ _ _ _ W) as (P0 & _ & _).
      rewrite !(rd_nthZ _ 0 ptr) by lia. rewrite (rd_nthZ _ 0 ind) by lia. rewrite !(rd_nthZ _ zero) by lia.
      set (lo := zn ptr i) in *. set (hi := zn ptr (i + 1)) in *.
      set (last := zn ind (hi - b - 1) - b =? i) in *.
      assert (Lt : forall k, lo - b <= k < hi - b -> 0 <= zn ind k - b <= i /\ (zn ind k - b = i <-> last = true /\ k = hi - b - 1)).
      { intros k Hk. destruct (Hl i k Hi Hk) as [C1 C2]. pose proof (wf_ind _ _ _ _ _ _ W k ltac:(lia)). fold hi in C2.
        split; [lia|]. unfold last. split.
        - intros Ek. pose proof (C2 Ek) as Ek2. rewrite <- Ek2. split; [lia|reflexivity].
        - intros [C3 C4]. subst k. lia. }
      assert (Le : last = true -> lo < hi).
      { intros El. destruct (Z_lt_dec lo hi); auto. exfalso.
        destruct (row_of _ _ _ _ Hm (wf_ptr _ _ _ _ _ _ W) (hi - b - 1) ltac:(lia)) as (r & Hr & Rr).
        destruct (Hl r _ Hr Rr) as [C1 _]. unfold last in El.
        unfold in_row in Rr.
        destruct (Z.eq_dec r i); [subst r; fold lo hi in Rr; lia|].
        pose proof (ptr_mono _ _ _ _ (wf_ptr _ _ _ _ _ _ W) (i + 1) r ltac:(lia) ltac:(lia) ltac:(lia)) as Mr. fold hi in Mr. lia. }
      assert (Dv : (if last then one else zero) *! alpha *! tn val (hi - b - 1) *! tn x i = alpha *! (A i i *! tn x i)).
      { unfold A. rewrite (csr_mat_sum O L).
        2:{ intros k Hk. rewrite Lv. eapply in_row_range; eauto using wf_ptr. }
        fold lo hi. destruct last eqn:El.
        - rewrite (sumz_delta O L _ _ (hi - b - 1)).
          + replace (zn ind (hi - b - 1) =? i + b) with true; [ring|].
            destruct (Lt (hi - b - 1)) as [_ [_ G]]; [specialize (Le eq_refl); lia|]. specialize (G (conj eq_refl eq_refl)). lia.
          + specialize (Le eq_refl). lia.
          + intros k Hk Hne. destruct (Lt k Hk) as [_ [G _]]. replace (zn ind k =? i + b) with false; auto.
            symmetry. apply Z.eqb_neq. intros C. apply Hne. apply G. lia.
        - rewrite (sumz_zero O L); [ring|]. intros k Hk. destruct (Lt k Hk) as [_ [G _]].
          replace (zn ind k =? i + b) with false; auto. symmetry. apply Z.eqb_neq. intros C. destruct G; [lia|discriminate]. }
      rewrite Dv. rewrite acc_ok by lia.
      set (e := hi - b - (if last then 1 else 0)).
      assert (Ee : lo - b <= e <= hi - b) by (unfold e; destruct last; [specialize (Le eq_refl)|]; lia).
      assert (St : forall k, in_row ptr b i k -> (lo - b <= k < e <-> (zn ind k - b <? i) = true)).
      { intros k Hk. unfold in_row in Hk. fold lo hi in Hk. destruct (Lt k Hk) as [C1 C2]. unfold e. destruct last; lia. }
      set (y2 := upd y0 i (tn y0 i +! alpha *! (A i i *! tn x i))).
      assert (Ly2 : zlen y2 = m) by (unfold y2; rewrite zlen_upd; auto).
      match goal with |- context [for_ (lo - b) e ?f y2] =>
      destruct (for_inv _ (fun q v => zlen v = m /\ forall j, 0 <= j < m ->
        tn v j = tn y2 j +! ((if j =? i then alpha *! sumz O (lo - b) q (fun k => tn val k *! tn x (zn ind k - b)) else zero)
          +! alpha *! sumz O (lo - b) q (fun k => if zn ind k - b =? j then tn val k *! tn x i else zero)))
        (lo - b) e f y2 ltac:(lia)) as (y3 & E3 & Ly3 & R3) end.
      + split; auto. intros j Hj. rewrite !(sumz_nil O) by lia. destruct (j =? i); ring.
      + intros q v Hq (Lvv & Rv). destruct (Lt q ltac:(lia)) as [C1 _].
        rewrite (rd_nthZ _ zero) by lia. rewrite (rd_nthZ _ 0) by lia. rewrite (rd_nthZ _ zero) by lia.
        rewrite acc_ok by lia. rewrite acc_ok by (rewrite zlen_upd; lia).
        eexists; split; [reflexivity|]. split; [rewrite !zlen_upd; lia|].
        intros j Hj. rewrite !(sumz_last O L) by lia.
        rewrite !nthZ_upd by (try rewrite zlen_upd; lia).
        assert (i <> zn ind q - b).
        { assert ((zn ind q - b <? i) = true) by (apply St; [unfold in_row; fold lo hi|]; lia). lia. }
        destruct (Z.eqb_spec j (zn ind q - b)).
        * subst j. rewrite Z.eqb_refl. replace (zn ind q - b =? i) with false by lia.
          rewrite Rv by lia. replace (zn ind q - b =? i) with false by lia. ring.
        * replace (zn ind q - b =? j) with false by lia. destruct (Z.eqb_spec j i).
          -- subst j. rewrite Rv by lia. rewrite Z.eqb_refl. ring.
          -- rewrite Rv by lia. replace (j =? i) with false by lia. ring.
      + rewrite E3. exists y3. ands; auto. intros j Hj. rewrite R3 by lia. unfold y2. rewrite nthZ_upd by lia.
        unfold sym_row, strict.
        rewrite (row_sum_cols O L m m nnz b ptr ind val i (lo - b) e (fun c => c <? i) (fun v => v) (fun c => tn x c) W Lv Hi (additive_id O) St); fold lo hi; try lia.
        rewrite (row_scatter_col O L m m nnz b ptr ind val i (lo - b) e (fun c => c <? i) (fun v => v) (tn x i) j W Lv Hi (additive_id O) St); fold lo hi; try lia.
        fold A. destruct (Z.eqb_spec j i); [subst j|]; destruct (_ <? i); ring.
    - exists y'. split; [exact E|]. split; auto. intros j Hj. rewrite P, R1 by lia. rewrite (sym_assemble O L) by lia.
      match goal with |- ?a +! alpha *! ?s1 = alpha *! ?s2 +! ?a => replace s2 with s1; [ring|] end. apply (sumz_ext O). intros c Hc. f_equal. unfold symM, strict, mSL.
      destruct (Z.eqb_spec j c); [subst; replace (c <=? c) with true by lia; auto|].
      destruct (c <? j) eqn:?; [replace (c <=? j) with true by lia|replace (c <=? j) with false by lia]; auto.
  Qed.

  Lemma mv_spec_ext : forall r c alpha beta M M' x y y',
    (forall i j, 0 <= i < r -> 0 <= j < c -> M i j = M' i j) ->
    mv_spec O r c alpha beta M x y y' -> mv_spec O r c alpha beta M' x y y'.
  Proof.
    intros r c alpha beta M M' x y y' H [Hl He]. split; auto. intros i Hi. rewrite He by auto.
    f_equal. f_equal. apply (sumz_ext O). intros j Hj. rewrite H by auto. reflexivity.
  Qed.

  (** Kernel matrix to descriptor: the cases of C17. *)
  Ltac symcases :=
    intros; unfold symM, strict, dval, described, descr_sem, mSL, mSU, mHL, mHU, mC, mT, with_diag, real_diag in *;
    repeat match goal with dg : diag_type |- _ => destruct dg end;
    repeat match goal with fm : fill_mode |- _ => destruct fm end;
    match goal with |- context [?i =? ?j] =>
      destruct (Z.eqb_spec i j); [subst|];
      [rewrite ?Z.leb_refl, ?Z.eqb_refl|
       (destruct (Z.ltb_spec i j); destruct (Z.ltb_spec j i); try lia;
        rewrite ?(proj2 (Z.leb_le i j)) by lia; rewrite ?(proj2 (Z.leb_le j i)) by lia;
        rewrite ?(proj2 (Z.leb_gt i j)) by lia; rewrite ?(proj2 (Z.leb_gt j i)) by lia;
        rewrite ?(proj2 (Z.eqb_neq i j)) by lia; rewrite ?(proj2 (Z.eqb_neq j i)) by lia)] end;
    rewrite ?(l_cj_cj L), ?(cj_0 O L), ?(cj_1 O L); auto.

  Variables (b : Z) (ptr ind : list Z) (val : list T).
  Notation A := (csr_mat O b ptr ind val).

  Lemma sym_described : forall fm dg i j,
    symM fm (fun v => v) (fun v => v) (dval O b ptr ind val (fun v => v) dg) A i j = described O mt_symmetric fm dg A i j.
  Proof. symcases. Qed.

  Lemma symc_described : forall fm dg i j,
    symM fm (ocj O) (ocj O) (dval O b ptr ind val (ocj O) dg) A i j = mC O (described O mt_symmetric fm dg A) i j.
  Proof. symcases. Qed.

  Lemma herm_described : forall fm dg i j,
    symM fm (fun v => v) (ocj O) (dval O b ptr ind val (fun v => v) dg) A i j = described O mt_hermitian fm dg A i j.
  Proof. symcases. Qed.

  Lemma hermt_described : forall fm dg i j,
    symM fm (ocj O) (fun v => v) (dval O b ptr ind val (fun v => v) dg) A i j = mT (described O mt_hermitian fm dg A) i j.
  Proof. symcases. Qed.

  (** Transposing a symmetric matrix changes nothing. *)
  Lemma symt_described : forall fm dg i j,
    mT (described O mt_symmetric fm dg A) i j = described O mt_symmetric fm dg A i j.
  Proof. symcases. Qed.
End P.
