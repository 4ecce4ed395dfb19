(** Consequences of the kernel theorems: kernels that meet the same specification
    return the same vector; the public aoclsparse_?csrmv. *)
From Coq Require Import ZArith List Bool Lia ZifyBool Permutation.
From Verif Require Import Base BaseFacts Algebra Vec DoidModel DoidSpec DoidProof Csr CsrFacts CheckSpec MvModel MvSpec MvFacts MvProof MvSymProof
  MvVecProof MvKtProof MvPubProof CsrmvModel CsrmvProof HandleModel HandleSpec OptProof MvHandleProof.
Import ListNotations.
Open Scope Z_scope.

Section P.
  Context {T : Type} (O : ops T) (L : laws O).

  Lemma mv_spec_inj : forall r c alpha beta M x y y1 y2,
    mv_spec O r c alpha beta M x y y1 -> mv_spec O r c alpha beta M x y y2 -> y1 = y2.
  Proof.
    intros r c alpha beta M x y y1 y2 [L1 H1] [L2 H2]. apply (nthZ_ext _ (o0 O)); [congruence|].
    intros i Hi. rewrite H1, H2 by lia. reflexivity.
  Qed.

  Lemma same_result : forall r c alpha beta M x y (f g : option (list T)),
    (exists y', f = Some y' /\ mv_spec O r c alpha beta M x y y') ->
    (exists y', g = Some y' /\ mv_spec O r c alpha beta M x y y') -> f = g /\ f <> None.
  Proof.
    intros r c alpha beta M x y f g (y1 & -> & H1) (y2 & -> & H2). split; [|discriminate].
    f_equal. eapply mv_spec_inj; eauto.
  Qed.

  Lemma gn_kernels_agree : forall m n nnz b ptr ind val alpha beta x y,
    csr_wf m n nnz b ptr ind -> zlen val = nnz -> zlen x = n -> zlen y = m ->
    ref_csrmv_gn O b alpha m val ind ptr x beta y <> None /\
    csrmv_vectorized O b alpha m val ind ptr x beta y = ref_csrmv_gn O b alpha m val ind ptr x beta y /\
    csrmv_vectorized_avx2 O b alpha m val ind ptr x beta y = ref_csrmv_gn O b alpha m val ind ptr x beta y /\
    csrmv_vectorized_avx512 O b alpha m val ind ptr x beta y = ref_csrmv_gn O b alpha m val ind ptr x beta y /\
    forall tsz, 0 < tsz -> csrmv_kt O tsz b alpha m val ind ptr x beta y = ref_csrmv_gn O b alpha m val ind ptr x beta y.
  Proof.
    intros m n nnz b ptr ind val alpha beta x y W Lv Lx Ly.
    pose proof (ref_csrmv_gn_ok O L m n nnz b ptr ind val alpha beta x y W Lv Lx Ly) as R.
    unfold csrmv_vectorized, csrmv_vectorized_avx2, csrmv_vectorized_avx512.
    split; [destruct R as (y' & -> & _); discriminate|].
    split; [|split; [|split]].
    - eapply same_result; [|exact R]. eapply csrmv_vec_ok; eauto; [lia|]. intros v Hv. apply (hsum8f_ok O L). exact Hv.
    - eapply same_result; [|exact R]. eapply csrmv_vec_ok; eauto; [lia|]. intros v Hv. apply (hsum4_ok O L). exact Hv.
    - eapply same_result; [|exact R]. eapply csrmv_vec_ok; eauto; [lia|]. intros v Hv. apply (hsum8d_ok O L). exact Hv.
    - intros tsz Ht. eapply same_result; [|exact R]. eapply csrmv_kt_ok; eauto.
  Qed.

  Lemma gt_kernels_agree : forall m n nnz b ptr ind val alpha beta x y,
    csr_wf m n nnz b ptr ind -> zlen val = nnz -> zlen x = m -> zlen y = n ->
    ref_csrmv_th O false b alpha m n val ind ptr x beta y <> None /\
    forall tsz, 0 < tsz ->
      csrmvt_kt_seq O tsz b alpha m n val ind ptr x beta y = ref_csrmv_th O false b alpha m n val ind ptr x beta y /\
      forall nthreads team, 0 < nthreads -> Permutation team (zrange 0 nthreads) ->
        csrmvt_kt_omp O nthreads team tsz b alpha m n val ind ptr x beta y =
        ref_csrmv_th O false b alpha m n val ind ptr x beta y.
  Proof.
    intros m n nnz b ptr ind val alpha beta x y W Lv Lx Ly.
    pose proof (ref_csrmv_th_ok O L false m n nnz b ptr ind val alpha beta x y W Lv Lx Ly) as R.
    split; [destruct R as (y' & -> & _); discriminate|].
    intros tsz Ht. split.
    - eapply same_result; [|exact R]. eapply csrmvt_kt_seq_ok; eauto.
    - intros nt team Hn Hp. eapply same_result; [|exact R]. eapply csrmvt_kt_omp_ok; eauto.
  Qed.

  Lemma symm_kernels_agree : forall m nnz b ptr ind idiag iurow val fm dg alpha beta x y,
    tri_ready m m nnz b ptr ind idiag iurow -> full_diag m m b ptr ind -> zlen val = nnz -> zlen x = m -> zlen y = m ->
    forall herm,
    csrmv_fg_internal O (fun v => v) (cjh O herm) b alpha m dg fm val ind ptr idiag x beta y <> None /\
    forall tsz, 0 < tsz ->
    csrmv_symm_kt O herm tsz b alpha m dg fm val ind ptr idiag iurow x beta y =
    csrmv_fg_internal O (fun v => v) (cjh O herm) b alpha m dg fm val ind ptr idiag x beta y.
  Proof.
    intros m nnz b ptr ind idiag iurow val fm dg alpha beta x y R F Lv Lx Ly herm.
    assert (S : exists y', csrmv_fg_internal O (fun v => v) (cjh O herm) b alpha m dg fm val ind ptr idiag x beta y = Some y' /\
      mv_spec O m m alpha beta (symM fm (fun v => v) (cjh O herm) (dval O b ptr ind val (fun v => v) dg) (csr_mat O b ptr ind val)) x y y').
    { eapply csrmv_fg_ok; eauto.
      - split; intros; reflexivity.
      - destruct herm; cbn [cjh]; [apply (additive_cj O L)|split; intros; reflexivity]. }
    split; [destruct S as (y' & -> & _); discriminate|].
    intros tsz Ht. eapply same_result; [|exact S]. eapply csrmv_symm_kt_ok; eauto.
  Qed.

  Lemma tri_kernels_agree : forall m n nnz ptr ind idiag iurow val d alpha beta x y,
    let b := d_base d in
    let rs := tri_start (d_fill d) ptr idiag in let re := tri_end (d_fill d) ptr iurow in let eo := tri_eoff (d_fill d) in
    tri_ready m n nnz b ptr ind idiag iurow -> zlen val = nnz -> zlen x = n -> zlen y = m ->
    d_type d <> mt_general -> diag_usable m n b ptr ind (d_diag d) ->
    (d_fill d = fm_upper -> d_diag d = dg_unit -> forall i, 0 <= i < m -> zn ptr (i + 1) - zn iurow i < 4) ->
    ref_csrmv_tri O d alpha m val ind rs eo re x beta y <> None /\
    csrmv_vectorized_avx2ptr O d alpha m val ind rs eo re x beta y = ref_csrmv_tri O d alpha m val ind rs eo re x beta y.
  Proof.
    intros m n nnz ptr ind idiag iurow val d alpha beta x y b rs re eo R Lv Lx Ly Hty Hu Hs.
    pose proof (ref_csrmv_tri_ok O L m n nnz ptr ind idiag iurow val d alpha beta x y R Lv Lx Ly Hty Hu) as S.
    split; [destruct S as (y' & E & _); unfold rs, re, eo; rewrite E; discriminate|].
    eapply same_result; [|exact S]. eapply avx2ptr_ok; eauto.
  Qed.

  Variables (dt : dtype) (choice : Z -> option Z) (nthreads : Z) (team : list Z).
  Hypothesis Hteam : nthreads <= 1 \/ Permutation team (zrange 0 nthreads).
  Hypothesis Hdt : is_cplx dt = false.
  Hypothesis Hreal : forall a, ocj O a = a.

  (** The public real csrmv. *)
  Lemma csrmv_pub_general : forall op d m n nnz val col row alpha beta x y,
    d_type d = mt_general -> csr_wf m n nnz (d_base d) row col -> (d_base d = 0 \/ d_base d = 1) -> zlen val = nnz ->
    valid_op op = true ->
    let rows := match op with op_none => m | _ => n end in
    let cols := match op with op_none => n | _ => m end in
    zlen x = cols -> zlen y = rows ->
    csrmv_pub O dt choice nthreads team op (Some alpha) m n nnz (Some val) (Some col) (Some row) (Some d) (Some x) (Some beta) (Some y)
      = Some (invalid_kid, None) /\ (exists k, choice k = None) \/
    exists y', csrmv_pub O dt choice nthreads team op (Some alpha) m n nnz (Some val) (Some col) (Some row) (Some d) (Some x) (Some beta) (Some y)
      = Some (success, Some y') /\ mv_spec O rows cols alpha beta (op_sem O op (csr_mat O (d_base d) row col val)) x y y'.
  Proof.
    intros op d m n nnz val col row alpha beta x y Hty W Hb Lv Hop rows cols Lx Ly.
    unfold csrmv_pub. rewrite Hty. replace (negb ((d_base d =? 0) || (d_base d =? 1))) with false by (clear - Hb; lia).
    rewrite Hop. cbn [negb andb]. pose proof (wf_m _ _ _ _ _ _ W). pose proof (wf_n _ _ _ _ _ _ W). pose proof (wf_nnz _ _ _ _ _ _ W).
    replace (_ || _ || _) with false by (clear - H H0 H1; lia). rewrite Hdt. cbn [negb].
    assert (E : exists e, get_doid true mt_general (d_fill d) op = Some e /\ (op = op_none /\ e = 0 \/ op <> op_none /\ e = 2)).
    { destruct op; cbn in Hop; try discriminate; destruct (d_fill d); vm_compute; eexists; split; try reflexivity; auto; right; split; congruence. }
    destruct E as (e & -> & He).
    assert (He' : e = 0 \/ e = 2) by tauto.
    replace (csrmv_run O dt choice nthreads team true e (-1) d alpha m n nnz val col row [] [] x beta y)
      with (csrmv_run O dt choice nthreads team false e (-1) d alpha m n nnz val col row [] [] x beta y)
      by (destruct He' as [-> | ->]; reflexivity).
    destruct (csrmv_run_ok O L dt choice nthreads team Hteam ltac:(auto) e (-1) d alpha m n nnz val col row [] [] x beta y) as [R|(y' & E & R)]; auto.
    - unfold supported. rewrite Hdt. destruct He' as [-> | ->]; reflexivity.
    - destruct He' as [-> | ->]; exact I.
    - unfold prepared. destruct He' as [-> | ->]; exact W.
    - unfold avx2ptr_fine. intros; lia.
    - unfold cols in Lx. destruct He as [[-> ->]|[Hn ->]]; cbn; auto. destruct op; auto; congruence.
    - unfold rows in Ly. destruct He as [[-> ->]|[Hn ->]]; cbn; auto. destruct op; auto; congruence.
    - right. exists y'. split; [exact E|].
      destruct He as [[-> ->]|[Hn ->]]; cbn in R; [exact R|].
      destruct op; try congruence; try discriminate; cbn [op_sem]; unfold rows, cols; auto.
      eapply mv_spec_ext; [|exact R]. intros i j. unfold mC. rewrite Hreal. reflexivity.
  Qed.

  Lemma csrmv_pub_symmetric : forall op d m nnz val col row alpha beta x y,
    d_type d = mt_symmetric -> csr_wf m m nnz (d_base d) row col -> (d_base d = 0 \/ d_base d = 1) -> zlen val = nnz ->
    valid_op op = true -> lower_diag_last m (d_base d) row col -> zn row 0 < zn row 1 \/ m = 0 ->
    zlen x = m -> zlen y = m ->
    exists y', csrmv_pub O dt choice nthreads team op (Some alpha) m m nnz (Some val) (Some col) (Some row) (Some d) (Some x) (Some beta) (Some y)
      = Some (success, Some y') /\ mv_spec O m m alpha beta (descr_sem O mt_symmetric fm_lower (csr_mat O (d_base d) row col val)) x y y'.
  Proof.
    intros op d m nnz val col row alpha beta x y Hty W Hb Lv Hop Hl H0 Lx Ly.
    unfold csrmv_pub. rewrite Hty. replace (negb ((d_base d =? 0) || (d_base d =? 1))) with false by (clear - Hb; lia).
    rewrite Hop, Z.eqb_refl. cbn [negb andb]. pose proof (wf_m _ _ _ _ _ _ W). pose proof (wf_nnz _ _ _ _ _ _ W).
    replace (_ || _ || _) with false by (clear - H H1; lia). rewrite Hdt. cbn [negb].
    destruct (csrmv_symm_ok O L m nnz (d_base d) row col val alpha beta x y W Lv Lx Ly Hl H0) as (y' & E & R).
    exists y'. split; [|exact R].
    assert (G : exists e, get_doid true mt_symmetric (d_fill d) op = Some e /\ 4 <= e < 8).
    { destruct op; cbn in Hop; try discriminate; destruct (d_fill d); vm_compute; eexists; split; try reflexivity; split; congruence. }
    destruct G as (e & -> & He). unfold csrmv_run. rewrite Hdt.
    assert (He' : e = 4 \/ e = 5 \/ e = 6 \/ e = 7) by (clear - He; lia).
    destruct He' as [->|[->|[->| ->]]]; cbn [tri_ptrs]; unfold ok; cbv beta iota; rewrite E; reflexivity.
  Qed.
End P.
