(** Whatever kernel the dispatcher selects, the result is the matrix-vector
    product. *)
From Coq Require Import ZArith List Bool Lia ZifyBool Ring Permutation.
From Verif Require Import Base BaseFacts Algebra Vec DoidModel DoidSpec Csr CsrFacts CheckSpec
  MvModel MvSpec MvFacts MvProof MvSymProof MvVecProof MvKtProof MvPubProof CsrmvModel.
Import ListNotations.
Open Scope Z_scope.

Section P.
  Context {T : Type} (O : ops T) (L : laws O).
  Variables (dt : dtype) (choice : Z -> option Z) (nthreads : Z) (team : list Z).
  Hypothesis Hteam : nthreads <= 1 \/ Permutation team (zrange 0 nthreads).
  (** real scalars: conjugation is the identity *)
  Hypothesis Hreal : is_cplx dt = false -> forall a, ocj O a = a.

  (** The matrix a kernel multiplies with, from the doid and the descriptor. *)
  Definition ksem (d_id : Z) (fm : fill_mode) (dg : diag_type) (A : Z -> Z -> T) : Z -> Z -> T :=
    match d_id with
    | 0 => A | 2 => mT A | 3 => mC O (mT A)
    | 4 | 6 => described O mt_symmetric fm dg A
    | 5 | 7 => mC O (described O mt_symmetric fm dg A)
    | 8 | 11 => described O mt_hermitian fm dg A
    | 9 | 10 => mT (described O mt_hermitian fm dg A)
    | 12 | 16 => described O mt_triangular fm dg A
    | 14 | 18 => mT (described O mt_triangular fm dg A)
    | _ => mC O (mT (described O mt_triangular fm dg A))
    end.
  Definition transposed (d_id : Z) : bool := (d_id =? 2) || (d_id =? 3) || (d_id =? 14) || (d_id =? 15) || (d_id =? 18) || (d_id =? 19).
  Definition supported (d_id : Z) : bool :=
    (0 <=? d_id) && (d_id <? 20) && negb (d_id =? 1) && negb (d_id =? 13) && negb (d_id =? 17) &&
    (is_cplx dt || negb ((d_id =? 3) || (d_id =? 15) || (d_id =? 19))).
  Definition fill_of (d_id : Z) (fm : fill_mode) : Prop :=
    match d_id with
    | 4 | 5 | 8 | 9 | 12 | 13 | 14 | 15 => fm = fm_lower
    | 6 | 7 | 10 | 11 | 16 | 17 | 18 | 19 => fm = fm_upper
    | _ => True
    end.
  (** What the storage must provide for the kernel. *)
  Definition prepared (d_id m n nnz : Z) (d : descr) (row col idiag iurow : list Z) : Prop :=
    let b := d_base d in
    if d_id <? 4 then csr_wf m n nnz b row col
    else tri_ready m n nnz b row col idiag iurow /\ d_type d <> mt_general /\
      (if d_id <? 12 then m = n /\ full_diag m n b row col else diag_usable m n b row col (d_diag d)).
  (** The double kernel that loses the unit diagonal (finding B2). *)
  Definition avx2ptr_fine (d_id m : Z) (d : descr) (row iurow : list Z) : Prop :=
    dt = dt_d -> d_id = 16 -> d_diag d = dg_unit -> forall i, 0 <= i < m -> zn row (i + 1) - zn iurow i < 4.

  Lemma tbl_tsz_pos : forall k, 0 < tbl_tsz dt k.
  Proof. intros k. unfold tbl_tsz, tsz512. destruct (k =? 3), dt; cbn; lia. Qed.

  Lemma csrmvt_kt_ok : forall tsz, 0 < tsz ->
    forall m n nnz b ptr ind val alpha beta x y,
    csr_wf m n nnz b ptr ind -> zlen val = nnz -> zlen x = m -> zlen y = n ->
    exists y', csrmvt_kt O nthreads team tsz b alpha m n val ind ptr x beta y = Some y' /\
      mv_spec O n m alpha beta (mT (csr_mat O b ptr ind val)) x y y'.
  Proof.
    intros tsz Hk m n nnz b ptr ind val alpha beta x y W Lv Lx Ly. unfold csrmvt_kt.
    destruct (Z.leb_spec nthreads 1).
    - apply (csrmvt_kt_seq_ok O L tsz Hk m n nnz); auto.
    - destruct Hteam; [lia|]. apply (csrmvt_kt_omp_ok O L tsz nthreads team Hk ltac:(lia)) with (nnz := nnz); auto.
  Qed.

  Lemma okI : forall (P : list T -> Prop) r, (exists y', r = Some y' /\ P y') ->
    exists y', ok r = Some (success, Some y') /\ P y'.
  Proof. intros P r (y' & -> & H). exists y'. split; auto. Qed.

  Lemma real_cjh : is_cplx dt = false -> forall a, cjh O true a = a.
  Proof. intros H a. cbn. apply Hreal; auto. Qed.

  Lemma real_symM : is_cplx dt = false -> forall fm dv A i j,
    symM fm (fun v => v) (cjh O true) dv A i j = symM fm (fun v => v) (fun v => v) dv A i j.
  Proof. intros H fm dv A i j. unfold symM. destruct (i =? j); auto. destruct (strict fm i j); auto. apply real_cjh; auto. Qed.
  Lemma real_mC : is_cplx dt = false -> forall M i j, mC O M i j = M i j.
  Proof. intros H M i j. apply Hreal; auto. Qed.
  Lemma real_herm : is_cplx dt = false -> forall fm dg A i j, described O mt_hermitian fm dg A i j = described O mt_symmetric fm dg A i j.
  Proof. intros H fm dg A i j. unfold described, descr_sem, mHL, mHU, mSL, mSU. destruct fm; (destruct (_ <=? _); auto). Qed.
  Lemma real_hermT : is_cplx dt = false -> forall fm dg b ptr ind val i j,
    mT (described O mt_hermitian fm dg (csr_mat O b ptr ind val)) i j = described O mt_symmetric fm dg (csr_mat O b ptr ind val) i j.
  Proof. intros H fm dg b ptr ind val i j. unfold mT. rewrite real_herm by auto. apply (symt_described O). Qed.

  Lemma csrmv_run_ok : forall d_id kid d alpha m n nnz val col row idiag iurow x beta y,
    supported d_id = true -> fill_of d_id (d_fill d) ->
    prepared d_id m n nnz d row col idiag iurow -> zlen val = nnz ->
    avx2ptr_fine d_id m d row iurow ->
    let rows := if transposed d_id then n else m in
    let cols := if transposed d_id then m else n in
    zlen x = cols -> zlen y = rows ->
    csrmv_run O dt choice nthreads team false d_id kid d alpha m n nnz val col row idiag iurow x beta y = Some (invalid_kid, None) /\ (exists k, choice k = None) \/
    exists y', csrmv_run O dt choice nthreads team false d_id kid d alpha m n nnz val col row idiag iurow x beta y = Some (success, Some y') /\
      mv_spec O rows cols alpha beta (ksem d_id (d_fill d) (d_diag d) (csr_mat O (d_base d) row col val)) x y y'.
  Proof.
    intros d_id kid d alpha m n nnz val col row idiag iurow x beta y Hs Hf Hp Lv Hav rows cols Lx Ly.
    assert (Hd : d_id = 0 \/ d_id = 2 \/ d_id = 3 \/ d_id = 4 \/ d_id = 5 \/ d_id = 6 \/ d_id = 7 \/ d_id = 8 \/ d_id = 9 \/
      d_id = 10 \/ d_id = 11 \/ d_id = 12 \/ d_id = 14 \/ d_id = 15 \/ d_id = 16 \/ d_id = 18 \/ d_id = 19).
    { unfold supported in Hs. lia. }
    assert (Gn : forall k, d_id = 0 -> exists y',
       (if k =? 0 then ref_csrmv_gn O (d_base d) alpha m val col row x beta y
        else csrmv_kt O (tbl_tsz dt k) (d_base d) alpha m val col row x beta y) = Some y' /\
       mv_spec O rows cols alpha beta (csr_mat O (d_base d) row col val) x y y').
    { intros k ->. destruct (k =? 0); [apply (ref_csrmv_gn_ok O L m n nnz)|apply (csrmv_kt_ok O L) with (nnz := nnz)]; auto using tbl_tsz_pos. }
    assert (Sym : forall hm k, d_id = 4 \/ d_id = 6 \/ d_id = 8 \/ d_id = 11 \/ d_id = 5 \/ d_id = 7 \/ d_id = 9 \/ d_id = 10 -> exists y',
       csrmv_symm_kt O hm (tbl_tsz dt k) (d_base d) alpha m (d_diag d) (d_fill d) val col row idiag iurow x beta y = Some y' /\
       mv_spec O rows cols alpha beta (symM (d_fill d) (fun v => v) (cjh O hm)
          (dval O (d_base d) row col val (fun v => v) (d_diag d)) (csr_mat O (d_base d) row col val)) x y y').
    { intros hm k Hd'. unfold prepared in Hp. replace (d_id <? 4) with false in Hp by lia. replace (d_id <? 12) with true in Hp by lia.
      destruct Hp as (R & _ & <- & F). subst rows cols. replace (transposed d_id) with false in * by (unfold transposed; lia).
      apply (csrmv_symm_kt_ok O L hm (tbl_tsz dt k) (tbl_tsz_pos k) m nnz); auto. }
    assert (Tri : forall s e dd, d_id = 12 \/ d_id = 14 \/ d_id = 15 \/ d_id = 16 \/ d_id = 18 \/ d_id = 19 ->
       tri_ptrs d_id row idiag iurow = (s, e, dd) -> s = tri_start (d_fill d) row idiag /\ e = tri_eoff (d_fill d) /\ dd = tri_end (d_fill d) row iurow).
    { intros s e dd Hd' Ht. destruct Hd' as [-> | [-> | [-> | [-> | [-> | ->]]]]]; cbn in Hf; rewrite Hf; cbn in Ht; inversion Ht; auto. }
    unfold csrmv_run. destruct (tri_ptrs d_id row idiag iurow) as [[s e] dd] eqn:Et.
    specialize (fun H => Tri s e dd H eq_refl).
    repeat (destruct Hd as [Hd|Hd]); subst d_id; cbv beta iota;
      cbn [transposed Z.eqb Pos.eqb orb] in *; subst rows cols;
      unfold prepared in Hp; cbn [Z.ltb Z.compare Pos.compare Pos.compare_cont] in Hp;
      (assert (Ec : is_cplx dt = true \/ is_cplx dt = false) by (destruct (is_cplx dt); auto));
      destruct Ec as [Ec|Ec]; rewrite Ec; try (cbn in Hs; rewrite Ec in Hs; discriminate).
    all: try match goal with |- context [choice ?k] => destruct (choice k) as [kk|] eqn:Ek; [|left; split; [reflexivity|exists k; exact Ek]] end.
    all: unfold ksem.
    all: try (right; apply okI; apply Gn; reflexivity).
    all: try (right; apply okI; apply (csrmvt_kt_ok (tbl_tsz dt kk) (tbl_tsz_pos kk) m n nnz); assumption).
    all: try match goal with Ec : is_cplx dt = true |- context [csrmv_symm_kt O ?hm] =>
      right; apply okI; (destruct (Sym hm kk) as (y0 & E & S); [lia|]); exists y0; split; [exact E|];
      refine (mv_spec_ext O _ _ _ _ _ _ _ _ _ _ S); intros; cbn [cjh]; first [apply (sym_described O)|apply (herm_described O)] end.
    all: try match goal with |- context [csrmv_symm_kt O ?hm] =>
      right; apply okI; (destruct (Sym hm kk) as (y0 & E & S); [lia|]); exists y0; split; [exact E|];
      refine (mv_spec_ext O _ _ _ _ _ _ _ _ _ _ S); intros; rewrite real_symM by auto;
      rewrite ?real_mC by auto; rewrite ?real_hermT, ?real_herm by auto; apply (sym_described O) end.
    all: try match goal with |- context [csrmv_fg_internal] =>
      destruct Hp as (R & _ & <- & F); right; apply okI;
      (destruct (csrmv_fg_ok O L m nnz (d_base d) row col idiag iurow val R F Lv (ocj O) (ocj O) (d_fill d) (d_diag d) alpha beta x y
        (additive_cj O L) (additive_cj O L) Lx Ly) as (y0 & E & S)); exists y0; split; [exact E|];
      refine (mv_spec_ext O _ _ _ _ _ _ _ _ _ _ S); intros; apply (symc_described O L) end.
    all: try match goal with |- context [csrmv_hermt_internal] =>
      destruct Hp as (R & _ & <- & F); right; apply okI;
      (destruct (hermt_ok O L m nnz (d_base d) row col idiag iurow val R F Lv (d_fill d) (d_diag d) alpha beta x y Lx Ly) as (y0 & E & S));
      exists y0; split; [exact E|];
      refine (mv_spec_ext O _ _ _ _ _ _ _ _ _ _ S); intros; apply (hermt_described O) end.
    all: try match goal with |- context [ref_csrmv_tri_th] =>
      destruct Hp as (R & Hg & U); (destruct Tri as (-> & -> & ->); [lia|]); right; apply okI;
      first [apply (ref_csrmv_tri_th_ok O L false m n nnz row col idiag iurow val d alpha beta x y R Lv Lx Ly Hg U)|apply (ref_csrmv_tri_th_ok O L true m n nnz row col idiag iurow val d alpha beta x y R Lv Lx Ly Hg U)] end.
    all: try match goal with |- context [ref_csrmv_tri] =>
      destruct Hp as (R & Hg & U); (destruct Tri as (-> & -> & ->); [lia|]); right;
      destruct dt eqn:Edt; try discriminate; apply okI;
      first [apply (ref_csrmv_tri_ok O L m n nnz row col idiag iurow val d alpha beta x y R Lv Lx Ly Hg U)
            |apply (avx2ptr_ok O L m n nnz row col idiag iurow val d alpha beta x y R Lv Lx Ly Hg U);
             intros Hfu Hun; cbn in Hf; try (rewrite Hf in Hfu; discriminate); apply Hav; auto] end.
    all: try (right; apply okI; apply (ref_csrmv_th_ok O L true m n nnz); assumption).
    destruct dt eqn:Edt; try discriminate.
    - right. apply okI. apply (csrmv_vec_ok O L 8 (hsum8f O) ltac:(lia) (hsum8f_ok O L) m n nnz); auto.
    - match goal with |- context [choice ?k] => destruct (choice k) as [kk|] eqn:Ek; [|left; split; [reflexivity|exists k; exact Ek]] end.
      right. apply okI. destruct (kk =? 0); [apply (ref_csrmv_gn_ok O L m n nnz); auto|].
      destruct (kk =? 3).
      + apply (csrmv_vec_ok O L 8 (hsum8d O) ltac:(lia) (hsum8d_ok O L) m n nnz); auto.
      + apply (csrmv_vec_ok O L 4 (hsum4 O) ltac:(lia) (hsum4_ok O L) m n nnz); auto.
  Qed.
End P.
