(** Correctness of the scalar matrix-vector kernels. *)
From Coq Require Import ZArith List Bool Lia ZifyBool Ring.
From Verif Require Import Base BaseFacts Algebra Vec DoidModel DoidSpec Csr CsrFacts CheckSpec
  MvModel MvSpec MvFacts.
Import ListNotations.
Open Scope Z_scope.

(** Row bounds in the shape the loops need. *)
Lemma row_bounds : forall m n nnz b ptr ind i, csr_wf m n nnz b ptr ind -> 0 <= i < m ->
  zlen ptr = m + 1 /\ zlen ind = nnz /\
  0 <= zn ptr i - b /\ zn ptr i <= zn ptr (i + 1) /\ zn ptr (i + 1) - b <= nnz.
Proof.
  intros m n nnz b ptr ind i W Hi. destruct (wf_len _ _ _ _ _ _ W).
  pose proof (wf_ptr _ _ _ _ _ _ W) as P.
  pose proof (ptr_range _ _ _ _ P i ltac:(lia)). pose proof (ptr_range _ _ _ _ P (i + 1) ltac:(lia)).
  destruct P as (_ & _ & Hm). specialize (Hm i Hi). lia.
Qed.

Lemma diag_one : forall m n nnz b ptr ind idiag iurow i, tri_ready m n nnz b ptr ind idiag iurow ->
  m <= n -> full_diag m n b ptr ind -> 0 <= i < m ->
  in_row ptr b i (zn idiag i - b) /\ zn ind (zn idiag i - b) = i + b /\ zn iurow i = zn idiag i + 1.
Proof.
  intros m n nnz b ptr ind idiag iurow i R Hmn F Hi.
  destruct (tr_split _ _ _ _ _ _ _ _ R i Hi) as (H1 & H2 & S).
  destruct (F i Hi ltac:(lia)) as (k & Hk & Ek). pose proof Hk as Hk'. unfold in_row in Hk.
  destruct (S k Hk') as (_ & [_ S2] & _). specialize (S2 Ek).
  assert (Hd : in_row ptr b i (zn idiag i - b)) by (unfold in_row; lia).
  destruct (S _ Hd) as (_ & [S3 _] & _). specialize (S3 ltac:(lia)).
  ands; auto.
  destruct (Z.eq_dec (zn iurow i) (zn idiag i + 1)); auto. exfalso.
  assert (Hd2 : in_row ptr b i (zn idiag i - b + 1)) by (unfold in_row; lia).
  destruct (S _ Hd2) as (_ & [S4 _] & _). specialize (S4 ltac:(lia)).
  pose proof (tr_uniq _ _ _ _ _ _ _ _ R i _ _ Hi Hd Hd2 S3 S4). lia.
Qed.

Section P.
  Context {T : Type} (O : ops T) (L : laws O).
  Local Notation zero := (o0 O).
  Local Notation one := (o1 O).
  Local Infix "+!" := (oadd O) (at level 50, left associativity).
  Local Infix "*!" := (omul O) (at level 40, left associativity).
  Local Notation "a ==! b" := (oeqb O a b) (at level 70).
  Local Notation tn := (nthZ zero).
  Let rth := l_ring L.
  Add Ring Tr2 : rth.

  Lemma finish_row_ok : forall alpha beta y i r, 0 <= i < zlen y ->
    finish_row O alpha beta y i r = Some (upd y i (alpha *! r +! beta *! tn y i)).
  Proof.
    intros alpha beta y i r Hi. unfold finish_row.
    assert (E1 : (if negb (alpha ==! one) then alpha *! r else r) = alpha *! r).
    { destruct (alpha ==! one) eqn:E; cbn; auto. apply (l_eqb L) in E. subst. ring. }
    rewrite E1. destruct (beta ==! zero) eqn:E; cbn [negb].
    - apply (l_eqb L) in E. subst. rewrite wr_upd by lia. do 2 f_equal. ring.
    - rewrite (rd_nthZ _ zero) by lia. rewrite wr_upd by lia. reflexivity.
  Qed.

  Lemma full_row_sum : forall m n nnz b ptr ind val i (h : T -> T) (g : Z -> T),
    csr_wf m n nnz b ptr ind -> zlen val = nnz -> 0 <= i < m -> additive O h ->
    sumz O (zn ptr i - b) (zn ptr (i + 1) - b) (fun k => h (tn val k) *! g (zn ind k - b)) =
    sumz O 0 n (fun j => h (csr_mat O b ptr ind val i j) *! g j).
  Proof.
    intros m n nnz b ptr ind val i h g W Lv Hi Ha.
    destruct (row_bounds _ _ _ _ _ _ i W Hi) as (? & ? & ? & ? & ?).
    rewrite (row_sum_cols O L m n nnz b ptr ind val i _ _ (fun _ => true) h g W Lv Hi Ha); try lia.
    - reflexivity.
    - intros k Hk. unfold in_row in Hk. lia.
  Qed.

  Lemma ref_csrmv_gn_ok : forall m n nnz b ptr ind val alpha beta x y,
    csr_wf m n nnz b ptr ind -> zlen val = nnz -> zlen x = n -> zlen y = m ->
    exists y', ref_csrmv_gn O b alpha m val ind ptr x beta y = Some y' /\
      mv_spec O m n alpha beta (csr_mat O b ptr ind val) x y y'.
  Proof.
    intros m n nnz b ptr ind val alpha beta x y W Lv Lx Ly.
    pose proof (wf_m _ _ _ _ _ _ W). unfold ref_csrmv_gn.
    match goal with |- context [for_ 0 m ?f y] =>
    destruct (rows_set O m (fun i yi => alpha *! sumz O 0 n (fun j => csr_mat O b ptr ind val i j *! tn x j) +! beta *! yi)
      f y) as (y' & E & Ly' & R); auto end.
    - intros i y0 Hi Ly0. destruct (row_bounds _ _ _ _ _ _ i W Hi) as (? & ? & ? & ? & ?).
      rewrite !(rd_nthZ _ 0) by lia. rewrite (dot_row_ok O L); try lia.
      + rewrite finish_row_ok by lia. do 4 f_equal.
        rewrite <- (full_row_sum m n nnz b ptr ind val i (fun v => v) (fun j => tn x j) W Lv Hi (additive_id O)).
        ring.
      + intros k Hk. pose proof (wf_ind _ _ _ _ _ _ W k ltac:(lia)). lia.
    - exists y'. split; [exact E|]. split; auto.
  Qed.

  Lemma ref_csrmv_th_ok : forall hm m n nnz b ptr ind val alpha beta x y,
    csr_wf m n nnz b ptr ind -> zlen val = nnz -> zlen x = m -> zlen y = n ->
    exists y', ref_csrmv_th O hm b alpha m n val ind ptr x beta y = Some y' /\
      mv_spec O n m alpha beta (fun j i => cjh O hm (csr_mat O b ptr ind val i j)) x y y'.
  Proof.
    intros hm m n nnz b ptr ind val alpha beta x y W Lv Lx Ly.
    pose proof (wf_m _ _ _ _ _ _ W). pose proof (wf_n _ _ _ _ _ _ W). unfold ref_csrmv_th.
    destruct (beta_scale_ok O L beta n y ltac:(lia) Ly) as (y1 & E1 & Ly1 & R1). rewrite E1.
    match goal with |- context [for_ 0 m ?f y1] =>
    destruct (rows_add O L n (fun i j => cjh O hm (csr_mat O b ptr ind val i j) *! (alpha *! tn x i)) 0 m f y1 ltac:(lia) Ly1)
      as (y' & E & Ly' & R) end.
    - intros i y0 Hi Ly0. destruct (row_bounds _ _ _ _ _ _ i W Hi) as (? & ? & ? & ? & ?).
      rewrite !(rd_nthZ _ 0) by lia. rewrite (rd_nthZ _ zero) by lia.
      destruct (scatter_row_ok O L (cjh O hm) b (zn ptr i) (zn ptr (i+1)) val ind (alpha *! tn x i) y0 n) as (y' & E & Ly' & R); try lia.
      { intros k Hk. pose proof (wf_ind _ _ _ _ _ _ W k ltac:(lia)). lia. }
      exists y'. ands; auto. intros j Hj. rewrite R by lia. f_equal.
      rewrite (row_scatter_col O L m n nnz b ptr ind val i _ _ (fun _ => true) (cjh O hm) _ j W Lv Hi (additive_cjh O L hm)); auto; try lia.
      intros k Hk. unfold in_row in Hk. lia.
    - exists y'. split; [exact E|]. split; auto. intros j Hj. rewrite R, R1 by lia.
      rewrite <- (sumz_mul_l O L).
      rewrite (sumz_ext O 0 m _ (fun k => alpha *! (cjh O hm (csr_mat O b ptr ind val k j) *! tn x k))).
      + ring.
      + intros k Hk. ring.
  Qed.

  (** Triangular products.  [tri_part fm dg] selects the stored columns used. *)
  Definition tri_keep (fm : fill_mode) (dg : diag_type) (i j : Z) : bool :=
    match fm, dg with
    | fm_lower, dg_non_unit => j <=? i
    | fm_lower, _ => j <? i
    | fm_upper, dg_non_unit => i <=? j
    | fm_upper, _ => i <? j
    end.
  Definition unit_term (dg : diag_type) (v : T) : T := match dg with dg_unit => v | _ => zero end.

  Ltac tri_cell fm dg i j h0 h1 :=
    destruct fm, dg; cbv beta iota;
    (destruct (Z.eqb_spec i j); [try subst j; try lia; rewrite ?Z.eqb_refl|try replace (j =? i) with false by lia]);
    rewrite ?Z.leb_refl, ?Z.ltb_irrefl; rewrite ?h1, ?h0; try ring;
    repeat match goal with |- context [?a <? ?b] => replace (a <? b) with (a <=? b) by lia end;
    try (destruct (_ <=? _)); rewrite ?h0; ring.

  Lemma tri_described : forall (h : T -> T) fm dg (A : Z -> Z -> T) n i (g : Z -> T),
    additive O h -> h one = one -> 0 <= i -> (i < n \/ dg <> dg_unit) ->
    sumz O 0 n (fun j => if tri_keep fm dg i j then h (A i j) *! g j else zero) +!
      (if i <? n then unit_term dg (g i) else zero)
    = sumz O 0 n (fun j => h (described O mt_triangular fm dg A i j) *! g j).
  Proof.
    intros h fm dg A n i g Ha h1 Hi Hn. pose proof (additive_0 O L h Ha) as h0.
    destruct (Z_lt_ge_dec i n) as [C|C].
    - replace (i <? n) with true by lia.
      rewrite (sumz_ext O 0 n (fun j => h (described O mt_triangular fm dg A i j) *! g j)
         (fun j => (if tri_keep fm dg i j then h (A i j) *! g j else zero) +! (if j =? i then unit_term dg (g i) else zero))).
      + rewrite (sumz_add O L). f_equal. symmetry. rewrite (sumz_delta O L 0 n i); [now rewrite Z.eqb_refl|lia|].
        intros k Hk Hne. replace (k =? i) with false by lia. reflexivity.
      + intros j Hj. unfold described, descr_sem, mL, mU, with_diag, tri_keep, unit_term.
        tri_cell fm dg i j h0 h1.
    - replace (i <? n) with false by lia.
      transitivity (sumz O 0 n (fun j => if tri_keep fm dg i j then h (A i j) *! g j else zero)); [ring|].
      apply sumz_ext. intros j Hj. unfold described, descr_sem, mL, mU, with_diag, tri_keep.
      tri_cell fm dg i j h0 h1.
  Qed.

  (** Pointers the caller passes for a triangle, csrmv.hpp 108-122. *)
  Definition tri_start (fm : fill_mode) (ptr idiag : list Z) := match fm with fm_lower => ptr | fm_upper => idiag end.
  Definition tri_end (fm : fill_mode) (ptr iurow : list Z) := match fm with fm_lower => iurow | fm_upper => ptr end.
  Definition tri_eoff (fm : fill_mode) : Z := match fm with fm_lower => 0 | fm_upper => 1 end.

  (** The diagonal convention is applicable: either the stored diagonal is used or
      every row stores one. *)
  Definition diag_usable (m n b : Z) (ptr ind : list Z) (dg : diag_type) : Prop :=
    dg = dg_non_unit \/ (m <= n /\ full_diag m n b ptr ind).

  (** Bounds of the part of row i used by the triangular kernels. *)
  Lemma tri_range : forall m n nnz b ptr ind idiag iurow d i,
    tri_ready m n nnz b ptr ind idiag iurow -> 0 <= i < m ->
    d_type d <> mt_general -> diag_usable m n b ptr ind (d_diag d) ->
    let lo := zn (tri_start (d_fill d) ptr idiag) i + fst (tri_offsets d) in
    let hi := zn (tri_end (d_fill d) ptr iurow) (i + tri_eoff (d_fill d)) + snd (tri_offsets d) in
    zn ptr i <= lo /\ lo <= hi /\ hi <= zn ptr (i + 1) /\
    (forall k, in_row ptr b i k -> (lo - b <= k < hi - b <-> tri_keep (d_fill d) (d_diag d) i (zn ind k - b) = true)) /\
    (d_diag d <> dg_non_unit -> i < n).
  Proof.
    intros m n nnz b ptr ind idiag iurow d i R Hi Hty Hu.
    destruct (tr_split _ _ _ _ _ _ _ _ R i Hi) as (H1 & H2 & S).
    assert (D : d_diag d = dg_non_unit \/ m <= n /\ zn iurow i = zn idiag i + 1).
    { destruct Hu as [E|[Hmn F]]; auto. right. split; auto.
      destruct (diag_one _ _ _ _ _ _ _ _ i R Hmn F Hi) as (_ & _ & E). exact E. }
    unfold tri_offsets, tri_start, tri_end, tri_eoff, tri_keep. cbv zeta.
    destruct (d_type d) eqn:Ety; try (now elim Hty); clear Hty;
    destruct (d_fill d) eqn:Ef; destruct (d_diag d) eqn:Ed; cbn [fst snd];
      rewrite ?Z.add_0_r; (destruct D as [D|D]; [try discriminate D|]);
      (ands; [lia|lia|lia| |intros; try congruence; lia]);
      intros k Hk; destruct (S k Hk) as (S1 & S2 & S3); unfold in_row in Hk; lia.
  Qed.

  Lemma tri_unit : forall d, d_type d <> mt_general ->
    negb (fst (tri_offsets d) =? 0) && is_unit d = (match d_fill d with fm_upper => is_unit d | _ => false end) /\
    negb (snd (tri_offsets d) =? 0) && is_unit d = (match d_fill d with fm_lower => is_unit d | _ => false end).
  Proof. intros [[] [] [] b] H; cbn in *; try (now elim H); auto. Qed.

  Lemma ref_csrmv_tri_ok : forall m n nnz ptr ind idiag iurow val d alpha beta x y,
    let b := d_base d in
    tri_ready m n nnz b ptr ind idiag iurow -> zlen val = nnz -> zlen x = n -> zlen y = m ->
    d_type d <> mt_general -> diag_usable m n b ptr ind (d_diag d) ->
    exists y', ref_csrmv_tri O d alpha m val ind (tri_start (d_fill d) ptr idiag)
                 (tri_eoff (d_fill d)) (tri_end (d_fill d) ptr iurow) x beta y = Some y' /\
      mv_spec O m n alpha beta (described O mt_triangular (d_fill d) (d_diag d) (csr_mat O b ptr ind val)) x y y'.
  Proof.
    intros m n nnz ptr ind idiag iurow val d alpha beta x y b R Lv Lx Ly Hty Hu.
    pose proof (tr_wf _ _ _ _ _ _ _ _ R) as W.
    pose proof (wf_m _ _ _ _ _ _ W). unfold ref_csrmv_tri.
    destruct (tri_unit d Hty) as [U1 U2].
    pose proof (fun i Hi => tri_range m n nnz b ptr ind idiag iurow d i R Hi Hty Hu) as TR. cbv zeta in TR.
    destruct (tri_offsets d) as [so eo] eqn:Eo. cbn [fst snd] in *. fold b. rewrite U1, U2.
    destruct (beta_scale_ok O L beta m y ltac:(lia) Ly) as (y1 & E1 & Ly1 & R1). rewrite E1.
    set (M := described O mt_triangular (d_fill d) (d_diag d) (csr_mat O b ptr ind val)).
    match goal with |- context [for_ 0 m ?f y1] =>
    destruct (rows_set O m (fun i yi => yi +! alpha *! sumz O 0 n (fun j => M i j *! tn x j))
      f y1) as (y' & E & Ly' & P); auto end.
    - intros i y0 Hi Ly0.
      destruct (TR i Hi) as (H1 & H2 & H3 & Hk & Hn). clear TR.
      destruct (row_bounds _ _ _ _ _ _ i W Hi) as (? & ? & ? & ? & ?).
      assert (Lst : i < zlen (tri_start (d_fill d) ptr idiag)).
      { destruct (d_fill d); cbn; [|rewrite (tr_ld _ _ _ _ _ _ _ _ R)]; lia. }
      assert (Len : 0 <= i + tri_eoff (d_fill d) < zlen (tri_end (d_fill d) ptr iurow)).
      { destruct (d_fill d); cbn; [rewrite (tr_lu _ _ _ _ _ _ _ _ R)|]; lia. }
      rewrite !(rd_nthZ _ 0) by lia.
      set (lo := zn (tri_start (d_fill d) ptr idiag) i + so) in *.
      set (hi := zn (tri_end (d_fill d) ptr iurow) (i + tri_eoff (d_fill d)) + eo) in *.
      replace (i + b - b) with i by lia.
      assert (Dot : forall r, dot_row O b lo hi val ind x r =
         Some (r +! sumz O 0 n (fun j => if tri_keep (d_fill d) (d_diag d) i j then csr_mat O b ptr ind val i j *! tn x j else zero))).
      { intros r. rewrite (dot_row_ok O L); try lia.
        2:{ intros k Hk'. pose proof (wf_ind _ _ _ _ _ _ W k ltac:(lia)). lia. }
        do 2 f_equal.
        apply (row_sum_cols O L m n nnz b ptr ind val i (lo - b) (hi - b) (tri_keep (d_fill d) (d_diag d) i) (fun v => v) (fun j => tn x j) W Lv Hi (additive_id O)); auto; lia. }
      assert (Fin : forall r, r = sumz O 0 n (fun j => if tri_keep (d_fill d) (d_diag d) i j then csr_mat O b ptr ind val i j *! tn x j else zero)
             +! (if i <? n then unit_term (d_diag d) (tn x i) else zero) ->
            acc O y0 i (alpha *! r) = Some (upd y0 i (tn y0 i +! alpha *! sumz O 0 n (fun j => M i j *! tn x j)))).
      { intros r ->. rewrite acc_ok by lia. do 4 f_equal.
        rewrite (tri_described (fun v => v)); auto using additive_id; try lia.
        destruct (Z_lt_ge_dec i n); auto. right. intros C. rewrite C in Hn. specialize (Hn ltac:(discriminate)). lia. }
      clearbody lo hi. clear Eo U1 U2. destruct (d_fill d) eqn:Ef; unfold is_unit; destruct (d_diag d) eqn:Ed; cbv beta iota;

        try (rewrite (rd_nthZ _ zero x) by (specialize (Hn ltac:(discriminate)); lia));
        cbv beta iota; rewrite Dot; apply Fin; cbn [unit_term]; try (specialize (Hn ltac:(discriminate)); replace (i <? n) with true by lia);
        try (destruct (i <? n)); ring.
    - exists y'. split; [exact E|]. split; auto. intros i Hi. rewrite P, R1 by lia. ring.
  Qed.

  Lemma ref_csrmv_tri_th_ok : forall hm m n nnz ptr ind idiag iurow val d alpha beta x y,
    let b := d_base d in
    tri_ready m n nnz b ptr ind idiag iurow -> zlen val = nnz -> zlen x = m -> zlen y = n ->
    d_type d <> mt_general -> diag_usable m n b ptr ind (d_diag d) ->
    exists y', ref_csrmv_tri_th O hm d alpha m n val ind (tri_start (d_fill d) ptr idiag)
                 (tri_eoff (d_fill d)) (tri_end (d_fill d) ptr iurow) x beta y = Some y' /\
      mv_spec O n m alpha beta
        (fun j i => cjh O hm (described O mt_triangular (d_fill d) (d_diag d) (csr_mat O b ptr ind val) i j)) x y y'.
  Proof.
    intros hm m n nnz ptr ind idiag iurow val d alpha beta x y b R Lv Lx Ly Hty Hu.
    pose proof (tr_wf _ _ _ _ _ _ _ _ R) as W.
    pose proof (wf_m _ _ _ _ _ _ W). pose proof (wf_n _ _ _ _ _ _ W). unfold ref_csrmv_tri_th.
    destruct (tri_unit d Hty) as [U1 U2].
    pose proof (fun i Hi => tri_range m n nnz b ptr ind idiag iurow d i R Hi Hty Hu) as TR. cbv zeta in TR.
    destruct (tri_offsets d) as [so eo] eqn:Eo. cbn [fst snd] in *. fold b. rewrite U1, U2.
    destruct (beta_scale_ok O L beta n y ltac:(lia) Ly) as (y1 & E1 & Ly1 & R1). rewrite E1.
    set (M := described O mt_triangular (d_fill d) (d_diag d) (csr_mat O b ptr ind val)).
    assert (Hh : additive O (cjh O hm)) by (apply additive_cjh; auto).
    assert (h1 : cjh O hm one = one) by (destruct hm; cbn; [apply (cj_1 O L)|reflexivity]).
    match goal with |- context [for_ 0 m ?f y1] =>
    destruct (rows_add O L n (fun i j => cjh O hm (M i j) *! (alpha *! tn x i)) 0 m f y1 ltac:(lia) Ly1)
      as (y' & E & Ly' & P) end.
    - intros i y0 Hi Ly0.
      destruct (TR i Hi) as (H1 & H2 & H3 & Hk & Hn). clear TR.
      destruct (row_bounds _ _ _ _ _ _ i W Hi) as (? & ? & ? & ? & ?).
      assert (Lst : i < zlen (tri_start (d_fill d) ptr idiag)).
      { destruct (d_fill d); cbn; [|rewrite (tr_ld _ _ _ _ _ _ _ _ R)]; lia. }
      assert (Len : 0 <= i + tri_eoff (d_fill d) < zlen (tri_end (d_fill d) ptr iurow)).
      { destruct (d_fill d); cbn; [rewrite (tr_lu _ _ _ _ _ _ _ _ R)|]; lia. }
      rewrite !(rd_nthZ _ 0) by lia. rewrite (rd_nthZ _ zero x) by lia.
      set (lo := zn (tri_start (d_fill d) ptr idiag) i + so) in *.
      set (hi := zn (tri_end (d_fill d) ptr iurow) (i + tri_eoff (d_fill d)) + eo) in *.
      replace (i + b - b) with i by lia. set (axi := alpha *! tn x i).
      assert (Sc : forall y0, zlen y0 = n -> exists y', scatter_row O (cjh O hm) b lo hi val ind axi y0 = Some y' /\ zlen y' = n /\
         forall j, 0 <= j < n -> tn y' j = tn y0 j +!
           (if tri_keep (d_fill d) (d_diag d) i j then cjh O hm (csr_mat O b ptr ind val i j) *! axi else zero)).
      { intros y2 Ly2. destruct (scatter_row_ok O L (cjh O hm) b lo hi val ind axi y2 n) as (y' & E & Ly' & Rr); try lia.
        { intros k Hk'. pose proof (wf_ind _ _ _ _ _ _ W k ltac:(lia)). lia. }
        exists y'. ands; auto. intros j Hj. rewrite Rr by lia. f_equal.
        apply (row_scatter_col O L m n nnz b ptr ind val i (lo - b) (hi - b) (tri_keep (d_fill d) (d_diag d) i) (cjh O hm) axi j W Lv Hi Hh); auto; lia. }
      assert (Cell : forall j, 0 <= j < n ->
          (if tri_keep (d_fill d) (d_diag d) i j then cjh O hm (csr_mat O b ptr ind val i j) *! axi else zero)
           +! (if j =? i then unit_term (d_diag d) axi else zero) = cjh O hm (M i j) *! axi).
      { intros j Hj. pose proof (additive_0 O L _ Hh) as h0. unfold M, described, descr_sem, mL, mU, with_diag, tri_keep, unit_term.
        tri_cell (d_fill d) (d_diag d) i j h0 h1. }
      assert (Ac : forall y0, zlen y0 = n -> i < n -> acc O y0 i axi = Some (upd y0 i (tn y0 i +! axi))).
      { intros y2 Ly2 Hin. apply acc_ok. lia. }
      clearbody lo hi. clear Eo U1 U2. destruct (d_fill d) eqn:Ef; unfold is_unit; destruct (d_diag d) eqn:Ed; cbv beta iota;
        try (assert (Hin : i < n) by (apply Hn; discriminate));
        try rewrite (Ac y0 Ly0 Hin);
        match goal with |- context [scatter_row _ _ _ _ _ _ _ _ ?yy] =>
          destruct (Sc yy ltac:(rewrite ?zlen_upd; lia)) as (y2 & E2 & Ly2 & R2) end; rewrite E2;
        try rewrite (Ac y2 Ly2 Hin);
        (eexists; split; [reflexivity|]; split; [rewrite ?zlen_upd; lia|]);
        intros j Hj; rewrite <- Cell by lia; cbn [unit_term];
        rewrite ?(nthZ_upd _ _ y2) by lia; rewrite ?R2 by lia; rewrite ?(nthZ_upd _ _ y0) by lia;
        destruct (Z.eqb_spec j i); try subst j; rewrite ?R2 by lia; try ring.
    - exists y'. split; [exact E|]. split; auto. intros j Hj. rewrite P, R1 by lia.
      rewrite <- (sumz_mul_l O L).
      rewrite (sumz_ext O 0 m _ (fun k => alpha *! (cjh O hm (M k j) *! tn x k))).
      + ring.
      + intros k Hk. ring.
  Qed.
End P.
