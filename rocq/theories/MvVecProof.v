(** Vectorised kernels. *)
From Coq Require Import ZArith List Bool Lia ZifyBool Ring.
From Verif Require Import Base BaseFacts Algebra Vec DoidModel DoidSpec Csr CsrFacts CheckSpec
  MvModel MvSpec MvFacts MvProof MvSymProof.
Import ListNotations.
Open Scope Z_scope.

Section P.
  Context {T : Type} (O : ops T) (L : laws O).
  Local Notation zero := (o0 O).
  Local Notation one := (o1 O).
  Local Infix "+!" := (oadd O) (at level 50, left associativity).
  Local Infix "*!" := (omul O) (at level 40, left associativity).
  Local Notation "a ==! b" := (oeqb O a b) (at level 70).
  Local Notation tn := (nthZ zero).
  Local Notation total := (suml O (fun a => a)).
  Let rth := l_ring L.
  Add Ring Tr4 : rth.

  Lemma vgather_ok : forall k b col x j, 0 <= j - b -> j - b + k <= zlen col ->
    (forall q, j - b <= q < j - b + k -> 0 <= zn col q - b < zlen x) ->
    vgather k b col x j = Some (map (fun t => tn x (zn col (j - b + t) - b)) (zrange 0 k)).
  Proof.
    intros k b col x j H1 H2 Hc. unfold vgather. apply mapM_map. intros t Ht. apply in_zrange in Ht.
    rewrite (rd_nthZ _ 0) by lia. replace (j + t - b) with (j - b + t) by lia. apply rd_nthZ. apply Hc. lia.
  Qed.

  Lemma zrange_length : forall k, 0 <= k -> length (zrange 0 k) = Z.to_nat k.
  Proof. intros. unfold zrange. rewrite map_length, seq_length. f_equal. lia. Qed.

  Lemma vec_loop_ok : forall k b lo hi val col x v0,
    0 < k -> lo <= hi -> (hi - lo) mod k = 0 -> 0 <= lo - b -> hi - b <= zlen val -> hi - b <= zlen col ->
    (forall q, lo - b <= q < hi - b -> 0 <= zn col q - b < zlen x) ->
    length v0 = Z.to_nat k ->
    exists v, vec_loop O k b lo hi val col x v0 = Some v /\ length v = Z.to_nat k /\
      total v = total v0 +! sumz O (lo - b) (hi - b) (fun q => tn val q *! tn x (zn col q - b)).
  Proof.
    intros k b lo hi val col x v0 Hk H M H1 H2 H3 Hc L0. unfold vec_loop.
    match goal with |- context [for_step lo hi k ?f v0] =>
      destruct (for_step_inv _ (fun e v => length v = Z.to_nat k /\
        total v = total v0 +! sumz O (lo - b) (e - b) (fun q => tn val q *! tn x (zn col q - b))) lo hi k f v0 Hk H M) as (v & E & Lv & R) end.
    - split; auto. rewrite (sumz_nil O) by lia. ring.
    - intros e v He1 He2 (Lv & R).
      rewrite (vload_ok O) by lia. rewrite vgather_ok; try lia.
      2:{ intros q Hq. apply Hc. lia. }
      rewrite map2_map. eexists; split; [reflexivity|]. split.
      + rewrite map2_length; auto. rewrite map_length, zrange_length by lia. auto.
      + rewrite (suml_map2_add O L) by (rewrite map_length, zrange_length by lia; auto).
        rewrite R. rewrite (suml_lanes O k (e - b) (fun q => tn val q *! tn x (zn col q - b))).
        rewrite (sumz_split O L (lo - b) (e - b) (e + k - b)) by lia. replace (e + k - b) with (e - b + k) by lia. ring.
    - exists v. ands; auto.
  Qed.

  Lemma total_zrep : forall k, total (zrep k zero) = zero.
  Proof. intros. apply (suml_zero O L). intros x Hx. unfold zrep in Hx. apply repeat_spec in Hx. auto. Qed.

  Ltac lanes := unfold lane, nthZ;
    change (Z.to_nat 0) with 0%nat; change (Z.to_nat 1) with 1%nat; change (Z.to_nat 2) with 2%nat;
    change (Z.to_nat 3) with 3%nat; change (Z.to_nat 4) with 4%nat; change (Z.to_nat 5) with 5%nat;
    change (Z.to_nat 6) with 6%nat; change (Z.to_nat 7) with 7%nat; cbn [nth suml fold_right].
  Lemma hsum4_ok : forall v, length v = 4%nat -> hsum4 O v = total v.
  Proof. intros [|a [|b [|c [|d [|]]]]] H; try discriminate. unfold hsum4. lanes. ring. Qed.
  Lemma hsum8f_ok : forall v, length v = 8%nat -> hsum8f O v = total v.
  Proof. intros [|a [|b [|c [|d [|e [|f [|g [|h [|]]]]]]]]] H; try discriminate. unfold hsum8f. lanes. ring. Qed.
  Lemma hsum8d_ok : forall v, length v = 8%nat -> hsum8d O v = total v.
  Proof. intros [|a [|b [|c [|d [|e [|f [|g [|h [|]]]]]]]]] H; try discriminate. unfold hsum8d. lanes. ring. Qed.

  (** The row result; the scalar [r0] survives only when no full group exists. *)
  Lemma vec_row_ok : forall k hsum b lo hi val col x r0,
    0 < k -> (forall v, length v = Z.to_nat k -> hsum v = total v) ->
    lo <= hi -> 0 <= lo - b -> hi - b <= zlen val -> hi - b <= zlen col ->
    (forall q, lo - b <= q < hi - b -> 0 <= zn col q - b < zlen x) ->
    vec_row O k hsum b lo hi val col x r0 =
      Some ((if hi - lo <? k then r0 else zero) +! sumz O (lo - b) (hi - b) (fun q => tn val q *! tn x (zn col q - b))).
  Proof.
    intros k hsum b lo hi val col x r0 Hk Hh H H1 H2 H3 Hc. unfold vec_row.
    rewrite Z.quot_div_nonneg, Z.rem_mod_nonneg by lia.
    pose proof (Z.mod_pos_bound (hi - lo) k Hk). pose proof (Z.div_mod (hi - lo) k ltac:(lia)).
    set (rr := (hi - lo) mod k) in *.
    assert (0 <= (hi - lo) / k) by (apply Z.div_pos; lia).
    assert (rr <= hi - lo) by (apply Z.mod_le; lia).
    assert (Hz : (hi - rr - lo) mod k = 0) by (replace (hi - rr - lo) with (((hi - lo) / k) * k) by lia; apply Z.mod_mul; lia).
    clearbody rr.
    destruct (vec_loop_ok k b lo (hi - rr) val col x (zrep k zero)) as (v & E & Lv & R); try lia.
    { intros q Hq. apply Hc. lia. }
    { unfold zrep. apply repeat_length. }
    rewrite E. rewrite Hh by auto. rewrite R, total_zrep.
    rewrite (dot_row_ok O L); try lia.
    2:{ intros q Hq. apply Hc. nia. }
    f_equal. destruct (Z.eqb_spec ((hi - lo) / k) 0) as [Eq|Eq]; cbn [negb].
    - replace (hi - lo <? k) with true by (rewrite Eq in *; lia).
      replace (hi - rr - b) with (lo - b) by (rewrite Eq in *; lia). reflexivity.
    - replace (hi - lo <? k) with false by nia.
      rewrite (sumz_split O L (lo - b) (hi - rr - b) (hi - b)) by nia. ring.
  Qed.

  Lemma csrmv_vec_ok : forall k hsum, 0 < k -> (forall v, length v = Z.to_nat k -> hsum v = total v) ->
    forall m n nnz b ptr ind val alpha beta x y,
    csr_wf m n nnz b ptr ind -> zlen val = nnz -> zlen x = n -> zlen y = m ->
    exists y', csrmv_vec O k hsum b alpha m val ind ptr x beta y = Some y' /\
      mv_spec O m n alpha beta (csr_mat O b ptr ind val) x y y'.
  Proof.
    intros k hsum Hk Hh m n nnz b ptr ind val alpha beta x y W Lv Lx Ly.
    pose proof (wf_m _ _ _ _ _ _ W). unfold csrmv_vec.
    match goal with |- context [for_ 0 m ?f y] =>
    destruct (rows_set O m (fun i yi => alpha *! sumz O 0 n (fun j => csr_mat O b ptr ind val i j *! tn x j) +! beta *! yi)
      f y) as (y' & E & Ly' & R); auto end.
    - intros i y0 Hi Ly0. destruct (row_bounds _ _ _ _ _ _ i W Hi) as (? & ? & ? & ? & ?).
      rewrite !(rd_nthZ _ 0) by lia. rewrite vec_row_ok; try lia; auto.
      + rewrite (finish_row_ok O L) by lia. do 4 f_equal.
        rewrite <- (full_row_sum O L m n nnz b ptr ind val i (fun v => v) (fun j => tn x j) W Lv Hi (additive_id O)).
        destruct (_ <? _); ring.
      + intros q Hq. pose proof (wf_ind _ _ _ _ _ _ W q ltac:(lia)). lia.
    - exists y'. split; [exact E|]. split; auto.
  Qed.

  Lemma csrmv_kt_ok : forall tsz, 0 < tsz ->
    forall m n nnz b ptr ind val alpha beta x y,
    csr_wf m n nnz b ptr ind -> zlen val = nnz -> zlen x = n -> zlen y = m ->
    exists y', csrmv_kt O tsz b alpha m val ind ptr x beta y = Some y' /\
      mv_spec O m n alpha beta (csr_mat O b ptr ind val) x y y'.
  Proof.
    intros k Hk m n nnz b ptr ind val alpha beta x y W Lv Lx Ly.
    pose proof (wf_m _ _ _ _ _ _ W). unfold csrmv_kt.
    match goal with |- context [for_ 0 m ?f y] =>
    destruct (rows_set O m (fun i yi => alpha *! sumz O 0 n (fun j => csr_mat O b ptr ind val i j *! tn x j) +! beta *! yi)
      f y) as (y' & E & Ly' & R); auto end.
    - intros i y0 Hi Ly0. destruct (row_bounds _ _ _ _ _ _ i W Hi) as (? & ? & ? & ? & ?).
      rewrite !(rd_nthZ _ 0) by lia. set (lo := zn ptr i) in *. set (hi := zn ptr (i + 1)) in *.
      pose proof (Z.mod_pos_bound (hi - lo) k Hk). pose proof (Z.div_mod (hi - lo) k ltac:(lia)).
      set (rr := (hi - lo) mod k) in *.
      assert (0 <= (hi - lo) / k) by (apply Z.div_pos; lia).
    assert (rr <= hi - lo) by (apply Z.mod_le; lia).
    assert (Hz : (hi - rr - lo) mod k = 0) by (replace (hi - rr - lo) with (((hi - lo) / k) * k) by lia; apply Z.mod_mul; lia).
    clearbody rr.
      destruct (vec_loop_ok k b lo (hi - rr) val ind x (zrep k zero)) as (v & E & Lvv & R); try lia.
      { intros q Hq. pose proof (wf_ind _ _ _ _ _ _ W q ltac:(lia)). lia. }
      { unfold zrep. apply repeat_length. }
      rewrite E. unfold hsum_kt. rewrite R, total_zrep.
      rewrite (dot_row_ok O L); try lia.
      2:{ intros q Hq. pose proof (wf_ind _ _ _ _ _ _ W q ltac:(nia)). lia. }
      rewrite <- (full_row_sum O L m n nnz b ptr ind val i (fun v => v) (fun j => tn x j) W Lv Hi (additive_id O)).
      fold lo hi. rewrite (sumz_split O L (lo - b) (hi - rr - b) (hi - b)) by nia.
      destruct (beta ==! zero) eqn:E0.
      + apply (l_eqb L) in E0. subst beta. rewrite wr_upd by lia. do 2 f_equal. ring.
      + rewrite (rd_nthZ _ zero) by lia. destruct (beta ==! one) eqn:E1.
        * apply (l_eqb L) in E1. subst beta. rewrite wr_upd by lia. do 2 f_equal. ring.
        * rewrite wr_upd by lia. do 2 f_equal. ring.
    - exists y'. split; [exact E|]. split; auto.
  Qed.

  (** The triangular AVX2 kernel, away from the lost unit diagonal. *)
  Lemma avx2ptr_ok : forall m n nnz ptr ind idiag iurow val d alpha beta x y,
    let b := d_base d in
    tri_ready m n nnz b ptr ind idiag iurow -> zlen val = nnz -> zlen x = n -> zlen y = m ->
    d_type d <> mt_general -> diag_usable m n b ptr ind (d_diag d) ->
    (d_fill d = fm_upper -> d_diag d = dg_unit -> forall i, 0 <= i < m -> zn ptr (i + 1) - zn iurow i < 4) ->
    exists y', csrmv_vectorized_avx2ptr O d alpha m val ind (tri_start (d_fill d) ptr idiag)
                 (tri_eoff (d_fill d)) (tri_end (d_fill d) ptr iurow) x beta y = Some y' /\
      mv_spec O m n alpha beta (described O mt_triangular (d_fill d) (d_diag d) (csr_mat O b ptr ind val)) x y y'.
  Proof.
    intros m n nnz ptr ind idiag iurow val d alpha beta x y b R Lv Lx Ly Hty Hu Hsmall.
    pose proof (tr_wf _ _ _ _ _ _ _ _ R) as W.
    pose proof (wf_m _ _ _ _ _ _ W). unfold csrmv_vectorized_avx2ptr.
    destruct (tri_unit d Hty) as [U1 U2].
    pose proof (fun i Hi => tri_range m n nnz b ptr ind idiag iurow d i R Hi Hty Hu) as TR. cbv zeta in TR.
    assert (Sm : d_fill d = fm_upper -> d_diag d = dg_unit -> forall i, 0 <= i < m ->
       zn ptr (i + 1) + snd (tri_offsets d) - (zn idiag i + fst (tri_offsets d)) < 4).
    { intros Ef Ed i Hi. specialize (Hsmall Ef Ed i Hi).
      destruct Hu as [Hu|[Hmn F]]; [congruence|].
      destruct (diag_one _ _ _ _ _ _ _ _ i R Hmn F Hi) as (_ & _ & Eu).
      unfold tri_offsets. destruct (d_type d); try (now elim Hty); rewrite ?Ef, ?Ed; cbn [fst snd]; lia. }
    destruct (tri_offsets d) as [so eo] eqn:Eo. cbn [fst snd] in *. fold b. rewrite U1, U2.
    set (M := described O mt_triangular (d_fill d) (d_diag d) (csr_mat O b ptr ind val)).
    match goal with |- context [for_ 0 m ?f y] =>
    destruct (rows_set O m (fun i yi => alpha *! sumz O 0 n (fun j => M i j *! tn x j) +! beta *! yi)
      f y) as (y' & E & Ly' & P); auto end.
    - intros i y0 Hi Ly0.
      destruct (TR i Hi) as (H1 & H2 & H3 & Hk & Hn). clear TR.
      destruct (row_bounds _ _ _ _ _ _ i W Hi) as (? & ? & ? & ? & ?).
      assert (Lst : i < zlen (tri_start (d_fill d) ptr idiag)).
      { destruct (d_fill d); cbn; [|rewrite (tr_ld _ _ _ _ _ _ _ _ R)]; lia. }
      assert (Len : 0 <= i + tri_eoff (d_fill d) < zlen (tri_end (d_fill d) ptr iurow)).
      { destruct (d_fill d); cbn; [rewrite (tr_lu _ _ _ _ _ _ _ _ R)|]; lia. }
      rewrite !(rd_nthZ _ 0) by lia.
      set (lo := zn (tri_start (d_fill d) ptr idiag) i + so) in *.
      set (hi := zn (tri_end (d_fill d) ptr iurow) (i + tri_eoff (d_fill d)) + eo) in *.
      assert (Sm' : d_fill d = fm_upper -> d_diag d = dg_unit -> hi - lo < 4).
      { intros Ef Ed. specialize (Sm Ef Ed i Hi). unfold hi, lo, tri_start, tri_end, tri_eoff. rewrite Ef. lia. }
      replace (i + b - b) with i by lia.
      assert (Dot : forall r, vec_row O 4 (hsum4 O) b lo hi val ind x r =
         Some ((if hi - lo <? 4 then r else zero) +! sumz O 0 n (fun j => if tri_keep (d_fill d) (d_diag d) i j then csr_mat O b ptr ind val i j *! tn x j else zero))).
      { intros r. rewrite vec_row_ok; try lia; [|exact hsum4_ok|].
        2:{ intros k Hk'. pose proof (wf_ind _ _ _ _ _ _ W k ltac:(lia)). lia. }
        do 2 f_equal.
        apply (row_sum_cols O L m n nnz b ptr ind val i (lo - b) (hi - b) (tri_keep (d_fill d) (d_diag d) i) (fun v => v) (fun j => tn x j) W Lv Hi (additive_id O)); auto; lia. }
      assert (Fin : forall r, r = sumz O 0 n (fun j => if tri_keep (d_fill d) (d_diag d) i j then csr_mat O b ptr ind val i j *! tn x j else zero)
             +! (if i <? n then unit_term O (d_diag d) (tn x i) else zero) ->
            (if negb (beta ==! zero) then let* yi := rd y0 i in wr y0 i (alpha *! r +! beta *! yi) else wr y0 i (alpha *! r))
            = Some (upd y0 i (alpha *! sumz O 0 n (fun j => M i j *! tn x j) +! beta *! tn y0 i))).
      { intros r ->. rewrite (tri_described O L (fun v => v)); auto using additive_id; try lia.
        - fold M. destruct (beta ==! zero) eqn:E; cbn [negb].
          + apply (l_eqb L) in E. subst beta. rewrite wr_upd by lia. do 2 f_equal. ring.
          + rewrite (rd_nthZ _ zero) by lia. rewrite wr_upd by lia. reflexivity.
        - destruct (Z_lt_ge_dec i n); auto. right. intros C. rewrite C in Hn. specialize (Hn ltac:(discriminate)). lia. }
      clearbody lo hi. clear Eo U1 U2 Sm Hsmall. destruct (d_fill d) eqn:Ef; unfold is_unit; destruct (d_diag d) eqn:Ed; cbv beta iota;
        try (rewrite (rd_nthZ _ zero x) by (specialize (Hn ltac:(discriminate)); lia));
        cbv beta iota; rewrite Dot; apply Fin; cbn [unit_term]; try (specialize (Hn ltac:(discriminate)); replace (i <? n) with true by lia);
        try (specialize (Sm' eq_refl eq_refl); replace (hi - lo <? 4) with true by lia);
        try (destruct (i <? n)); try (destruct (hi - lo <? 4)); ring.
    - exists y'. split; [exact E|]. split; auto.
  Qed.

  (** Scatter of one register. *)
  Lemma vscatter_ok : forall k b col j F y n, 0 <= k -> 0 <= j - b -> j - b + k <= zlen col -> zlen y = n ->
    (forall q, j - b <= q < j - b + k -> 0 <= zn col q - b < n) ->
    exists y', vscatter O k b col j (map (fun t => F (j - b + t)) (zrange 0 k)) y = Some y' /\ zlen y' = n /\
      forall c, 0 <= c < n -> tn y' c = tn y c +! sumz O (j - b) (j - b + k) (fun q => if zn col q - b =? c then F q else zero).
  Proof.
    intros k b col j F y n Hk H1 H2 Ly Hc. unfold vscatter.
    match goal with |- context [for_ 0 k ?f y] =>
    destruct (scatter_ok O L n 0 k (fun t => zn col (j - b + t) - b) (fun t => F (j - b + t)) f y Hk Ly) as (y' & E & Ly' & R) end.
    - intros t Ht. apply Hc. lia.
    - intros t y0 Ht Ly0. rewrite (rd_nthZ _ 0) by lia. rewrite (rd_nthZ _ zero).
      2:{ unfold zlen. rewrite map_length, zrange_length by lia. lia. }
      replace (j + t - b) with (j - b + t) by lia. f_equal.
      rewrite (nthZ_map _ _ _ 0); [|unfold zlen; rewrite zrange_length by lia; lia].
      rewrite nthZ_zrange by lia. reflexivity.
    - exists y'. ands; auto. intros c Hcc. rewrite R by lia. f_equal.
      rewrite <- (suml_lanes O k (j - b) (fun q => if zn col q - b =? c then F q else zero)).
      rewrite (suml_map O). reflexivity.
  Qed.
End P.
