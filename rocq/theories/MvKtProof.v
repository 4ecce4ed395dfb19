(** Transposed and symmetric kernel templates. *)
From Coq Require Import ZArith List Bool Lia ZifyBool Ring Permutation.
From Verif Require Import Base BaseFacts Algebra Vec DoidModel DoidSpec Csr CsrFacts CheckSpec
  MvModel MvSpec MvFacts MvProof MvSymProof MvVecProof.
Import ListNotations.
Open Scope Z_scope.

Section P.
  Context {T : Type} (O : ops T) (L : laws O).
  Local Notation zero := (o0 O).
  Local Notation one := (o1 O).
  Local Infix "+!" := (oadd O) (at level 50, left associativity).
  Local Infix "*!" := (omul O) (at level 40, left associativity).
  Local Notation "a ==! b" := (oeqb O a b) (at level 70).
  Local Notation tn := (nthZ zero).
  Local Notation total := (suml O (fun a => a)).
  Let rth := l_ring L.
  Add Ring Tr5 : rth.

  Lemma trips_facts : forall k lo hi, 0 < k -> lo <= hi ->
    0 <= (hi - lo) mod k < k /\ (hi - lo) mod k <= hi - lo /\ (hi - (hi - lo) mod k - lo) mod k = 0.
  Proof.
    intros k lo hi Hk H. pose proof (Z.mod_pos_bound (hi - lo) k Hk). pose proof (Z.div_mod (hi - lo) k ltac:(lia)).
    ands; try lia; [apply Z.mod_le; lia|].
    replace (hi - (hi - lo) mod k - lo) with (((hi - lo) / k) * k) by lia. apply Z.mod_mul. lia.
  Qed.

  Lemma csrmvt_rows_ok : forall tsz, 0 < tsz ->
    forall m n nnz b ptr ind val alpha x start stop y,
    csr_wf m n nnz b ptr ind -> zlen val = nnz -> zlen x = m -> zlen y = n ->
    0 <= start -> start <= stop -> stop <= m ->
    exists y', csrmvt_rows O tsz b alpha start stop val ind ptr x y = Some y' /\ zlen y' = n /\
      forall j, 0 <= j < n -> tn y' j = tn y j +!
        sumz O start stop (fun i => csr_mat O b ptr ind val i j *! (alpha *! tn x i)).
  Proof.
    intros k Hk m n nnz b ptr ind val alpha x start stop y W Lv Lx Ly H0 H1 H2. unfold csrmvt_rows.
    apply (rows_add O L n (fun i j => csr_mat O b ptr ind val i j *! (alpha *! tn x i)) start stop _ y H1 Ly).
    intros i y0 Hi Ly0. assert (Hi' : 0 <= i < m) by lia.
    destruct (row_bounds _ _ _ _ _ _ i W Hi') as (? & ? & ? & ? & ?).
    rewrite !(rd_nthZ _ 0) by lia. rewrite (rd_nthZ _ zero) by lia.
    set (lo := zn ptr i) in *. set (hi := zn ptr (i + 1)) in *.
    destruct (trips_facts k lo hi Hk ltac:(lia)) as (K1 & K2 & K3). set (rr := (hi - lo) mod k) in *. clearbody rr.
    set (axi := alpha *! tn x i).
    assert (Hc : forall q, lo - b <= q < hi - b -> 0 <= zn ind q - b < n).
    { intros q Hq. pose proof (wf_ind _ _ _ _ _ _ W q ltac:(lia)). lia. }
    match goal with |- context [for_step lo (hi - rr) k ?f y0] =>
      destruct (for_step_inv _ (fun e v => zlen v = n /\ forall j, 0 <= j < n ->
        tn v j = tn y0 j +! sumz O (lo - b) (e - b) (fun q => if zn ind q - b =? j then tn val q *! axi else zero)) lo (hi - rr) k f y0 Hk ltac:(lia) K3)
        as (y1 & E1 & Ly1 & R1) end.
    - split; auto. intros. rewrite (sumz_nil O) by lia. ring.
    - intros e v He1 He2 (Lvv & R). rewrite (vload_ok O) by lia. rewrite map_map.
      destruct (vscatter_ok O L k b ind e (fun q => tn val q *! axi) v n) as (y' & E & Ly' & R'); try lia.
      rewrite E. exists y'. ands; auto. intros j Hj. rewrite R', R by lia.
      rewrite (sumz_split O L (lo - b) (e - b) (e + k - b)) by lia. replace (e - b + k) with (e + k - b) by lia. ring.
    - rewrite E1.
      match goal with |- context [for_ (hi - rr) hi ?f y1] =>
      destruct (scatter_ok O L n (hi - rr) hi (fun q => zn ind (q - b) - b) (fun q => tn val (q - b) *! axi) f y1 ltac:(lia) Ly1) as (y' & E & Ly' & R) end.
      { intros q Hq. apply Hc. lia. }
      { intros q v Hq Lvv. rewrite (rd_nthZ _ 0) by lia. rewrite (rd_nthZ _ zero) by lia. f_equal. unfold axi. ring. }
      exists y'. ands; auto. intros j Hj. rewrite R, R1 by lia.
      rewrite (sumz_reindex O (hi - rr) hi b (fun q => if zn ind q - b =? j then tn val q *! axi else zero)).
      transitivity (tn y0 j +! sumz O (lo - b) (hi - b) (fun q => if zn ind q - b =? j then tn val q *! axi else zero)).
      + rewrite (sumz_split O L (lo - b) (hi - rr - b) (hi - b)) by lia. ring.
      + f_equal. apply (row_scatter_col O L m n nnz b ptr ind val i _ _ (fun _ => true) (fun v => v) axi j W Lv Hi' (additive_id O)); fold lo hi; auto; try lia.
        intros q Hq. unfold in_row in Hq. fold lo hi in Hq. lia.
  Qed.

  Lemma csrmvt_kt_seq_ok : forall tsz, 0 < tsz ->
    forall m n nnz b ptr ind val alpha beta x y,
    csr_wf m n nnz b ptr ind -> zlen val = nnz -> zlen x = m -> zlen y = n ->
    exists y', csrmvt_kt_seq O tsz b alpha m n val ind ptr x beta y = Some y' /\
      mv_spec O n m alpha beta (fun j i => csr_mat O b ptr ind val i j) x y y'.
  Proof.
    intros k Hk m n nnz b ptr ind val alpha beta x y W Lv Lx Ly.
    pose proof (wf_m _ _ _ _ _ _ W). pose proof (wf_n _ _ _ _ _ _ W). unfold csrmvt_kt_seq.
    destruct (beta_scale_ok O L beta n y ltac:(lia) Ly) as (y1 & E1 & Ly1 & R1). rewrite E1.
    destruct (csrmvt_rows_ok k Hk m n nnz b ptr ind val alpha x 0 m y1 W Lv Lx Ly1) as (y' & E & Ly' & R); try lia.
    exists y'. split; auto. split; auto. intros j Hj. rewrite R, R1 by lia. rewrite <- (sumz_mul_l O L).
    rewrite (sumz_ext O 0 m _ (fun i => alpha *! (csr_mat O b ptr ind val i j *! tn x i))); [ring|]. intros; ring.
  Qed.

  Lemma foldM_add : forall n (D : Z -> Z -> T) team body y, zlen y = n ->
    (forall i y, In i team -> zlen y = n -> exists y', body i y = Some y' /\ zlen y' = n /\
        forall j, 0 <= j < n -> tn y' j = tn y j +! D i j) ->
    exists y', foldM body team y = Some y' /\ zlen y' = n /\
      forall j, 0 <= j < n -> tn y' j = tn y j +! suml O (fun i => D i j) team.
  Proof.
    intros n D team. induction team as [|t team IH]; intros body y Ly Hb; cbn [foldM].
    - exists y. ands; auto. intros. unfold suml; cbn [fold_right]. ring.
    - destruct (Hb t y (or_introl eq_refl) Ly) as (y1 & E1 & L1 & R1). rewrite E1.
      destruct (IH body y1 L1) as (y2 & E2 & L2 & R2).
      { intros i y' Hi. apply Hb. right; auto. }
      exists y2. ands; auto. intros j Hj. rewrite R2, R1 by lia. unfold suml; cbn [fold_right]. ring.
  Qed.

  Lemma partition_sum : forall m nt f, 0 <= m -> 0 < nt ->
    sumz O 0 nt (fun t => sumz O (m * t / nt) (m * (t + 1) / nt) f) = sumz O 0 m f.
  Proof.
    intros m nt f Hm Hn.
    assert (G : forall q, 0 <= q -> q <= nt ->
       sumz O 0 q (fun t => sumz O (m * t / nt) (m * (t + 1) / nt) f) = sumz O 0 (m * q / nt) f).
    { intros q Hq. pattern q. apply natlike_ind; auto.
      - intros _. rewrite Z.mul_0_r, Z.div_0_l by lia. rewrite !(sumz_nil O) by lia. reflexivity.
      - intros r Hr IH Hle. rewrite <- Z.add_1_r. rewrite (sumz_last O L) by lia. rewrite IH by lia.
        symmetry. apply (sumz_split O L). split; [apply Z.div_pos; nia|apply Z.div_le_mono; nia]. }
    rewrite G by lia. rewrite Z.div_mul by lia. reflexivity.
  Qed.

  (** Any completion order of a full team. *)
  Lemma csrmvt_kt_omp_ok : forall tsz nthreads team, 0 < tsz -> 0 < nthreads ->
    Permutation team (zrange 0 nthreads) ->
    forall m n nnz b ptr ind val alpha beta x y,
    csr_wf m n nnz b ptr ind -> zlen val = nnz -> zlen x = m -> zlen y = n ->
    exists y', csrmvt_kt_omp O nthreads team tsz b alpha m n val ind ptr x beta y = Some y' /\
      mv_spec O n m alpha beta (fun j i => csr_mat O b ptr ind val i j) x y y'.
  Proof.
    intros k nt team Hk Hnt Pm m n nnz b ptr ind val alpha beta x y W Lv Lx Ly.
    pose proof (wf_m _ _ _ _ _ _ W). pose proof (wf_n _ _ _ _ _ _ W). unfold csrmvt_kt_omp.
    destruct (beta_scale_ok O L beta n y ltac:(lia) Ly) as (y1 & E1 & Ly1 & R1). rewrite E1.
    set (D := fun t j => sumz O (m * t / nt) (m * (t + 1) / nt) (fun i => csr_mat O b ptr ind val i j *! (alpha *! tn x i))).
    match goal with |- context [foldM ?f team y1] =>
    destruct (foldM_add n D team f y1 Ly1) as (y' & E & Ly' & R) end.
    - intros t y0 Ht Ly0. apply (Permutation_in _ Pm) in Ht. apply in_zrange in Ht.
      rewrite !Z.quot_div_nonneg by nia.
      assert (Q1 : 0 <= m * t / nt) by (apply Z.div_pos; nia).
      assert (Q2 : m * t / nt <= m * (t + 1) / nt) by (apply Z.div_le_mono; nia).
      assert (Q3 : m * (t + 1) / nt <= m) by (apply Z.div_le_upper_bound; nia).
      destruct (csrmvt_rows_ok k Hk m n nnz b ptr ind val alpha x _ _ (zrep n zero) W Lv Lx ltac:(apply zlen_zrep; lia) Q1 Q2 Q3) as (yb & Eb & Lb & Rb).
      rewrite Eb.
      match goal with |- context [for_ 0 n ?f y0] =>
      destruct (rows_set O n (fun i yi => yi +! tn yb i) f y0 ltac:(lia) Ly0) as (y2 & E2 & L2 & P2) end.
      + intros i v Hi Lvv. rewrite (rd_nthZ _ zero yb) by lia. apply acc_ok; lia.
      + exists y2. ands; auto. intros j Hj. rewrite P2, Rb by lia. rewrite nthZ_zrep by lia. unfold D. ring.
    - exists y'. split; auto. split; auto. intros j Hj. rewrite R, R1 by lia.
      rewrite (suml_perm O L _ _ _ _ Pm). change (suml O ?f (zrange 0 nt)) with (sumz O 0 nt f).
      unfold D. rewrite partition_sum by lia. rewrite <- (sumz_mul_l O L).
      rewrite (sumz_ext O 0 m _ (fun i => alpha *! (csr_mat O b ptr ind val i j *! tn x i))); [ring|]. intros; ring.
  Qed.

  Lemma csrmv_symm_kt_ok : forall herm tsz, 0 < tsz ->
    forall m nnz b ptr ind idiag iurow val, tri_ready m m nnz b ptr ind idiag iurow -> full_diag m m b ptr ind ->
    zlen val = nnz ->
    forall fm dg alpha beta x y, zlen x = m -> zlen y = m ->
    exists y', csrmv_symm_kt O herm tsz b alpha m dg fm val ind ptr idiag iurow x beta y = Some y' /\
      mv_spec O m m alpha beta (symM fm (fun v => v) (cjh O herm)
          (dval O b ptr ind val (fun v => v) dg) (csr_mat O b ptr ind val)) x y y'.
  Proof.
    intros herm k Hk m nnz b ptr ind idiag iurow val R F Lv fm dg alpha beta x y Lx Ly.
    pose proof (tr_wf _ _ _ _ _ _ _ _ R) as W. pose proof (wf_m _ _ _ _ _ _ W) as Hm. unfold csrmv_symm_kt.
    destruct (beta_scale_ok O L beta m y Hm Ly) as (y1 & E1 & Ly1 & R1). rewrite E1.
    set (A := csr_mat O b ptr ind val). set (dv := dval O b ptr ind val (fun v => v) dg).
    match goal with |- context [for_ 0 m ?f y1] =>
    destruct (rows_add O L m (fun i j => sym_row O fm (fun v => v) (cjh O herm) dv A m alpha x i j) 0 m f y1 Hm Ly1) as (y' & E & Ly' & P) end.
    - intros i y0 Hi Ly0.
      destruct (row_bounds _ _ _ _ _ _ i W Hi) as (? & ? & ? & ? & ?).
      pose proof (strict_range O m nnz b ptr ind idiag iurow val R fm i Hi) as (S1 & S2 & S3 & _).
      pose proof (fun k => strict_col O m nnz b ptr ind idiag iurow val R fm i k Hi) as Sc.
      pose proof (strict_dot O L m nnz b ptr ind idiag iurow val R Lv fm (fun v => v) i x Hi (additive_id O)) as Sd.
      pose proof (fun axi j Hj => strict_scatter O L m nnz b ptr ind idiag iurow val R Lv fm (cjh O herm) i axi j Hi Hj (additive_cjh O L herm)) as Ss.
      set (lo := s_lo ptr iurow fm i) in *. set (hi := s_hi ptr idiag fm i) in *.
      assert (Elo : match fm with fm_lower => rd ptr i | fm_upper => rd iurow i end = Some lo).
      { unfold lo, s_lo. pose proof (tr_lu _ _ _ _ _ _ _ _ R). destruct fm; apply rd_nthZ; lia. }
      assert (Ehi : match fm with fm_lower => rd idiag i | fm_upper => rd ptr (i + 1) end = Some hi).
      { unfold hi, s_hi. pose proof (tr_ld _ _ _ _ _ _ _ _ R). destruct fm; apply rd_nthZ; lia. }
      rewrite Elo, Ehi. rewrite (rd_nthZ _ zero x) by lia. clearbody lo hi. clear Elo Ehi.
      destruct (trips_facts k lo hi Hk ltac:(lia)) as (K1 & K2 & K3). set (rr := (hi - lo) mod k) in *. clearbody rr.
      set (axi := alpha *! tn x i) in *.
      match goal with |- context [for_step lo (hi - rr) k ?f (?v0, y0)] =>
      destruct (for_step_inv _ (fun e st => length (fst st) = Z.to_nat k /\ zlen (snd st) = m /\
         total (fst st) = sumz O (lo - b) (e - b) (fun q => tn val q *! tn x (zn ind q - b)) /\
         forall j, 0 <= j < m ->
         tn (snd st) j = tn y0 j +! sumz O (lo - b) (e - b) (fun q => if zn ind q - b =? j then cjh O herm (tn val q) *! axi else zero))
         lo (hi - rr) k f (v0, y0) Hk ltac:(lia) K3)
        as ((vy & y2) & E2 & Lvy & Ly2 & T2 & R2) end.
      + cbn [fst snd]. ands; auto.
        * unfold zrep. apply repeat_length.
        * rewrite (total_zrep O L). rewrite (sumz_nil O) by lia. reflexivity.
        * intros. rewrite (sumz_nil O) by lia. ring.
      + intros e [v yy] He1 He2 (Lvv & Lyy & Tt & Rr). cbn [fst snd] in *. rewrite (vload_ok O) by lia.
        rewrite (vgather_ok O); try lia.
        2:{ intros q Hq. destruct (Sc q ltac:(lia)). lia. }
        rewrite map2_map. rewrite map_map.
        destruct (vscatter_ok O L k b ind e (fun q => cjh O herm (tn val q) *! axi) yy m) as (y' & E & Ly' & R'); try lia.
        { intros q Hq. destruct (Sc q ltac:(lia)). lia. }
        rewrite E. eexists; split; [reflexivity|]. cbn [fst snd].
        replace (e + k - b) with (e - b + k) by lia. ands.
        * rewrite map2_length; auto. rewrite map_length, zrange_length by lia. auto.
        * lia.
        * rewrite (suml_map2_add O L) by (rewrite map_length, zrange_length by lia; auto). rewrite Tt.
          rewrite (suml_lanes O k (e - b) (fun q => tn val q *! tn x (zn ind q - b))).
          rewrite (sumz_split O L (lo - b) (e - b) (e - b + k)) by lia. ring.
        * intros j Hj. rewrite R', Rr by lia. rewrite (sumz_split O L (lo - b) (e - b) (e - b + k)) by lia. ring.
      + cbn [fst snd] in *. rewrite E2. unfold hsum_kt. rewrite T2.
        match goal with |- context [for_ (hi - rr) hi ?f (?s0, y2)] =>
        destruct (gather_scatter_ok O L m (hi - rr) hi (fun q => tn val (q - b) *! tn x (zn ind (q - b) - b))
           (fun q => cjh O herm (tn val (q - b)) *! axi) (fun q => zn ind (q - b) - b) f s0 y2 ltac:(lia) Ly2) as (s & y3 & E3 & Ly3 & Es & R3) end.
        { intros q Hq. destruct (Sc (q - b) ltac:(lia)). lia. }
        { intros q s yy Hq Lyy. destruct (Sc (q - b) ltac:(lia)).
          rewrite (rd_nthZ _ 0) by lia. rewrite !(rd_nthZ _ zero) by lia.
          replace (alpha *! cjh O herm (tn val (q - b)) *! tn x i) with (cjh O herm (tn val (q - b)) *! axi) by (unfold axi; ring). reflexivity. }
        rewrite E3.
        assert (Es' : s = sumz O 0 m (fun c => if strict fm i c then A i c *! tn x c else zero)).
        { rewrite Es. fold A in Sd. rewrite <- Sd. rewrite (sumz_split O L (lo - b) (hi - rr - b) (hi - b)) by lia.
          rewrite (sumz_reindex O (hi - rr) hi b (fun q => tn val q *! tn x (zn ind q - b))). reflexivity. }
        assert (R3' : forall j, 0 <= j < m -> tn y3 j = tn y0 j +! (if strict fm i j then cjh O herm (A i j) *! axi else zero)).
        { intros j Hj. rewrite R3, R2 by lia. fold A in Ss. rewrite <- (Ss axi j Hj).
          rewrite (sumz_reindex O (hi - rr) hi b (fun q => if zn ind q - b =? j then cjh O herm (tn val q) *! axi else zero)).
          rewrite (sumz_split O L (lo - b) (hi - rr - b) (hi - b)) by lia. ring. }
        clear Es R3.
        assert (Ed : match dg with
          | dg_non_unit => let* d := rd idiag i in let* v := rd val (d - b) in Some (s +! v *! tn x i)
          | dg_unit => Some (s +! tn x i)
          | dg_zero => Some s
          end = Some (s +! dv i *! tn x i)).
        { unfold dv, dval. destruct dg.
          - destruct (diag_val O L m nnz b ptr ind idiag iurow val R F Lv i Hi) as [B Ev].
            rewrite (rd_nthZ _ 0 idiag) by (rewrite (tr_ld _ _ _ _ _ _ _ _ R); lia).
            rewrite (rd_nthZ _ zero) by lia. rewrite Ev. reflexivity.
          - f_equal. ring.
          - f_equal. ring. }
        rewrite Ed. rewrite acc_ok by lia. eexists; split; [reflexivity|]. split; [rewrite zlen_upd; lia|].
        intros j Hj. rewrite nthZ_upd by lia. unfold sym_row. destruct (Z.eqb_spec j i).
        * subst j. rewrite R3', Es' by lia. unfold axi. destruct (strict fm i i); ring.
        * rewrite R3' by lia. unfold axi. destruct (strict fm i j); ring.
    - exists y'. split; [exact E|]. split; auto. intros j Hj. rewrite P, R1 by lia. rewrite (sym_assemble O L) by lia. ring.
  Qed.
End P.
