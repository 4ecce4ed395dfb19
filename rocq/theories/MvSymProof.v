(** Symmetric, Hermitian and vectorised kernels. *)
From Coq Require Import ZArith List Bool Lia ZifyBool Ring.
From Verif Require Import Base BaseFacts Algebra Vec DoidModel DoidSpec Csr CsrFacts CheckSpec
  MvModel MvSpec MvFacts MvProof.
Import ListNotations.
Open Scope Z_scope.

Section P.
  Context {T : Type} (O : ops T) (L : laws O).
  Local Notation zero := (o0 O).
  Local Notation one := (o1 O).
  Local Infix "+!" := (oadd O) (at level 50, left associativity).
  Local Infix "*!" := (omul O) (at level 40, left associativity).
  Local Notation "a ==! b" := (oeqb O a b) (at level 70).
  Local Notation tn := (nthZ zero).
  Let rth := l_ring L.
  Add Ring Tr3 : rth.

  Definition strict (fm : fill_mode) (i j : Z) : bool := match fm with fm_lower => j <? i | fm_upper => i <? j end.
  Definition symM (fm : fill_mode) (f g : T -> T) (dv : Z -> T) (A : Z -> Z -> T) : Z -> Z -> T :=
    fun i j => if i =? j then dv i else if strict fm i j then f (A i j) else g (A j i).

  (** Contribution of row [i] to [y j]. *)
  Definition sym_row (fm : fill_mode) (f g : T -> T) (dv : Z -> T) (A : Z -> Z -> T) (m : Z) (alpha : T) (x : list T) (i j : Z) : T :=
    (if j =? i then alpha *! (sumz O 0 m (fun c => if strict fm i c then f (A i c) *! tn x c else zero) +! dv i *! tn x i) else zero)
    +! (if strict fm i j then alpha *! (g (A i j) *! tn x i) else zero).

  Lemma sym_assemble : forall fm f g dv A m alpha x j, 0 <= j < m ->
    sumz O 0 m (fun i => sym_row fm f g dv A m alpha x i j) =
    alpha *! sumz O 0 m (fun c => symM fm f g dv A j c *! tn x c).
  Proof.
    intros fm f g dv A m alpha x j Hj. unfold sym_row. rewrite (sumz_add O L).
    rewrite (sumz_delta O L 0 m j); [rewrite Z.eqb_refl|lia|intros k Hk Hne; replace (j =? k) with false by lia; reflexivity].
    rewrite (sumz_ext O 0 m (fun c => symM fm f g dv A j c *! tn x c)
      (fun c => ((if strict fm j c then f (A j c) *! tn x c else zero) +! (if c =? j then dv j *! tn x j else zero)) +!
                (if strict fm c j then g (A c j) *! tn x c else zero))).
    - rewrite !(sumz_add O L).
      rewrite (sumz_delta O L 0 m j (fun c => if c =? j then _ else _)); [rewrite Z.eqb_refl|lia|intros k Hk Hne; replace (k =? j) with false by lia; reflexivity].
      rewrite (sumz_ext O 0 m (fun k => if strict fm k j then alpha *! (g (A k j) *! tn x k) else zero)
         (fun k => alpha *! (if strict fm k j then g (A k j) *! tn x k else zero))).
      2:{ intros k Hk. destruct (strict fm k j); [reflexivity|ring]. }
      rewrite (sumz_mul_l O L). ring.
    - intros c Hc. unfold symM. destruct (Z.eqb_spec j c).
      + subst c. replace (j =? j) with true by lia. unfold strict. destruct fm; replace (j <? j) with false by lia; ring.
      + replace (c =? j) with false by lia. unfold strict.
        destruct fm.
        * replace (j <? c) with (negb (c <? j)) by lia. destruct (c <? j); cbn [negb]; ring.
        * replace (c <? j) with (negb (j <? c)) by lia. destruct (j <? c); cbn [negb]; ring.
  Qed.

  (** Simultaneous row product and transposed update. *)
  Lemma gather_scatter_ok : forall n lo hi (p t : Z -> T) (c : Z -> Z) body s0 y0,
    lo <= hi -> zlen y0 = n -> (forall k, lo <= k < hi -> 0 <= c k < n) ->
    (forall k s y, lo <= k < hi -> zlen y = n -> body k (s, y) = (let* y := acc O y (c k) (t k) in Some (s +! p k, y))) ->
    exists s y, for_ lo hi body (s0, y0) = Some (s, y) /\ zlen y = n /\
      s = s0 +! sumz O lo hi p /\
      forall j, 0 <= j < n -> tn y j = tn y0 j +! sumz O lo hi (fun k => if c k =? j then t k else zero).
  Proof.
    intros n lo hi p t c body s0 y0 H Ly Hc Hb.
    destruct (for_inv _ (fun e st => zlen (snd st) = n /\ fst st = s0 +! sumz O lo e p /\
        forall j, 0 <= j < n -> tn (snd st) j = tn y0 j +! sumz O lo e (fun k => if c k =? j then t k else zero))
       lo hi body (s0, y0) H) as (st & E & Ls & Es & R).
    - cbn [fst snd]. ands; auto; [rewrite (sumz_nil O) by lia; ring|]. intros. rewrite (sumz_nil O) by lia. ring.
    - intros e [s y] He (Ls & Es & R). cbn [fst snd] in *. rewrite Hb by auto. specialize (Hc e He).
      rewrite acc_ok by lia. eexists; split; [reflexivity|]. cbn [fst snd]. ands.
      + rewrite zlen_upd; lia.
      + rewrite (sumz_last O L) by lia. rewrite Es. ring.
      + intros j Hj. rewrite nthZ_upd by lia. rewrite (sumz_last O L) by lia.
        destruct (Z.eqb_spec j (c e)).
        * subst. rewrite Z.eqb_refl. rewrite R by lia. ring.
        * replace (c e =? j) with false by lia. rewrite R by lia. ring.
    - destruct st as [s y]. exists s, y. ands; auto.
  Qed.

  Section Ready.
    Variables (m nnz b : Z) (ptr ind idiag iurow : list Z) (val : list T).
    Hypothesis R : tri_ready m m nnz b ptr ind idiag iurow.
    Hypothesis F : full_diag m m b ptr ind.
    Hypothesis Lv : zlen val = nnz.
    Let A := csr_mat O b ptr ind val.
    Let W : csr_wf m m nnz b ptr ind := tr_wf _ _ _ _ _ _ _ _ R.

    Definition s_lo (fm : fill_mode) i := match fm with fm_lower => zn ptr i | fm_upper => zn iurow i end.
    Definition s_hi (fm : fill_mode) i := match fm with fm_lower => zn idiag i | fm_upper => zn ptr (i + 1) end.

    Lemma strict_range : forall fm i, 0 <= i < m ->
      zn ptr i <= s_lo fm i /\ s_lo fm i <= s_hi fm i /\ s_hi fm i <= zn ptr (i + 1) /\
      (forall k, in_row ptr b i k -> (s_lo fm i - b <= k < s_hi fm i - b <-> strict fm i (zn ind k - b) = true)).
    Proof.
      intros fm i Hi. destruct (tr_split _ _ _ _ _ _ _ _ R i Hi) as (H1 & H2 & S).
      unfold s_lo, s_hi, strict.
      destruct fm; (ands; [lia|lia|lia|]); intros k Hk; destruct (S k Hk) as (S1 & S2 & S3); unfold in_row in Hk; lia.
    Qed.

    Lemma strict_col : forall fm i k, 0 <= i < m -> s_lo fm i - b <= k < s_hi fm i - b ->
      0 <= k < nnz /\ 0 <= zn ind k - b < m.
    Proof.
      intros fm i k Hi Hk. destruct (strict_range fm i Hi) as (? & ? & ? & _).
      destruct (row_bounds _ _ _ _ _ _ i W Hi) as (? & ? & ? & ? & ?).
      assert (0 <= k < nnz) by lia. pose proof (wf_ind _ _ _ _ _ _ W k ltac:(lia)). lia.
    Qed.

    Lemma diag_val : forall i, 0 <= i < m -> 0 <= zn idiag i - b < nnz /\ tn val (zn idiag i - b) = A i i.
    Proof.
      intros i Hi. destruct (diag_one _ _ _ _ _ _ _ _ i R (Z.le_refl m) F Hi) as (Hd & Ed & Eu).
      assert (Hd' : 0 <= zn idiag i - b < nnz) by (eapply in_row_range; eauto using wf_ptr).
      split; auto. unfold A. rewrite (csr_mat_sum O L).
      - unfold in_row in Hd.
        rewrite (sumz_delta O L _ _ (zn idiag i - b)); [rewrite Ed, Z.eqb_refl; reflexivity|lia|].
        intros k Hk Hne. destruct (Z.eqb_spec (zn ind k) (i + b)); [|reflexivity].
        exfalso. apply Hne. eapply (tr_uniq _ _ _ _ _ _ _ _ R i); eauto.
      - intros k Hk. rewrite Lv. eapply in_row_range; eauto using wf_ptr.
    Qed.

    Lemma strict_dot : forall fm h i x, 0 <= i < m -> additive O h ->
      sumz O (s_lo fm i - b) (s_hi fm i - b) (fun k => h (tn val k) *! tn x (zn ind k - b)) =
      sumz O 0 m (fun c => if strict fm i c then h (A i c) *! tn x c else zero).
    Proof.
      intros fm h i x Hi Ha. destruct (strict_range fm i Hi) as (? & ? & ? & S).
      apply (row_sum_cols O L m m nnz b ptr ind val i _ _ (strict fm i) h (fun c => tn x c) W Lv Hi Ha S); lia.
    Qed.

    Lemma strict_scatter : forall fm h i axi j, 0 <= i < m -> 0 <= j < m -> additive O h ->
      sumz O (s_lo fm i - b) (s_hi fm i - b) (fun k => if zn ind k - b =? j then h (tn val k) *! axi else zero) =
      if strict fm i j then h (A i j) *! axi else zero.
    Proof.
      intros fm h i axi j Hi Hj Ha. destruct (strict_range fm i Hi) as (? & ? & ? & S).
      apply (row_scatter_col O L m m nnz b ptr ind val i _ _ (strict fm i) h axi j W Lv Hi Ha S); lia.
    Qed.

    Definition dval (f : T -> T) (dg : diag_type) (i : Z) : T :=
      match dg with dg_non_unit => f (A i i) | dg_unit => one | dg_zero => zero end.

    Lemma diag_term_ok : forall f dg alpha i xi s, 0 <= i < m ->
      diag_term O f dg alpha val (zn idiag i - b) xi s = Some (s +! alpha *! (dval f dg i *! xi)).
    Proof.
      intros f dg alpha i xi s Hi. destruct (diag_val i Hi) as [B E]. unfold diag_term, dval.
      destruct dg.
      - rewrite (rd_nthZ _ zero) by lia. rewrite E. f_equal. ring.
      - f_equal. ring.
      - f_equal. ring.
    Qed.

    Lemma symm_body_ok : forall fm f g alpha x i s0 y0, additive O f -> additive O g ->
      0 <= i < m -> zlen x = m -> zlen y0 = m ->
      exists s y, symm_body O f g b alpha val ind x (s_lo fm i - b) (s_hi fm i - b) i s0 y0 = Some (s, y) /\
        zlen y = m /\
        s = s0 +! alpha *! sumz O 0 m (fun c => if strict fm i c then f (A i c) *! tn x c else zero) /\
        forall j, 0 <= j < m -> tn y j = tn y0 j +! (if strict fm i j then alpha *! (g (A i j) *! tn x i) else zero).
    Proof.
      intros fm f g alpha x i s0 y0 Hf Hg Hi Lx Ly.
      destruct (strict_range fm i Hi) as (? & ? & ? & _).
      destruct (row_bounds _ _ _ _ _ _ i W Hi) as (? & ? & ? & ? & ?).
      unfold symm_body.
      match goal with |- context [for_ ?lo ?hi ?bd (s0, y0)] =>
      destruct (gather_scatter_ok m lo hi (fun k => alpha *! f (tn val k) *! tn x (zn ind k - b))
         (fun k => g (tn val k) *! (alpha *! tn x i)) (fun k => zn ind k - b) bd s0 y0 ltac:(lia) Ly) as (s & y & E & Lyy & Es & Ry) end.
      - intros k Hk. apply (strict_col fm i k); auto.
      - intros k s y Hk Lyy. pose proof (strict_col fm i k Hi Hk) as [].
        rewrite !(rd_nthZ _ zero val) by lia. rewrite (rd_nthZ _ 0 ind) by lia. rewrite !(rd_nthZ _ zero) by lia.
        replace (alpha *! g (tn val k) *! tn x i) with (g (tn val k) *! (alpha *! tn x i)) by ring. reflexivity.
      - exists s, y. ands; auto.
        + rewrite Es. f_equal. rewrite <- (strict_dot fm f i x Hi Hf). rewrite <- (sumz_mul_l O L).
          apply sumz_ext. intros; ring.
        + intros j Hj. rewrite Ry by lia. f_equal.
          rewrite (strict_scatter fm g i _ j Hi Hj Hg). destruct (strict fm i j); [ring|reflexivity].
    Qed.

    Lemma csrmv_fg_ok : forall f g fm dg alpha beta x y, additive O f -> additive O g ->
      zlen x = m -> zlen y = m ->
      exists y', csrmv_fg_internal O f g b alpha m dg fm val ind ptr idiag x beta y = Some y' /\
        mv_spec O m m alpha beta (symM fm f g (dval f dg) A) x y y'.
    Proof.
      intros f g fm dg alpha beta x y Hf Hg Lx Ly.
      pose proof (wf_m _ _ _ _ _ _ W) as Hm. unfold csrmv_fg_internal.
      destruct (beta_scale_ok O L beta m y Hm Ly) as (y1 & E1 & Ly1 & R1). rewrite E1.
      assert (G : forall body, (forall i y, 0 <= i < m -> zlen y = m -> exists y', body i y = Some y' /\ zlen y' = m /\
           forall j, 0 <= j < m -> tn y' j = tn y j +! sym_row fm f g (dval f dg) A m alpha x i j) ->
         exists y', for_ 0 m body y1 = Some y' /\ mv_spec O m m alpha beta (symM fm f g (dval f dg) A) x y y').
      { intros body Hb. destruct (rows_add O L m (fun i j => sym_row fm f g (dval f dg) A m alpha x i j) 0 m body y1 Hm Ly1 Hb) as (y' & E & Ly' & P).
        exists y'. split; auto. split; auto. intros j Hj. rewrite P, R1 by lia. rewrite sym_assemble by lia. ring. }
      destruct fm; apply G; clear G; intros i y0 Hi Ly0;
        destruct (row_bounds _ _ _ _ _ _ i W Hi) as (? & ? & ? & ? & ?);
        rewrite !(rd_nthZ _ 0 ptr) by lia; rewrite !(rd_nthZ _ 0 idiag) by (rewrite (tr_ld _ _ _ _ _ _ _ _ R); lia).
      - destruct (symm_body_ok fm_lower f g alpha x i zero y0) as (s & y2 & E2 & L2 & Es & P2); auto.
        unfold s_lo, s_hi in E2. rewrite E2. rewrite (rd_nthZ _ zero x) by lia. rewrite diag_term_ok by lia.
        rewrite acc_ok by lia. eexists; split; [reflexivity|]. split; [rewrite zlen_upd; lia|].
        intros j Hj. rewrite nthZ_upd by lia. unfold sym_row. destruct (Z.eqb_spec j i).
        + subst j. rewrite P2 by lia. rewrite Es. ring.
        + rewrite P2 by lia. ring.
      - rewrite (rd_nthZ _ zero x) by lia. rewrite diag_term_ok by lia.
        destruct (diag_one _ _ _ _ _ _ _ _ i R (Z.le_refl m) F Hi) as (Hd & Ed & Eu).
        replace (zn idiag i - b + 1) with (s_lo fm_upper i - b) by (unfold s_lo; lia).
        match goal with |- context [symm_body O f g b alpha val ind x _ _ i ?ss y0] =>
        destruct (symm_body_ok fm_upper f g alpha x i ss y0) as (s & y2 & E2 & L2 & Es & P2); auto end.
        unfold s_hi in E2. rewrite E2.
        rewrite acc_ok by lia. eexists; split; [reflexivity|]. split; [rewrite zlen_upd; lia|].
        intros j Hj. rewrite nthZ_upd by lia. unfold sym_row. destruct (Z.eqb_spec j i).
        + subst j. rewrite P2 by lia. rewrite Es. ring.
        + rewrite P2 by lia. ring.
    Qed.

    Lemma hermt_ok : forall fm dg alpha beta x y, zlen x = m -> zlen y = m ->
      exists y', csrmv_hermt_internal O b alpha m dg fm val ind ptr idiag x beta y = Some y' /\
        mv_spec O m m alpha beta (symM fm (ocj O) (fun v => v) (dval (fun v => v) dg) A) x y y'.
    Proof.
      intros fm dg alpha beta x y Lx Ly.
      pose proof (wf_m _ _ _ _ _ _ W) as Hm. unfold csrmv_hermt_internal. cbv zeta.
      destruct (beta_scale_ok O L beta m y Hm Ly) as (y1 & E1 & Ly1 & R1). rewrite E1.
      set (D := fun i j => sym_row fm (ocj O) (fun v => v) (dval (fun v => v) dg) A m alpha x i j).
      assert (G : forall body, (forall i y, 0 <= i < m -> zlen y = m -> exists y', body i y = Some y' /\ zlen y' = m /\
           forall j, 0 <= j < m -> tn y' j = tn y j +! D i j) ->
         exists y', for_ 0 m body y1 = Some y' /\ mv_spec O m m alpha beta (symM fm (ocj O) (fun v => v) (dval (fun v => v) dg) A) x y y').
      { intros body Hb. destruct (rows_add O L m D 0 m body y1 Hm Ly1 Hb) as (y' & E & Ly' & P).
        exists y'. split; auto. split; auto. intros j Hj. rewrite P, R1 by lia. unfold D. rewrite sym_assemble by lia. ring. }
      (* the inner loop *)
      assert (B : forall fm i y0 body, 0 <= i < m -> zlen y0 = m ->
         (forall k y, body k y = (
            let* v := rd val k in let* c := rd ind k in let* xj := rd x (c - b) in
            let* y := acc O y i (alpha *! ocj O v *! xj) in let* xi := rd x i in acc O y (c - b) (alpha *! v *! xi))) ->
         exists y', for_ (s_lo fm i - b) (s_hi fm i - b) body y0 = Some y' /\ zlen y' = m /\
          forall j, 0 <= j < m -> tn y' j = tn y0 j +!
            ((if j =? i then alpha *! sumz O 0 m (fun c => if strict fm i c then ocj O (A i c) *! tn x c else zero) else zero)
             +! (if strict fm i j then alpha *! (A i j *! tn x i) else zero))).
      { clear G. intros fm' i y0 body Hi Ly0 Hb.
        destruct (strict_range fm' i Hi) as (? & ? & ? & _).
        destruct (row_bounds _ _ _ _ _ _ i W Hi) as (? & ? & ? & ? & ?).
        destruct (rows_add O L m (fun k j => (if j =? i then alpha *! (ocj O (tn val k) *! tn x (zn ind k - b)) else zero)
            +! (if zn ind k - b =? j then tn val k *! (alpha *! tn x i) else zero)) (s_lo fm' i - b) (s_hi fm' i - b) body y0 ltac:(lia) Ly0) as (y' & E & Ly' & P).
        - intros k y2 Hk Ly2. rewrite Hb. pose proof (strict_col fm' i k Hi Hk) as [].
          rewrite (rd_nthZ _ zero val) by lia. rewrite (rd_nthZ _ 0 ind) by lia. rewrite !(rd_nthZ _ zero x) by lia.
          rewrite acc_ok by lia. rewrite acc_ok by (rewrite zlen_upd; lia). eexists; split; [reflexivity|].
          split; [rewrite !zlen_upd; lia|]. intros j Hj.
          rewrite (nthZ_upd _ _ (upd _ _ _)) by (rewrite ?zlen_upd; lia).
          rewrite !nthZ_upd by lia.
          destruct (Z.eqb_spec j i); destruct (Z.eqb_spec (zn ind k - b) j); destruct (Z.eqb_spec j (zn ind k - b)); try lia;
            try (destruct (Z.eqb_spec (zn ind k - b) i)); try lia; subst; ring_simplify; try reflexivity;
            repeat match goal with H : _ = i |- _ => rewrite H end; ring.
        - exists y'. ands; auto. intros j Hj. rewrite P by lia. f_equal. rewrite (sumz_add O L). f_equal.
          + destruct (j =? i).
            * rewrite (sumz_mul_l O L). rewrite (strict_dot fm' (ocj O) i x Hi (additive_cj O L)). reflexivity.
            * apply (sumz_zero O L). reflexivity.
          + rewrite (strict_scatter fm' (fun v => v) i _ j Hi Hj (additive_id O)). destruct (strict fm' i j); [ring|reflexivity]. }
      assert (Dg : forall i y0, 0 <= i < m -> zlen y0 = m -> exists y',
          match dg with
          | dg_non_unit => let* v := rd val (zn idiag i - b) in let* xi := rd x i in acc O y0 i (alpha *! v *! xi)
          | dg_unit => let* xi := rd x i in acc O y0 i (alpha *! xi)
          | dg_zero => Some y0
          end = Some y' /\ zlen y' = m /\
          forall j, 0 <= j < m -> tn y' j = tn y0 j +! (if j =? i then alpha *! (dval (fun v => v) dg i *! tn x i) else zero)).
      { intros i y0 Hi Ly0. destruct (diag_val i Hi) as [Bd Ed]. rewrite (rd_nthZ _ zero x) by lia. unfold dval.
        destruct dg.
        - rewrite (rd_nthZ _ zero) by lia. rewrite acc_ok by lia. eexists; split; [reflexivity|]. split; [rewrite zlen_upd; lia|].
          intros j Hj. rewrite nthZ_upd by lia. destruct (Z.eqb_spec j i); [subst j; rewrite Ed; ring|ring].
        - rewrite acc_ok by lia. eexists; split; [reflexivity|]. split; [rewrite zlen_upd; lia|].
          intros j Hj. rewrite nthZ_upd by lia. destruct (Z.eqb_spec j i); [subst j; ring|ring].
        - eexists; split; [reflexivity|]. split; [lia|]. intros j Hj. destruct (j =? i); ring. }
      unfold D in *. clear D. destruct fm; apply G; clear G; intros i y0 Hi Ly0;
        destruct (row_bounds _ _ _ _ _ _ i W Hi) as (? & ? & ? & ? & ?);
        rewrite !(rd_nthZ _ 0 ptr) by lia; rewrite !(rd_nthZ _ 0 idiag) by (rewrite (tr_ld _ _ _ _ _ _ _ _ R); lia).
      - match goal with |- context [for_ _ _ ?bd y0] =>
          destruct (B fm_lower i y0 bd Hi Ly0 ltac:(reflexivity)) as (y2 & E2 & L2 & P2) end.
        unfold s_lo, s_hi in E2. rewrite E2.
        destruct (Dg i y2 Hi L2) as (y3 & E3 & L3 & P3). exists y3. ands; auto.
        intros j Hj. rewrite P3, P2 by lia. unfold sym_row. destruct (j =? i); ring.
      - destruct (Dg i y0 Hi Ly0) as (y2 & E2 & L2 & P2). rewrite E2.
        destruct (diag_one _ _ _ _ _ _ _ _ i R (Z.le_refl m) F Hi) as (Hd & Ed & Eu).
        replace (zn idiag i - b + 1) with (s_lo fm_upper i - b) by (unfold s_lo; lia).
        match goal with |- context [for_ _ _ ?bd y2] =>
          destruct (B fm_upper i y2 bd Hi L2 ltac:(reflexivity)) as (y3 & E3 & L3 & P3) end.
        unfold s_hi in E3. rewrite E3. exists y3. ands; auto.
        intros j Hj. rewrite P3, P2 by lia. unfold sym_row. destruct (j =? i); ring.
    Qed.
  End Ready.
End P.
