(** DIA product. *)
From Coq Require Import ZArith List Bool Lia ZifyBool Ring.
From Verif Require Import Base BaseFacts Algebra Vec DoidModel Csr CsrFacts EllSpec DiaSpec MvModel MvSpec MvFacts MvProof MvVecProof FmtMvModel FmtMvSpec FmtMvProof.
Import ListNotations.
Open Scope Z_scope.

Section P.
  Context {T : Type} (O : ops T) (L : laws O).
  Local Notation zero := (o0 O).
  Local Notation one := (o1 O).
  Local Notation tn := (nthZ (o0 O)).
  Local Infix "+!" := (oadd O) (at level 50, left associativity).
  Local Infix "*!" := (omul O) (at level 40, left associativity).
  Local Notation "a ==! b" := (oeqb O a b) (at level 70).
  Let rth := l_ring L.
  Add Ring Tring_dia : rth.
  Local Notation upto := (upto O).
  Local Notation fin := (fin O).

  Lemma upto_ext : forall p F G y0 y, (forall i, 0 <= i < p -> F i = G i) -> upto p F y0 y -> upto p G y0 y.
  Proof.
    intros p F G y0 y H [U1 U2]. split; auto. intros i Hi. rewrite U2 by auto. destruct (Z.ltb_spec i p); auto. apply H; lia.
  Qed.

  (** The beta prologues. *)
  Lemma beta_scale_upto : forall beta m y, 0 <= m <= zlen y ->
    exists y1, beta_scale O beta m y = Some y1 /\ upto m (fun i => beta *! tn y i) y y1.
  Proof.
    intros beta m y Hm. unfold beta_scale. destruct (beta ==! zero) eqn:E0; [|destruct (beta ==! one) eqn:E1; cbn [negb]].
    - apply (l_eqb L) in E0. subst. apply upto_rows; try lia; [apply upto_0; lia|]. intros i v Hi [U1 U2]. rewrite wr_upd by lia. do 2 f_equal. ring.
    - apply (l_eqb L) in E1. subst. exists y. split; auto. split; auto. intros i Hi. destruct (i <? m); auto. ring.
    - apply upto_rows; try lia; [apply upto_0; lia|]. intros i v Hi [U1 U2]. rewrite (rd_nthZ _ zero) by lia. rewrite wr_upd by lia.
      rewrite U2 by lia. replace (i <? i) with false by lia. reflexivity.
  Qed.
  Lemma blocks_upto : forall k m F y0 body tail, 0 < k -> 0 <= m <= zlen y0 ->
    (forall t y, 0 <= t < m / k -> t * k + k <= m -> upto (t * k) F y0 y ->
       exists y1, body t y = Some y1 /\ upto (t * k + k) F y0 y1) ->
    (forall i y, 0 <= i < m -> upto i F y0 y -> tail i y = Some (upd y i (F i))) ->
    exists y1, (let* y := for_ 0 (m / k) body y0 in for_ (m / k * k) m tail y) = Some y1 /\ upto m F y0 y1.
  Proof.
    intros k m F y0 body tail Hk Hm Hb Ht.
    pose proof (Z.div_mod m k ltac:(lia)). pose proof (Z.mod_pos_bound m k Hk). pose proof (Z.div_pos m k ltac:(lia) Hk).
    set (g := m / k) in *. clearbody g.
    destruct (for_inv _ (fun e v => upto (e * k) F y0 v) 0 g body y0 ltac:(lia)) as (y1 & E & U).
    - apply upto_0; lia.
    - intros e v He U. destruct (Hb e v He ltac:(nia) U) as (v1 & E1 & U1). exists v1. split; auto. replace ((e + 1) * k) with (e * k + k) by lia. auto.
    - rewrite E. apply upto_rows; auto; try nia. intros i v Hi. apply Ht. nia.
  Qed.
  Lemma beta_scale_vec_upto : forall k beta m y, 0 < k -> 0 <= m <= zlen y ->
    exists y1, beta_scale_vec O k beta m y = Some y1 /\ upto m (fun i => beta *! tn y i) y y1.
  Proof.
    intros k beta m y Hk Hm. unfold beta_scale_vec. destruct (beta ==! zero) eqn:E0; [|destruct (beta ==! one) eqn:E1; cbn [negb]].
    - apply (l_eqb L) in E0. subst. apply blocks_upto; auto.
      + intros t v Ht Htk U. rewrite zrep_map by lia. rewrite (map_ext_z _ _ (fun l => zero *! tn y (t * k + l))) by (intros; ring).
        apply (upto_block O k (t * k) (fun i => zero *! tn y i)); auto; nia.
      + intros i v Hi [U1 U2]. rewrite wr_upd by lia. do 2 f_equal. ring.
    - apply (l_eqb L) in E1. subst. exists y. split; auto. split; auto. intros i Hi. destruct (i <? m); auto. ring.
    - apply blocks_upto; auto.
      + intros t v Ht Htk U. assert (0 <= t * k) by nia. destruct U as [U1 U2]. rewrite (vload_ok O) by lia. rewrite map_map.
        rewrite (map_ext_z _ _ (fun l => beta *! tn y (t * k + l))).
        * apply (upto_block O k (t * k) (fun i => beta *! tn y i)); auto; try lia. split; auto.
        * intros l Hl. rewrite U2 by lia. replace (t * k + l <? t * k) with false by lia. ring.
      + intros i v Hi [U1 U2]. rewrite (rd_nthZ _ zero) by lia. rewrite wr_upd by lia. rewrite U2 by lia. replace (i <? i) with false by lia.
        do 2 f_equal. ring.
  Qed.

  Section Dia.
    Variables (m n nd : Z) (off : list Z) (dv x : list T) (alpha beta : T).
    Hypothesis Hm : 0 <= m.
    Hypothesis Hn : 0 <= n.
    Hypothesis Hnd : 0 <= nd.
    Hypothesis Lo : nd <= zlen off.
    Hypothesis Lv : m * nd <= zlen dv.
    Hypothesis Lx : n <= zlen x.

    (** Contribution of diagonal [q] to row [i]. *)
    Definition dterm (i q : Z) : T := if (0 <=? i + zn off q) && (i + zn off q <? n) then tn dv (q * m + i) *! tn x (i + zn off q) else zero.
    Definition DS (e i : Z) : T := sumz O 0 e (dterm i).

    Lemma dia_row_sum : forall i, sumz O 0 n (fun j => dia_mat O m nd off dv i j *! tn x j) = DS nd i.
    Proof.
      intros i. unfold dia_mat, DS.
      rewrite (sumz_ext O 0 n _ (fun j => sumz O 0 nd (fun q => (if zn off q =? j - i then tn dv (dia_at m i q) else zero) *! tn x j))).
      - rewrite (sumz_swap O L). apply sumz_ext. intros q Hq. unfold dterm. unfold dia_at. replace (i + m * q) with (q * m + i) by ring.
        destruct ((0 <=? i + zn off q) && (i + zn off q <? n)) eqn:E.
        + rewrite (sumz_delta O L 0 n (i + zn off q)); [replace (zn off q =? i + zn off q - i) with true by lia; reflexivity|lia|].
          intros j Hj Hne. replace (zn off q =? j - i) with false by lia. ring.
        + apply (sumz_zero O L). intros j Hj. replace (zn off q =? j - i) with false by lia. ring.
      - intros j Hj. rewrite (sumz_mul_r O L). reflexivity.
    Qed.
    Lemma dpos : forall i q, 0 <= i < m -> 0 <= q < nd -> 0 <= q * m + i < zlen dv.
    Proof. intros. assert (q * m + i < m * nd) by nia. nia. Qed.

    (** Adding one diagonal, row by row or in blocks. *)
    Definition seg (lo hi : Z) (G : Z -> T) (v0 v : list T) : Prop :=
      zlen v = zlen v0 /\ forall i, 0 <= i < zlen v0 -> tn v i = if (lo <=? i) && (i <? hi) then tn v0 i +! G i else tn v0 i.
    Lemma seg_0 : forall lo hi G v, hi <= lo -> seg lo hi G v v.
    Proof. intros lo hi G v H. split; auto. intros i Hi. replace ((lo <=? i) && (i <? hi)) with false by lia. reflexivity. Qed.
    Lemma seg_rows : forall lo p hi G v0 v, 0 <= lo -> 0 <= p <= hi -> lo + hi <= zlen v0 -> seg lo (lo + p) G v0 v ->
      forall body, (forall j y, p <= j < hi -> zlen y = zlen v0 -> body j y = Some (upd y (lo + j) (tn y (lo + j) +! G (lo + j)))) ->
      exists v1, for_ p hi body v = Some v1 /\ seg lo (lo + hi) G v0 v1.
    Proof.
      intros lo p hi G v0 v Hlo Hp Hh S body Hb.
      destruct (for_inv _ (fun e w => seg lo (lo + e) G v0 w) p hi body v ltac:(lia) S) as (v1 & E & R); eauto.
      intros e w He [S1 S2]. rewrite Hb by auto. eexists; split; [reflexivity|]. split; [rewrite zlen_upd; auto|].
      intros i Hi. rewrite nthZ_upd by lia. destruct (Z.eqb_spec i (lo + e)) as [->|].
      - rewrite S2 by lia. replace ((lo <=? lo + e) && (lo + e <? lo + e)) with false by lia. replace ((lo <=? lo + e) && (lo + e <? lo + (e + 1))) with true by lia. reflexivity.
      - rewrite S2 by lia. replace ((lo <=? i) && (i <? lo + (e + 1))) with ((lo <=? i) && (i <? lo + e)) by lia. reflexivity.
    Qed.
    Lemma seg_block : forall k lo e G v0 v, 0 < k -> 0 <= lo -> 0 <= e -> lo + e + k <= zlen v0 -> seg lo (lo + e) G v0 v ->
      exists v1, vstore k (map (fun t => tn v (lo + e + t) +! G (lo + e + t)) (zrange 0 k)) v (lo + e) = Some v1 /\ seg lo (lo + (e + k)) G v0 v1.
    Proof.
      intros k lo e G v0 v Hk Hlo He Hl [S1 S2].
      destruct (vstore_ok O k (fun t => tn v (lo + e + t) +! G (lo + e + t)) v (lo + e)) as (v1 & E & L1 & H1); try lia.
      exists v1. split; auto. split; [lia|]. intros i Hi. rewrite H1 by lia.
      destruct ((lo + e <=? i) && (i <? lo + e + k)) eqn:Ei.
      - replace (lo + e + (i - (lo + e))) with i by lia. rewrite S2 by lia.
        replace ((lo <=? i) && (i <? lo + e)) with false by lia. replace ((lo <=? i) && (i <? lo + (e + k))) with true by lia. reflexivity.
      - rewrite S2 by lia. replace ((lo <=? i) && (i <? lo + (e + k))) with ((lo <=? i) && (i <? lo + e)) by lia. reflexivity.
    Qed.

    (** One diagonal over the whole row range it meets. *)
    Lemma seg_diag : forall e y0 v v1, 0 <= e < nd -> m <= zlen y0 ->
      upto m (fun i => alpha *! DS e i +! beta *! tn y0 i) y0 v ->
      seg (Z.max 0 (- zn off e)) (Z.max 0 (- zn off e) + Z.max 0 (Z.min (m - Z.max 0 (- zn off e)) (n - Z.max 0 (zn off e))))
        (fun i => alpha *! tn dv (e * m + i) *! tn x (i + zn off e)) v v1 ->
      upto m (fun i => alpha *! DS (e + 1) i +! beta *! tn y0 i) y0 v1.
    Proof.
      intros e y0 v v1 He Ly [U1 U2] [S1 S2]. split; [lia|]. intros i Hi. rewrite S2 by lia. rewrite U2 by lia.
      destruct (Z.ltb_spec i m) as [Him|Him].
      - unfold DS. rewrite (sumz_last O L 0 e) by lia. fold (DS e i). unfold dterm.
        replace ((0 <=? i + zn off e) && (i + zn off e <? n)) with
          ((Z.max 0 (- zn off e) <=? i) && (i <? Z.max 0 (- zn off e) + Z.max 0 (Z.min (m - Z.max 0 (- zn off e)) (n - Z.max 0 (zn off e))))) by lia.
        destruct (_ && _); ring.
      - match goal with |- (if ?c then _ else _) = _ => replace c with false by lia end. reflexivity.
    Qed.

    Lemma diag_loop : forall y0 y1 body, m <= zlen y0 -> upto m (fun i => beta *! tn y0 i) y0 y1 ->
      (forall e v, 0 <= e < nd -> zlen v = zlen y0 -> exists v1, body e v = Some v1 /\
        seg (Z.max 0 (- zn off e)) (Z.max 0 (- zn off e) + Z.max 0 (Z.min (m - Z.max 0 (- zn off e)) (n - Z.max 0 (zn off e))))
        (fun i => alpha *! tn dv (e * m + i) *! tn x (i + zn off e)) v v1) ->
      exists y2, for_ 0 nd body y1 = Some y2 /\ product_of O m n alpha beta (dia_mat O m nd off dv) x y0 y2.
    Proof.
      intros y0 y1 body Ly U Hb.
      destruct (for_inv _ (fun e v => upto m (fun i => alpha *! DS e i +! beta *! tn y0 i) y0 v) 0 nd body y1 Hnd) as (y2 & E & U2).
      - apply (upto_ext m (fun i => beta *! tn y0 i)); auto. intros i Hi. unfold DS. rewrite (sumz_nil O) by lia. ring.
      - intros e v He Ue. destruct (Hb e v He (proj1 Ue)) as (v1 & E1 & S). exists v1. split; auto. apply (seg_diag e y0 v v1); auto.
      - exists y2. split; auto. destruct U2 as [U2a U2b]. split; auto. intros i Hi. rewrite U2b by auto. rewrite dia_row_sum. reflexivity.
    Qed.

    Lemma scalar_elem : forall e j (v : list T), 0 <= e < nd -> m <= zlen v ->
      0 <= j < Z.min (m - Z.max 0 (- zn off e)) (n - Z.max 0 (zn off e)) ->
      0 <= Z.max 0 (- zn off e) + e * m + j < zlen dv /\ 0 <= j + Z.max 0 (zn off e) < zlen x /\ 0 <= Z.max 0 (- zn off e) + j < zlen v /\
      tn dv (Z.max 0 (- zn off e) + e * m + j) = tn dv (e * m + (Z.max 0 (- zn off e) + j)) /\
      tn x (j + Z.max 0 (zn off e)) = tn x (Z.max 0 (- zn off e) + j + zn off e).
    Proof.
      intros e j v He Lvv Hj. pose proof (dpos (Z.max 0 (- zn off e) + j) e ltac:(lia) He). ands; try lia; f_equal; lia.
    Qed.

    Lemma diamv_ref_ok : forall y, m <= zlen y ->
      exists y1, diamv_ref O alpha m n dv off nd x beta y = Some y1 /\ product_of O m n alpha beta (dia_mat O m nd off dv) x y y1.
    Proof.
      intros y Ly. unfold diamv_ref. destruct (beta_scale_upto beta m y ltac:(lia)) as (y1 & -> & U).
      apply diag_loop; auto. intros e v He Lvv. rewrite (rd_nthZ _ 0) by lia. cbv zeta.
      set (is := Z.max 0 (- zn off e)). set (js := Z.max 0 (zn off e)). set (num := Z.min (m - is) (n - js)).
      destruct (Z_le_dec num 0) as [Hz|Hz].
      - rewrite for_nil by lia. exists v. split; auto. apply seg_0. lia.
      - replace (Z.max 0 num) with num by lia.
        apply (seg_rows is 0 num _ v v); try lia.
        + apply seg_0. lia.
        + intros j w Hj Lw. destruct (scalar_elem e j w He ltac:(lia) Hj) as (P1 & P2 & P3 & P4 & P5). fold is js in P1, P2, P3, P4, P5.
          rewrite (rd_nthZ _ zero) by lia. rewrite (rd_nthZ _ zero) by lia. rewrite (acc_ok O) by lia. rewrite P4, P5. reflexivity.
    Qed.

    Lemma diamv_diagmaj_ok : forall k y, 0 < k -> m <= zlen y ->
      exists y1, diamv_diagmaj O k alpha m n dv off nd x beta y = Some y1 /\ product_of O m n alpha beta (dia_mat O m nd off dv) x y y1.
    Proof.
      intros k y Hk Ly. unfold diamv_diagmaj. destruct (beta_scale_vec_upto k beta m y Hk ltac:(lia)) as (y1 & -> & U).
      apply diag_loop; auto. intros e v He Lvv. rewrite (rd_nthZ _ 0) by lia. cbv zeta.
      set (is := Z.max 0 (- zn off e)). set (js := Z.max 0 (zn off e)). set (num := Z.min (m - is) (n - js)).
      destruct (Z.leb_spec num 0) as [Hz|Hz].
      - exists v. split; auto. apply seg_0. lia.
      - replace (Z.max 0 num) with num by lia.
        pose proof (Z.div_mod num k ltac:(lia)). pose proof (Z.mod_pos_bound num k Hk). pose proof (Z.div_pos num k ltac:(lia) Hk).
        set (g := num / k) in *. clearbody g.
        set (G := fun i => alpha *! tn dv (e * m + i) *! tn x (i + zn off e)).
        match goal with |- context [for_ 0 g ?f v] => destruct (for_inv _ (fun t w => seg is (is + t * k) G v w) 0 g f v ltac:(lia)) as (v1 & E1 & S1) end.
        + apply seg_0. lia.
        + intros t w Ht Sw. assert (Htk : 0 <= t * k /\ t * k + k <= num) by nia. pose proof (proj1 Sw) as Lw.
          destruct (scalar_elem e (t * k) w He ltac:(lia) ltac:(fold is js num; lia)) as (P1 & P2 & P3 & _ & _).
          destruct (scalar_elem e (t * k + (k - 1)) w He ltac:(lia) ltac:(fold is js num; lia)) as (Q1 & Q2 & Q3 & _ & _).
          fold is js in P1, P2, P3, Q1, Q2, Q3.
          rewrite (vload_ok O) by lia. rewrite (vload_ok O) by lia. rewrite (vload_ok O) by lia. rewrite map_map, map2_map, map2_map.
          rewrite (map_ext_z _ _ (fun l => tn w (is + t * k + l) +! G (is + t * k + l))).
          * destruct (seg_block k is (t * k) G v w) as (w1 & E & S); auto; try lia. exists w1. split; auto.
            replace ((t + 1) * k) with (t * k + k) by lia. auto.
          * intros l Hl. destruct (scalar_elem e (t * k + l) w He ltac:(lia) ltac:(fold is js num; lia)) as (_ & _ & _ & P4 & P5). fold is js in P4, P5.
            unfold G. replace (is + e * m + t * k + l) with (is + e * m + (t * k + l)) by lia. rewrite P4.
            replace (js + t * k + l) with (t * k + l + js) by lia. rewrite P5. rewrite !Z.add_assoc. ring.
        + rewrite E1. apply (seg_rows is (g * k) num G v v1); try nia; auto.
          intros j w Hj Lw. destruct (scalar_elem e j w He ltac:(lia) ltac:(fold is js num; nia)) as (P1 & P2 & P3 & P4 & P5). fold is js in P1, P2, P3, P4, P5.
          rewrite (rd_nthZ _ zero) by lia. rewrite (rd_nthZ _ zero) by lia. rewrite (acc_ok O) by lia. rewrite P4. rewrite (Z.add_comm js j), P5. reflexivity.
    Qed.

    (** Row-major *)
    Lemma scalar_row_ok : forall y0 i v, m <= zlen y0 -> 0 <= i < m -> upto i (fun i => fin alpha beta (DS nd i) (tn y0 i)) y0 v ->
      dia_scalar_row O alpha m n dv off nd x beta i v = Some (upd v i (fin alpha beta (DS nd i) (tn y0 i))).
    Proof.
      intros y0 i v Ly Hi [U1 U2]. unfold dia_scalar_row.
      match goal with |- context [for_ 0 nd ?f zero] => destruct (for_inv _ (fun e s => s = DS e i) 0 nd f zero Hnd) as (s & E & ->) end.
      - unfold DS. rewrite (sumz_nil O) by lia. reflexivity.
      - intros e s He ->. rewrite (rd_nthZ _ 0) by lia.
        assert (ED : DS (e + 1) i = DS e i +! dterm i e) by (unfold DS; rewrite (sumz_last O L 0 e) by lia; reflexivity). rewrite ED. unfold dterm.
        destruct ((0 <=? i + zn off e) && (i + zn off e <? n)) eqn:Ec.
        + pose proof (dpos i e Hi He). rewrite (rd_nthZ _ zero) by lia. rewrite (rd_nthZ _ zero) by lia. eauto.
        + eexists; split; [reflexivity|]. ring.
      - rewrite E. rewrite (rd_nthZ _ zero) by lia. rewrite wr_upd by lia. rewrite U2 by lia. replace (i <? i) with false by lia. do 2 f_equal. unfold fin.
        destruct (beta ==! zero) eqn:E0; [apply (l_eqb L) in E0; subst; ring|]. destruct (beta ==! one) eqn:E1; [apply (l_eqb L) in E1; subst; ring|]. ring.
    Qed.

    Lemma diamv_rowmaj_ok : forall k y row_begin row_end, 0 < k -> m <= zlen y -> 0 <= row_begin -> 0 <= row_end <= m ->
      (forall i q, row_begin <= i < row_end -> 0 <= q < nd -> 0 <= i + zn off q < n) ->
      exists y1, diamv_rowmaj O k alpha m n dv off nd row_begin row_end x beta y = Some y1 /\ product_of O m n alpha beta (dia_mat O m nd off dv) x y y1.
    Proof.
      intros k y rb re Hk Ly Hrb Hre Hin. unfold diamv_rowmaj.
      set (F := fun i => fin alpha beta (DS nd i) (tn y i)).
      assert (R : exists y1, (let* y0 := for_ 0 (Z.min rb m) (dia_scalar_row O alpha m n dv off nd x beta) y in
          let trips := if rb <=? re then (re - rb) / k else 0 in
          let* y1 := for_ 0 trips (fun t y2 => dia_row_block O k alpha m dv off nd x beta (rb + t * k) y2) y0 in
          for_ (rb + trips * k) m (dia_scalar_row O alpha m n dv off nd x beta) y1) = Some y1 /\ upto m F y y1).
      2:{ destruct R as (y1 & E & U). exists y1. split; auto. destruct U as [U1 U2]. split; auto. intros i Hi. rewrite U2 by auto. rewrite dia_row_sum. reflexivity. }
      destruct (upto_rows O 0 (Z.min rb m) F y y (dia_scalar_row O alpha m n dv off nd x beta)) as (y1 & -> & U1); try lia.
      { apply upto_0. lia. }
      { intros i v Hi U. apply scalar_row_ok; auto; lia. }
      cbv zeta. destruct (Z.leb_spec rb re) as [Hbe|Hbe].
      - pose proof (Z.div_mod (re - rb) k ltac:(lia)). pose proof (Z.mod_pos_bound (re - rb) k Hk). pose proof (Z.div_pos (re - rb) k ltac:(lia) Hk).
        set (g := (re - rb) / k) in *. clearbody g. replace (Z.min rb m) with rb in U1 by lia.
        match goal with |- context [for_ 0 g ?f y1] => destruct (for_inv _ (fun t w => upto (rb + t * k) F y w) 0 g f y1 ltac:(lia)) as (y2 & -> & U2) end.
        + replace (rb + 0 * k) with rb by lia. auto.
        + intros t w Ht U. assert (Htk : rb <= rb + t * k /\ rb + t * k + k <= re) by nia. remember (rb + t * k) as p eqn:Ep.
          destruct U as [Ua Ub]. unfold dia_row_block.
          match goal with |- context [for_ 0 nd ?f (zrep k zero)] => rewrite (lanes_sum O L k nd (fun q l => dterm (p + l) q) f) end; try lia.
          2:{ intros q res Hq. pose proof (dpos p q ltac:(lia) Hq). pose proof (dpos (p + (k - 1)) q ltac:(lia) Hq).
              pose proof (Hin p q ltac:(lia) Hq). pose proof (Hin (p + (k - 1)) q ltac:(lia) Hq).
              rewrite (rd_nthZ _ 0) by lia. rewrite (vload_ok O) by lia. rewrite (vload_ok O) by lia. rewrite map2_map. do 2 f_equal. apply map_ext_z.
              intros l Hl. unfold dterm. pose proof (Hin (p + l) q ltac:(lia) Hq). replace ((0 <=? p + l + zn off q) && (p + l + zn off q <? n)) with true by lia.
              f_equal; f_equal; lia. }
          rewrite (vload_ok O) by lia. rewrite map_map, !map2_map.
          assert (EV : (if beta ==! zero then map (fun l => sumz O 0 nd (fun q => dterm (p + l) q) *! alpha) (zrange 0 k)
             else if beta ==! one then map (fun l => tn w (p + l) +! sumz O 0 nd (fun q => dterm (p + l) q) *! alpha) (zrange 0 k)
             else map (fun l => tn w (p + l) *! beta +! sumz O 0 nd (fun q => dterm (p + l) q) *! alpha) (zrange 0 k)) = map (fun l => F (p + l)) (zrange 0 k)).
          { assert (EW : forall l, 0 <= l < k -> tn w (p + l) = tn y (p + l)) by (intros l Hl; rewrite Ub by lia; replace (p + l <? p) with false by lia; reflexivity).
            destruct (beta ==! zero) eqn:E0; [apply (l_eqb L) in E0|destruct (beta ==! one) eqn:E1; [apply (l_eqb L) in E1|]];
              apply map_ext_z; intros l Hl; rewrite ?EW by auto; unfold F, fin; change (sumz O 0 nd (fun q => dterm (p + l) q)) with (DS nd (p + l)); rewrite ?E0, ?E1; ring. }
          rewrite EV. destruct (upto_block O k p F y w) as (w1 & E & U); try lia; [split; auto|]. exists w1. split; auto. 
          replace (rb + (t + 1) * k) with (p + k) by lia. exact U.
        + apply upto_rows; auto; try nia. intros i v Hi U. apply scalar_row_ok; auto; nia.
      - rewrite for_nil by lia. rewrite Z.mul_0_l, Z.add_0_r. destruct (Z_le_dec rb m) as [Hb|Hb].
        + replace (Z.min rb m) with rb in U1 by lia. apply upto_rows; auto; try lia. intros i v Hi U. apply scalar_row_ok; auto; lia.
        + rewrite for_nil by lia. exists y1. split; auto. replace (Z.min rb m) with m in U1 by lia. auto.
    Qed.
  End Dia.

  Lemma heuristic_ok : forall m n off nd, 0 <= m -> 0 <= nd <= zlen off ->
    exists h rb re, dia_heuristic m n off nd = Some (h, rb, re) /\ 0 <= rb /\ 0 <= re <= m /\
      forall i q, rb <= i < re -> 0 <= q < nd -> 0 <= i + zn off q < n.
  Proof.
    intros m n off nd Hm Hnd. unfold dia_heuristic. destruct (Z.eqb_spec nd 0) as [->|Hz].
    { do 3 eexists. split; [reflexivity|]. ands; try lia. }
    rewrite (rd_nthZ _ 0) by lia.
    match goal with |- context [for_ 1 nd ?f ?s] => destruct (for_inv _ (fun e (st : Z * Z) => forall q, 0 <= q < e -> fst st <= zn off q <= snd st) 1 nd f s ltac:(lia)) as ([mn mx] & -> & R) end.
    - cbn. intros q Hq. replace q with 0 by lia. lia.
    - intros e [mn mx] He R. rewrite (rd_nthZ _ 0) by lia. eexists; split; [reflexivity|]. cbn [fst snd] in *. intros q Hq.
      destruct (Z.eq_dec q e) as [->|]; [lia|]. specialize (R q ltac:(lia)). lia.
    - do 3 eexists. split; [reflexivity|]. cbn [fst snd] in R. split; [lia|]. split; [lia|]. intros i q Hi Hq. specialize (R q Hq). lia.
  Qed.

  Lemma diamv_ok : forall w256 w512 choice mode kid c d alpha beta m n nd off dv x y,
    0 < w256 -> 0 < w512 -> choice (if mode =? 0 then 0 else kid) = Some c ->
    (d_base d = 0 \/ d_base d = 1) -> d_type d = mt_general -> 0 <= m -> 0 < n -> 0 <= nd ->
    nd <= zlen off -> m * nd <= zlen dv -> n <= zlen x -> m <= zlen y ->
    exists y1, diamv O w256 w512 choice op_none (Some alpha) m n (Some dv) (Some off) nd (Some d) (Some x) (Some beta) (Some y) mode kid = Some (success, Some y1) /\
      product_of O m n alpha beta (dia_mat O m nd off dv) x y y1.
  Proof.
    intros w256 w512 choice mode kid c d alpha beta m n nd off dv x y W1 W2 Hc Hb Ht Hm Hn Hnd Lo Lv Lx Ly. unfold diamv. rewrite Ht.
    replace (negb ((d_base d =? 0) || (d_base d =? 1))) with false by lia. replace ((m <? 0) || (n <? 0) || (nd <? 0)) with false by lia.
    destruct (Z.eqb_spec m 0) as [Em|Em]; cbn [orb].
    { exists y. split; auto. split; auto. intros i Hi. replace (i <? m) with false by lia. reflexivity. }
    replace (n =? 0) with false by lia.
    destruct (heuristic_ok m n off nd Hm ltac:(lia)) as (h & rb & re & -> & Hrb & Hre & Hin). rewrite Hc.
    destruct (c =? 0).
    - destruct (diamv_ref_ok m n nd off dv x alpha beta) with (y := y) as (y1 & -> & H); auto; try lia. eauto.
    - assert (Wk : 0 < (if c =? 3 then w512 else w256)) by (destruct (c =? 3); auto).
      destruct (if mode =? 1 then false else if mode =? 2 then true else h).
      + destruct (diamv_diagmaj_ok m n nd off dv x alpha beta) with (k := if c =? 3 then w512 else w256) (y := y) as (y1 & -> & H); auto; try lia. eauto.
      + destruct (diamv_rowmaj_ok m n nd off dv x alpha beta) with (k := if c =? 3 then w512 else w256) (y := y) (row_begin := rb) (row_end := re) as (y1 & -> & H); auto; try lia. eauto.
  Qed.
End P.
