(** Each triangular-solve kernel solves the triangular system of its rows. *)
From Coq Require Import ZArith List Bool Lia ZifyBool Ring.
From Verif Require Import Base BaseFacts Algebra Vec Csr MvModel MvFacts TrsvModel TrsvSpec TrsvProof.
Import ListNotations.
Open Scope Z_scope.

Section P.
  Context {T : Type} (O : ops T) (L : laws O) (DL : div_law O).
  Local Notation zero := (o0 O).
  Local Notation tn := (nthZ (o0 O)).
  Local Infix "+!" := (oadd O) (at level 50, left associativity).
  Local Infix "-!" := (osub O) (at level 50, left associativity).
  Local Infix "*!" := (omul O) (at level 40, left associativity).
  Let rth := l_ring L.
  Add Ring Tring_trsvk : rth.

    Lemma upd_upd : forall (x : list T) i v w, 0 <= i < zlen x -> upd (upd x i v) i w = upd x i w.
    Proof.
      intros x i v w Hi. apply (nthZ_ext _ zero); [rewrite !zlen_upd; reflexivity|].
      intros k Hk. rewrite !zlen_upd in Hk. rewrite !nthZ_upd by (rewrite ?zlen_upd; lia). destruct (k =? i); reflexivity.
    Qed.

  Section Arr.
    Variables (m b : Z) (a : list T) (icol : list Z) (cj : bool) (incx incb : Z) (unit : bool).
    Variables (lo hi dg : Z -> Z) (alpha : T) (rhs : list T).
    Hypothesis Hinc : 0 < incx.
    Hypothesis Hincb : 0 < incb.
    Hypothesis Hrhs : (m - 1) * incb < zlen rhs.
    Local Notation fv q := (cjh O cj (tn a q)).
    Local Notation col q := (zn icol q - b).
    Hypothesis Hrng : forall i, 0 <= i < m -> rng m b a icol (lo i) (hi i).
    Hypothesis Hdg : unit = false -> forall i, 0 <= i < m -> 0 <= dg i < zlen a /\ fv (dg i) <> zero.

    (** Off-diagonal part and diagonal of the system. *)
    Definition off (i j : Z) : T := sumz O (lo i - b) (hi i - b) (fun q => if col q =? j then fv q else zero).
    Definition dia (i : Z) : T := if unit then o1 O else fv (dg i).
    Definition quo (i : Z) (v : T) : T := if unit then v else odiv O v (fv (dg i)).
    Definition dotx (i : Z) (x : list T) : T := sumz O (lo i - b) (hi i - b) (fun q => fv q *! tn x (col q * incx)).

    Lemma quo_dia : forall i v, 0 <= i < m -> dia i *! quo i v = v.
    Proof.
      intros i v Hi. unfold dia, quo. destruct unit; [ring|].
      transitivity (odiv O v (fv (dg i)) *! fv (dg i)); [ring|]. apply DL. apply Hdg; auto.
    Qed.

    Lemma dot_off : forall i x, 0 <= i < m -> dotx i x = sumz O 0 m (fun j => off i j *! comp O x incx j).
    Proof.
      clear Hdg Hinc Hrhs Hincb. intros i x Hi. destruct (Hrng i Hi) as (H & H1 & H2 & H3 & Hc). unfold dotx, off.
      rewrite (sumz_ext O 0 m _ (fun j => sumz O (lo i - b) (hi i - b) (fun q => if col q =? j then fv q *! comp O x incx j else zero))).
      - rewrite (sumz_swap O L). apply sumz_ext. intros q Hq. rewrite (sumz_delta O L 0 m (col q)).
        + rewrite Z.eqb_refl. reflexivity.
        + apply Hc; lia.
        + intros k Hk Hne. replace (col q =? k) with false by lia. reflexivity.
      - intros j Hj. rewrite <- (sumz_mul_r O L). apply sumz_ext. intros q Hq. destruct (col q =? j); ring.
    Qed.

    Definition row_eq (x : list T) (i : Z) : Prop :=
      sumz O 0 m (fun j => off i j *! comp O x incx j) +! dia i *! comp O x incx i = alpha *! comp O rhs incb i.

    Lemma row_step : forall (pr : Z -> Prop) x e,
      (m - 1) * incx < zlen x -> 0 <= e < m -> (forall i, pr i -> 0 <= i < m) ->
      (forall i, pr i -> i <> e /\ off i e = zero) -> off e e = zero ->
      (forall i, pr i -> row_eq x i) ->
      let x' := upd x (e * incx) (quo e (alpha *! comp O rhs incb e -! dotx e x)) in
      forall i, pr i \/ i = e -> row_eq x' i.
    Proof.
      intros pr x e Lx He Hpr Hoff Hee HI x' i Hi. unfold row_eq.
      assert (C : forall j, 0 <= j < m -> comp O x' incx j = if j =? e then quo e (alpha *! comp O rhs incb e -! dotx e x) else comp O x incx j)
        by (intros; apply (comp_upd O m); auto).
      assert (S : forall i, off i e = zero -> sumz O 0 m (fun j => off i j *! comp O x' incx j) = sumz O 0 m (fun j => off i j *! comp O x incx j)).
      { intros k Hk. apply sumz_ext. intros j Hj. rewrite C by auto. destruct (Z.eqb_spec j e) as [->|]; auto. rewrite Hk. ring. }
      destruct Hi as [Hi| ->].
      - destruct (Hoff i Hi) as [Hne Ho]. rewrite S by auto. rewrite C by (apply Hpr; auto). replace (i =? e) with false by lia. apply HI; auto.
      - rewrite S by auto. rewrite C by auto. rewrite Z.eqb_refl. rewrite quo_dia by auto. rewrite dot_off by auto. ring.
    Qed.

    (** Row-oriented kernels. *)
    Section Row.
      Variables (x0 : list T) (body : Z -> list T -> option (list T)).
      Hypothesis Lx0 : (m - 1) * incx < zlen x0.
      Hypothesis Hbody : forall i x, 0 <= i < m -> zlen x = zlen x0 ->
        body i x = Some (upd x (i * incx) (quo i (alpha *! comp O rhs incb i -! dotx i x))).

      Lemma rows_up : 0 <= m -> (forall i j, 0 <= i <= j -> j < m -> off i j = zero) ->
        exists x1, for_ 0 m body x0 = Some x1 /\ only_strided O m incx x0 x1 /\ forall i, 0 <= i < m -> row_eq x1 i.
      Proof.
        intros Hm Hz. destruct (for_inv _ (fun e st => only_strided O m incx x0 st /\ forall i, 0 <= i < e -> row_eq st i) 0 m body x0 Hm) as (st & E & R).
        - split; [apply only_strided_refl|]. intros; lia.
        - intros e st He (S & R). assert (Ls : zlen st = zlen x0) by apply S. rewrite Hbody by auto. eexists; split; [reflexivity|]. split.
          + eapply only_strided_trans; [exact S|]. apply only_strided_upd; auto; lia.
          + intros i Hi. apply (row_step (fun i => 0 <= i < e)); auto; try lia.
            * intros k Hk. split; [lia|]. apply Hz; lia.
            * apply Hz; lia.
        - exists st. tauto.
      Qed.

      Lemma rows_down : 0 <= m -> (forall i j, 0 <= j <= i -> i < m -> off i j = zero) ->
        exists x1, for_down 0 m body x0 = Some x1 /\ only_strided O m incx x0 x1 /\ forall i, 0 <= i < m -> row_eq x1 i.
      Proof.
        intros Hm Hz. destruct (for_down_inv _ (fun e st => only_strided O m incx x0 st /\ forall i, e <= i < m -> row_eq st i) 0 m body x0 Hm) as (st & E & R).
        - split; [apply only_strided_refl|]. intros; lia.
        - intros e st He (S & R). assert (Ls : zlen st = zlen x0) by apply S. rewrite Hbody by auto. eexists; split; [reflexivity|]. split.
          + eapply only_strided_trans; [exact S|]. apply only_strided_upd; auto; lia.
          + intros i Hi. apply (row_step (fun i => e < i < m)); auto; try lia.
            * intros k Hk. split; [lia|]. apply Hz; lia.
            * apply Hz; lia.
            * intros k Hk. apply R. lia.
        - exists st. tauto.
      Qed.
    End Row.

    (** Column-oriented kernels solve with the transpose. *)
    Section Col.
      Variables (x0 : list T) (body : Z -> list T -> option (list T)).
      Hypothesis Lx0 : (m - 1) * incx < zlen x0.
      Hypothesis Hbody : forall i x, 0 <= i < m -> zlen x = zlen x0 -> off i i = zero ->
        exists x', body i x = Some x' /\ only_strided O m incx x x' /\ comp O x' incx i = quo i (comp O x incx i) /\
          forall c, 0 <= c < m -> c <> i -> comp O x' incx c = comp O x incx c -! off i c *! comp O x' incx i.
      Hypothesis Hload : forall j, 0 <= j < m -> comp O x0 incx j = alpha *! comp O rhs incb j.

      Definition col_eq (x : list T) (s e : Z) (done : Z -> bool) (j : Z) : Prop :=
        sumz O s e (fun i => off i j *! comp O x incx i) +! (if done j then dia j *! comp O x incx j else comp O x incx j)
        = alpha *! comp O rhs incb j.

      Lemma cols_up : 0 <= m -> (forall i j, 0 <= j <= i -> i < m -> off i j = zero) ->
        exists x1, for_ 0 m body x0 = Some x1 /\ only_strided O m incx x0 x1 /\
          forall j, 0 <= j < m -> col_eq x1 0 m (fun _ => true) j.
      Proof.
        intros Hm Hz. destruct (for_inv _ (fun e st => only_strided O m incx x0 st /\ forall j, 0 <= j < m -> col_eq st 0 e (fun j => j <? e) j) 0 m body x0 Hm) as (st & E & S & R).
        - split; [apply only_strided_refl|]. intros j Hj. unfold col_eq. rewrite (sumz_nil O) by lia. replace (j <? 0) with false by lia. rewrite Hload by auto. ring.
        - intros e st He (S & R). assert (Ls : zlen st = zlen x0) by apply S.
          destruct (Hbody e st He Ls (Hz e e ltac:(lia) ltac:(lia))) as (x' & -> & S' & De & Dc). eexists; split; [reflexivity|].
          split; [eapply only_strided_trans; eauto|].
          intros j Hj. unfold col_eq. specialize (R j Hj). unfold col_eq in R. rewrite (sumz_last O L) by lia.
          rewrite (sumz_ext O 0 e _ (fun i => off i j *! comp O st incx i)).
          2:{ intros i Hi. rewrite (Dc i) by lia. rewrite (Hz e i) by lia. f_equal. ring. }
          destruct (Z.lt_trichotomy j e) as [Hlt|[->|Hgt]].
          + replace (j <? e + 1) with true by lia. replace (j <? e) with true in R by lia. rewrite (Dc j) by lia. rewrite (Hz e j) by lia.
            rewrite <- R. ring.
          + replace (e <? e + 1) with true by lia. replace (e <? e) with false in R by lia. rewrite (Hz e e) by lia. rewrite De, quo_dia by auto. rewrite <- R. ring.
          + replace (j <? e + 1) with false by lia. replace (j <? e) with false in R by lia. rewrite (Dc j) by lia. rewrite <- R. ring.
        - exists st. split; [exact E|]. split; [exact S|]. intros j Hj. specialize (R j Hj). unfold col_eq in *. replace (j <? m) with true in R by lia. exact R.
      Qed.

      Lemma cols_down : 0 <= m -> (forall i j, 0 <= i <= j -> j < m -> off i j = zero) ->
        exists x1, for_down 0 m body x0 = Some x1 /\ only_strided O m incx x0 x1 /\
          forall j, 0 <= j < m -> col_eq x1 0 m (fun _ => true) j.
      Proof.
        intros Hm Hz. destruct (for_down_inv _ (fun e st => only_strided O m incx x0 st /\ forall j, 0 <= j < m -> col_eq st e m (fun j => e <=? j) j) 0 m body x0 Hm) as (st & E & S & R).
        - split; [apply only_strided_refl|]. intros j Hj. unfold col_eq. rewrite (sumz_nil O) by lia. replace (m <=? j) with false by lia. rewrite Hload by auto. ring.
        - intros e st He (S & R). assert (Ls : zlen st = zlen x0) by apply S.
          destruct (Hbody e st He Ls (Hz e e ltac:(lia) ltac:(lia))) as (x' & -> & S' & De & Dc). eexists; split; [reflexivity|].
          split; [eapply only_strided_trans; eauto|].
          intros j Hj. unfold col_eq. specialize (R j Hj). unfold col_eq in R. rewrite (sumz_first O e m) by lia.
          rewrite (sumz_ext O (e + 1) m _ (fun i => off i j *! comp O st incx i)).
          2:{ intros i Hi. rewrite (Dc i) by lia. rewrite (Hz e i) by lia. f_equal. ring. }
          destruct (Z.lt_trichotomy j e) as [Hlt|[->|Hgt]].
          + replace (e <=? j) with false by lia. replace (e + 1 <=? j) with false in R by lia. rewrite (Dc j) by lia. rewrite <- R. ring.
          + replace (e <=? e) with true by lia. replace (e + 1 <=? e) with false in R by lia. rewrite (Hz e e) by lia. rewrite De, quo_dia by auto. rewrite <- R. ring.
          + replace (e <=? j) with true by lia. replace (e + 1 <=? j) with true in R by lia. rewrite (Dc j) by lia. rewrite (Hz e j) by lia.
            rewrite <- R. ring.
        - exists st. split; [exact E|]. split; [exact S|]. intros j Hj. specialize (R j Hj). unfold col_eq in *. replace (0 <=? j) with true in R by lia. exact R.
      Qed.
    End Col.

    Lemma load_rhs_ok : forall x0, 0 <= m -> (m - 1) * incx < zlen x0 ->
      exists x1, load_rhs O alpha m rhs incb incx x0 = Some x1 /\ only_strided O m incx x0 x1 /\
        forall j, 0 <= j < m -> comp O x1 incx j = alpha *! comp O rhs incb j.
    Proof.
      clear Hdg Hrng lo hi dg unit. intros x0 Hm Lx0. unfold load_rhs.
      match goal with |- context [for_ 0 m ?f ?s] =>
        destruct (for_inv _ (fun e (st : list T) => only_strided O m incx x0 st /\ forall j, 0 <= j < e -> comp O st incx j = alpha *! comp O rhs incb j) 0 m f s Hm) as (st & E & R) end.
      - split; [apply only_strided_refl|]. intros; lia.
      - intros e st He (S & R). assert (Ls : zlen st = zlen x0) by apply S.
        rewrite (rd_nthZ _ zero) by (apply (stride_rng m); auto). rewrite wr_upd by (apply (stride_rng m); auto; lia).
        eexists; split; [reflexivity|]. split; [eapply only_strided_trans; [exact S|apply only_strided_upd; auto; lia]|].
        intros j Hj. rewrite (comp_upd O m) by (auto; lia). destruct (Z.eqb_spec j e) as [->|]; [reflexivity|apply R; lia].
      - exists st. tauto.
    Qed.

    (** One step of a column kernel: divide, then update. *)
    Lemma col_body : forall i x x', 0 <= i < m -> (m - 1) * incx < zlen x -> off i i = zero ->
      let x1 := if unit then x else upd x (i * incx) (quo i (comp O x incx i)) in
      col_effect O m b a icol cj incx (lo i) (hi i) (comp O x1 incx i) x1 x' ->
      only_strided O m incx x x' /\ comp O x' incx i = quo i (comp O x incx i) /\
      forall c, 0 <= c < m -> c <> i -> comp O x' incx c = comp O x incx c -! off i c *! comp O x' incx i.
    Proof.
      clear Hdg Hrng Hrhs Hincb. intros i x x' Hi Lx Hoi x1 [S E].
      assert (X1 : only_strided O m incx x x1 /\ comp O x1 incx i = quo i (comp O x incx i) /\ forall c, 0 <= c < m -> c <> i -> comp O x1 incx c = comp O x incx c).
      { subst x1. unfold quo. destruct unit; [split; [apply only_strided_refl|auto]|]. split; [apply only_strided_upd; auto|].
        split; [rewrite (comp_upd O m) by auto; rewrite Z.eqb_refl; reflexivity|]. intros c Hc Hne. rewrite (comp_upd O m) by auto. replace (c =? i) with false by lia. reflexivity. }
      destruct X1 as (S1 & E1 & R1).
      assert (Ei : comp O x' incx i = comp O x1 incx i).
      { rewrite E by auto. fold (off i i). rewrite Hoi. ring. }
      split; [eapply only_strided_trans; eauto|]. split; [congruence|].
      intros c Hc Hne. rewrite Ei. rewrite E by auto. fold (off i c). rewrite R1 by auto. reflexivity.
    Qed.

    Lemma off_zero : forall i j, (forall q, lo i - b <= q < hi i - b -> col q <> j) -> off i j = zero.
    Proof. clear Hdg Hrng Hrhs Hincb Hinc dg unit m. intros i j H. unfold off. apply (sumz_zero O L). intros q Hq. specialize (H q Hq). replace (col q =? j) with false by lia. reflexivity. Qed.

    Lemma div_at_ok : forall x i, 0 <= i < m -> (m - 1) * incx < zlen x -> unit = false ->
      div_at O x (i * incx) (fv (dg i)) = Some (upd x (i * incx) (quo i (comp O x incx i))).
    Proof.
      clear Hdg Hrng Hrhs Hincb. intros x i Hi Lx Hu. unfold div_at. rewrite (rd_nthZ _ zero) by (apply (stride_rng m); auto).
      rewrite wr_upd by (apply (stride_rng m); auto). unfold quo, comp. rewrite Hu. reflexivity.
    Qed.

    Lemma rhs_rd : forall i, 0 <= i < m -> rd rhs (i * incb) = Some (comp O rhs incb i).
    Proof. clear Hdg Hrng Hinc lo hi dg unit. intros. apply rd_nthZ. apply (stride_rng m); auto. Qed.

    (** Write then divide, as in kt_trsv_l and the upper kernels. *)
    Lemma write_div : forall x i v, 0 <= i < m -> (m - 1) * incx < zlen x ->
      (let* x := wr x (i * incx) v in
       if negb unit then let* d := rd a (dg i) in div_at O x (i * incx) (cjh O cj d) else Some x)
      = Some (upd x (i * incx) (quo i v)).
    Proof.
      clear Hrng Hrhs Hincb. intros x i v Hi Lx. pose proof (stride_rng m incx _ i Hinc Lx Hi) as Hp. rewrite wr_upd by auto.
      destruct unit eqn:Eu; cbn [negb]; [unfold quo; rewrite Eu; reflexivity|].
      rewrite (rd_nthZ _ zero) by (apply Hdg; auto). rewrite div_at_ok by (rewrite ?zlen_upd; auto).
      rewrite upd_upd by auto. rewrite (comp_upd O m) by auto. rewrite Z.eqb_refl. reflexivity.
    Qed.
    Lemma maybe_div : forall x i, 0 <= i < m -> (m - 1) * incx < zlen x ->
      (if negb unit then let* d := rd a (dg i) in div_at O x (i * incx) (cjh O cj d) else Some x)
      = Some (if unit then x else upd x (i * incx) (quo i (comp O x incx i))).
    Proof.
      clear Hrng Hrhs Hincb. intros x i Hi Lx. destruct unit eqn:Eu; cbn [negb]; [reflexivity|].
      rewrite (rd_nthZ _ zero) by (apply Hdg; auto). rewrite div_at_ok by auto. reflexivity.
    Qed.
  End Arr.

  (** ** The eight kernels. *)
  Definition lower_rows (m b : Z) (a : list T) (icol ilrow idiag : list Z) (cj unit : bool) : Prop :=
    0 <= m /\ m <= zlen ilrow /\ m <= zlen idiag /\
    (forall i, 0 <= i < m -> rng m b a icol (zn ilrow i) (zn idiag i)) /\
    (forall i q, 0 <= i < m -> zn ilrow i - b <= q < zn idiag i - b -> zn icol q - b < i) /\
    (unit = false -> forall i, 0 <= i < m -> 0 <= zn idiag i - b < zlen a /\ cjh O cj (tn a (zn idiag i - b)) <> zero).
  Definition upper_rows (m b : Z) (a : list T) (icol ilrow iurow : list Z) (cj unit : bool) : Prop :=
    0 <= m /\ m + 1 <= zlen ilrow /\ m <= zlen iurow /\
    (forall i, 0 <= i < m -> rng m b a icol (zn iurow i) (zn ilrow (i + 1))) /\
    (forall i q, 0 <= i < m -> zn iurow i - b <= q < zn ilrow (i + 1) - b -> i < zn icol q - b) /\
    (unit = false -> forall i, 0 <= i < m -> 0 <= zn iurow i - 1 - b < zlen a /\ cjh O cj (tn a (zn iurow i - 1 - b)) <> zero).

  Section Kern.
    Variables (m b : Z) (a : list T) (icol ilrow iend : list Z) (cj : bool) (incx incb : Z) (unit : bool).
    Variables (alpha : T) (rhs x : list T).
    Hypothesis Hx : holds m incx x.
    Hypothesis Hb : holds m incb rhs.
    Local Notation loL i := (zn ilrow i).
    Local Notation hiL i := (zn iend i).
    Local Notation loU i := (zn iend i).
    Local Notation hiU i := (zn ilrow (i + 1)).

    Definition offL := off b a icol cj (fun i => zn ilrow i) (fun i => zn iend i).
    Definition offU := off b a icol cj (fun i => zn iend i) (fun i => zn ilrow (i + 1)).
    Definition diaL := dia a cj unit (fun i => zn iend i - b).
    Definition diaU := dia a cj unit (fun i => zn iend i - 1 - b).

    Definition solved_rows (offd : Z -> Z -> T) (diag : Z -> T) (r : option (list T)) : Prop :=
      exists x1, r = Some x1 /\ only_strided O m incx x x1 /\ forall i, 0 <= i < m ->
        sumz O 0 m (fun j => offd i j *! comp O x1 incx j) +! diag i *! comp O x1 incx i = alpha *! comp O rhs incb i.
    Definition solved_cols (offd : Z -> Z -> T) (diag : Z -> T) (r : option (list T)) : Prop :=
      exists x1, r = Some x1 /\ only_strided O m incx x x1 /\ forall j, 0 <= j < m ->
        sumz O 0 m (fun i => offd i j *! comp O x1 incx i) +! diag j *! comp O x1 incx j = alpha *! comp O rhs incb j.

    Lemma offL_zero : lower_rows m b a icol ilrow iend cj unit -> forall i j, 0 <= i <= j -> j < m -> offL i j = zero.
    Proof. intros (_ & _ & _ & _ & Hc & _) i j Hi Hj. unfold offL, offU; apply off_zero; intros q Hq. specialize (Hc i q ltac:(lia) Hq). lia. Qed.
    Lemma offU_zero : upper_rows m b a icol ilrow iend cj unit -> forall i j, 0 <= j <= i -> i < m -> offU i j = zero.
    Proof. intros (_ & _ & _ & _ & Hc & _) i j Hi Hj. unfold offL, offU; apply off_zero; intros q Hq. specialize (Hc i q ltac:(lia) Hq). lia. Qed.

    Lemma ref_trsv_l_ok : lower_rows m b a icol ilrow iend cj unit ->
      solved_rows offL diaL (ref_trsv_l O cj alpha m b a icol ilrow iend rhs incb x incx unit).
    Proof.
      intros HL. pose proof HL as (Hm & L1 & L2 & Hr & Hc & Hd). destruct Hx as [Hi1 Hi2], Hb as [Hb1 Hb2].
      unfold ref_trsv_l. apply rows_up with (dg := fun i => zn iend i - b); auto.
      - intros i y Hi Ly. rewrite (rhs_rd m) by auto. rewrite (rd_nthZ _ 0) by lia. rewrite (rd_nthZ _ 0) by lia.
        rewrite (sub_dot_ok O L m) by (auto; lia). unfold quo, dotx.
        destruct unit eqn:Eu; cbn [negb].
        + apply wr_upd. apply (stride_rng m); auto; lia.
        + rewrite (rd_nthZ _ zero) by (apply Hd; auto). apply wr_upd. apply (stride_rng m); auto; lia.
      - apply offL_zero; auto.
    Qed.
    Lemma kt_trsv_l_ok : forall tsz, 1 < tsz -> lower_rows m b a icol ilrow iend cj unit ->
      solved_rows offL diaL (kt_trsv_l O cj tsz alpha m b a icol ilrow iend rhs incb x incx unit).
    Proof.
      intros tsz Ht HL. pose proof HL as (Hm & L1 & L2 & Hr & Hc & Hd). destruct Hx as [Hi1 Hi2], Hb as [Hb1 Hb2].
      unfold kt_trsv_l. apply rows_up with (dg := fun i => zn iend i - b); auto.
      - intros i y Hi Ly. rewrite (rd_nthZ _ 0) by lia. rewrite (rhs_rd m) by auto. rewrite (rd_nthZ _ 0) by lia.
        rewrite (kt_sub_dot_ok O L m) by (auto; lia). unfold dotx.
        apply (write_div m a cj incx unit (fun i => zn iend i - b)); auto; lia.
      - apply offL_zero; auto.
    Qed.
    Lemma ref_trsv_u_ok : upper_rows m b a icol ilrow iend cj unit ->
      solved_rows offU diaU (ref_trsv_u O cj alpha m b a icol ilrow iend rhs incb x incx unit).
    Proof.
      intros HL. pose proof HL as (Hm & L1 & L2 & Hr & Hc & Hd). destruct Hx as [Hi1 Hi2], Hb as [Hb1 Hb2].
      unfold ref_trsv_u. apply rows_down with (dg := fun i => zn iend i - 1 - b); auto.
      - intros i y Hi Ly. rewrite (rd_nthZ _ 0) by lia. rewrite (rd_nthZ _ 0) by lia. rewrite (rhs_rd m) by auto. cbv zeta.
        replace (hiU i - 1 + 1) with (hiU i) by lia.
        rewrite (sub_dot_ok O L m) by (auto; lia). unfold dotx.
        apply (write_div m a cj incx unit (fun i => zn iend i - 1 - b)); auto; lia.
      - apply offU_zero; auto.
    Qed.
    Lemma kt_trsv_u_ok : forall tsz, 1 < tsz -> upper_rows m b a icol ilrow iend cj unit ->
      solved_rows offU diaU (kt_trsv_u O cj tsz alpha m b a icol ilrow iend rhs incb x incx unit).
    Proof.
      intros tsz Ht HL. pose proof HL as (Hm & L1 & L2 & Hr & Hc & Hd). destruct Hx as [Hi1 Hi2], Hb as [Hb1 Hb2].
      unfold kt_trsv_u. apply rows_down with (dg := fun i => zn iend i - 1 - b); auto.
      - intros i y Hi Ly. rewrite (rd_nthZ _ 0) by lia. rewrite (rd_nthZ _ 0) by lia. rewrite (rhs_rd m) by auto. cbv zeta.
        replace (hiU i - 1 + 1) with (hiU i) by lia.
        rewrite (kt_sub_dot_ok O L m) by (auto; lia). unfold dotx.
        apply (write_div m a cj incx unit (fun i => zn iend i - 1 - b)); auto; lia.
      - apply offU_zero; auto.
    Qed.

    Lemma ref_trsv_lth_ok : lower_rows m b a icol ilrow iend cj unit ->
      solved_cols offL diaL (ref_trsv_lth O cj alpha m b a icol ilrow iend rhs incb x incx unit).
    Proof.
      intros HL. pose proof HL as (Hm & L1 & L2 & Hr & Hc & Hd). destruct Hx as [Hi1 Hi2], Hb as [Hb1 Hb2].
      unfold ref_trsv_lth. destruct (load_rhs_ok m incx incb alpha rhs Hi1 Hb1 Hb2 x Hm Hi2) as (x1 & -> & S1 & E1).
      assert (Ls : zlen x1 = zlen x) by apply S1.
      match goal with |- context [for_down 0 m ?f x1] => destruct (cols_down m b a icol cj incx incb unit (fun i => zn ilrow i) (fun i => zn iend i) (fun i => zn iend i - b) alpha rhs Hr Hd x1 f) as (x2 & E & S2 & R) end; auto.
      - intros i y Hi Ly Hoi. rewrite (rd_nthZ _ 0) by lia.
        rewrite (maybe_div m a cj incx unit (fun i => zn iend i - b)) by (auto; lia). rewrite (rd_nthZ _ 0) by lia.
        match goal with |- context [sub_col_re _ _ _ _ _ _ _ _ _ ?y'] => destruct (sub_col_re_ok O L m b a icol cj incx Hi1 (zn ilrow i) (zn iend i) y' i) as (x' & -> & C) end; auto.
        + destruct unit; rewrite ?zlen_upd; lia.
        + intros q Hq. specialize (Hc i q Hi Hq). lia.
        + exists x'. split; [reflexivity|]. eapply col_body in C; eauto. lia.
      - apply offL_zero; auto.
      - exists x2. rewrite E. split; [reflexivity|]. split; [eapply only_strided_trans; eauto|]. exact R.
    Qed.
    Lemma ref_trsv_uth_ok : upper_rows m b a icol ilrow iend cj unit ->
      solved_cols offU diaU (ref_trsv_uth O cj alpha m b a icol ilrow iend rhs incb x incx unit).
    Proof.
      intros HL. pose proof HL as (Hm & L1 & L2 & Hr & Hc & Hd). destruct Hx as [Hi1 Hi2], Hb as [Hb1 Hb2].
      unfold ref_trsv_uth. destruct (load_rhs_ok m incx incb alpha rhs Hi1 Hb1 Hb2 x Hm Hi2) as (x1 & -> & S1 & E1).
      assert (Ls : zlen x1 = zlen x) by apply S1.
      match goal with |- context [for_ 0 m ?f x1] => destruct (cols_up m b a icol cj incx incb unit (fun i => zn iend i) (fun i => zn ilrow (i + 1)) (fun i => zn iend i - 1 - b) alpha rhs Hr Hd x1 f) as (x2 & E & S2 & R) end; auto.
      - intros i y Hi Ly Hoi. rewrite (rd_nthZ _ 0) by lia.
        rewrite (maybe_div m a cj incx unit (fun i => zn iend i - 1 - b)) by (auto; lia). rewrite (rd_nthZ _ 0) by lia. cbv zeta.
        replace (hiU i - 1 + 1) with (hiU i) by lia.
        match goal with |- context [sub_col_re _ _ _ _ _ _ _ _ _ ?y'] => destruct (sub_col_re_ok O L m b a icol cj incx Hi1 (zn iend i) (zn ilrow (i + 1)) y' i) as (x' & -> & C) end; auto.
        + destruct unit; rewrite ?zlen_upd; lia.
        + intros q Hq. specialize (Hc i q Hi Hq). lia.
        + exists x'. split; [reflexivity|]. eapply (col_body m b a icol cj incx unit (fun i => zn iend i) (fun i => zn ilrow (i + 1))) in C; eauto. lia.
      - apply offU_zero; auto.
      - exists x2. rewrite E. split; [reflexivity|]. split; [eapply only_strided_trans; eauto|]. exact R.
    Qed.
    Lemma kt_trsv_lt_ok : forall tsz, 1 < tsz -> alpha <> zero -> lower_rows m b a icol ilrow iend cj unit ->
      (forall i, 0 <= i < m -> cols_distinct b icol (zn ilrow i) (zn iend i)) ->
      solved_cols offL diaL (kt_trsv_lt O cj tsz alpha m b a icol ilrow iend rhs incb x incx unit).
    Proof.
      intros tsz Ht Ha HL HD. pose proof HL as (Hm & L1 & L2 & Hr & Hc & Hd). destruct Hx as [Hi1 Hi2], Hb as [Hb1 Hb2].
      unfold kt_trsv_lt. replace (oeqb O alpha zero) with false by (symmetry; apply (eqb_false_o O L); auto). cbn [negb].
      destruct (load_rhs_ok m incx incb alpha rhs Hi1 Hb1 Hb2 x Hm Hi2) as (x1 & -> & S1 & E1).
      assert (Ls : zlen x1 = zlen x) by apply S1.
      match goal with |- context [for_down 0 m ?f x1] => destruct (cols_down m b a icol cj incx incb unit (fun i => zn ilrow i) (fun i => zn iend i) (fun i => zn iend i - b) alpha rhs Hr Hd x1 f) as (x2 & E & S2 & R) end; auto.
      - intros i y Hi Ly Hoi. rewrite (rd_nthZ _ 0) by lia.
        rewrite (maybe_div m a cj incx unit (fun i => zn iend i - b)) by (auto; lia).
        match goal with |- context [rd ?y' (i * incx)] => assert (Ly' : zlen y' = zlen y) by (destruct unit; rewrite ?zlen_upd; reflexivity) end.
        rewrite (rd_nthZ _ zero) by (apply (stride_rng m); auto; lia). rewrite (rd_nthZ _ 0) by lia.
        match goal with |- context [kt_sub_col _ _ _ _ _ _ _ _ _ ?xi ?y'] => destruct (kt_sub_col_ok O L m b a icol cj incx Hi1 tsz (zn ilrow i) (zn iend i) y' xi) as (x' & -> & C) end; auto; try lia.
        exists x'. split; [reflexivity|]. eapply col_body in C; eauto. lia.
      - apply offL_zero; auto.
      - exists x2. rewrite E. split; [reflexivity|]. split; [eapply only_strided_trans; eauto|]. exact R.
    Qed.
    Lemma kt_trsv_ut_ok : forall tsz, 1 < tsz -> alpha <> zero -> upper_rows m b a icol ilrow iend cj unit ->
      (forall i, 0 <= i < m -> cols_distinct b icol (zn iend i) (zn ilrow (i + 1))) ->
      solved_cols offU diaU (kt_trsv_ut O cj tsz alpha m b a icol ilrow iend rhs incb x incx unit).
    Proof.
      intros tsz Ht Ha HL HD. pose proof HL as (Hm & L1 & L2 & Hr & Hc & Hd). destruct Hx as [Hi1 Hi2], Hb as [Hb1 Hb2].
      unfold kt_trsv_ut. replace (oeqb O alpha zero) with false by (symmetry; apply (eqb_false_o O L); auto). cbn [negb].
      destruct (load_rhs_ok m incx incb alpha rhs Hi1 Hb1 Hb2 x Hm Hi2) as (x1 & -> & S1 & E1).
      assert (Ls : zlen x1 = zlen x) by apply S1.
      match goal with |- context [for_ 0 m ?f x1] => destruct (cols_up m b a icol cj incx incb unit (fun i => zn iend i) (fun i => zn ilrow (i + 1)) (fun i => zn iend i - 1 - b) alpha rhs Hr Hd x1 f) as (x2 & E & S2 & R) end; auto.
      - intros i y Hi Ly Hoi. rewrite (rd_nthZ _ 0) by lia. rewrite (rd_nthZ _ 0) by lia. cbv zeta.
        rewrite (maybe_div m a cj incx unit (fun i => zn iend i - 1 - b)) by (auto; lia).
        match goal with |- context [rd ?y' (i * incx)] => assert (Ly' : zlen y' = zlen y) by (destruct unit; rewrite ?zlen_upd; reflexivity) end.
        rewrite (rd_nthZ _ zero) by (apply (stride_rng m); auto; lia).
        replace (hiU i - 1 + 1) with (hiU i) by lia.
        match goal with |- context [kt_sub_col _ _ _ _ _ _ _ _ _ ?xi ?y'] => destruct (kt_sub_col_ok O L m b a icol cj incx Hi1 tsz (zn iend i) (zn ilrow (i + 1)) y' xi) as (x' & -> & C) end; auto; try lia.
        exists x'. split; [reflexivity|]. eapply (col_body m b a icol cj incx unit (fun i => zn iend i) (fun i => zn ilrow (i + 1))) in C; eauto. lia.
      - apply offU_zero; auto.
      - exists x2. rewrite E. split; [reflexivity|]. split; [eapply only_strided_trans; eauto|]. exact R.
    Qed.
  End Kern.
End P.
