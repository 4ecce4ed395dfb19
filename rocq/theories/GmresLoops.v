(** The loops of the GMRES solver: their accesses and, in exact arithmetic, their effect. *)
From Coq Require Import ZArith List Bool Lia Ring.
From Coq Require Import ZifyBool ZifyNat.
From Verif Require Import Base BaseFacts Algebra CgModel GmresModel GmresAlg.
Import ListNotations.
Open Scope Z_scope.

Lemma idx_eq : forall m i k i' k', 0 <= k < m -> 0 <= k' < m -> i * m + k = i' * m + k' -> i = i' /\ k = k'.
Proof. intros. assert (i = i') by nia. nia. Qed.
Lemma idx_lt : forall m i k M, 0 <= k < m -> 0 <= i < M -> 0 <= i * m + k < M * m.
Proof. intros. nia. Qed.

Section R.
  Context {T : Type} (O : ops T) (L : laws O).
  Add Ring LoopRing : (l_ring L).
  Lemma g_sub0 : forall a, a = osub O a (o0 O). Proof. intros. ring. Qed.
  Lemma g_subadd : forall a b c, osub O (osub O a b) c = osub O a (oadd O b c). Proof. intros. ring. Qed.
  Lemma g_comm : forall a b, omul O a b = omul O b a. Proof. intros. ring. Qed.
  Lemma g_cancel : forall a b, oadd O (osub O a b) b = a. Proof. intros. ring. Qed.
  Lemma g_assoc : forall a b c, oadd O (oadd O a b) c = oadd O a (oadd O b c). Proof. intros. ring. Qed.
End R.

Section L.
  Context {T : Type} (O : ops T) (e : genv T).
  Local Notation "0o" := (o0 O). Local Notation "1o" := (o1 O).
  Local Infix "+!" := (oadd O) (at level 50, left associativity).
  Local Infix "*!" := (omul O) (at level 40, left associativity).
  Local Infix "-!" := (osub O) (at level 50, left associativity).
  Notation nt := (nthZ (o0 O)).

  Lemma sdot_ok : forall cnt a oa sa b ob sb, 0 <= cnt ->
    (forall i, 0 <= i < cnt -> 0 <= oa + i * sa < zlen a /\ 0 <= ob + i * sb < zlen b) ->
    exists r, sdot O cnt a oa sa b ob sb = Some r /\ (laws O -> r = sumz O 0 cnt (fun i => ocj O (nt a (oa + i * sa)) *! nt b (ob + i * sb))).
  Proof.
    intros cnt a oa sa b ob sb Hc HB. unfold sdot.
    destruct (for_inv T (fun i r => laws O -> r = sumz O 0 i (fun i => ocj O (nt a (oa + i * sa)) *! nt b (ob + i * sb))) 0 cnt
      (fun i s => let* x := rd a (oa + i * sa) in let* y := rd b (ob + i * sb) in Some (oadd O s (omul O (ocj O x) y))) 0o Hc) as (r & E & P).
    - intros L. rewrite (sumz_nil O) by lia. reflexivity.
    - intros i r Hi P. destruct (HB i Hi) as (B1 & B2). rewrite (rd_nthZ _ 0o _ _ B1), (rd_nthZ _ 0o _ _ B2). eexists. split; [reflexivity|].
      intros L. rewrite (sumz_last O L) by lia. rewrite (P L). reflexivity.
    - exists r. split; auto.
  Qed.

  Lemma map_row_ok : forall n off (f : list T -> Z -> option T) l (P : Z -> T -> Prop), 0 <= n -> 0 <= off -> off + n <= zlen l ->
    (forall i l', 0 <= i < n -> zlen l' = zlen l -> (forall q, 0 <= q -> q < off \/ off + i <= q -> nt l' q = nt l q) -> exists y, f l' i = Some y /\ P i y) ->
    exists l', map_row n off f l = Some l' /\ zlen l' = zlen l /\ (forall i, 0 <= i < n -> P i (nt l' (off + i))) /\
      (forall q, 0 <= q -> q < off \/ off + n <= q -> nt l' q = nt l q).
  Proof.
    intros n off f l P Hn Ho Hl HF. unfold map_row.
    destruct (for_inv (list T) (fun i l' => zlen l' = zlen l /\ (forall i', 0 <= i' < i -> P i' (nt l' (off + i'))) /\ (forall q, 0 <= q -> q < off \/ off + i <= q -> nt l' q = nt l q))
      0 n (fun i l => let* y := f l i in wr l (off + i) y) l Hn) as (l' & E & Z1 & Z2 & Z3).
    - split; [reflexivity|]. split; [lia|]. auto.
    - intros i l' Hi (Z1 & Z2 & Z3). destruct (HF i l' Hi Z1 Z3) as (y & -> & Py).
      rewrite wr_upd by lia. eexists. split; [reflexivity|]. split; [rewrite zlen_upd; exact Z1|]. split.
      + intros i' Hi'. rewrite nthZ_upd by lia. destruct (Z.eqb_spec (off + i') (off + i)) as [Q|Q]; [assert (i' = i) as -> by lia; exact Py|apply Z2; lia].
      + intros q Hq Q. rewrite nthZ_upd by lia. destruct (Z.eqb_spec q (off + i)); [lia|]. apply Z3; lia.
    - exists l'. auto.
  Qed.

  Lemma get_row_ok : forall n off l, 0 <= n -> 0 <= off -> off + n <= zlen l -> get_row n off l = Some (map (fun i => nt l (off + i)) (zrange 0 n)).
  Proof.
    intros n off l Hn Ho Hl. unfold get_row.
    destruct (for_inv (list T) (fun i acc => acc = map (fun i => nt l (off + i)) (zrange 0 i)) 0 n (fun i acc => let* x := rd l (off + i) in Some (acc ++ [x])) [] Hn) as (r & E & ->); auto.
    intros i acc Hi ->. rewrite (rd_nthZ _ 0o) by lia. eexists. split; [reflexivity|]. rewrite zrange_last by lia. rewrite map_app. reflexivity.
  Qed.

  Lemma scal_ok : forall n a off l, 0 <= n -> 0 <= off -> off + n <= zlen l ->
    exists l', scal O n a off l = Some l' /\ zlen l' = zlen l /\ (forall i, 0 <= i < n -> nt l' (off + i) = a *! nt l (off + i)) /\
      (forall q, 0 <= q -> q < off \/ off + n <= q -> nt l' q = nt l q).
  Proof.
    intros n a off l Hn Ho Hl. apply (map_row_ok n off _ l (fun i y => y = a *! nt l (off + i))); auto.
    intros i l' Hi Z1 Z2. rewrite (rd_nthZ _ 0o) by lia. eexists. split; [reflexivity|]. rewrite Z2 by lia. reflexivity.
  Qed.

  Lemma back_row_ok : forall m nn r g y j, 0 <= j < m -> m <= nn -> zlen r = nn * nn -> m <= zlen g -> m <= zlen y ->
    exists y', back_row O m nn r g y j = Some y' /\ zlen y' = zlen y /\ (forall q, 0 <= q -> q <> j -> nt y' q = nt y q) /\
      (laws O -> nt y' j = nt g j -! sumz O (j + 1) m (fun i => nt r (j * nn + i) *! nt y i)).
  Proof.
    intros m nn r g y j Hj Hm Hr Hg Hy. unfold back_row.
    rewrite (rd_nthZ _ 0o) by lia. rewrite wr_upd by lia.
    destruct (for_inv (list T) (fun i y' => zlen y' = zlen y /\ (forall q, 0 <= q -> q <> j -> nt y' q = nt y q) /\
        (laws O -> nt y' j = nt g j -! sumz O (j + 1) i (fun i => nt r (j * nn + i) *! nt y i))) (j + 1) m
      (fun i y => let* yj := rd y j in let* a := rd r (j * nn + i) in let* yi := rd y i in wr y j (osub O yj (omul O a yi))) (upd y j (nt g j)) ltac:(lia)) as (y' & E & Z1 & Z2 & Z3).
    - split; [apply zlen_upd|]. split; [intros q Hq N; apply nthZ_upd_other; lia|]. intros L. rewrite nthZ_upd_same by lia. rewrite (sumz_nil O) by lia. apply (g_sub0 O L).
    - intros i y' Hi (Z1 & Z2 & Z3). rewrite (rd_nthZ _ 0o y' j) by lia.
      pose proof (idx_lt nn j i nn ltac:(lia) ltac:(lia)) as B. rewrite (rd_nthZ _ 0o r) by lia. rewrite (rd_nthZ _ 0o y' i) by lia. rewrite wr_upd by lia.
      eexists. split; [reflexivity|]. split; [rewrite zlen_upd; exact Z1|]. split.
      + intros q Hq N. rewrite nthZ_upd_other by lia. apply Z2; auto.
      + intros L. rewrite nthZ_upd_same by lia. rewrite (sumz_last O L) by lia. rewrite (Z3 L), (Z2 i) by lia. apply (g_subadd O L).
    - exists y'. auto.
  Qed.

  Lemma backward_ok : forall m nn r g y, 0 <= m <= nn -> zlen r = nn * nn -> m <= zlen g -> m <= zlen y ->
    exists st y', backward_solve O e m nn r g y = Some (st, y') /\ zlen y' = zlen y /\ (st = success \/ st = numerical_error) /\
      (laws O -> div_law O -> e_nz e 0o = true -> st = success -> forall i, 0 <= i < m -> sumz O i m (fun k => nt r (i * nn + k) *! nt y' k) = nt g i).
  Proof.
    intros m nn r g y Hm Hr Hg Hy. unfold backward_solve.
    match goal with |- context [forc 0 m ?F ?s0] =>
      destruct (forc_inv (list T) (list T) (fun k y' => zlen y' = zlen y /\ (laws O -> div_law O -> e_nz e 0o = true -> forall i, m - k <= i < m -> sumz O i m (fun k => nt r (i * nn + k) *! nt y' k) = nt g i))
        (fun _ => False) (fun y' => zlen y' = zlen y) 0 m F s0 ltac:(lia)) as [(y' & E & [(Z1 & Z2) | []]) | (y' & E & Z1)] end.
    - split; [reflexivity|]. intros _ _ _ i Hi. lia.
    - intros k y0 Hk (Z1 & Z2). cbv zeta. set (j := m - 1 - k).
      destruct (back_row_ok m nn r g y0 j ltac:(subst j; lia) ltac:(lia) Hr Hg ltac:(lia)) as (y1 & -> & Y1 & Y2 & Y3).
      pose proof (idx_lt nn j j nn ltac:(subst j; lia) ltac:(subst j; lia)) as B. rewrite (rd_nthZ _ 0o r) by lia.
      destruct (e_nz e (nt r (j * nn + j))) eqn:EZ.
      + right. right. eexists. split; [reflexivity|]. lia.
      + left. rewrite (rd_nthZ _ 0o y1) by (subst j; lia). rewrite wr_upd by (subst j; lia). eexists. split; [reflexivity|].
        split; [rewrite zlen_upd; lia|]. intros L D N0 i Hi.
        destruct (Z.eq_dec i j) as [->|N].
        * rewrite (sumz_first O) by (subst j; lia). rewrite nthZ_upd_same by (subst j; lia).
          rewrite (sumz_ext O (j + 1) m _ (fun k0 => nt r (j * nn + k0) *! nt y0 k0)) by (intros k0 Hk0; rewrite nthZ_upd_other by (subst j; lia); rewrite Y2 by (subst j; lia); reflexivity).
          assert (NZ : nt r (j * nn + j) <> 0o) by (intros Q; rewrite Q in EZ; congruence).
          rewrite (g_comm O L (nt r (j * nn + j))). rewrite D by auto. rewrite (Y3 L). apply (g_cancel O L).
        * rewrite <- (Z2 L D N0 i) by (subst j; lia). apply sumz_ext. intros k0 Hk0. rewrite nthZ_upd_other by (subst j; lia). rewrite Y2 by (subst j; lia). reflexivity.
    - rewrite E. exists success, y'. split; [reflexivity|]. split; [exact Z1|]. split; [auto|]. intros L D N0 _ i Hi. apply Z2; auto. lia.
    - rewrite E. exists numerical_error, y'. split; [reflexivity|]. split; [exact Z1|]. split; [auto|]. intros _ _ _ Q. discriminate.
  Qed.

  Variable p : gopt T.
  Notation m := (p_restart p).

  Lemma hess_col_ok : forall n j v h, 0 <= n -> 0 <= j < m -> zlen v = (m + 1) * n -> zlen h = m * m ->
    exists h', hess_col O p n j v h = Some h' /\ zlen h' = zlen h /\
      (laws O -> forall i, 0 <= i <= j -> nt h' (i * m + j) = sumz O 0 n (fun q => ocj O (nt v ((j + 1) * n + q)) *! nt v (i * n + q))) /\
      (forall i k, 0 <= i < m -> 0 <= k < m -> k <> j -> nt h' (i * m + k) = nt h (i * m + k)).
  Proof.
    intros n j v h Hn Hj Hv Hh. unfold hess_col.
    match goal with |- context [for_ 0 (j + 1) ?F ?s0] =>
      destruct (for_inv (list T) (fun a h' => zlen h' = zlen h /\
        (laws O -> forall i, 0 <= i < a -> nt h' (i * m + j) = sumz O 0 n (fun q => ocj O (nt v ((j + 1) * n + q)) *! nt v (i * n + q))) /\
        (forall i k, 0 <= i < m -> 0 <= k < m -> k <> j -> nt h' (i * m + k) = nt h (i * m + k))) 0 (j + 1) F s0 ltac:(lia)) as (h' & E & Z1 & Z2 & Z3) end.
    - split; [reflexivity|]. split; [lia|auto].
    - intros i h' Hi (Z1 & Z2 & Z3).
      destruct (sdot_ok n v ((j + 1) * n) 1 v (i * n) 1 Hn) as (d & -> & Ed).
      { intros q Hq. pose proof (idx_lt n (j + 1) q (m + 1) ltac:(lia) ltac:(lia)). pose proof (idx_lt n i q (m + 1) ltac:(lia) ltac:(lia)). lia. }
      pose proof (idx_lt m i j m ltac:(lia) ltac:(lia)) as B. rewrite wr_upd by lia. eexists. split; [reflexivity|]. split; [rewrite zlen_upd; exact Z1|]. split.
      + intros L i' Hi'. destruct (Z.eq_dec i' i) as [->|N].
        * rewrite nthZ_upd_same by lia. rewrite (Ed L). apply sumz_ext. intros q Hq. rewrite !Z.mul_1_r. reflexivity.
        * pose proof (idx_lt m i' j m ltac:(lia) ltac:(lia)). rewrite nthZ_upd_other; [apply Z2; auto; lia|lia|lia|]. intros Q. apply idx_eq in Q; lia.
      + intros i' k Hi' Hk N. pose proof (idx_lt m i' k m ltac:(lia) ltac:(lia)). rewrite nthZ_upd_other; [apply Z3; auto|lia|lia|]. intros Q. apply idx_eq in Q; lia.
    - exists h'. split; [exact E|]. split; [exact Z1|]. split; [|exact Z3]. intros L i Hi. apply Z2; auto. lia.
  Qed.

  Lemma rotate_col_ok : forall j c s h, 0 <= j < m -> zlen c = m -> zlen s = m -> zlen h = m * m ->
    exists h', rotate_col O p j c s h = Some h' /\ zlen h' = zlen h /\
      (forall i k, 0 <= i < m -> 0 <= k < m -> k <> j -> nt h' (i * m + k) = nt h (i * m + k)) /\
      (laws O -> forall V, rots O (nt c) (nt s) j -> forall q,
        sumz O 0 j (fun i => nt h' (i * m + j) *! uz O V (nt c) (nt s) i q) +! nt h' (j * m + j) *! tz O V (nt c) (nt s) j q =
        sumz O 0 (j + 1) (fun i => nt h (i * m + j) *! V i q)).
  Proof.
    intros j c s h Hj Hc Hs Hh. unfold rotate_col.
    match goal with |- context [for_ 0 j ?F ?s0] =>
      destruct (for_inv (list T) (fun a h' => zlen h' = zlen h /\
        (forall i k, 0 <= i < m -> 0 <= k < m -> k <> j \/ a < i -> nt h' (i * m + k) = nt h (i * m + k)) /\
        (laws O -> forall V, rots O (nt c) (nt s) j -> forall q,
          sumz O 0 a (fun i => nt h' (i * m + j) *! uz O V (nt c) (nt s) i q) +! nt h' (a * m + j) *! tz O V (nt c) (nt s) a q =
          sumz O 0 (a + 1) (fun i => nt h (i * m + j) *! V i q))) 0 j F s0 ltac:(lia)) as (h' & E & Z1 & Z2 & Z3) end.
    - split; [reflexivity|]. split; [auto|]. intros L V HR q. rewrite (sumz_last O L) by lia. rewrite !(sumz_nil O) by lia. rewrite tz_0. reflexivity.
    - intros a h' Ha (Z1 & Z2 & Z3).
      pose proof (idx_lt m a j m ltac:(lia) ltac:(lia)) as B1. pose proof (idx_lt m (a + 1) j m ltac:(lia) ltac:(lia)) as B2.
      rewrite (rd_nthZ _ 0o h') by lia. rewrite (rd_nthZ _ 0o h') by lia. rewrite (rd_nthZ _ 0o c) by lia. rewrite (rd_nthZ _ 0o s) by lia.
      rewrite wr_upd by lia. rewrite wr_upd by (rewrite zlen_upd; lia). eexists. split; [reflexivity|].
      assert (N12 : a * m + j <> (a + 1) * m + j) by (intros Q; apply idx_eq in Q; lia).
      split; [rewrite !zlen_upd; exact Z1|]. split.
      + intros i k Hi Hk N. pose proof (idx_lt m i k m ltac:(lia) ltac:(lia)).
        assert (i * m + k <> a * m + j) by (intros Q; apply idx_eq in Q; lia). assert (i * m + k <> (a + 1) * m + j) by (intros Q; apply idx_eq in Q; lia).
        rewrite nthZ_upd_other by (rewrite ?zlen_upd; lia). rewrite nthZ_upd_other by lia. apply Z2; auto. lia.
      + intros L V HR q.
        rewrite (sumz_last O L 0 (a + 1)) by lia. rewrite <- (Z3 L V HR q). rewrite (sumz_last O L 0 a) by lia.
        rewrite nthZ_upd_same by (rewrite zlen_upd; lia).
        rewrite (nthZ_upd_other _ _ _ ((a + 1) * m + j) _ (a * m + j)) by (rewrite ?zlen_upd; lia). rewrite nthZ_upd_same by lia.
        rewrite (sumz_ext O 0 a _ (fun i => nt h' (i * m + j) *! uz O V (nt c) (nt s) i q)).
        2:{ intros i Hi. pose proof (idx_lt m i j m ltac:(lia) ltac:(lia)).
            assert (i * m + j <> a * m + j) by (intros Q; apply idx_eq in Q; lia). assert (i * m + j <> (a + 1) * m + j) by (intros Q; apply idx_eq in Q; lia).
            rewrite nthZ_upd_other by (rewrite ?zlen_upd; lia). rewrite nthZ_upd_other by lia. reflexivity. }
        rewrite <- (Z2 (a + 1) j) by lia.
        pose proof (rot_id O L V (nt c) (nt s) a q (nt h' (a * m + j)) (nt h' ((a + 1) * m + j)) ltac:(lia) (HR a ltac:(lia))) as E.
        rewrite (g_assoc O L _ (nt h' (a * m + j) *! _)). rewrite E. apply (g_assoc O L).
    - exists h'. split; [exact E|]. split; [exact Z1|]. split; [|exact Z3]. intros i k Hi Hk N. apply Z2; auto.
  Qed.
End L.
