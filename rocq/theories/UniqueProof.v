(** Results of products, triangular solves and sweeps are determined by their
    specification. *)
From Coq Require Import ZArith List Bool Lia Ring Permutation.
From Verif Require Import Base BaseFacts Algebra Csr DoidModel DoidSpec DenseSpec MvModel MvSpec HandleModel HandleSpec CsrmmSpec TrsvSpec TrsmSpec SymgsModel SymgsSpec.
Import ListNotations.
Open Scope Z_scope.

Section U.
  Context {T : Type} (O : ops T) (L : laws O) (HD : div_law O).
  Let rth := l_ring L.
  Add Ring UTring : rth.

  Lemma mul_zero_nz : forall a b, b <> o0 O -> omul O a b = o0 O -> a = o0 O.
  Proof.
    intros a b N E. transitivity (omul O (omul O a b) (odiv O (o1 O) b)).
    - transitivity (omul O a (omul O (odiv O (o1 O) b) b)); [rewrite HD by exact N; ring|ring].
    - rewrite E. ring.
  Qed.

  Lemma sub_zero : forall a b, osub O a b = o0 O -> a = b.
  Proof. intros a b E. transitivity (oadd O (osub O a b) b); [ring|]. rewrite E. ring. Qed.

  (** [M] is triangular in some order of the rows *)
  Lemma ranked_unique : forall (rk : Z -> Z) m (M : Z -> Z -> T) (f g : Z -> T),
    (forall i, 0 <= i < m -> 0 <= rk i) ->
    (forall i j, 0 <= i < m -> 0 <= j < m -> i <> j -> rk i <= rk j -> M i j = o0 O) ->
    (forall i, 0 <= i < m -> M i i <> o0 O) ->
    (forall i, 0 <= i < m -> sumz O 0 m (fun j => omul O (M i j) (f j)) = sumz O 0 m (fun j => omul O (M i j) (g j))) ->
    forall i, 0 <= i < m -> f i = g i.
  Proof.
    intros rk m M f g R0 TR NZ E.
    assert (IND : forall k, 0 <= k -> forall i, 0 <= i < m -> rk i < k -> f i = g i).
    { intros k Hk. pattern k. apply natlike_ind; [| |exact Hk].
      - intros i Hi H. specialize (R0 i Hi). lia.
      - intros k' Hk' IH i Hi H. apply sub_zero. apply mul_zero_nz with (b := M i i); [auto|].
        assert (D : sumz O 0 m (fun j => omul O (M i j) (osub O (f j) (g j))) = o0 O).
        { transitivity (oadd O (sumz O 0 m (fun j => omul O (M i j) (f j))) (sumz O 0 m (fun j => omul O (oopp O (o1 O)) (omul O (M i j) (g j))))).
          - rewrite <- sumz_add by exact L. apply sumz_ext. intros j _. ring.
          - rewrite sumz_mul_l by exact L. rewrite E by exact Hi. ring. }
        rewrite (sumz_delta O L 0 m i) in D; [|lia|].
        + rewrite <- D. ring.
        + intros j Hj N. destruct (Z_le_dec (rk i) (rk j)); [rewrite TR by lia; ring|]. rewrite (IH j) by lia. ring. }
    intros i Hi. apply (IND (rk i + 1)); [specialize (R0 i Hi)|..]; lia.
  Qed.

  Lemma cj_nz : forall a, a <> o0 O -> ocj O a <> o0 O.
  Proof. intros a N E. apply N. rewrite <- (l_cj_cj L a), E. apply cj_0. exact L. Qed.

  (** triangles with non-zero diagonal, and their transposes *)
  Definition tri_of (op : operation) (fm : fill_mode) (dg : diag_type) (A : Z -> Z -> T) := op_sem O op (described O mt_triangular fm dg A).

  Definition is_low (op : operation) (fm : fill_mode) : bool :=
    match op, fm with op_none, fm_lower | op_other _, fm_lower | op_transpose, fm_upper | op_conjugate_transpose, fm_upper => true | _, _ => false end.

  Lemma tri_unique : forall op fm dg A m (f g : Z -> T), dg <> dg_zero -> o1 O <> o0 O ->
    (dg = dg_non_unit -> forall i, 0 <= i < m -> A i i <> o0 O) ->
    (forall i, 0 <= i < m -> sumz O 0 m (fun j => omul O (tri_of op fm dg A i j) (f j)) = sumz O 0 m (fun j => omul O (tri_of op fm dg A i j) (g j))) ->
    forall i, 0 <= i < m -> f i = g i.
  Proof.
    intros op fm dg A m f g ND N1 NZ E.
    assert (DG : forall i, 0 <= i < m -> with_diag O dg A i i <> o0 O).
    { intros i Hi. unfold with_diag. rewrite Z.eqb_refl. destruct dg; auto. }
    pose proof (cj_0 O L) as C0.
    apply (ranked_unique (fun i => if is_low op fm then i else m - 1 - i) m (tri_of op fm dg A) f g); [| | |exact E].
    - intros i Hi. destruct (is_low op fm); lia.
    - intros i j Hi Hj N H. unfold tri_of, described. destruct op, fm; cbn [op_sem descr_sem is_low] in *; unfold mC, mT, mL, mU;
        repeat match goal with |- context [?a <=? ?b] => destruct (Z.leb_spec a b) end; try lia; auto.
    - intros i Hi. specialize (DG i Hi). unfold tri_of, described. destruct op, fm; cbn [op_sem descr_sem]; unfold mC, mT, mL, mU; rewrite Z.leb_refl; auto using cj_nz.
  Qed.

  Lemma all_zero : o1 O = o0 O -> forall a b : T, a = b.
  Proof.
    intros E a b. transitivity (omul O (o1 O) a); [ring|]. transitivity (omul O (o1 O) b); [|ring]. rewrite E. ring.
  Qed.

  Lemma mv_unique : forall rows cols alpha beta M x y0 y1 y2, mv_spec O rows cols alpha beta M x y0 y1 -> mv_spec O rows cols alpha beta M x y0 y2 -> y1 = y2.
  Proof.
    intros rows cols alpha beta M x y0 y1 y2 (L1 & R1) (L2 & R2). apply (nthZ_ext _ (o0 O)); [lia|]. intros i Hi. rewrite R1, R2 by lia. reflexivity.
  Qed.

  Lemma one_dec : o1 O = o0 O \/ o1 O <> o0 O.
  Proof. destruct (oeqb O (o1 O) (o0 O)) eqn:E; [left; now apply (l_eqb L)|right; now apply (eqb_false_o O L)]. Qed.

  Lemma trsv_unique : forall op fm dg A m alpha b incb x0 incx x1 x2, 0 < incx -> dg <> dg_zero ->
    (dg = dg_non_unit -> forall i, 0 <= i < m -> A i i <> o0 O) ->
    only_strided O m incx x0 x1 -> solves O m alpha (tri_of op fm dg A) b incb x1 incx ->
    only_strided O m incx x0 x2 -> solves O m alpha (tri_of op fm dg A) b incb x2 incx -> x1 = x2.
  Proof.
    intros op fm dg A m alpha b incb x0 incx x1 x2 Hi ND NZ (L1 & K1) S1 (L2 & K2) S2. apply (nthZ_ext _ (o0 O)); [lia|]. intros p Hp.
    destruct one_dec as [Z1|N1]; [apply all_zero; exact Z1|].
    pose proof (tri_unique op fm dg A m (comp O x1 incx) (comp O x2 incx) ND N1 NZ) as U. unfold comp in U.
    assert (UU : forall i, 0 <= i < m -> nthZ (o0 O) x1 (i * incx) = nthZ (o0 O) x2 (i * incx)).
    { apply U. intros i Hii. pose proof (S1 i Hii) as E1. pose proof (S2 i Hii) as E2. unfold comp in E1, E2. rewrite E1, E2. reflexivity. }
    destruct (Z.eq_dec (p mod incx) 0) as [Em|Em].
    - pose proof (Z.div_mod p incx ltac:(lia)) as DM. rewrite Em in DM. assert (0 <= p / incx) by (apply Z.div_pos; lia).
      destruct (Z_lt_dec (p / incx) m) as [Hm|Hm].
      + replace p with (p / incx * incx) by lia. apply UU. lia.
      + rewrite K1, K2; [reflexivity|lia| |lia|]; intros i Hii F; apply Hm; rewrite F, Z.div_mul; lia.
    - rewrite K1, K2; [reflexivity|lia| |lia|]; intros i Hii F; apply Em; rewrite F; apply Z.mod_mul; lia.
  Qed.

  Lemma trsm_unique : forall op fm dg A m n alpha order B ldb X0 ldx X1 X2, dg <> dg_zero ->
    (dg = dg_non_unit -> forall i, 0 <= i < m -> A i i <> o0 O) ->
    only_window (o0 O) order ldx m n X0 X1 -> solves_many O m n alpha (tri_of op fm dg A) order B ldb X1 ldx ->
    only_window (o0 O) order ldx m n X0 X2 -> solves_many O m n alpha (tri_of op fm dg A) order B ldb X2 ldx -> X1 = X2.
  Proof.
    intros op fm dg A m n alpha order B ldb X0 ldx X1 X2 ND NZ (L1 & K1) S1 (L2 & K2) S2. apply (nthZ_ext _ (o0 O)); [lia|]. intros p Hp.
    destruct one_dec as [Z1|N1]; [apply all_zero; exact Z1|].
    assert (UU : forall i j, 0 <= i < m -> 0 <= j < n -> nthZ (o0 O) X1 (dense_at order ldx i j) = nthZ (o0 O) X2 (dense_at order ldx i j)).
    { intros i j Hi Hj. apply (tri_unique op fm dg A m (fun l => nthZ (o0 O) X1 (dense_at order ldx l j)) (fun l => nthZ (o0 O) X2 (dense_at order ldx l j)) ND N1 NZ); [|exact Hi].
      intros i' Hi'. rewrite (S1 i' j Hi' Hj), (S2 i' j Hi' Hj). reflexivity. }
    destruct (existsb (fun i => existsb (fun j => dense_at order ldx i j =? p) (zrange 0 n)) (zrange 0 m)) eqn:EX.
    - apply existsb_exists in EX. destruct EX as (i & Ii & EX). apply existsb_exists in EX. destruct EX as (j & Ij & EX). apply in_zrange in Ii, Ij. apply Z.eqb_eq in EX. rewrite <- EX. apply UU; lia.
    - assert (NO : forall i j, 0 <= i < m -> 0 <= j < n -> dense_at order ldx i j <> p).
      { intros i j Hi Hj F. assert (X : existsb (fun i => existsb (fun j => dense_at order ldx i j =? p) (zrange 0 n)) (zrange 0 m) = true); [|congruence].
        apply existsb_exists. exists i. split; [apply in_zrange; lia|]. apply existsb_exists. exists j. split; [apply in_zrange; lia|]. apply Z.eqb_eq, F. }
      rewrite K1, K2; [reflexivity|lia|exact NO|lia|exact NO].
  Qed.

  Lemma symgs_unique : forall n A alpha b x0 x x', (forall i, 0 <= i < n -> A i i <> o0 O) ->
    symgs_sweep O n A alpha b x0 x -> symgs_sweep O n A alpha b x0 x' -> x = x'.
  Proof.
    intros n A alpha b x0 x x' NZ (Lx & y & Ly & R1 & R2) (Lx' & y' & Ly' & R1' & R2').
    assert (DL : forall i, oadd O (o0 O) (A i i) = A i i) by (intros; ring).
    assert (E1 : y = y').
    { apply (nthZ_ext _ (o0 O)); [lia|]. rewrite Ly. apply (ranked_unique (fun i => i) n (madd O (pL O A) (pD O A))).
      - intros; lia.
      - intros i j Hi Hj N H. unfold madd, pL, pD. destruct (Z.ltb_spec j i); [lia|]. destruct (Z.eqb_spec i j); [lia|]. ring.
      - intros i Hi. unfold madd, pL, pD. rewrite Z.ltb_irrefl, Z.eqb_refl, DL. auto.
      - intros i Hi. pose proof (R1 i Hi) as Q1. pose proof (R1' i Hi) as Q2. unfold rowx in Q1 at 1. unfold rowx in Q2 at 1. rewrite Q1, Q2. reflexivity. }
    subst y'. apply (nthZ_ext _ (o0 O)); [lia|]. rewrite Lx. apply (ranked_unique (fun i => n - 1 - i) n (madd O (pU O A) (pD O A))).
    - intros; lia.
    - intros i j Hi Hj N H. unfold madd, pU, pD. destruct (Z.ltb_spec i j); [lia|]. destruct (Z.eqb_spec i j); [lia|]. ring.
    - intros i Hi. unfold madd, pU, pD. rewrite Z.ltb_irrefl, Z.eqb_refl, DL. auto.
    - intros i Hi. pose proof (R2 i Hi) as Q1. pose proof (R2' i Hi) as Q2. unfold rowx in Q1 at 1. unfold rowx in Q2 at 1. rewrite Q1, Q2. reflexivity.
  Qed.
End U.
