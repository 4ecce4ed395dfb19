(** Exact arithmetic of conjugate gradients over a field: search directions are
    conjugate, residuals are orthogonal, and at most n steps can be taken. *)
From Coq Require Import ZArith List Bool Lia Ring ZifyBool.
From Verif Require Import Base BaseFacts Algebra.
Import ListNotations.
Open Scope Z_scope.

Section C.
  Context {T : Type} (O : ops T) (L : laws O) (DL : div_law O) (one_neq : o1 O <> o0 O).
  Context (n : Z) (Hn : 0 <= n).
  Let rth := l_ring L.
  Add Ring RingK : rth.
  Notation "0'" := (o0 O).
  Infix "+'" := (oadd O) (at level 50, left associativity).
  Infix "-'" := (osub O) (at level 50, left associativity).
  Infix "*'" := (omul O) (at level 40, left associativity).
  Infix "/'" := (odiv O) (at level 40, left associativity).

  Lemma mul_zero : forall a b, a *' b = 0' -> b <> 0' -> a = 0'.
  Proof.
    intros a b H N. transitivity (a *' b *' (o1 O /' b)).
    - transitivity (a *' ((o1 O /' b) *' b)); [rewrite DL by exact N; ring|ring].
    - rewrite H. ring.
  Qed.
  Lemma div_nz : forall a b, a <> 0' -> b <> 0' -> a /' b <> 0'.
  Proof. intros a b Ha Hb E. apply Ha. rewrite <- (DL a b Hb), E. ring. Qed.

  Definition vec := Z -> T.
  Definition sp (u v : vec) : T := sumz O 0 n (fun i => u i *' v i).
  Definition app (A : Z -> Z -> T) (v : vec) : vec := fun i => sumz O 0 n (fun j => A i j *' v j).
  Definition symmetric (A : Z -> Z -> T) : Prop := forall i j, 0 <= i < n -> 0 <= j < n -> A i j = A j i.

  Lemma sp_ext : forall u v u' v', (forall i, 0 <= i < n -> u i = u' i) -> (forall i, 0 <= i < n -> v i = v' i) -> sp u v = sp u' v'.
  Proof. intros. unfold sp. apply sumz_ext. intros k Hk. rewrite H, H0 by lia. reflexivity. Qed.
  Lemma sp_comm : forall u v, sp u v = sp v u.
  Proof. intros. apply sumz_ext. intros. ring. Qed.
  Lemma sp_axpy_l : forall a u w v, sp (fun i => u i +' a *' w i) v = sp u v +' a *' sp w v.
  Proof.
    intros. unfold sp. rewrite <- (sumz_mul_l O L), <- (sumz_add O L). apply sumz_ext. intros. ring.
  Qed.
  Lemma sp_comb_l : forall a u w v, sp (fun i => a *' u i -' w i) v = a *' sp u v -' sp w v.
  Proof.
    intros. unfold sp.
    assert (E : sumz O 0 n (fun i => a *' (u i *' v i)) = sumz O 0 n (fun i => (a *' u i -' w i) *' v i) +' sumz O 0 n (fun i => w i *' v i)).
    { rewrite <- (sumz_add O L). apply sumz_ext. intros. ring. }
    rewrite (sumz_mul_l O L) in E. rewrite E. ring.
  Qed.
  Lemma sp_sym : forall A u v, symmetric A -> sp (app A u) v = sp u (app A v).
  Proof.
    intros A u v S. unfold sp, app.
    transitivity (sumz O 0 n (fun i => sumz O 0 n (fun j => A i j *' u j *' v i))).
    { apply sumz_ext. intros. rewrite <- (sumz_mul_r O L). reflexivity. }
    rewrite (sumz_swap O L). apply sumz_ext. intros j Hj. rewrite <- (sumz_mul_l O L).
    apply sumz_ext. intros i Hi. rewrite (S i j) by lia. ring.
  Qed.
  Lemma app_ext : forall A u v i, (forall j, 0 <= j < n -> u j = v j) -> app A u i = app A v i.
  Proof. intros. apply sumz_ext. intros. rewrite H by lia. reflexivity. Qed.

  (** * The recurrence of the solver *)
  Record chain (A M : Z -> Z -> T) (k : Z) (P R : Z -> vec) (rz : Z -> T) : Prop := mkChain {
    ch_pq : forall j, 1 <= j <= k -> sp (P j) (app A (P j)) <> 0';
    ch_r : forall j, 1 <= j <= k -> forall i, 0 <= i < n ->
      R j i = R (j - 1) i +' (rz j /' sp (P j) (app A (P j))) *' app A (P j) i;
    ch_rz : forall j, 1 <= j <= k -> rz j = sp (R (j - 1)) (app M (R (j - 1)));
    ch_p1 : 1 <= k -> forall i, 0 <= i < n -> P 1 i = oopp O (app M (R 0) i);
    ch_p : forall j, 2 <= j <= k -> forall i, 0 <= i < n -> P j i = (rz j /' rz (j - 1)) *' P (j - 1) i -' app M (R (j - 1)) i;
    ch_nz : forall j, 1 <= j < k -> rz j <> 0' }.

  Section Sym.
    Context (A M : Z -> Z -> T) (SA : symmetric A) (SM : symmetric M) (P R : Z -> vec) (rz : Z -> T).

    (** M-image of a residual against earlier ones: r_k . M r_(i-1) from r_k . p_i, r_k . p_(i-1) *)
    Lemma orth_z : forall k j i, chain A M k P R rz -> 1 <= i <= k ->
      (forall i', 1 <= i' <= i -> sp (R j) (P i') = 0') -> sp (R j) (app M (R (i - 1))) = 0'.
    Proof.
      intros k j i C Hi H.
      destruct (Z.eq_dec i 1) as [-> | N].
      - assert (E : sp (P 1) (R j) = oopp O (sp (app M (R 0)) (R j))).
        { rewrite (sp_ext (P 1) (R j) (fun i => 0' *' 0' -' app M (R 0) i) (R j)); [|intros; rewrite (ch_p1 _ _ _ _ _ _ C) by lia; ring|reflexivity].
          rewrite (sp_comb_l 0' (fun _ => 0')). ring. }
        rewrite sp_comm, H in E by lia. change (1 - 1) with 0. rewrite sp_comm.
        transitivity (oopp O (oopp O (sp (app M (R 0)) (R j)))); [ring|]. rewrite <- E. ring.
      - assert (E : sp (P i) (R j) = (rz i /' rz (i - 1)) *' sp (P (i - 1)) (R j) -' sp (app M (R (i - 1))) (R j)).
        { rewrite <- sp_comb_l. apply sp_ext; [|reflexivity]. intros; apply (ch_p _ _ _ _ _ _ C); lia. }
        rewrite (sp_comm (P i)), (sp_comm (P (i - 1))), !H in E by lia. rewrite sp_comm.
        transitivity (oopp O ((rz i /' rz (i - 1)) *' 0' -' sp (app M (R (i - 1))) (R j))); [ring|]. rewrite <- E. ring.
    Qed.

    Theorem conjugate : forall k, 0 <= k -> chain A M k P R rz ->
      (forall i j, 1 <= i < j -> j <= k -> sp (P j) (app A (P i)) = 0') /\
      (forall i j, 1 <= i <= j -> j <= k -> sp (R j) (P i) = 0').
    Proof.
      intros k Hk. pattern k. revert k Hk. apply natlike_ind.
      - intros _. split; intros; lia.
      - intros k Hk IH C. unfold Z.succ in *.
        assert (C' : chain A M k P R rz).
        { destruct C as [c1 c2 c3 c4 c5 c6].
          constructor; intros; [apply c1|apply c2|apply c3|apply c4|apply c5|apply c6]; lia. }
        destruct (IH C') as (IA & IR). clear IH.
        assert (pq_nz : forall i, 1 <= i <= k + 1 -> sp (P i) (app A (P i)) <> 0') by (intros; apply (ch_pq _ _ _ _ _ _ C); lia).
        (* conjugacy of the new direction *)
        assert (NA : forall i, 1 <= i <= k -> sp (P (k + 1)) (app A (P i)) = 0').
        { intros i Hi.
          set (al := rz i /' sp (P i) (app A (P i))).
          assert (al_nz : al <> 0').
          { apply div_nz; [apply (ch_nz _ _ _ _ _ _ C); lia|apply pq_nz; lia]. }
          assert (E1 : sp (P (k + 1)) (app A (P i)) = (rz (k + 1) /' rz k) *' sp (P k) (app A (P i)) -' sp (app M (R k)) (app A (P i))).
          { rewrite <- sp_comb_l. apply sp_ext; [|reflexivity]. intros x Hx.
            rewrite (ch_p _ _ _ _ _ _ C (k + 1)) by lia. replace (k + 1 - 1) with k by lia. reflexivity. }
          assert (E2 : al *' sp (app M (R k)) (app A (P i)) = sp (R k) (app M (R i)) -' sp (R k) (app M (R (i - 1)))).
          { rewrite <- !(sp_sym M) by exact SM. rewrite !(sp_comm (app M (R k))).
            assert (E : sp (R i) (app M (R k)) = sp (R (i - 1)) (app M (R k)) +' al *' sp (app A (P i)) (app M (R k))).
            { rewrite <- sp_axpy_l. apply sp_ext; [|reflexivity]. intros x Hx. apply (ch_r _ _ _ _ _ _ C); lia. }
            rewrite E. ring. }
          assert (Z1 : sp (R k) (app M (R (i - 1))) = 0').
          { apply (orth_z k); [exact C'|lia|]. intros; apply IR; lia. }
          apply (mul_zero _ al); [|exact al_nz].
          rewrite E1.
          transitivity (al *' (rz (k + 1) /' rz k) *' sp (P k) (app A (P i)) -' al *' sp (app M (R k)) (app A (P i))); [ring|].
          rewrite E2, Z1.
          destruct (Z.eq_dec i k) as [-> | Nk].
          - assert (EE : al *' sp (P k) (app A (P k)) = rz k) by (apply DL; apply pq_nz; lia).
            transitivity ((rz (k + 1) /' rz k) *' (al *' sp (P k) (app A (P k))) -' sp (R k) (app M (R k))); [ring|].
            rewrite EE, DL by (apply (ch_nz _ _ _ _ _ _ C); lia).
            rewrite (ch_rz _ _ _ _ _ _ C (k + 1)) by lia. replace (k + 1 - 1) with k by lia. ring.
          - rewrite (IA i k) by lia.
            assert (Z2 : sp (R k) (app M (R i)) = 0').
            { replace i with (i + 1 - 1) by lia. apply (orth_z k); [exact C'|lia|]. intros; apply IR; lia. }
            rewrite Z2. ring. }
        assert (NR : forall i, 1 <= i <= k + 1 -> sp (R (k + 1)) (P i) = 0').
        { intros i Hi. set (al := rz (k + 1) /' sp (P (k + 1)) (app A (P (k + 1)))).
          assert (E : sp (R (k + 1)) (P i) = sp (R k) (P i) +' al *' sp (app A (P (k + 1))) (P i)).
          { rewrite <- sp_axpy_l. apply sp_ext; [|reflexivity]. intros x Hx.
            rewrite (ch_r _ _ _ _ _ _ C (k + 1)) by lia. replace (k + 1 - 1) with k by lia. reflexivity. }
          rewrite E, sp_sym by exact SA. destruct (Z.eq_dec i (k + 1)) as [-> | Ni].
          - assert (EE : al *' sp (P (k + 1)) (app A (P (k + 1))) = rz (k + 1)) by (apply DL; apply pq_nz; lia).
            rewrite EE.
            assert (E3 : sp (R k) (P (k + 1)) = oopp O (rz (k + 1))).
            { rewrite (ch_rz _ _ _ _ _ _ C (k + 1)) by lia. replace (k + 1 - 1) with k by lia.
              rewrite (sp_comm (R k) (P (k + 1))).
              destruct (Z.eq_dec k 0) as [-> | N0].
              - change (0 + 1) with 1.
                rewrite (sp_ext (P 1) (R 0) (fun i => 0' *' 0' -' app M (R 0) i) (R 0)); [|intros; rewrite (ch_p1 _ _ _ _ _ _ C) by lia; ring|reflexivity].
                rewrite (sp_comb_l 0' (fun _ => 0')). rewrite (sp_comm (R 0)). ring.
              - rewrite (sp_ext (P (k + 1)) (R k) (fun i => (rz (k + 1) /' rz k) *' P k i -' app M (R k) i) (R k)); [| |reflexivity].
                + rewrite sp_comb_l, (sp_comm (P k)), (IR k k) by lia. rewrite (sp_comm (R k)). ring.
                + intros x Hx. rewrite (ch_p _ _ _ _ _ _ C (k + 1)) by lia. replace (k + 1 - 1) with k by lia. reflexivity. }
            rewrite E3. ring.
          - rewrite (IR i k) by lia. rewrite NA by lia. ring. }
        split; intros i j Hij Hj.
        + destruct (Z.eq_dec j (k + 1)) as [-> | Nj]; [apply NA; lia|apply IA; lia].
        + destruct (Z.eq_dec j (k + 1)) as [-> | Nj]; [apply NR; lia|apply IR; lia].
    Qed.
  End Sym.

  (** * More than n vectors of length n are dependent *)
  Definition dependent (d : Z) (m : Z) (V : Z -> vec) : Prop :=
    exists c : Z -> T, (exists j, 0 <= j < m /\ c j <> 0') /\ forall i, 0 <= i < d -> sumz O 0 m (fun j => c j *' V j i) = 0'.

  Lemma dep : forall d, 0 <= d -> forall m V, d < m -> dependent d m V.
  Proof.
    apply (natlike_ind (fun d => forall m V, d < m -> dependent d m V)).
    - intros m V Hm. exists (fun _ => o1 O). split; [exists 0; split; [lia|exact one_neq]|intros; lia].
    - intros d Hd IH m V Hm. unfold Z.succ in *.
      assert (Dec : (forall j, 0 <= j < m -> V j d = 0') \/ exists j, 0 <= j < m /\ V j d <> 0').
      { assert (X : forall k, 0 <= k -> k <= m -> (forall j, 0 <= j < k -> V j d = 0') \/ exists j, 0 <= j < m /\ V j d <> 0').
        { apply (natlike_ind (fun k => k <= m -> (forall j, 0 <= j < k -> V j d = 0') \/ exists j, 0 <= j < m /\ V j d <> 0')); [left; intros; lia|].
          intros k Hk IHk Hkm. destruct (IHk ltac:(lia)) as [H | H]; [|right; exact H].
          destruct (oeqb O (V k d) 0') eqn:E.
          - left. intros j Hj. destruct (Z.eq_dec j k) as [-> | N]; [apply (l_eqb L); exact E|apply H; lia].
          - right. exists k. split; [lia|]. apply (eqb_false_o O L). exact E. }
        apply (X m); lia. }
      destruct Dec as [H0 | (p & Hp & Np)].
      + destruct (IH m V ltac:(lia)) as (c & Hc & E). exists c. split; [exact Hc|].
        intros i Hi. destruct (Z.eq_dec i d) as [-> | N]; [|apply E; lia].
        apply (sumz_zero O L). intros j Hj. rewrite H0 by lia. ring.
      + (* pivot p: skip it *)
        set (s := fun j => if j <? p then j else j + 1).
        set (W := fun j i => V (s j) i -' (V (s j) d /' V p d) *' V p i).
        destruct (IH (m - 1) W ltac:(lia)) as (c & (j0 & Hj0 & Nc) & E).
        set (cp := oopp O (sumz O 0 (m - 1) (fun j => c j *' (V (s j) d /' V p d)))).
        exists (fun j => if j =? p then cp else if j <? p then c j else c (j - 1)).
        assert (SP : forall f : Z -> T, sumz O 0 m (fun j => (if j =? p then cp else if j <? p then c j else c (j - 1)) *' f j) =
                     cp *' f p +' sumz O 0 (m - 1) (fun j => c j *' f (s j))).
        { intros f. rewrite (sumz_split O L 0 p m) by lia. rewrite (sumz_first O p m) by lia.
          rewrite (sumz_split O L 0 p (m - 1)) by lia.
          rewrite Z.eqb_refl.
          rewrite (sumz_ext O 0 p (fun j => (if j =? p then cp else if j <? p then c j else c (j - 1)) *' f j) (fun j => c j *' f (s j))).
          2:{ intros k Hk. unfold s. replace (k =? p) with false by lia. replace (k <? p) with true by lia. reflexivity. }
          replace m with (m - 1 + 1) at 1 by lia. rewrite (sumz_shift O p (m - 1) 1).
          rewrite (sumz_ext O p (m - 1) (fun k => (if k + 1 =? p then cp else if k + 1 <? p then c (k + 1) else c (k + 1 - 1)) *' f (k + 1)) (fun j => c j *' f (s j))).
          2:{ intros k Hk. unfold s. replace (k + 1 =? p) with false by lia. replace (k + 1 <? p) with false by lia.
              replace (k <? p) with false by lia. replace (k + 1 - 1) with k by lia. reflexivity. }
          ring. }
        split.
        * exists (s j0). unfold s. destruct (j0 <? p) eqn:Q.
          -- split; [lia|]. replace (j0 =? p) with false by lia. rewrite Q. exact Nc.
          -- split; [lia|]. replace (j0 + 1 =? p) with false by lia. replace (j0 + 1 <? p) with false by lia.
             replace (j0 + 1 - 1) with j0 by lia. exact Nc.
        * intros i Hi. rewrite (SP (fun j => V j i)).
          assert (EW : sumz O 0 (m - 1) (fun j => c j *' V (s j) i) = sumz O 0 (m - 1) (fun j => c j *' W j i) +' (oopp O cp) *' V p i).
          { unfold cp. rewrite (sumz_ext O 0 (m - 1) (fun j => c j *' V (s j) i) (fun j => c j *' W j i +' c j *' (V (s j) d /' V p d) *' V p i)).
            - rewrite (sumz_add O L), (sumz_mul_r O L). ring.
            - intros j Hj. unfold W. ring. }
          rewrite EW.
          assert (ZW : sumz O 0 (m - 1) (fun j => c j *' W j i) = 0').
          { destruct (Z.eq_dec i d) as [-> | N]; [|apply E; lia].
            apply (sumz_zero O L). intros j Hj. unfold W. rewrite DL by exact Np. ring. }
          rewrite ZW. ring.
  Qed.

  (** Conjugate directions with non-zero curvature are independent *)
  Theorem conj_bound : forall A (P : Z -> vec) k, symmetric A ->
    (forall j, 1 <= j <= k -> sp (P j) (app A (P j)) <> 0') ->
    (forall i j, 1 <= i < j -> j <= k -> sp (P j) (app A (P i)) = 0') -> k <= n.
  Proof.
    intros A P k SA N C. destruct (Z_le_gt_dec k n) as [H | H]; [exact H|exfalso].
    destruct (dep n Hn k (fun j => P (j + 1)) ltac:(lia)) as (c & (j0 & Hj0 & Nc) & E).
    apply (N (j0 + 1) ltac:(lia)). apply (mul_zero _ (c j0)); [|exact Nc].
    assert (Z1 : sumz O 0 k (fun j => c j *' sp (P (j + 1)) (app A (P (j0 + 1)))) = 0').
    { transitivity (sumz O 0 k (fun j => sumz O 0 n (fun i => c j *' (P (j + 1) i *' app A (P (j0 + 1)) i)))).
      { apply sumz_ext. intros j Hj. unfold sp. rewrite (sumz_mul_l O L). reflexivity. }
      rewrite (sumz_swap O L). apply (sumz_zero O L). intros i Hi.
      transitivity (sumz O 0 k (fun j => c j *' P (j + 1) i *' app A (P (j0 + 1)) i)).
      { apply sumz_ext. intros; ring. }
      rewrite (sumz_mul_r O L), E by lia. ring. }
    rewrite (sumz_ext O 0 k _ (fun j => if j =? j0 then c j0 *' sp (P (j0 + 1)) (app A (P (j0 + 1))) else 0')) in Z1.
    - rewrite (sumz_split O L 0 j0 k), (sumz_first O j0 k), Z.eqb_refl in Z1 by lia.
      rewrite (sumz_zero O L 0 j0), (sumz_zero O L (j0 + 1) k) in Z1 by (intros q Hq; replace (q =? j0) with false by lia; reflexivity).
      transitivity (0' +' (c j0 *' sp (P (j0 + 1)) (app A (P (j0 + 1))) +' 0')); [ring|exact Z1].
    - intros j Hj. destruct (j =? j0) eqn:Q; [assert (j = j0) as -> by lia; reflexivity|].
      destruct (Z_lt_ge_dec j0 j) as [Hl | Hl].
      + rewrite C by lia. ring.
      + rewrite <- (sp_sym A) by exact SA. rewrite sp_comm, C by lia. ring.
  Qed.
End C.
