(** One step of a GMRES cycle, on functions. *)
From Coq Require Import ZArith List Bool Lia Ring.
From Coq Require Import ZifyBool ZifyNat.
From Verif Require Import Base BaseFacts Algebra GmresAlg.
Import ListNotations.
Open Scope Z_scope.

Section C.
  Context {T : Type} (O : ops T) (L : laws O) (D : div_law O) (n : Z).
  Local Notation "0o" := (o0 O). Local Notation "1o" := (o1 O).
  Local Infix "+!" := (oadd O) (at level 50, left associativity).
  Local Infix "*!" := (omul O) (at level 40, left associativity).
  Local Infix "-!" := (osub O) (at level 50, left associativity).
  Add Ring CycRing : (l_ring L).
  Notation dp := (dp O n).

  (** After j steps: V 0 .. V j are orthonormal; AZ k is the product with the k-th direction,
      H the rotated columns, g the rotated right-hand side, r0 the residual at the start *)
  Definition cycP (j : Z) (V : Z -> Z -> T) (c s : Z -> T) (H : Z -> Z -> T) (g : Z -> T) (AZ : Z -> Z -> T) (r0 : Z -> T) : Prop :=
    orth O n V j /\ rots O c s j /\
    (forall k, 0 <= k < j -> forall q, 0 <= q < n -> AZ k q = sumz O 0 (k + 1) (fun i => H i k *! uz O V c s i q)) /\
    (forall q, 0 <= q < n -> r0 q = sumz O 0 j (fun i => g i *! uz O V c s i q) +! g j *! tz O V c s j q).

  Lemma inv_mul : forall a, a <> 0o -> odiv O 1o a *! a = 1o.
  Proof. intros a Ha. apply D. exact Ha. Qed.
  Lemma sq_zero : forall a, a *! a = 0o -> a = 0o.
  Proof.
    intros a Ha. destruct (oeqb O a 0o) eqn:E; [apply (l_eqb L); exact E|].
    assert (N : a <> 0o) by (intros Q; apply (l_eqb L) in Q; congruence).
    transitivity (odiv O 1o a *! (a *! a)); [|rewrite Ha; ring].
    transitivity ((odiv O 1o a *! a) *! a); [rewrite inv_mul by exact N|]; ring.
  Qed.

  Lemma no_zero_div : forall a c, a *! c = 0o -> a = 0o \/ c = 0o.
  Proof.
    intros a c H. destruct (oeqb O a 0o) eqn:E; [left; apply (l_eqb L); exact E|]. right.
    assert (N : a <> 0o) by (intros Q; apply (l_eqb L) in Q; congruence).
    transitivity (odiv O 1o a *! (a *! c)); [|rewrite H; ring]. transitivity ((odiv O 1o a *! a) *! c); [rewrite inv_mul by exact N|]; ring.
  Qed.
  Lemma lartg_s_nz : forall cj sj rr hh, hh <> 0o -> cj *! oopp O hh -! sj *! rr = 0o -> cj *! cj +! sj *! sj = 1o -> sj <> 0o.
  Proof.
    intros cj sj rr hh Hh E2 E3 Es. subst sj. assert (Q : cj *! hh = 0o) by (transitivity (oopp O (cj *! oopp O hh -! 0o *! rr)); [ring|rewrite E2; ring]).
    apply no_zero_div in Q. destruct Q as [Q|Q]; [|exact (Hh Q)]. rewrite Q in E3. apply Hh. transitivity (hh *! 1o); [ring|]. rewrite <- E3. ring.
  Qed.

  Lemma cyc_ext : forall j V V' c s H g AZ AZ' r0,
    (forall k q, 0 <= k <= j -> 0 <= q < n -> V' k q = V k q) -> (forall k q, 0 <= k < j -> 0 <= q < n -> AZ' k q = AZ k q) ->
    0 <= j -> cycP j V c s H g AZ r0 -> cycP j V' c s H g AZ' r0.
  Proof.
    intros j V V' c s H g AZ AZ' r0 HV HA Hj (C1 & C2 & C3 & C4).
    assert (EU : forall i q, 0 <= i < j -> 0 <= q < n -> uz O V' c s i q = uz O V c s i q) by (intros i q Hi Hq; apply uz_ext; [lia|intros k Hk; apply HV; lia|auto]).
    assert (ET : forall q, 0 <= q < n -> tz O V' c s j q = tz O V c s j q) by (intros q Hq; apply tz_ext; [lia|intros k Hk; apply HV; lia|auto]).
    split; [|split; [exact C2|split]].
    - intros i k Hi Hk. rewrite <- (C1 i k Hi Hk). apply dp_ext. intros q Hq. split; apply HV; auto.
    - intros k Hk q Hq. rewrite HA by auto. rewrite (C3 k Hk q Hq). apply sumz_ext. intros i Hi. rewrite EU by (auto; lia). reflexivity.
    - intros q Hq. rewrite (C4 q Hq), ET by auto. f_equal. apply sumz_ext. intros i Hi. rewrite EU by auto. reflexivity.
  Qed.

  Lemma cyc_start : forall V c s H g AZ r0 be, be *! be = dp r0 r0 -> be <> 0o ->
    (forall q, 0 <= q < n -> V 0 q = odiv O 1o be *! r0 q) -> g 0 = be -> cycP 0 V c s H g AZ r0.
  Proof.
    intros V c s H g AZ r0 be EB NB HV Hg. split; [|split; [|split]].
    - intros i k Hi Hk. assert (i = 0) as -> by lia. assert (k = 0) as -> by lia. rewrite Z.eqb_refl.
      rewrite (dp_ext O n _ (fun q => odiv O 1o be *! r0 q) _ (fun q => odiv O 1o be *! r0 q)) by (intros; split; apply HV; auto).
      rewrite (dp_scal O L), (dp_comm O L), (dp_scal O L), <- EB. transitivity ((odiv O 1o be *! be) *! (odiv O 1o be *! be)); [ring|]. rewrite inv_mul by auto. ring.
    - intros i Hi. lia.
    - intros k Hk. lia.
    - intros q Hq. rewrite (sumz_nil O) by lia. rewrite (tz_0 O), HV by auto. rewrite Hg.
      transitivity (r0 q *! (odiv O 1o be *! be)); [rewrite inv_mul by auto|]; ring.
  Qed.

  Lemma cyc_step : forall j V c s H g AZ r0 V1 c1 s1 H1 g1 AZ1 (W W' : Z -> T) (hc hr : Z -> T) hh rr r cj sj,
    0 <= j -> cycP j V c s H g AZ r0 ->
    (forall i, 0 <= i <= j -> hc i = dp W (V i)) ->
    (forall q, 0 <= q < n -> W' q = W q -! sumz O 0 (j + 1) (fun i => hc i *! V i q)) ->
    hh *! hh = dp W' W' -> hh <> 0o ->
    (forall k q, 0 <= k <= j -> 0 <= q < n -> V1 k q = V k q) -> (forall q, 0 <= q < n -> V1 (j + 1) q = odiv O 1o hh *! W' q) ->
    (forall q, sumz O 0 j (fun i => hr i *! uz O V1 c s i q) +! rr *! tz O V1 c s j q = sumz O 0 (j + 1) (fun i => hc i *! V1 i q)) ->
    cj *! rr +! sj *! oopp O hh = r -> cj *! oopp O hh -! sj *! rr = 0o -> cj *! cj +! sj *! sj = 1o ->
    (forall i, 0 <= i < j -> c1 i = c i /\ s1 i = s i) -> c1 j = cj -> s1 j = sj ->
    (forall i k, 0 <= i <= k -> k < j -> H1 i k = H i k) -> (forall i, 0 <= i < j -> H1 i j = hr i) -> H1 j j = r ->
    (forall i, 0 <= i < j -> g1 i = g i) -> g1 j = cj *! g j -> g1 (j + 1) = sj *! g j ->
    (forall k q, 0 <= k < j -> 0 <= q < n -> AZ1 k q = AZ k q) -> (forall q, 0 <= q < n -> AZ1 j q = W q) ->
    cycP (j + 1) V1 c1 s1 H1 g1 AZ1 r0.
  Proof.
    intros j V c s H g AZ r0 V1 c1 s1 H1 g1 AZ1 W W' hc hr hh rr r cj sj Hj (C1 & C2 & C3 & C4) Hhc HW' Ehh Nhh HV1 HVn Hrot El1 El2 El3 Hcs Ecj Esj HH Hhr EHj Hg Egj Egj1 HA HAj.
    assert (EUo : forall i q, 0 <= i < j -> 0 <= q < n -> uz O V1 c1 s1 i q = uz O V c s i q) by (intros i q Hi Hq; apply uz_ext; [lia|intros k Hk; apply HV1; lia|intros k Hk; apply Hcs; lia]).
    assert (EUc : forall i q, 0 <= i < j -> uz O V1 c1 s1 i q = uz O V1 c s i q) by (intros i q Hi; apply uz_ext; [lia|auto|intros k Hk; apply Hcs; lia]).
    assert (ETo : forall q, 0 <= q < n -> tz O V1 c1 s1 j q = tz O V c s j q) by (intros q Hq; apply tz_ext; [lia|intros k Hk; apply HV1; lia|intros k Hk; apply Hcs; lia]).
    assert (ETc : forall q, tz O V1 c1 s1 j q = tz O V1 c s j q) by (intros q; apply tz_ext; [lia|auto|intros k Hk; apply Hcs; lia]).
    assert (R1 : c1 j *! c1 j +! s1 j *! s1 j = 1o) by (rewrite Ecj, Esj; exact El3).
    assert (DV : forall i k, 0 <= i <= j -> 0 <= k <= j -> dp (V1 i) (V1 k) = if i =? k then 1o else 0o).
    { intros i k Hi Hk. rewrite <- (C1 i k Hi Hk). apply dp_ext. intros q Hq. split; apply HV1; auto. }
    assert (DW : forall i, 0 <= i <= j -> dp (V1 (j + 1)) (V1 i) = 0o).
    { intros i Hi. rewrite (dp_ext O n _ (fun q => odiv O 1o hh *! W' q) _ (V i)) by (intros q Hq; split; [apply HVn|apply HV1]; auto).
      rewrite (dp_scal O L).
      rewrite (dp_ext O n _ (fun q => 1o *! W q +! (oopp O 1o) *! sumz O 0 (j + 1) (fun i => hc i *! V i q)) _ (V i)) by (intros q Hq; split; [rewrite HW' by auto; ring|reflexivity]).
      rewrite (dp_lin O L), (dp_sum O L). rewrite (sumz_delta O L 0 (j + 1) i).
      - rewrite (dp_scal O L), <- Hhc, C1 by lia. rewrite Z.eqb_refl. ring.
      - lia.
      - intros k Hk N. rewrite (dp_scal O L), C1 by lia. destruct (Z.eqb_spec k i); [lia|ring]. }
    split; [|split; [|split]].
    - intros i k Hi Hk. destruct (Z.eq_dec i (j + 1)) as [->|Ni]; destruct (Z.eq_dec k (j + 1)) as [->|Nk].
      + rewrite Z.eqb_refl. rewrite (dp_ext O n _ (fun q => odiv O 1o hh *! W' q) _ (fun q => odiv O 1o hh *! W' q)) by (intros; split; apply HVn; auto).
        rewrite (dp_scal O L), (dp_comm O L), (dp_scal O L), <- Ehh. transitivity ((odiv O 1o hh *! hh) *! (odiv O 1o hh *! hh)); [ring|]. rewrite inv_mul by auto. ring.
      + rewrite DW by lia. destruct (Z.eqb_spec (j + 1) k); [lia|reflexivity].
      + rewrite (dp_comm O L), DW by lia. destruct (Z.eqb_spec i (j + 1)); [lia|reflexivity].
      + apply DV; lia.
    - intros i Hi. destruct (Z.eq_dec i j) as [->|N]; [exact R1|]. destruct (Hcs i ltac:(lia)) as (-> & ->). apply C2. lia.
    - intros k Hk q Hq. destruct (Z.eq_dec k j) as [->|N].
      + rewrite HAj by auto. rewrite (sumz_last O L) by lia. rewrite EHj.
        rewrite (sumz_ext O 0 j _ (fun i => hr i *! uz O V1 c s i q)) by (intros i Hi; rewrite Hhr, EUc by auto; reflexivity).
        assert (EW : W q = sumz O 0 (j + 1) (fun i => hc i *! V1 i q) +! hh *! V1 (j + 1) q).
        { rewrite HVn by auto. rewrite HW' by auto. rewrite (sumz_ext O 0 (j + 1) (fun i => hc i *! V1 i q) (fun i => hc i *! V i q)) by (intros i Hi; rewrite HV1 by lia; reflexivity).
          set (S := sumz O 0 (j + 1) _). transitivity (S +! (odiv O 1o hh *! hh) *! (W q -! S)); [rewrite inv_mul by auto|]; ring. }
        rewrite EW, <- Hrot. rewrite <- ETc.
        pose proof (rot_id O L V1 c1 s1 j q rr hh Hj R1) as RI. rewrite Ecj, Esj in RI.
        set (S := sumz O 0 j _). transitivity (S +! (rr *! tz O V1 c1 s1 j q +! hh *! V1 (j + 1) q)); [ring|]. rewrite RI.
        assert (Z0 : sj *! rr +! cj *! hh = 0o) by (transitivity (oopp O (cj *! oopp O hh -! sj *! rr)); [ring|rewrite El2; ring]).
        assert (Z1 : cj *! rr -! sj *! hh = r) by (rewrite <- El1; ring).
        rewrite Z0, Z1. ring.
      + rewrite HA by lia. rewrite (C3 k) by lia. apply sumz_ext. intros i Hi. rewrite HH, EUo by lia. reflexivity.
    - intros q Hq. rewrite (C4 q Hq). rewrite (sumz_last O L) by lia. rewrite Egj, Egj1.
      rewrite (sumz_ext O 0 j _ (fun i => g1 i *! uz O V1 c1 s1 i q)) by (intros i Hi; rewrite EUo, Hg by auto; reflexivity).
      rewrite <- (ETo q Hq).
      pose proof (rot_id O L V1 c1 s1 j q (g j) 0o Hj R1) as RI. rewrite Ecj, Esj in RI.
      set (S := sumz O 0 j _). transitivity (S +! (g j *! tz O V1 c1 s1 j q +! 0o *! V1 (j + 1) q)); [ring|]. rewrite RI. ring.
  Qed.
End C.
