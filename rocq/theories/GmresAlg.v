(** The algebra of a GMRES cycle: rotating an orthonormal basis along with the columns of
    the Hessenberg matrix. *)
From Coq Require Import ZArith List Bool Lia Ring.
From Coq Require Import ZifyBool ZifyNat.
From Verif Require Import Base BaseFacts Algebra.
Import ListNotations.
Open Scope Z_scope.

(** The last rotated vector after i rotations, and the i-th rotated vector *)
Fixpoint tn {T} (O : ops T) (V : Z -> Z -> T) (c s : Z -> T) (k : nat) (q : Z) : T :=
  match k with
  | 0%nat => V 0 q
  | Datatypes.S k' => oadd O (omul O (s (Z.of_nat k')) (tn O V c s k' q)) (omul O (c (Z.of_nat k')) (V (Z.of_nat k' + 1) q))
  end.
Definition tz {T} (O : ops T) V c s (i : Z) (q : Z) : T := tn O V c s (Z.to_nat i) q.
Definition uz {T} (O : ops T) V c s (i : Z) (q : Z) : T := osub O (omul O (c i) (tz O V c s i q)) (omul O (s i) (V (i + 1) q)).

Lemma tz_ext : forall T (O : ops T) V V' c c' s s' i q, 0 <= i ->
  (forall k, 0 <= k <= i -> V k q = V' k q) -> (forall k, 0 <= k < i -> c k = c' k /\ s k = s' k) -> tz O V c s i q = tz O V' c' s' i q.
Proof.
  intros T O V V' c c' s s' i q Hi HV HC. unfold tz.
  assert (G : forall k, Z.of_nat k <= i -> tn O V c s k q = tn O V' c' s' k q).
  { induction k; intros Hk; cbn [tn].
    - apply HV. lia.
    - rewrite IHk by lia. destruct (HC (Z.of_nat k) ltac:(lia)) as (-> & ->). rewrite HV by lia. reflexivity. }
  apply G. lia.
Qed.
Lemma uz_ext : forall T (O : ops T) V V' c c' s s' i q, 0 <= i ->
  (forall k, 0 <= k <= i + 1 -> V k q = V' k q) -> (forall k, 0 <= k <= i -> c k = c' k /\ s k = s' k) -> uz O V c s i q = uz O V' c' s' i q.
Proof.
  intros T O V V' c c' s s' i q Hi HV HC. unfold uz. rewrite (tz_ext T O V V' c c' s s' i q); auto.
  - destruct (HC i ltac:(lia)) as (-> & ->). rewrite HV by lia. reflexivity.
  - intros k Hk. apply HV. lia.
  - intros k Hk. apply HC. lia.
Qed.

Section A.
  Context {T : Type} (O : ops T) (L : laws O) (n : Z).
  Local Notation "0o" := (o0 O). Local Notation "1o" := (o1 O).
  Local Infix "+!" := (oadd O) (at level 50, left associativity).
  Local Infix "*!" := (omul O) (at level 40, left associativity).
  Local Infix "-!" := (osub O) (at level 50, left associativity).
  Add Ring AlgRing : (l_ring L).

  Definition dp (f g : Z -> T) : T := sumz O 0 n (fun q => f q *! g q).
  Lemma dp_ext : forall f f' g g', (forall q, 0 <= q < n -> f q = f' q /\ g q = g' q) -> dp f g = dp f' g'.
  Proof. intros f f' g g' H. apply sumz_ext. intros q Hq. destruct (H q Hq) as (-> & ->). reflexivity. Qed.
  Lemma dp_comm : forall f g, dp f g = dp g f.
  Proof. intros. apply sumz_ext. intros. ring. Qed.
  Lemma dp_lin : forall a f b g h, dp (fun q => a *! f q +! b *! g q) h = a *! dp f h +! b *! dp g h.
  Proof.
    intros. unfold dp. rewrite <- !(sumz_mul_l O L), <- (sumz_add O L). apply sumz_ext. intros. ring.
  Qed.
  Lemma dp_scal : forall a f h, dp (fun q => a *! f q) h = a *! dp f h.
  Proof. intros. unfold dp. rewrite <- (sumz_mul_l O L). apply sumz_ext. intros. ring. Qed.
  Lemma dp_sum : forall lo hi (f : Z -> Z -> T) h, dp (fun q => sumz O lo hi (fun i => f i q)) h = sumz O lo hi (fun i => dp (f i) h).
  Proof.
    intros. unfold dp. rewrite (sumz_swap O L). apply sumz_ext. intros q Hq. rewrite (sumz_mul_r O L). reflexivity.
  Qed.

  Variables (V : Z -> Z -> T) (c s : Z -> T).
  Notation t := (tz O V c s).
  Notation u := (uz O V c s).
  Lemma tz_0 : forall q, t 0 q = V 0 q.
  Proof. reflexivity. Qed.
  Lemma tz_step : forall i q, 0 <= i -> t (i + 1) q = s i *! t i q +! c i *! V (i + 1) q.
  Proof. intros i q Hi. unfold tz. replace (Z.to_nat (i + 1)) with (Datatypes.S (Z.to_nat i)) by lia. cbn [tn]. rewrite Z2Nat.id by lia. reflexivity. Qed.

  Definition orth (J : Z) : Prop := forall i k, 0 <= i <= J -> 0 <= k <= J -> dp (V i) (V k) = if i =? k then 1o else 0o.
  Definition rots (J : Z) : Prop := forall i, 0 <= i < J -> c i *! c i +! s i *! s i = 1o.

  Lemma t_orth : forall J i, orth J -> 0 <= i -> forall k, i < k <= J -> dp (t i) (V k) = 0o.
  Proof.
    intros J i HO Hi. pattern i. apply natlike_ind; auto; clear i Hi.
    - intros k Hk. rewrite (dp_ext _ (V 0) _ (V k)) by (intros; split; reflexivity). rewrite HO by lia. destruct (Z.eqb_spec 0 k); [lia|reflexivity].
    - intros i Hi IH k Hk.
      rewrite (dp_ext _ (fun q => s i *! t i q +! c i *! V (i + 1) q) _ (V k)) by (intros; split; [apply tz_step; lia|reflexivity]).
      rewrite dp_lin, IH by lia. rewrite HO by lia. destruct (Z.eqb_spec (i + 1) k); [lia|]. ring.
  Qed.
  Lemma t_unit : forall J i, orth J -> rots J -> 0 <= i -> i <= J -> dp (t i) (t i) = 1o.
  Proof.
    intros J i HO HR Hi. pattern i. apply natlike_ind; auto; clear i Hi.
    - intros Hk. rewrite (dp_ext _ (V 0) _ (V 0)) by (intros; split; reflexivity). rewrite HO by lia. reflexivity.
    - intros i Hi IH Hk.
      set (f := fun q => s i *! t i q +! c i *! V (i + 1) q).
      rewrite (dp_ext _ f _ f) by (intros; split; apply tz_step; lia).
      unfold f at 1. rewrite dp_lin. rewrite (dp_comm _ f), (dp_comm (V (i + 1)) f). unfold f. rewrite !dp_lin.
      rewrite (dp_comm (V (i + 1)) (t i)). rewrite !(t_orth J i HO) by lia. rewrite IH by lia. rewrite HO by lia. rewrite Z.eqb_refl.
      transitivity (c i *! c i +! s i *! s i); [ring|apply HR; lia].
  Qed.
  Lemma u_t : forall J i, orth J -> rots J -> 0 <= i < J -> dp (u i) (t (i + 1)) = 0o /\ dp (u i) (u i) = 1o.
  Proof.
    intros J i HO HR Hi.
    set (f := fun q => s i *! t i q +! c i *! V (i + 1) q).
    set (h := fun q => c i *! t i q +! (oopp O (s i)) *! V (i + 1) q).
    assert (Eu : forall q, u i q = h q) by (intros; unfold uz, h; ring).
    assert (E1 : dp (t i) (t i) = 1o) by (apply (t_unit J); auto; lia).
    assert (E2 : dp (t i) (V (i + 1)) = 0o) by (apply (t_orth J); auto; lia).
    assert (E3 : dp (V (i + 1)) (V (i + 1)) = 1o) by (rewrite HO by lia; rewrite Z.eqb_refl; reflexivity).
    split.
    - rewrite (dp_ext _ h _ f) by (intros; split; [apply Eu|apply tz_step; lia]).
      unfold h. rewrite dp_lin, (dp_comm (t i) f), (dp_comm _ f). unfold f. rewrite !dp_lin. rewrite (dp_comm (V (i + 1)) (t i)), E1, E2, E3. ring.
    - rewrite (dp_ext _ h _ h) by (intros; split; apply Eu).
      unfold h at 1. rewrite dp_lin, (dp_comm (t i) h), (dp_comm _ h). unfold h. rewrite !dp_lin. rewrite (dp_comm (V (i + 1)) (t i)), E1, E2, E3. transitivity (c i *! c i +! s i *! s i); [ring|apply HR; lia].
  Qed.
  (** u i is orthogonal to every t k and u k that comes later *)
  Lemma u_V : forall J i k, orth J -> 0 <= i -> i + 1 < k <= J -> dp (u i) (V k) = 0o.
  Proof.
    intros J i k HO Hi Hk.
    rewrite (dp_ext _ (fun q => c i *! t i q +! (oopp O (s i)) *! V (i + 1) q) _ (V k)) by (intros; split; [unfold uz; ring|reflexivity]).
    rewrite dp_lin, (t_orth J) by (auto; lia). rewrite HO by lia. destruct (Z.eqb_spec (i + 1) k); [lia|]. ring.
  Qed.
  Lemma u_later : forall J i d, orth J -> rots J -> 0 <= i -> 0 <= d -> i + 1 + d <= J -> dp (u i) (t (i + 1 + d)) = 0o.
  Proof.
    intros J i d HO HR Hi Hd. pattern d. apply natlike_ind; auto; clear d Hd.
    - intros Hk. rewrite Z.add_0_r. apply (u_t J); auto. lia.
    - intros d Hd IH Hk. rewrite dp_comm.
      replace (i + 1 + Z.succ d) with (i + 1 + d + 1) in * by lia.
      rewrite (dp_ext _ (fun q => s (i + 1 + d) *! t (i + 1 + d) q +! c (i + 1 + d) *! V (i + 1 + d + 1) q) _ (u i)) by (intros; split; [apply tz_step; lia|reflexivity]).
      rewrite dp_lin, (dp_comm (t _)), IH by lia. rewrite (dp_comm (V _)), (u_V J) by (auto; lia). ring.
  Qed.
  Lemma u_orth : forall J i k, orth J -> rots J -> 0 <= i < J -> 0 <= k < J -> dp (u i) (u k) = if i =? k then 1o else 0o.
  Proof.
    assert (G : forall J i k, orth J -> rots J -> 0 <= i < k -> k < J -> dp (u i) (u k) = 0o).
    { intros J i k HO HR Hi Hk. rewrite dp_comm.
      rewrite (dp_ext _ (fun q => c k *! t k q +! (oopp O (s k)) *! V (k + 1) q) _ (u i)) by (intros; split; [unfold uz; ring|reflexivity]).
      rewrite dp_lin, (dp_comm (t k)), (dp_comm (V _)), (u_V J) by (auto; lia).
      replace k with (i + 1 + (k - i - 1)) at 2 by lia. rewrite (u_later J) by (auto; lia). ring. }
    intros J i k HO HR Hi Hk. destruct (Z.eqb_spec i k) as [<-|N].
    - apply (u_t J); auto.
    - destruct (Z.lt_trichotomy i k) as [H | [H | H]]; [apply (G J); auto; lia|lia|rewrite dp_comm; apply (G J); auto; lia].
  Qed.

  (** One rotation leaves the combination as it is *)
  Lemma rot_id : forall i q r1 r2, 0 <= i -> c i *! c i +! s i *! s i = 1o ->
    r1 *! t i q +! r2 *! V (i + 1) q = (c i *! r1 -! s i *! r2) *! u i q +! (s i *! r1 +! c i *! r2) *! t (i + 1) q.
  Proof.
    intros i q r1 r2 Hi E. rewrite tz_step by auto. unfold uz.
    transitivity ((c i *! c i +! s i *! s i) *! (r1 *! t i q +! r2 *! V (i + 1) q)); [rewrite E|]; ring.
  Qed.

  (** The residual for any coefficients y *)
  Lemma resid_y : forall j (H : Z -> Z -> T) (g y : Z -> T) (AZ : Z -> Z -> T) r0 q,
    0 <= j ->
    (forall k, 0 <= k < j -> AZ k q = sumz O 0 (k + 1) (fun i => H i k *! u i q)) ->
    r0 = sumz O 0 j (fun i => g i *! u i q) +! g j *! t j q ->
    r0 -! sumz O 0 j (fun k => y k *! AZ k q) =
    sumz O 0 j (fun i => (g i -! sumz O i j (fun k => H i k *! y k)) *! u i q) +! g j *! t j q.
  Proof.
    intros j H g y AZ r0 q Hj HA ->.
    assert (E : sumz O 0 j (fun k => y k *! AZ k q) = sumz O 0 j (fun i => sumz O i j (fun k => H i k *! y k) *! u i q)).
    { transitivity (sumz O 0 j (fun k => sumz O 0 j (fun i => if i <=? k then H i k *! y k *! u i q else 0o))).
      - apply sumz_ext. intros k Hk. rewrite HA by auto. rewrite <- (sumz_mul_l O L).
        rewrite (sumz_split O L 0 (k + 1) j) by lia. rewrite (sumz_zero O L (k + 1) j) by (intros i Hi; destruct (Z.leb_spec i k); [lia|reflexivity]).
        rewrite (sumz_ext O 0 (k + 1) (fun i => if i <=? k then H i k *! y k *! u i q else 0o) (fun i => y k *! (H i k *! u i q))) by (intros i Hi; destruct (Z.leb_spec i k); [ring|lia]).
        ring.
      - rewrite (sumz_swap O L). apply sumz_ext. intros i Hi.
        rewrite (sumz_split O L 0 i j) by lia. rewrite (sumz_zero O L 0 i) by (intros k Hk; destruct (Z.leb_spec i k); [lia|reflexivity]).
        rewrite (sumz_ext O i j (fun k => if i <=? k then H i k *! y k *! u i q else 0o) (fun k => H i k *! y k *! u i q)) by (intros k Hk; destruct (Z.leb_spec i k); [reflexivity|lia]).
        rewrite (sumz_mul_r O L). ring. }
    rewrite E.
    rewrite (sumz_ext O 0 j (fun i => (g i -! sumz O i j (fun k => H i k *! y k)) *! u i q) (fun i => g i *! u i q +! (oopp O 1o) *! (sumz O i j (fun k => H i k *! y k) *! u i q))) by (intros; ring).
    rewrite (sumz_add O L), (sumz_mul_l O L). ring.
  Qed.

  (** Its square norm: a sum of squares *)
  Lemma norm_y : forall J (d : Z -> T) gj f, orth J -> rots J -> 0 <= J ->
    (forall q, 0 <= q < n -> f q = sumz O 0 J (fun i => d i *! u i q) +! gj *! t J q) ->
    dp f f = sumz O 0 J (fun i => d i *! d i) +! gj *! gj.
  Proof.
    intros J d gj f HO HR HJ HF.
    set (F := fun q => 1o *! sumz O 0 J (fun i => d i *! u i q) +! gj *! t J q).
    rewrite (dp_ext f F f F) by (intros q Hq; unfold F; rewrite HF by auto; split; ring).
    assert (Eu : forall i, 0 <= i < J -> dp (fun q => d i *! u i q) F = d i *! d i).
    { intros i Hi. rewrite dp_scal, dp_comm. unfold F. rewrite dp_lin, dp_sum.
      rewrite (dp_comm (t J)). replace J with (i + 1 + (J - i - 1)) at 2 by lia. rewrite (u_later J) by (auto; lia).
      rewrite (sumz_delta O L 0 J i); [|lia|].
      - rewrite dp_scal, (u_orth J) by (auto; lia). rewrite Z.eqb_refl. ring.
      - intros k Hk N. rewrite dp_scal, (u_orth J) by (auto; lia). destruct (Z.eqb_spec k i); [lia|ring]. }
    assert (Et : dp (t J) F = gj).
    { rewrite dp_comm. unfold F. rewrite dp_lin, dp_sum, (t_unit J) by (auto; lia).
      rewrite (sumz_zero O L); [ring|]. intros i Hi. rewrite dp_scal. replace J with (i + 1 + (J - i - 1)) by lia. rewrite (u_later J) by (auto; lia). ring. }
    unfold F at 1. rewrite dp_lin, Et, dp_sum. rewrite (sumz_ext O 0 J _ (fun i => d i *! d i)) by (intros; apply Eu; auto). ring.
  Qed.
End A.
