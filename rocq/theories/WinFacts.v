(** Accumulating into a window of a dense array.  No algebraic law is used except in
    the last lemma: what a cell ends with is the left-to-right sum of the terms added
    to it. *)
From Coq Require Import ZArith List Bool Lia ZifyBool.
From Verif Require Import Base BaseFacts Algebra DenseSpec DenseProof Writes.
Import ListNotations.
Open Scope Z_scope.

Lemma map_flat_map : forall X Y Z (f : Y -> Z) (g : X -> list Y) l, map f (flat_map g l) = flat_map (fun x => map f (g x)) l.
Proof. intros. induction l as [|a l IH]; cbn; [reflexivity|]. rewrite map_app, IH. reflexivity. Qed.

Section W.
  Context {T : Type} (O : ops T).
  Local Notation z := (o0 O).
  Variables (order ld m n : Z).
  Local Notation at_ := (dense_at order ld).

  (** [A'] is [A] with the terms [cs i j], in this order, added to cell (i,j). *)
  Definition wacc (cs : Z -> Z -> list T) (A A' : list T) : Prop :=
    holds_window z order ld m n (fun i j => fold_left (oadd O) (cs i j) (nthZ z A (at_ i j))) A A'.

  Lemma fits_len : forall (A B : list T), zlen B = zlen A -> window_fits order ld m n A -> window_fits order ld m n B.
  Proof. unfold window_fits. intros A B ->. auto. Qed.
  Lemma hw_len : forall M (A B : list T), holds_window z order ld m n M A B -> zlen B = zlen A.
  Proof. intros M A B (H & _). exact H. Qed.
  Lemma hw_trans : forall M M' (A B C : list T), holds_window z order ld m n M A B -> holds_window z order ld m n M' B C -> holds_window z order ld m n M' A C.
  Proof.
    intros M M' A B C (L1 & W1 & F1) (L2 & W2 & F2). split; [congruence|]. split; [exact W2|]. intros p Hp Hn. rewrite F2 by (auto; lia). auto.
  Qed.
  Lemma hw_ext : forall M M' (A B : list T), (forall i j, 0 <= i < m -> 0 <= j < n -> M i j = M' i j) -> holds_window z order ld m n M A B -> holds_window z order ld m n M' A B.
  Proof. intros M M' A B H (L1 & W1 & F1). split; auto. split; auto. intros i j Hi Hj. rewrite <- H by auto. auto. Qed.

  Lemma wacc_nil : forall cs A, (forall i j, 0 <= i < m -> 0 <= j < n -> cs i j = []) -> wacc cs A A.
  Proof. intros cs A H. split; [reflexivity|]. split; [|reflexivity]. intros i j Hi Hj. rewrite H by auto. reflexivity. Qed.
  Lemma wacc_app : forall cs cs' A B C, wacc cs A B -> wacc cs' B C -> wacc (fun i j => cs i j ++ cs' i j) A C.
  Proof.
    intros cs cs' A B C H H'. apply (hw_ext (fun i j => fold_left (oadd O) (cs' i j) (nthZ z B (at_ i j)))).
    - intros i j Hi Hj. rewrite fold_left_app. f_equal. now apply H.
    - exact (hw_trans _ _ _ _ _ H H').
  Qed.
  Lemma wacc_ext : forall cs cs' A B, (forall i j, 0 <= i < m -> 0 <= j < n -> cs i j = cs' i j) -> wacc cs A B -> wacc cs' A B.
  Proof. intros cs cs' A B H. apply hw_ext. intros i j Hi Hj. rewrite H by auto. reflexivity. Qed.

  Lemma wacc_one : forall (A : list T) i0 j0 v, window_fits order ld m n A -> 0 <= i0 < m -> 0 <= j0 < n ->
    wacc (fun i j => if (i =? i0) && (j =? j0) then [v] else []) A (upd A (at_ i0 j0) (oadd O (nthZ z A (at_ i0 j0)) v)).
  Proof.
    intros A i0 j0 v F Hi0 Hj0. pose proof (fits_range order ld m n A i0 j0 F Hi0 Hj0) as R.
    split; [apply zlen_upd|]. split.
    - intros i j Hi Hj. pose proof (fits_range order ld m n A i j F Hi Hj) as R'. rewrite nthZ_upd by lia.
      destruct (Z.eqb_spec (at_ i j) (at_ i0 j0)) as [E|E].
      + destruct (at_inj order ld m n A i j i0 j0 F Hi Hj Hi0 Hj0 E) as (-> & ->). rewrite !Z.eqb_refl. reflexivity.
      + destruct ((i =? i0) && (j =? j0)) eqn:E'; [|reflexivity]. exfalso. apply E. replace i with i0 by lia. replace j with j0 by lia. reflexivity.
    - intros p Hp Hn. specialize (Hn i0 j0 Hi0 Hj0). rewrite nthZ_upd by lia. replace (p =? at_ i0 j0) with false by lia. reflexivity.
  Qed.

  Lemma wacc_for : forall lo hi (cs : Z -> Z -> Z -> list T) body (A : list T), window_fits order ld m n A -> lo <= hi ->
    (forall k B, lo <= k < hi -> window_fits order ld m n B -> zlen B = zlen A -> exists B', body k B = Some B' /\ wacc (cs k) B B') ->
    exists A', for_ lo hi body A = Some A' /\ wacc (fun i j => flat_map (fun k => cs k i j) (zrange lo hi)) A A'.
  Proof.
    intros lo hi cs body A F H Hb.
    destruct (for_inv _ (fun k B => wacc (fun i j => flat_map (fun k => cs k i j) (zrange lo k)) A B) lo hi body A H) as (st & E & R).
    - apply wacc_nil. intros. rewrite zrange_nil by lia. reflexivity.
    - intros k B Hk HB. pose proof (hw_len _ _ _ HB) as Lb. destruct (Hb k B Hk (fits_len A B Lb F) Lb) as (B' & E & R). exists B'. split; auto.
      apply (wacc_ext (fun i j => flat_map (fun k => cs k i j) (zrange lo k) ++ cs k i j)).
      + intros i j _ _. rewrite zrange_last by lia. rewrite flat_map_app. cbn [flat_map]. rewrite app_nil_r. reflexivity.
      + exact (wacc_app _ _ _ _ _ HB R).
    - exists st. auto.
  Qed.

  (** Setting every cell of the window from its old content. *)
  Lemma hw_rows : forall (G : T -> T) (rows : bool) body (A : list T), window_fits order ld m n A -> 0 <= m -> 0 <= n ->
    (forall i j B, 0 <= i < m -> 0 <= j < n -> window_fits order ld m n B -> body i j B = Some (upd B (at_ i j) (G (nthZ z B (at_ i j))))) ->
    exists A', (if rows then for_ 0 m (fun i B => for_ 0 n (fun j B => body i j B) B) A else for_ 0 n (fun j B => for_ 0 m (fun i B => body i j B) B) A) = Some A' /\
      holds_window z order ld m n (fun i j => G (nthZ z A (at_ i j))) A A'.
  Proof.
    intros G rows body A F Hm Hn Hb.
    (* done cells hold G of the old content, the others are untouched *)
    set (Inv := fun (D : Z -> Z -> Prop) (B : list T) => zlen B = zlen A /\
      (forall i j, 0 <= i < m -> 0 <= j < n -> D i j -> nthZ z B (at_ i j) = G (nthZ z A (at_ i j))) /\
      (forall i j, 0 <= i < m -> 0 <= j < n -> ~ D i j -> nthZ z B (at_ i j) = nthZ z A (at_ i j)) /\
      (forall p, 0 <= p < zlen A -> (forall i j, 0 <= i < m -> 0 <= j < n -> at_ i j <> p) -> nthZ z B p = nthZ z A p)).
    assert (I0 : forall (D : Z -> Z -> Prop), (forall i j, 0 <= i < m -> 0 <= j < n -> ~ D i j) -> Inv D A).
    { intros D H. unfold Inv. ands; auto. intros i j Hi Hj HD. destruct (H i j Hi Hj HD). }
    assert (IE : forall (D D' : Z -> Z -> Prop) B, (forall i j, 0 <= i < m -> 0 <= j < n -> (D i j <-> D' i j)) -> Inv D B -> Inv D' B).
    { intros D D' B HD (L1 & H1 & H2 & H3). unfold Inv. ands; auto; intros i j Hi Hj HH; [apply H1|apply H2]; auto; rewrite HD by auto; auto. }
    assert (IS : forall D B i0 j0, 0 <= i0 < m -> 0 <= j0 < n -> ~ D i0 j0 -> Inv D B ->
      exists B', body i0 j0 B = Some B' /\ Inv (fun i j => D i j \/ i = i0 /\ j = j0) B').
    { intros D B i0 j0 Hi0 Hj0 HD (L1 & H1 & H2 & H3). rewrite (Hb i0 j0 B Hi0 Hj0 (fits_len A B L1 F)). eexists. split; [reflexivity|].
      pose proof (fits_range order ld m n A i0 j0 F Hi0 Hj0) as R0. unfold Inv. rewrite zlen_upd. ands; auto.
      - intros i j Hi Hj HH. pose proof (fits_range order ld m n A i j F Hi Hj) as R. rewrite nthZ_upd by lia.
        destruct (Z.eqb_spec (at_ i j) (at_ i0 j0)) as [E|E].
        + destruct (at_inj order ld m n A i j i0 j0 F Hi Hj Hi0 Hj0 E) as (-> & ->). f_equal. apply H2; auto.
        + destruct HH as [HH|(-> & ->)]; [apply H1; auto|contradiction].
      - intros i j Hi Hj HH. pose proof (fits_range order ld m n A i j F Hi Hj) as R. rewrite nthZ_upd by lia.
        destruct (Z.eqb_spec (at_ i j) (at_ i0 j0)) as [E|E]; [|apply H2; tauto].
        destruct (at_inj order ld m n A i j i0 j0 F Hi Hj Hi0 Hj0 E) as (-> & ->). exfalso. apply HH. auto.
      - intros p Hp Hnp. specialize (Hnp i0 j0 Hi0 Hj0) as Hq. rewrite nthZ_upd by lia. replace (p =? at_ i0 j0) with false by lia. auto. }
    assert (IF : forall B, Inv (fun i j => 0 <= i < m /\ 0 <= j < n) B -> holds_window z order ld m n (fun i j => G (nthZ z A (at_ i j))) A B).
    { intros B (L1 & H1 & H2 & H3). split; auto. }
    destruct rows.
    - destruct (for_inv _ (fun i0 B => Inv (fun i j => i < i0) B) 0 m (fun i B => for_ 0 n (fun j B => body i j B) B) A Hm) as (B & E & R).
      + apply I0. intros; lia.
      + intros i0 B Hi0 HB.
        destruct (for_inv _ (fun j0 B => Inv (fun i j => i < i0 \/ i = i0 /\ j < j0) B) 0 n (fun j B => body i0 j B) B Hn) as (B' & E & R).
        * revert HB. apply IE. intros; cbv beta; lia.
        * intros j0 B' Hj0 HB'. destruct (IS (fun i j => i < i0 \/ i = i0 /\ j < j0) B' i0 j0 Hi0 Hj0 ltac:(cbv beta; lia) HB') as (B2 & E2 & R2). exists B2. split; auto. revert R2. apply IE. intros; cbv beta; lia.
        * exists B'. split; auto. revert R. apply IE. intros; cbv beta; lia.
      + exists B. split; auto. apply IF. revert R. apply IE. intros; cbv beta; lia.
    - destruct (for_inv _ (fun j0 B => Inv (fun i j => j < j0) B) 0 n (fun j B => for_ 0 m (fun i B => body i j B) B) A Hn) as (B & E & R).
      + apply I0. intros; lia.
      + intros j0 B Hj0 HB.
        destruct (for_inv _ (fun i0 B => Inv (fun i j => j < j0 \/ j = j0 /\ i < i0) B) 0 m (fun i B => body i j0 B) B Hm) as (B' & E & R).
        * revert HB. apply IE. intros; cbv beta; lia.
        * intros i0 B' Hi0 HB'. destruct (IS (fun i j => j < j0 \/ j = j0 /\ i < i0) B' i0 j0 Hi0 Hj0 ltac:(cbv beta; lia) HB') as (B2 & E2 & R2). exists B2. split; auto. revert R2. apply IE. intros; cbv beta; lia.
        * exists B'. split; auto. revert R. apply IE. intros; cbv beta; lia.
      + exists B. split; auto. apply IF. revert R. apply IE. intros; cbv beta; lia.
  Qed.

  Lemma fold_sum : laws O -> forall l a, fold_left (oadd O) l a = oadd O a (suml O (fun v => v) l).
  Proof.
    intros L. pose proof (l_ring L) as R. induction l as [|x l IH]; intros a; cbn [fold_left suml fold_right].
    - destruct R. rewrite Radd_comm. symmetry. apply Radd_0_l.
    - rewrite IH. unfold suml. destruct R. rewrite <- Radd_assoc. reflexivity.
  Qed.
End W.
