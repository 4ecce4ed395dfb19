(** Programs that update cells of a dense window: what each cell ends with is a
    function of what it held.  Sequences compose, so parallel loops are folds over the
    schedule. *)
From Coq Require Import ZArith List Bool Lia ZifyBool Permutation.
From Verif Require Import Base BaseFacts Algebra DenseSpec DenseProof Writes WinFacts Vec RowProg.
Import ListNotations.
Open Scope Z_scope.

(** ** Schedules *)
Lemma zrange_nodup : forall lo hi, NoDup (zrange lo hi).
Proof.
  intros lo hi. apply NoDup_nth with (d := 0). intros a b Ha Hb E.
  destruct (Z_le_gt_dec lo hi) as [H|H]; [|rewrite zrange_nil in Ha by lia; cbn in Ha; lia].
  pose proof (zlen_zrange lo hi H) as L. unfold zlen in L.
  assert (N : forall k, (k < length (zrange lo hi))%nat -> nth k (zrange lo hi) 0 = lo + Z.of_nat k).
  { intros k Hk. pose proof (nthZ_zrange 0 lo hi (Z.of_nat k) ltac:(lia)) as Q. unfold nthZ in Q. rewrite Nat2Z.id in Q. exact Q. }
  rewrite !N in E by lia. lia.
Qed.

(** Consecutive blocks f 0, f 1, ..., f nt cover [0, f nt), each index once. *)
Lemma blocks_owner : forall (f : Z -> Z) nt j, 0 <= nt -> f 0 = 0 -> (forall t, 0 <= t < nt -> f t <= f (t + 1)) -> 0 <= j < f nt ->
  exists t, 0 <= t < nt /\ f t <= j < f (t + 1) /\ forall t', 0 <= t' < nt -> f t' <= j < f (t' + 1) -> t' = t.
Proof.
  intros f nt j Hn F0 FM Hj.
  assert (MM : forall a b, 0 <= a <= b -> b <= nt -> f a <= f b).
  { intros a b Hab Hb. replace b with (a + Z.of_nat (Z.to_nat (b - a))) in * by lia. set (k := Z.to_nat (b - a)) in *. clearbody k. induction k as [|k IH]; [rewrite Z.add_0_r; lia|].
    replace (a + Z.of_nat (S k)) with (a + Z.of_nat k + 1) in * by lia. specialize (IH ltac:(lia) ltac:(lia)). specialize (FM (a + Z.of_nat k) ltac:(lia)). lia. }
  assert (EX : exists t, 0 <= t < nt /\ f t <= j < f (t + 1)).
  { replace nt with (Z.of_nat (Z.to_nat nt)) in * by lia. set (k := Z.to_nat nt) in *. clearbody k. clear MM. induction k as [|k IH]; [change (Z.of_nat 0) with 0 in *; lia|].
    destruct (Z_lt_dec j (f (Z.of_nat k))) as [L|G].
    - destruct IH as (t & Ht & Hf); try lia. { intros; apply FM; lia. } exists t. split; auto. lia.
    - exists (Z.of_nat k). split; [lia|]. replace (Z.of_nat k + 1) with (Z.of_nat (S k)) by lia. lia. }
  destruct EX as (t & Ht & Hf). exists t. split; auto. split; auto. intros t' Ht' Hf'.
  destruct (Z_lt_dec t' t). { pose proof (MM (t' + 1) t ltac:(lia) ltac:(lia)). lia. }
  destruct (Z_lt_dec t t'). { pose proof (MM (t + 1) t' ltac:(lia) ltac:(lia)). lia. } lia.
Qed.

(** A fold in which exactly one item acts. *)
Lemma fold_none : forall X Y (own : Y -> bool) (g : Y -> X -> X) l x, (forall k, In k l -> own k = false) ->
  fold_left (fun x k => if own k then g k x else x) l x = x.
Proof. induction l as [|k l IH]; intros x H; cbn; auto. rewrite (H k) by (left; auto). apply IH. intros; apply H; right; auto. Qed.
Lemma fold_once : forall X Y (own : Y -> bool) (g : Y -> X -> X) l x k0, NoDup l -> In k0 l -> own k0 = true -> (forall k, In k l -> own k = true -> k = k0) ->
  fold_left (fun x k => if own k then g k x else x) l x = g k0 x.
Proof.
  induction l as [|k l IH]; intros x k0 ND I0 O0 U; [destruct I0|]. inversion ND; subst. cbn. destruct (own k) eqn:E.
  - assert (k = k0) by (apply U; auto; left; auto). subst k0. apply fold_none. intros k' Hk'. destruct (own k') eqn:E'; auto. assert (k' = k) by (apply U; auto; right; auto). subst. contradiction.
  - destruct I0 as [-> |I0]; [congruence|]. apply IH; auto. intros; apply U; auto; right; auto.
Qed.

(** A strided loop whose last step may be shorter. *)
Lemma for_step_min : forall S (P : Z -> S -> Prop) lo hi k f (s : S), 0 < k -> lo <= hi -> P lo s ->
  (forall e st, lo <= e < hi -> P e st -> exists st', f e st = Some st' /\ P (Z.min (e + k) hi) st') ->
  exists st, for_step lo hi k f s = Some st /\ P hi st.
Proof.
  intros S P lo hi k f s Hk H H0 Hs. unfold for_step. set (q := (hi - lo + k - 1) / k).
  pose proof (Z.div_mod (hi - lo + k - 1) k ltac:(lia)) as D. pose proof (Z.mod_pos_bound (hi - lo + k - 1) k Hk) as MB. fold q in D.
  assert (Q0 : 0 <= q) by (apply Z.div_pos; lia).
  destruct (for_inv _ (fun t st => P (Z.min (lo + t * k) hi) st) 0 q (fun t s => f (lo + t * k) s) s Q0) as (st & E & R).
  - replace (Z.min (lo + 0 * k) hi) with lo by lia. auto.
  - intros t st Ht HP. assert (lo + t * k < hi) by nia. replace (Z.min (lo + t * k) hi) with (lo + t * k) in HP by lia.
    destruct (Hs (lo + t * k) st ltac:(nia) HP) as (st' & E & R). exists st'. split; auto. replace (lo + (t + 1) * k) with (lo + t * k + k) by lia. auto.
  - exists st. split; auto. replace (Z.min (lo + q * k) hi) with hi in R by nia. auto.
Qed.

(** ** Cells *)
Section T.
  Context {T : Type} (O : ops T).
  Local Notation z := (o0 O).
  Variables (order ld m n : Z).
  Local Notation at_ := (dense_at order ld).
  Local Notation fits := (window_fits order ld m n).

  (** [A'] is [A] with every cell (i,j) of the window changed by [G i j]. *)
  Definition tile (G : Z -> Z -> T -> T) (A A' : list T) : Prop :=
    holds_window z order ld m n (fun i j => G i j (nthZ z A (at_ i j))) A A'.

  Lemma tile_len : forall G A B, tile G A B -> zlen B = zlen A.
  Proof. intros G A B (H & _). exact H. Qed.
  Lemma tile_id : forall A, tile (fun _ _ x => x) A A.
  Proof. intros A. split; [reflexivity|]. split; reflexivity. Qed.
  Lemma tile_ext : forall G G' A B, (forall i j x, 0 <= i < m -> 0 <= j < n -> G i j x = G' i j x) -> tile G A B -> tile G' A B.
  Proof. intros G G' A B H. apply hw_ext. intros i j Hi Hj. apply H; auto. Qed.
  Lemma tile_comp : forall G G' A B C, tile G A B -> tile G' B C -> tile (fun i j x => G' i j (G i j x)) A C.
  Proof.
    intros G G' A B C H H'. apply (hw_ext O order ld m n (fun i j => G' i j (nthZ z B (at_ i j)))).
    - intros i j Hi Hj. f_equal. now apply H.
    - exact (hw_trans O order ld m n _ _ _ _ _ H H').
  Qed.
  Lemma tile_cell : forall (g : T -> T) (A : list T) i0 j0, fits A -> 0 <= i0 < m -> 0 <= j0 < n ->
    tile (fun i j x => if (i =? i0) && (j =? j0) then g x else x) A (upd A (at_ i0 j0) (g (nthZ z A (at_ i0 j0)))).
  Proof.
    intros g A i0 j0 F Hi0 Hj0. pose proof (fits_range order ld m n A i0 j0 F Hi0 Hj0) as R.
    split; [apply zlen_upd|]. split.
    - intros i j Hi Hj. pose proof (fits_range order ld m n A i j F Hi Hj) as R'. rewrite nthZ_upd by lia.
      destruct (Z.eqb_spec (at_ i j) (at_ i0 j0)) as [E|E].
      + destruct (at_inj order ld m n A i j i0 j0 F Hi Hj Hi0 Hj0 E) as (-> & ->). rewrite !Z.eqb_refl. reflexivity.
      + destruct ((i =? i0) && (j =? j0)) eqn:E'; [|reflexivity]. exfalso. apply E. replace i with i0 by lia. replace j with j0 by lia. reflexivity.
    - intros p Hp Hn. specialize (Hn i0 j0 Hi0 Hj0). rewrite nthZ_upd by lia. replace (p =? at_ i0 j0) with false by lia. reflexivity.
  Qed.
  Lemma tile_foldM : forall X (G : X -> Z -> Z -> T -> T) body (l : list X) (A : list T), fits A ->
    (forall k B, In k l -> fits B -> zlen B = zlen A -> exists B', body k B = Some B' /\ tile (G k) B B') ->
    exists A', foldM body l A = Some A' /\ tile (fun i j x => fold_left (fun x k => G k i j x) l x) A A'.
  Proof.
    induction l as [|k l IH]; intros A F H; cbn [foldM fold_left].
    - exists A. split; auto. apply tile_id.
    - destruct (H k A ltac:(left; auto) F eq_refl) as (B & E & R). rewrite E. pose proof (tile_len _ _ _ R) as LB.
      destruct (IH B (fits_len order ld m n A B LB F)) as (C & E2 & R2).
      { intros k' B' I FB LB'. apply H; auto; [right; auto|congruence]. }
      exists C. split; auto. exact (tile_comp _ _ _ _ _ R R2).
  Qed.
  Lemma tile_for : forall lo hi (G : Z -> Z -> Z -> T -> T) body (A : list T), fits A ->
    (forall k B, lo <= k < hi -> fits B -> zlen B = zlen A -> exists B', body k B = Some B' /\ tile (G k) B B') ->
    exists A', for_ lo hi body A = Some A' /\ tile (fun i j x => fold_left (fun x k => G k i j x) (zrange lo hi) x) A A'.
  Proof. intros lo hi G body A F H. apply tile_foldM; auto. intros k B Hk. apply H. now apply in_zrange. Qed.

  (** Disjoint parts, each cell in exactly one of them. *)
  Lemma tile_once : forall X (own : X -> Z -> Z -> bool) (g : Z -> Z -> T -> T) (l : list X) (A B : list T), NoDup l ->
    (forall i j, 0 <= i < m -> 0 <= j < n -> exists k, In k l /\ own k i j = true /\ forall k', In k' l -> own k' i j = true -> k' = k) ->
    tile (fun i j x => fold_left (fun x k => if own k i j then g i j x else x) l x) A B -> tile g A B.
  Proof.
    intros X own g l A B ND H. apply tile_ext. intros i j x Hi Hj. destruct (H i j Hi Hj) as (k & I & Ok & U).
    exact (fold_once _ _ (fun k => own k i j) (fun _ => g i j) l x k ND I Ok U).
  Qed.

  (** One row, one column. *)
  Lemma tile_row : forall (g : Z -> T -> T) body i0 lo hi (A : list T), fits A -> 0 <= i0 < m -> 0 <= lo -> hi <= n ->
    (forall j B, lo <= j < hi -> fits B -> zlen B = zlen A -> body j B = Some (upd B (at_ i0 j) (g j (nthZ z B (at_ i0 j))))) ->
    exists A', for_ lo hi body A = Some A' /\ tile (fun i j x => if (i =? i0) && ((lo <=? j) && (j <? hi)) then g j x else x) A A'.
  Proof.
    intros g body i0 lo hi A F Hi0 H1 H2 Hb.
    destruct (tile_for lo hi (fun k i j x => if (i =? i0) && (j =? k) then g j x else x) body A F) as (B & E & R).
    { intros k B Hk FB LB. rewrite (Hb k B Hk FB LB). eexists. split; [reflexivity|]. apply (tile_ext (fun i j x => if (i =? i0) && (j =? k) then g k x else x)).
      - intros i j x _ _. destruct ((i =? i0) && (j =? k)) eqn:E; [|reflexivity]. replace j with k by lia. reflexivity.
      - apply tile_cell; auto. lia. }
    exists B. split; auto. revert R. apply tile_ext. intros i j x Hi Hj.
    destruct ((i =? i0) && ((lo <=? j) && (j <? hi))) eqn:E'.
    - apply (fold_once _ _ (fun k => (i =? i0) && (j =? k)) (fun _ => g j) (zrange lo hi) x j).
      + apply zrange_nodup. + apply in_zrange. lia. + lia. + intros. lia.
    - apply (fold_none _ _ (fun k => (i =? i0) && (j =? k)) (fun _ => g j)). intros k Hk. apply in_zrange in Hk. lia.
  Qed.
  Lemma tile_col : forall (g : Z -> T -> T) body j0 (A : list T), fits A -> 0 <= j0 < n ->
    (forall i B, 0 <= i < m -> fits B -> zlen B = zlen A -> body i B = Some (upd B (at_ i j0) (g i (nthZ z B (at_ i j0))))) ->
    exists A', for_ 0 m body A = Some A' /\ tile (fun i j x => if j =? j0 then g i x else x) A A'.
  Proof.
    intros g body j0 A F Hj0 Hb.
    destruct (tile_for 0 m (fun k i j x => if (i =? k) && (j =? j0) then g i x else x) body A F) as (B & E & R).
    { intros k B Hk FB LB. rewrite (Hb k B Hk FB LB). eexists. split; [reflexivity|]. apply (tile_ext (fun i j x => if (i =? k) && (j =? j0) then g k x else x)).
      - intros i j x _ _. destruct ((i =? k) && (j =? j0)) eqn:E; [|reflexivity]. replace i with k by lia. reflexivity.
      - apply tile_cell; auto. }
    exists B. split; auto. revert R. apply tile_ext. intros i j x Hi Hj.
    destruct (j =? j0) eqn:E'.
    - apply (fold_once _ _ (fun k => (i =? k) && true) (fun _ => g i) (zrange 0 m) x i).
      + apply zrange_nodup. + apply in_zrange. lia. + lia. + intros. lia.
    - apply (fold_none _ _ (fun k => (i =? k) && false) (fun _ => g i)). intros k Hk. apply in_zrange in Hk. lia.
  Qed.

  (** ** Additive updates *)
  Context (L : laws O).
  Add Ring TR : (l_ring L).
  Definition tadd (D : Z -> Z -> T) : list T -> list T -> Prop := tile (fun i j x => oadd O x (D i j)).
  Lemma tadd_ext : forall D D' A B, (forall i j, 0 <= i < m -> 0 <= j < n -> D i j = D' i j) -> tadd D A B -> tadd D' A B.
  Proof. intros D D' A B H. apply tile_ext. intros i j x Hi Hj. now rewrite H. Qed.
  Lemma tadd_nil : forall D A, (forall i j, 0 <= i < m -> 0 <= j < n -> D i j = z) -> tadd D A A.
  Proof. intros D A H. apply (tile_ext (fun _ _ x => x)); [|apply tile_id]. intros i j x Hi Hj. rewrite H by auto. ring. Qed.
  Lemma tadd_comp : forall D D' A B C, tadd D A B -> tadd D' B C -> tadd (fun i j => oadd O (D i j) (D' i j)) A C.
  Proof. intros D D' A B C H H'. generalize (tile_comp (fun i j x => oadd O x (D i j)) (fun i j x => oadd O x (D' i j)) A B C H H'). apply tile_ext. intros. ring. Qed.
  Lemma tadd_for : forall lo hi (D : Z -> Z -> Z -> T) body (A : list T), fits A -> lo <= hi ->
    (forall k B, lo <= k < hi -> fits B -> zlen B = zlen A -> exists B', body k B = Some B' /\ tadd (D k) B B') ->
    exists A', for_ lo hi body A = Some A' /\ tadd (fun i j => sumz O lo hi (fun k => D k i j)) A A'.
  Proof.
    intros lo hi D body A F H Hb.
    destruct (for_inv _ (fun k B => tadd (fun i j => sumz O lo k (fun k => D k i j)) A B) lo hi body A H) as (st & E & R).
    - apply tadd_nil. intros. apply (sumz_nil O). lia.
    - intros k B Hk HB. pose proof (proj1 HB) as Lb. destruct (Hb k B Hk (fits_len order ld m n A B Lb F) Lb) as (B' & E & R). exists B'. split; auto.
      apply (tadd_ext (fun i j => oadd O (sumz O lo k (fun k => D k i j)) (D k i j))).
      + intros i j _ _. rewrite (sumz_last O L) by lia. reflexivity.
      + exact (tadd_comp _ _ _ _ _ HB R).
    - exists st. auto.
  Qed.
  Lemma tadd_row : forall (D : Z -> T) body i0 lo hi (A : list T), fits A -> 0 <= i0 < m -> 0 <= lo -> hi <= n ->
    (forall j B, lo <= j < hi -> fits B -> zlen B = zlen A -> body j B = Some (upd B (at_ i0 j) (oadd O (nthZ z B (at_ i0 j)) (D j)))) ->
    exists A', for_ lo hi body A = Some A' /\ tadd (fun i j => if (i =? i0) && ((lo <=? j) && (j <? hi)) then D j else z) A A'.
  Proof.
    intros D body i0 lo hi A F Hi0 H1 H2 Hb. destruct (tile_row (fun j x => oadd O x (D j)) body i0 lo hi A F Hi0 H1 H2 Hb) as (B & E & R).
    exists B. split; auto. revert R. apply tile_ext. intros i j x _ _. destruct (_ && _); ring.
  Qed.
End T.
