(** Row-wise programs run by a team of threads, and rows as lists of
    (column, value) pairs.  Shared by the models of sparse addition and products. *)
From Coq Require Import ZArith List Bool Lia Permutation.
From Coq Require Import ZifyBool.
From Verif Require Import Base BaseFacts Algebra Csr CsrFacts MvFacts.
Import ListNotations.
Open Scope Z_scope.

Lemma foldM_flat_map : forall X Y S (f : Y -> S -> option S) (g : X -> list Y) l s,
  foldM f (flat_map g l) s = foldM (fun x s => foldM f (g x) s) l s.
Proof.
  induction l as [|x l IH]; intros s; cbn; auto. rewrite foldM_app. destruct (foldM f (g x) s); auto.
Qed.
Lemma foldM_map : forall X Y S (f : Y -> S -> option S) (g : X -> Y) l s, foldM f (map g l) s = foldM (fun x s => f (g x) s) l s.
Proof. induction l as [|x l IH]; intros s; cbn; auto. destruct (f (g x) s); auto. Qed.

(** ** The row partition of a team: thread [t] of [nt] handles rows m*t/nt ... m*(t+1)/nt - 1 *)
Definition blo (m nt t : Z) : Z := Z.quot (m * t) nt.
(** [team]: the ids of the threads that run, in the order in which they finish. *)
Definition run_team {P S} (m nt : Z) (team : list Z) (priv0 : P) (body : Z -> P * S -> option (P * S)) (sh : S) : option S :=
  foldM (fun t sh => let* (_, sh) := for_ (blo m nt t) (blo m nt (t + 1)) body (priv0, sh) in Some sh) team sh.

Lemma blo_0 : forall m nt, 0 < nt -> blo m nt 0 = 0.
Proof. intros. unfold blo. rewrite Z.mul_0_r. apply Z.quot_0_l. lia. Qed.
Lemma blo_nt : forall m nt, 0 < nt -> blo m nt nt = m.
Proof. intros. unfold blo. apply Z.quot_mul. lia. Qed.
Lemma blo_mono : forall m nt t t', 0 <= m -> 0 < nt -> 0 <= t <= t' -> 0 <= blo m nt t <= blo m nt t'.
Proof.
  intros m nt t t' Hm Hn Ht. unfold blo. rewrite !Z.quot_div_nonneg by nia. split.
  - apply Z.div_pos; nia. - apply Z.div_le_mono; nia.
Qed.
Lemma blocks_all : forall m nt k, 0 <= m -> 0 < nt -> 0 <= k <= nt ->
  flat_map (fun t => zrange (blo m nt t) (blo m nt (t + 1))) (zrange 0 k) = zrange 0 (blo m nt k).
Proof.
  intros m nt k Hm Hn Hk. replace k with (Z.of_nat (Z.to_nat k)) by lia. assert (Hb : (Z.to_nat k <= Z.to_nat nt)%nat) by lia.
  induction (Z.to_nat k) as [|q IH].
  - rewrite zrange_nil by lia. cbn. rewrite blo_0 by lia. reflexivity.
  - replace (Z.of_nat (S q)) with (Z.of_nat q + 1) by lia. rewrite zrange_last by lia. rewrite flat_map_app, IH by lia. cbn. rewrite app_nil_r.
    symmetry. apply zrange_app. pose proof (blo_mono m nt 0 (Z.of_nat q)). pose proof (blo_mono m nt (Z.of_nat q) (Z.of_nat q + 1)). lia.
Qed.
Lemma row_block : forall m nt team i, 0 <= m -> 0 < nt -> Permutation team (zrange 0 nt) -> 0 <= i < m ->
  exists t, In t team /\ blo m nt t <= i < blo m nt (t + 1).
Proof.
  intros m nt team i Hm Hn HP Hi.
  assert (I : In i (flat_map (fun t => zrange (blo m nt t) (blo m nt (t + 1))) (zrange 0 nt))).
  { rewrite blocks_all by lia. rewrite blo_nt by lia. now apply in_zrange. }
  apply in_flat_map in I. destruct I as (t & I1 & I2). exists t. split; [|now apply in_zrange].
  apply (Permutation_in (l := zrange 0 nt)); auto. now apply Permutation_sym.
Qed.

(** Rows written once, in any order, by threads with private work space. *)
Lemma team_ok : forall (P S : Type) m nt team (priv0 : P) (body : Z -> P * S -> option (P * S)) (sh : S)
    (Inv : S -> Prop) (POk : Z -> P -> Prop) (Done : Z -> S -> Prop),
  0 <= m -> 0 < nt -> Permutation team (zrange 0 nt) ->
  Inv sh -> (forall i, 0 <= i -> POk i priv0) ->
  (forall i p s, 0 <= i < m -> Inv s -> POk i p -> exists p' s', body i (p, s) = Some (p', s') /\ Inv s' /\ POk (i + 1) p' /\ Done i s' /\
     (forall i', 0 <= i' < m -> i' <> i -> Done i' s -> Done i' s')) ->
  exists sh', run_team m nt team priv0 body sh = Some sh' /\ Inv sh' /\ forall i, 0 <= i < m -> Done i sh'.
Proof.
  intros P S m nt team priv0 body sh Inv POk Done Hm Hn HP H0 HPr Hb. unfold run_team.
  match goal with |- context [foldM ?f team sh] => destruct (foldM_inv _ _ f (fun pre s => Inv s /\
    forall i t, 0 <= i < m -> In t pre -> blo m nt t <= i < blo m nt (t + 1) -> Done i s) team sh) as (s & E & R1 & R2) end.
  - split; auto. intros i t _ [].
  - intros pre t post s E (I1 & I2).
    assert (Ht : 0 <= t < nt) by (apply in_zrange; apply (Permutation_in _ HP); rewrite E; apply in_elt).
    pose proof (blo_mono m nt 0 t). pose proof (blo_mono m nt t (t + 1)). pose proof (blo_mono m nt (t + 1) nt). rewrite blo_nt in * by lia.
    destruct (for_inv _ (fun k (ps : P * S) => Inv (snd ps) /\ POk k (fst ps) /\ (forall i, blo m nt t <= i < k -> Done i (snd ps)) /\
      (forall i, 0 <= i < m -> ~ (blo m nt t <= i < blo m nt (t + 1)) -> Done i s -> Done i (snd ps))) (blo m nt t) (blo m nt (t + 1)) body (priv0, s))
      as ((p' & s') & E2 & J1 & J2 & J3 & J4).
    + lia.
    + cbn. split; auto. split; [apply HPr; lia|]. split; auto. intros; lia.
    + intros i (p & s1) Hi (J1 & J2 & J3 & J4). cbn in *. destruct (Hb i p s1 ltac:(lia) J1 J2) as (p' & s' & E2 & K1 & K2 & K3 & K4).
      exists (p', s'). split; auto. cbn. split; auto. split; auto. split.
      * intros i' Hi'. destruct (Z.eq_dec i' i) as [->|Ne]; auto. apply K4; auto; try lia. apply J3. lia.
      * intros i' Hi' Hn' D. apply K4; auto; lia.
    + rewrite E2. exists s'. split; [reflexivity|]. cbn in J1, J3, J4. split; auto. intros i t' Hi It Hr. apply in_app_iff in It.
      destruct (Z_lt_dec i (blo m nt t)); [|destruct (Z_lt_dec i (blo m nt (t + 1)))].
      2: { apply J3; lia. }
      all: destruct It as [It | [<- | []]]; try lia; (apply J4; [lia | lia |]; now apply (I2 i t')).
  - exists s. split; auto. split; auto. intros i Hi. destruct (row_block m nt team i Hm Hn HP Hi) as (t & It & Hr). eauto.
Qed.

(** ** Rows as lists *)
Section R.
  Context {T : Type} (d : T).
  Definition rowl (s e : Z) (ind : list Z) (val : list T) : list (Z * T) := map (fun k => (zn ind k, nthZ d val k)) (zrange s e).

  Lemma zlen_rowl : forall s e ind val, s <= e -> zlen (rowl s e ind val) = e - s.
  Proof. intros. unfold rowl. rewrite zlen_map, zlen_zrange; lia. Qed.
  Lemma rowl_nil : forall s e ind val, e <= s -> rowl s e ind val = [].
  Proof. intros. unfold rowl. now rewrite zrange_nil. Qed.
  Lemma rowl_ext : forall s e ind val ind' val', (forall k, s <= k < e -> zn ind' k = zn ind k /\ nthZ d val' k = nthZ d val k) ->
    rowl s e ind' val' = rowl s e ind val.
  Proof. intros. unfold rowl. apply map_ext_in. intros k Hk. apply in_zrange in Hk. destruct (H k Hk) as (-> & ->). reflexivity. Qed.
  Lemma rowl_push : forall s e ind val c v, 0 <= s <= e -> e < zlen ind -> e < zlen val ->
    rowl s (e + 1) (upd ind e c) (upd val e v) = rowl s e ind val ++ [(c, v)].
  Proof.
    intros s e ind val c v Hs Hi Hv. unfold rowl. rewrite zrange_last by lia. rewrite map_app. cbn. f_equal.
    - apply map_ext_in. intros k Hk. apply in_zrange in Hk. rewrite !nthZ_upd by lia. destruct (Z.eqb_spec k e); [lia|reflexivity].
    - rewrite !nthZ_upd by lia. rewrite Z.eqb_refl. reflexivity.
  Qed.
  Lemma rowl_nth : forall s e ind val p d', 0 <= p < e - s -> nthZ d' (rowl s e ind val) p = (zn ind (s + p), nthZ d val (s + p)).
  Proof.
    intros. unfold rowl. rewrite (nthZ_map _ _ _ 0) by (rewrite zlen_zrange; lia). rewrite nthZ_zrange by lia. reflexivity.
  Qed.
  Lemma rowl_set : forall s e ind val q v, 0 <= s -> 0 <= q < e - s -> e <= zlen val ->
    rowl s e ind (upd val (s + q) v) = upd (rowl s e ind val) q (zn ind (s + q), v).
  Proof.
    intros s e ind val q v Hs Hq Hv. apply (nthZ_ext _ (0, d)).
    - rewrite zlen_upd, !zlen_rowl by lia. reflexivity.
    - intros p Hp. rewrite zlen_rowl in Hp by lia. rewrite rowl_nth by lia. rewrite (nthZ_upd _ (0, d) (rowl s e ind val)) by (rewrite ?zlen_rowl by lia; lia).
      rewrite nthZ_upd by lia. destruct (Z.eqb_spec p q) as [->|].
      + rewrite Z.eqb_refl. reflexivity.
      + rewrite rowl_nth by lia. destruct (Z.eqb_spec (s + p) (s + q)); [lia|reflexivity].
  Qed.

  (** Row [i] of a CSR matrix. *)
  Definition crow (b : Z) (ptr ind : list Z) (val : list T) (i : Z) : list (Z * T) := rowl (zn ptr i - b) (zn ptr (i + 1) - b) ind val.
End R.

Section M.
  Context {T : Type} (O : ops T) (L : laws O).

  (** The entries of a row list in column [c], added up. *)
  Definition colsum (c : Z) (l : list (Z * T)) : T := suml O (fun p => if fst p =? c then snd p else o0 O) l.

  Lemma colsum_app : forall c l l', colsum c (l ++ l') = oadd O (colsum c l) (colsum c l').
  Proof. intros. unfold colsum. apply (suml_app O L). Qed.
  Lemma colsum_nil : forall c, colsum c [] = o0 O. Proof. reflexivity. Qed.
  Lemma colsum_out : forall c l, (forall p, In p l -> fst p <> c) -> colsum c l = o0 O.
  Proof. intros c l H. unfold colsum. apply (suml_zero O L). intros p Hp. specialize (H p Hp). destruct (Z.eqb_spec (fst p) c); [contradiction|reflexivity]. Qed.

  Lemma csr_mat_colsum : forall m n nnz b ptr ind val i j, csr_wf m n nnz b ptr ind -> zlen val = nnz -> 0 <= i < m ->
    csr_mat O b ptr ind val i j = colsum (j + b) (crow (o0 O) b ptr ind val i).
  Proof.
    intros m n nnz b ptr ind val i j W Lv Hi. unfold csr_mat, ents, colsum, crow, rowl. rewrite (suml_flat_map O L), (suml_map O).
    apply (suml_ext O). intros k Hk. apply in_zrange in Hk. assert (B : 0 <= k < nnz) by (eapply in_row_range; eauto using wf_ptr).
    cbn. destruct (zn ind k =? j + b); [|reflexivity]. rewrite (rd_nthZ _ (o0 O)) by lia. cbn.
    pose proof (l_ring L) as RT. rewrite (Radd_comm RT). apply (Radd_0_l RT).
  Qed.
End M.

(** The first [n] elements of an array. *)
Definition cut {A} (n : Z) (l : list A) : list A := firstn (Z.to_nat n) l.
Lemma zlen_cut : forall A n (l : list A), 0 <= n <= zlen l -> zlen (cut n l) = n.
Proof. intros A n l H. unfold cut, zlen in *. rewrite firstn_length. lia. Qed.
Lemma nthZ_cut : forall A (d : A) n l i, 0 <= i < n -> nthZ d (cut n l) i = nthZ d l i.
Proof.
  intros A d n l i H. unfold cut, nthZ. assert (G : (Z.to_nat i < Z.to_nat n)%nat) by lia. revert G. generalize (Z.to_nat i) (Z.to_nat n). clear. intros a k. revert a l.
  induction k as [|k IH]; intros a l G; [lia|]. destruct l; [destruct a; reflexivity|]. destruct a; cbn; auto. apply IH. lia.
Qed.

(** ** Matrices built row by row *)
Section B.
  Context {T : Type} (O : ops T) (L : laws O).
  Variables (M N b : Z) (R : Z -> list (Z * T)).
  Hypothesis HM : 0 <= M.

  (** Where row [i] starts. *)
  Definition offs (i : Z) : Z := sumz Zops 0 i (fun k => zlen (R k)).
  Lemma offs_0 : offs 0 = 0. Proof. reflexivity. Qed.
  Lemma offs_S : forall i, 0 <= i -> offs (i + 1) = offs i + zlen (R i).
  Proof. intros. unfold offs. rewrite (sumz_last Zops Zlaws) by lia. reflexivity. Qed.
  Lemma offs_mono : forall i j, 0 <= i <= j -> 0 <= offs i <= offs j.
  Proof.
    intros i j H. assert (G : forall n a, 0 <= a -> offs a <= offs (a + Z.of_nat n)).
    { induction n as [|n IH]; intros a Ha; [rewrite Z.add_0_r; lia|]. replace (a + Z.of_nat (S n)) with (a + Z.of_nat n + 1) by lia.
      rewrite offs_S by lia. pose proof (IH a Ha). pose proof (zlen_nonneg _ (R (a + Z.of_nat n))). lia. }
    split.
    - pose proof (G (Z.to_nat i) 0 ltac:(lia)). rewrite offs_0 in H0. replace (0 + Z.of_nat (Z.to_nat i)) with i in H0 by lia. lia.
    - pose proof (G (Z.to_nat (j - i)) i ltac:(lia)). replace (i + Z.of_nat (Z.to_nat (j - i))) with j in H0 by lia. lia.
  Qed.

  Definition built (ptr ind : list Z) (val : list T) : Prop :=
    zlen ptr = M + 1 /\ (forall i, 0 <= i <= M -> zn ptr i = b + offs i) /\ offs M <= zlen ind /\ offs M <= zlen val /\
    (forall i, 0 <= i < M -> rowl (o0 O) (offs i) (offs (i + 1)) ind val = R i).

  Variables (ptr ind : list Z) (val : list T).
  Hypothesis HB : built ptr ind val.

  Lemma built_arrays : rowl (o0 O) 0 (offs M) ind val = flat_map R (zrange 0 M).
  Proof.
    destruct HB as (H1 & H2 & H3 & H4 & H5).
    assert (G : forall n : nat, Z.of_nat n <= M -> rowl (o0 O) 0 (offs (Z.of_nat n)) ind val = flat_map R (zrange 0 (Z.of_nat n))).
    { induction n as [|n IH]; intros Hn; [reflexivity|]. replace (Z.of_nat (S n)) with (Z.of_nat n + 1) by lia. rewrite zrange_last by lia. rewrite flat_map_app.
      rewrite <- IH by lia. cbn [flat_map]. rewrite app_nil_r. rewrite <- H5 by lia. pose proof (offs_mono 0 (Z.of_nat n)). pose proof (offs_mono (Z.of_nat n) (Z.of_nat n + 1)).
      unfold rowl. rewrite <- map_app, <- zrange_app by lia. reflexivity. }
    replace M with (Z.of_nat (Z.to_nat M)) by lia. apply G. lia.
  Qed.
  Hypothesis HN : 0 <= N.
  Hypothesis HC : forall i p, 0 <= i < M -> In p (R i) -> b <= fst p < b + N.
  Lemma offs_row : forall k, 0 <= k < offs M -> exists i, 0 <= i < M /\ offs i <= k < offs (i + 1).
  Proof.
    intros k Hk. assert (G : forall n : nat, Z.of_nat n <= M -> k < offs (Z.of_nat n) -> exists i, 0 <= i < M /\ offs i <= k < offs (i + 1)).
    { induction n as [|n IH]; intros Hn Hk'; [change (offs (Z.of_nat 0)) with 0 in Hk'; lia|].
      destruct (Z_lt_dec k (offs (Z.of_nat n))); [apply IH; lia|]. exists (Z.of_nat n). replace (Z.of_nat n + 1) with (Z.of_nat (S n)) by lia. lia. }
    apply (G (Z.to_nat M)); [lia|]. replace (Z.of_nat (Z.to_nat M)) with M by lia. lia.
  Qed.
  Lemma built_wf : csr_wf M N (offs M) b ptr (cut (offs M) ind) /\ zlen (cut (offs M) val) = offs M.
  Proof.
    destruct HB as (H1 & H2 & H3 & H4 & H5). pose proof (offs_mono 0 M ltac:(lia)) as OM. split; [|apply zlen_cut; lia]. constructor; try lia.
    - split; auto. apply zlen_cut; lia.
    - split; [rewrite H2 by lia; rewrite offs_0; lia|]. split; [now rewrite H2 by lia|]. intros i Hi. rewrite !H2 by lia. pose proof (offs_mono i (i + 1)). lia.
    - intros k Hk. rewrite nthZ_cut by lia. destruct (offs_row k Hk) as (i & Hi & Hr). specialize (H5 i Hi).
      assert (I : In (zn ind k, nthZ (o0 O) val k) (R i)).
      { rewrite <- H5. unfold rowl. apply (in_map (fun k => (zn ind k, nthZ (o0 O) val k))). now apply in_zrange. }
      exact (HC i _ Hi I).
  Qed.
  Lemma built_row : forall i, 0 <= i < M -> crow (o0 O) b ptr (cut (offs M) ind) (cut (offs M) val) i = R i.
  Proof.
    intros i Hi. destruct HB as (H1 & H2 & H3 & H4 & H5). rewrite <- (H5 i Hi). unfold crow. rewrite !H2 by lia.
    replace (b + offs i - b) with (offs i) by lia. replace (b + offs (i + 1) - b) with (offs (i + 1)) by lia. apply rowl_ext. intros k Hk.
    pose proof (offs_mono 0 i). pose proof (offs_mono (i + 1) M). rewrite !nthZ_cut by lia. auto.
  Qed.
  Lemma built_mat : forall i j, 0 <= i < M -> csr_mat O b ptr (cut (offs M) ind) (cut (offs M) val) i j = colsum O (j + b) (R i).
  Proof.
    intros i j Hi. destruct built_wf as (W & Lv). rewrite (csr_mat_colsum O L M N (offs M)) by auto. rewrite built_row by auto. reflexivity.
  Qed.
End B.

Lemma cut_fst : forall T (d : T) n ind val, 0 <= n <= zlen ind -> cut n ind = map fst (rowl d 0 n ind val).
Proof.
  intros T d n ind val H. apply (nthZ_ext _ 0).
  - rewrite zlen_cut, zlen_map, zlen_rowl by lia. lia.
  - intros i Hi. rewrite zlen_cut in Hi by lia. rewrite nthZ_cut by lia. rewrite (nthZ_map _ _ _ (0, d)) by (rewrite zlen_rowl; lia). rewrite rowl_nth by lia. reflexivity.
Qed.
Lemma cut_snd : forall T (d : T) n ind val, 0 <= n <= zlen val -> cut n val = map snd (rowl d 0 n ind val).
Proof.
  intros T d n ind val H. apply (nthZ_ext _ d).
  - rewrite zlen_cut, zlen_map, zlen_rowl by lia. lia.
  - intros i Hi. rewrite zlen_cut in Hi by lia. rewrite nthZ_cut by lia. rewrite (nthZ_map _ _ _ (0, d)) by (rewrite zlen_rowl; lia). rewrite rowl_nth by lia. reflexivity.
Qed.
Lemma built_unique : forall T (O : ops T) M b R ptr ind val ptr' ind' val', 0 <= M -> built O M b R ptr ind val -> built O M b R ptr' ind' val' ->
  ptr = ptr' /\ cut (offs R M) ind = cut (offs R M) ind' /\ cut (offs R M) val = cut (offs R M) val'.
Proof.
  intros T O M b R ptr ind val ptr' ind' val' HM B B'. pose proof (built_arrays O M b R HM _ _ _ B) as A. pose proof (built_arrays O M b R HM _ _ _ B') as A'.
  destruct B as (H1 & H2 & H3 & H4 & H5). destruct B' as (H1' & H2' & H3' & H4' & H5').
  pose proof (offs_mono R 0 M ltac:(lia)). split.
  - apply (nthZ_ext _ 0); [lia|]. intros i Hi. rewrite H2, H2' by lia. reflexivity.
  - rewrite (cut_fst _ (o0 O) _ ind val), (cut_fst _ (o0 O) _ ind' val'), (cut_snd _ (o0 O) _ ind val), (cut_snd _ (o0 O) _ ind' val') by lia. rewrite A, A'. auto.
Qed.
