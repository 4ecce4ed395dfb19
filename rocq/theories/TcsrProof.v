(** Creation, products and solves of TCSR matrices. *)
From Coq Require Import ZArith List Bool Lia ZifyBool Ring.
From Verif Require Import Base BaseFacts Algebra Vec UtilModel UtilProof DoidModel DoidSpec DoidProof Csr CsrFacts CheckModel CheckSpec CheckProof SortSpec
  MvModel MvSpec MvFacts MvProof MvSymProof MvVecProof MvKtProof MvPubProof CsrmvModel CsrmvProof HandleModel HandleSpec
  TrsvModel TrsvSpec TrsvProof TrsvKernProof TrsvHandleProof TcsrModel TcsrSpec.
Import ListNotations.
Open Scope Z_scope.

(** ** The halves in terms of the validation verdict *)
Lemma nthZ_tl : forall A (d : A) l i, 0 <= i -> nthZ d (tl l) i = nthZ d l (i + 1).
Proof.
  intros A d l i Hi. unfold nthZ. destruct l as [|a l]; cbn [tl].
  - destruct (Z.to_nat i), (Z.to_nat (i + 1)); reflexivity.
  - replace (Z.to_nat (i + 1)) with (S (Z.to_nat i)) by lia. reflexivity.
Qed.
Lemma zlen_tl : forall A (l : list A), 0 < zlen l -> zlen (tl l) = zlen l - 1.
Proof. intros A [|a l] H; unfold zlen in *; cbn [tl length] in *; lia. Qed.
Lemma nthZ_first : forall m l i, 0 <= i < m -> zn (first_rows m l) i = zn l i.
Proof.
  intros m l i Hi. unfold nthZ, first_rows. rewrite <- (firstn_skipn (Z.to_nat m) l) at 2.
  destruct (Nat.lt_ge_cases (Z.to_nat i) (length (firstn (Z.to_nat m) l))) as [H|H].
  - rewrite app_nth1 by lia. reflexivity.
  - rewrite (nth_overflow (firstn _ _)) by lia. rewrite firstn_length in H.
    rewrite firstn_skipn. rewrite nth_overflow by lia. reflexivity.
Qed.
Lemma zlen_first : forall m (l : list Z), 0 <= m -> zlen l = m + 1 -> zlen (first_rows m l) = m.
Proof. intros m l Hm H. unfold zlen, first_rows in *. rewrite firstn_length. lia. Qed.

Section Halves.
  Variables (m nz b : Z) (ptr ind : list Z).
  Hypothesis Hm : 0 <= m.
  Hypothesis Hp : zlen ptr = m + 1.
  Hypothesis Hi : zlen ind = nz.

  Lemma lower_half_iff :
    lower_half m nz b ptr ind <->
    structure_ok shape_lower_triangle m m nz b ptr ind /\ rows_grouped m b ptr ind /\ full_diag m m b ptr ind.
  Proof.
    split.
    - intros (P & H). split; [|split].
      + split; [exact P|]. split.
        * intros k (i & Hi' & Hr & Hn). apply Hn. destruct (H i Hi') as (H1 & H2 & H3). unfold in_row in Hr. cbn.
          destruct (Z.eq_dec k (zn ptr (i + 1) - b - 1)) as [->|Hne]; [lia|]. specialize (H3 k ltac:(lia)). lia.
        * intros k (i & k' & Hi' & Hr & Hr' & Hlt & E & E'). destruct (H i Hi') as (H1 & H2 & H3). unfold in_row in *.
          specialize (H3 k' ltac:(lia)). lia.
      + intros i k k' Hi' Hr Hr' Hlt. destruct (H i Hi') as (H1 & H2 & H3). unfold in_row in *. specialize (H3 k ltac:(lia)). lia.
      + intros i Hi' _. destruct (H i Hi') as (H1 & H2 & H3). exists (zn ptr (i + 1) - b - 1). unfold in_row. lia.
    - intros ((P & B & D) & G & F). split; [exact P|]. intros i Hi'. destruct (F i Hi' ltac:(lia)) as (kd & Hr & E).
      assert (C : forall k, in_row ptr b i k -> b <= zn ind k <= i + b).
      { intros k Hk. destruct (Z_le_gt_dec b (zn ind k)), (Z_le_gt_dec (zn ind k) (i + b)); try lia; exfalso; apply (B k); exists i; (split; [auto|split; [auto|]]); cbn; lia. }
      assert (Last : kd = zn ptr (i + 1) - b - 1).
      { destruct (Z.eq_dec kd (zn ptr (i + 1) - b - 1)); auto. exfalso. unfold in_row in Hr.
        assert (Hr2 : in_row ptr b i (zn ptr (i + 1) - b - 1)) by (unfold in_row; lia).
        destruct (G i kd _ Hi' Hr Hr2 ltac:(lia)) as [_ G2]. specialize (G2 E). specialize (C _ Hr2).
        apply (D (zn ptr (i + 1) - b - 1)). exists i, kd. repeat (split; [auto; lia|]). lia. }
      unfold in_row in Hr. split; [lia|]. split; [congruence|]. intros k Hk.
      assert (Hk2 : in_row ptr b i k) by (unfold in_row; lia). specialize (C k Hk2). split; [lia|].
      destruct (Z.eq_dec (zn ind k) (i + b)) as [E2|]; [|lia]. exfalso. apply (D kd). exists i, k. unfold in_row. repeat (split; [auto; lia|]). lia.
  Qed.

  Lemma upper_half_iff :
    upper_half m nz b ptr ind <->
    structure_ok shape_upper_triangle m m nz b ptr ind /\ rows_grouped m b ptr ind /\ full_diag m m b ptr ind.
  Proof.
    split.
    - intros (P & H). split; [|split].
      + split; [exact P|]. split.
        * intros k (i & Hi' & Hr & Hn). apply Hn. destruct (H i Hi') as (H1 & H2 & H3). unfold in_row in Hr. cbn.
          destruct (Z.eq_dec k (zn ptr i - b)) as [->|Hne]; [lia|]. specialize (H3 k ltac:(lia)). lia.
        * intros k (i & k' & Hi' & Hr & Hr' & Hlt & E & E'). destruct (H i Hi') as (H1 & H2 & H3). unfold in_row in *.
          specialize (H3 k ltac:(lia)). lia.
      + intros i k k' Hi' Hr Hr' Hlt. destruct (H i Hi') as (H1 & H2 & H3). unfold in_row in *. specialize (H3 k' ltac:(lia)). lia.
      + intros i Hi' _. destruct (H i Hi') as (H1 & H2 & H3). exists (zn ptr i - b). unfold in_row. lia.
    - intros ((P & B & D) & G & F). split; [exact P|]. intros i Hi'. destruct (F i Hi' ltac:(lia)) as (kd & Hr & E).
      assert (C : forall k, in_row ptr b i k -> i + b <= zn ind k < m + b).
      { intros k Hk. destruct (Z_le_gt_dec (i + b) (zn ind k)), (Z_lt_ge_dec (zn ind k) (m + b)); try lia; exfalso; apply (B k); exists i; (split; [auto|split; [auto|]]); cbn; lia. }
      assert (First : kd = zn ptr i - b).
      { destruct (Z.eq_dec kd (zn ptr i - b)); auto. exfalso. unfold in_row in Hr.
        assert (Hr2 : in_row ptr b i (zn ptr i - b)) by (unfold in_row; lia).
        destruct (G i _ kd Hi' Hr2 Hr ltac:(lia)) as [G1 _]. specialize (C _ Hr2).
        apply (D kd). exists i, (zn ptr i - b). repeat (split; [auto; lia|]). lia. }
      unfold in_row in Hr. split; [lia|]. split; [congruence|]. intros k Hk.
      assert (Hk2 : in_row ptr b i k) by (unfold in_row; lia). specialize (C k Hk2). split; [|lia].
      destruct (Z.eq_dec (zn ind k) (i + b)) as [E2|]; [|lia]. exfalso. apply (D k). exists i, kd. unfold in_row. repeat (split; [auto; lia|]). lia.
  Qed.

  Lemma half_ptr : (lower_half m nz b ptr ind \/ upper_half m nz b ptr ind) -> m <= nz.
  Proof.
    intros H. assert (P : ptr_ok m nz b ptr /\ forall i, 0 <= i < m -> zn ptr i < zn ptr (i + 1)).
    { destruct H as [(P & H)|(P & H)]; (split; [exact P|]; intros i Hi'; apply H; auto). }
    destruct P as ((P0 & P1 & _) & S). clear H.
    assert (G : forall k, 0 <= k -> k <= m -> b + k <= zn ptr k).
    { intros k Hk. pattern k. apply natlike_ind; auto; [lia|]. intros q Hq IH Hle. rewrite <- Z.add_1_r. specialize (S q ltac:(lia)). lia. }
    specialize (G m Hm ltac:(lia)). lia.
  Qed.

  Lemma lower_ready : forall idiag, lower_half m nz b ptr ind -> zlen idiag = m ->
    (forall i, 0 <= i < m -> zn idiag i = zn ptr (i + 1) - 1) ->
    tri_ready m m nz b ptr ind idiag (tl ptr) /\ full_diag m m b ptr ind.
  Proof.
    intros idiag H Ld E. pose proof (half_ptr (or_introl H)) as Hnz. pose proof H as (P & HH). pose proof (proj1 lower_half_iff H) as (_ & _ & F).
    split; [|exact F]. constructor.
    - constructor; auto; try lia; [split; auto|]. intros k Hk.
      destruct (row_of m nz b ptr Hm P k Hk) as (i & Hi' & Hr). destruct (HH i Hi') as (H1 & H2 & H3). unfold in_row in Hr.
      destruct (Z.eq_dec k (zn ptr (i + 1) - b - 1)) as [->|Hne]; [lia|]. specialize (H3 k ltac:(lia)). lia.
    - intros i k k' Hi' Hr Hr' E1 E2. destruct (HH i Hi') as (H1 & H2 & H3). unfold in_row in *.
      destruct (Z.eq_dec k (zn ptr (i + 1) - b - 1)) as [->|N1]; [|specialize (H3 k ltac:(lia)); lia].
      destruct (Z.eq_dec k' (zn ptr (i + 1) - b - 1)) as [->|N2]; [|specialize (H3 k' ltac:(lia)); lia]. reflexivity.
    - exact Ld.
    - rewrite zlen_tl; lia.
    - intros i Hi'. destruct (HH i Hi') as (H1 & H2 & H3). unfold splits_row. rewrite E, nthZ_tl by lia. split; [lia|]. split; [lia|].
      intros k Hr. unfold in_row in Hr. destruct (Z.eq_dec k (zn ptr (i + 1) - b - 1)) as [->|N1].
      + lia.
      + specialize (H3 k ltac:(lia)). lia.
  Qed.

  Lemma upper_ready : forall iurow, upper_half m nz b ptr ind -> zlen iurow = m ->
    (forall i, 0 <= i < m -> zn iurow i = zn ptr i + 1) ->
    tri_ready m m nz b ptr ind (first_rows m ptr) iurow /\ full_diag m m b ptr ind.
  Proof.
    intros iurow H Ld E. pose proof (half_ptr (or_intror H)) as Hnz. pose proof H as (P & HH). pose proof (proj1 upper_half_iff H) as (_ & _ & F).
    split; [|exact F]. constructor.
    - constructor; auto; try lia; [split; auto|]. intros k Hk.
      destruct (row_of m nz b ptr Hm P k Hk) as (i & Hi' & Hr). destruct (HH i Hi') as (H1 & H2 & H3). unfold in_row in Hr.
      destruct (Z.eq_dec k (zn ptr i - b)) as [->|Hne]; [lia|]. specialize (H3 k ltac:(lia)). lia.
    - intros i k k' Hi' Hr Hr' E1 E2. destruct (HH i Hi') as (H1 & H2 & H3). unfold in_row in *.
      destruct (Z.eq_dec k (zn ptr i - b)) as [->|N1]; [|specialize (H3 k ltac:(lia)); lia].
      destruct (Z.eq_dec k' (zn ptr i - b)) as [->|N2]; [|specialize (H3 k' ltac:(lia)); lia]. reflexivity.
    - apply zlen_first; auto.
    - exact Ld.
    - intros i Hi'. destruct (HH i Hi') as (H1 & H2 & H3). unfold splits_row. rewrite E, nthZ_first by lia. split; [lia|]. split; [lia|].
      intros k Hr. unfold in_row in Hr. destruct (Z.eq_dec k (zn ptr i - b)) as [->|N1].
      + lia.
      + specialize (H3 k ltac:(lia)). lia.
  Qed.
End Halves.

Lemma check_half_ok : forall sh m nz b ptr ind, 0 <= m -> zlen ptr = m + 1 -> (0 <= nz -> zlen ind = nz) ->
  exists r, check_half sh m m nz b ptr ind = Some r /\
    ((exists so, r = inl so) <-> 0 <= nz /\ structure_ok sh m m nz b ptr ind /\ rows_grouped m b ptr ind /\ full_diag m m b ptr ind) /\
    (forall st, r = inr st -> st <> success).
Proof.
  intros sh m nz b ptr ind Hm Hp Hi. unfold check_half.
  destruct (mat_check_spec sh m m nz b ptr ind (fun _ => Hp) Hi) as (st & res & -> & H). cbv zeta in H.
  destruct H as [(-> & Hs & S & so & fd & -> & Sy & Fd)|H].
  - destruct so; cbn [is_unsorted sort_says] in *; try contradiction.
    + destruct fd; cbn [negb]; eexists; (split; [reflexivity|]); (split; [|intros ? E; try discriminate E; inversion E; subst; discriminate]).
      * split; [|eauto]. intros _. split; [lia|]. split; auto. split; [apply rows_sorted_grouped; auto|tauto].
      * split; [intros (? & E); discriminate|]. intros (_ & _ & _ & F). apply Fd in F. discriminate.
    + destruct fd; cbn [negb]; eexists; (split; [reflexivity|]); (split; [|intros ? E; try discriminate E; inversion E; subst; discriminate]).
      * split; [|eauto]. intros _. split; [lia|]. split; auto. split; [apply Sy|tauto].
      * split; [intros (? & E); discriminate|]. intros (_ & _ & _ & F). apply Fd in F. discriminate.
    + eexists; (split; [reflexivity|]); (split; [|intros ? E; inversion E; subst; discriminate]).
      split; [intros (? & E); discriminate|]. tauto.
  - assert (G : st <> success /\ ~ (0 <= nz /\ structure_ok sh m m nz b ptr ind)).
    { unfold structure_ok. destruct H as [(-> & N)|[(-> & N1 & N2)|[(-> & N1 & N2 & k & K & _)|(-> & N1 & N2 & k & K & _)]]]; (split; [discriminate|]).
      - lia.
      - tauto.
      - intros (_ & _ & B & _). apply (B k K).
      - intros (_ & _ & _ & D). apply (D k K). }
    destruct G as [G1 G2].
    exists (inr st). split; [destruct st; try reflexivity; congruence|]. split; [|intros ? E; inversion E; subst; auto].
    split; [intros (? & E); discriminate|]. tauto.
Qed.

Section P.
  Context {T : Type} (O : ops T) (L : laws O).
  Local Notation zero := (o0 O).
  Local Notation tn := (nthZ (o0 O)).
  Local Infix "+!" := (oadd O) (at level 50, left associativity).
  Local Infix "*!" := (omul O) (at level 40, left associativity).
  Let rth := l_ring L.
  Add Ring Tring_tcsr : rth.

  Lemma create_tcsr_ok : forall fz b M N nnz ptrL ptrU indL indU (valL valU : list T),
    (forall z, 0 <= z -> zlen (fz z : list Z) = z) ->
    (0 <= M -> zlen ptrL = M + 1 /\ zlen ptrU = M + 1 /\
       (0 <= zn ptrL M - b -> zlen indL = zn ptrL M - b) /\ (0 <= zn ptrU M - b -> zlen indU = zn ptrU M - b)) ->
    exists st r, create_tcsr fz false b M N nnz (Some ptrL) (Some ptrU) (Some indL) (Some indU) (Some valL) (Some valU) = Some (st, r) /\
      (st = success <-> tcsr_valid b M N nnz ptrL ptrU indL indU) /\
      (st <> success -> r = None) /\
      (st = success -> exists t, r = Some t /\ t_b t = b /\ t_m t = M /\ t_n t = N /\ t_nnz t = nnz /\
         t_ptrL t = ptrL /\ t_ptrU t = ptrU /\ t_indL t = indL /\ t_indU t = indU /\ t_valL t = valL /\ t_valU t = valU /\
         zlen (t_idiag t) = M /\ zlen (t_iurow t) = M /\
         (forall i, 0 <= i < M -> zn (t_idiag t) i = zn ptrL (i + 1) - 1 /\ zn (t_iurow t) i = zn ptrU i + 1) /\
         (t_sort t = fully_sorted \/ t_sort t = partially_sorted)).
  Proof.
    intros fz b M N nnz ptrL ptrU indL indU valL valU Hfz HL. unfold create_tcsr.
    assert (Bad : forall st, st <> success -> ~ tcsr_valid b M N nnz ptrL ptrU indL indU ->
      exists st0 r, Some (st, None) = Some (st0, r) /\ (st0 = success <-> tcsr_valid b M N nnz ptrL ptrU indL indU) /\
      (st0 <> success -> r = None) /\
      (st0 = success -> exists t : tcsr T, r = Some t /\ t_b t = b /\ t_m t = M /\ t_n t = N /\ t_nnz t = nnz /\
         t_ptrL t = ptrL /\ t_ptrU t = ptrU /\ t_indL t = indL /\ t_indU t = indU /\ t_valL t = valL /\ t_valU t = valU /\
         zlen (t_idiag t) = M /\ zlen (t_iurow t) = M /\
         (forall i, 0 <= i < M -> zn (t_idiag t) i = zn ptrL (i + 1) - 1 /\ zn (t_iurow t) i = zn ptrU i + 1) /\
         (t_sort t = fully_sorted \/ t_sort t = partially_sorted))).
    { intros st H1 H2. exists st, None. split; [reflexivity|]. split; [tauto|]. split; [auto|]. intros E. contradiction. }
    destruct (negb ((b =? 1) || (b =? 0))) eqn:Eb.
    { apply Bad; [discriminate|]. intros (Hb & _). lia. }
    destruct ((M <? 0) || (N <? 0) || (nnz <? 0)) eqn:Es.
    { apply Bad; [discriminate|]. intros (_ & HM & EN & H1 & H2 & H3). destruct (HL HM) as (L1 & L2 & L3 & L4).
      pose proof (half_ptr M _ b ptrL indL HM (or_introl H1)). pose proof (half_ptr M _ b ptrU indU HM (or_intror H2)). lia. }
    destruct (negb (M =? N)) eqn:Emn. { apply Bad; [discriminate|]. intros (_ & _ & EN & _). lia. }
    assert (HM : 0 <= M) by lia. assert (N = M) by lia. subst N. destruct (HL HM) as (L1 & L2 & L3 & L4).
    rewrite !(rd_nthZ _ 0) by lia.
    destruct (negb (nnz =? zn ptrL M - b + (zn ptrU M - b) - M)) eqn:En. { apply Bad; [discriminate|]. unfold tcsr_valid. lia. }
    destruct (check_half_ok shape_lower_triangle M _ b ptrL indL HM L1 L3) as (rl & -> & IL & FL).
    destruct rl as [sl|st].
    2:{ apply Bad; [auto|]. intros (_ & _ & _ & H1 & _). apply (lower_half_iff M _ b ptrL indL) in H1; auto.
        assert (exists so : msort, @inr msort status st = inl so) as (? & ?); [apply IL|discriminate]. split; [|tauto]. destruct H1 as ((P & _) & _).
        pose proof (ptr_mono _ _ _ _ P 0 M ltac:(lia) HM ltac:(lia)). destruct P as (P0 & _). lia. }
    destruct (check_half_ok shape_upper_triangle M _ b ptrU indU HM L2 L4) as (ru & -> & IU & FU).
    destruct ru as [su|st].
    2:{ apply Bad; [auto|]. intros (_ & _ & _ & _ & H1 & _). apply (upper_half_iff M _ b ptrU indU) in H1; auto.
        assert (exists so : msort, @inr msort status st = inl so) as (? & ?); [apply IU|discriminate]. split; [|tauto]. destruct H1 as ((P & _) & _).
        pose proof (ptr_mono _ _ _ _ P 0 M ltac:(lia) HM ltac:(lia)). destruct P as (P0 & _). lia. }
    match goal with |- context [for_ 0 M ?f ?s] =>
      destruct (for_inv _ (fun i st => zlen (fst st) = M /\ zlen (snd st) = M /\
        forall k, 0 <= k < i -> zn (fst st) k = zn ptrL (k + 1) - 1 /\ zn (snd st) k = zn ptrU k + 1) 0 M f s HM) as ((idiag & iurow) & -> & R) end.
    - cbn [fst snd]. split; [apply Hfz; auto|]. split; [apply Hfz; auto|]. intros; lia.
    - intros i (p & q) Hi (R1 & R2 & R3). cbn [fst snd] in *. rewrite (rd_nthZ _ 0 ptrL) by lia. rewrite wr_upd by lia.
      rewrite (rd_nthZ _ 0 ptrU) by lia. rewrite wr_upd by lia. eexists; split; [reflexivity|]. cbn [fst snd]. rewrite !zlen_upd.
      split; [auto|]. split; [auto|]. intros k Hk. rewrite !nthZ_upd by lia. destruct (Z.eqb_spec k i) as [->|]; [auto|apply R3; lia].
    - cbn [fst snd] in R. destruct R as (R1 & R2 & R3). eexists _, _. split; [reflexivity|]. split; [|split; [congruence|]].
      + split; auto. intros _. destruct (proj1 IL (ex_intro _ sl eq_refl)) as (_ & S1 & S2 & S3). destruct (proj1 IU (ex_intro _ su eq_refl)) as (_ & U1 & U2 & U3).
        unfold tcsr_valid. rewrite lower_half_iff, upper_half_iff by auto. repeat (split; [auto; lia|]). lia.
      + intros _. eexists. split; [reflexivity|]. cbn [t_b t_m t_n t_nnz t_ptrL t_ptrU t_indL t_indU t_valL t_valU t_idiag t_iurow t_sort].
        repeat (split; [auto|]). destruct sl, su; auto.
  Qed.

  (** ** Products *)
  Section Mv.
    Variable t : tcsr T.
    Hypothesis OK : tcsr_ok t.
    Let m := t_m t.
    Let b := t_b t.

    Lemma low_ready : tri_ready m m (zn (t_ptrL t) m - b) b (t_ptrL t) (t_indL t) (t_idiag t) (tl (t_ptrL t)) /\ full_diag m m b (t_ptrL t) (t_indL t).
    Proof.
      destruct OK as ((_ & HM & _ & H1 & _) & (L1 & _ & L3 & _) & L5 & _ & HD). apply lower_ready; auto. intros i Hi. apply HD; auto.
    Qed.
    Lemma upp_ready : tri_ready m m (zn (t_ptrU t) m - b) b (t_ptrU t) (t_indU t) (first_rows m (t_ptrU t)) (t_iurow t) /\ full_diag m m b (t_ptrU t) (t_indU t).
    Proof.
      destruct OK as ((_ & HM & _ & _ & H1 & _) & (_ & L1 & _ & _ & L3 & _) & _ & L5 & HD). apply upper_ready; auto. intros i Hi. apply HD; auto.
    Qed.

    Variable A : Z -> Z -> T.
    Hypothesis DA : denotes O t A.

    Lemma tcsr_row_ok : forall x i, zlen x = m -> 0 <= i < m ->
      tcsr_row O b (t_valL t) (t_valU t) (t_indL t) (t_indU t) (t_ptrL t) (t_ptrU t) x i =
      Some (sumz O 0 m (fun j => A i j *! tn x j)).
    Proof.
      intros x i Lx Hi. destruct low_ready as [RL _]. destruct upp_ready as [RU _].
      destruct OK as (VAL & (L1 & L2 & L3 & L4 & L5 & L6) & _). fold m b in L1, L2, L3, L4, L5, L6.
      destruct VAL as (_ & HM & _ & (_ & H1) & (_ & H2) & _). fold m b in HM, H1, H2.
      pose proof (tr_wf _ _ _ _ _ _ _ _ RL) as WL. pose proof (tr_wf _ _ _ _ _ _ _ _ RU) as WU.
      destruct (row_bounds _ _ _ _ _ _ i WL Hi) as (_ & _ & BL1 & BL2 & BL3).
      destruct (row_bounds _ _ _ _ _ _ i WU Hi) as (_ & _ & BU1 & BU2 & BU3).
      destruct (H1 i Hi) as (HL1 & HL2 & HL3). destruct (H2 i Hi) as (HU1 & HU2 & HU3).
      assert (CL : forall k, zn (t_ptrL t) i - b <= k < zn (t_ptrL t) (i + 1) - b -> 0 <= zn (t_indL t) k - b < zlen x).
      { intros k Hk. pose proof (wf_ind _ _ _ _ _ _ WL k ltac:(lia)). lia. }
      assert (CU : forall k, zn (t_ptrU t) i - b <= k < zn (t_ptrU t) (i + 1) - b -> 0 <= zn (t_indU t) k - b < zlen x).
      { intros k Hk. pose proof (wf_ind _ _ _ _ _ _ WU k ltac:(lia)). lia. }
      unfold tcsr_row. rewrite !(rd_nthZ _ 0) by lia.
      set (sL := zn (t_ptrL t) i) in *. set (eL := zn (t_ptrL t) (i + 1)) in *. set (sU := zn (t_ptrU t) i) in *. set (eU := zn (t_ptrU t) (i + 1)) in *.
      rewrite !Z.quot_div_nonneg, !Z.rem_mod_nonneg by lia.
      pose proof (Z.mod_pos_bound (eL - sL) 4 ltac:(lia)) as ML. pose proof (Z.div_mod (eL - sL) 4 ltac:(lia)) as DL.
      pose proof (Z.mod_pos_bound (eU - (sU + 1)) 4 ltac:(lia)) as MU. pose proof (Z.div_mod (eU - (sU + 1)) 4 ltac:(lia)) as DU.
      set (rL := (eL - sL) mod 4) in *. set (qL := (eL - sL) / 4) in *. set (rU := (eU - (sU + 1)) mod 4) in *. set (qU := (eU - (sU + 1)) / 4) in *.
      assert (AL : (eL - rL - sL) mod 4 = 0) by (replace (eL - rL - sL) with (qL * 4) by lia; apply Z.mod_mul; lia).
      assert (AU : (eU - rU - (sU + 1)) mod 4 = 0) by (replace (eU - rU - (sU + 1)) with (qU * 4) by lia; apply Z.mod_mul; lia).
      assert (QL : 0 <= qL) by (apply Z.div_pos; lia). assert (QU : 0 <= qU) by (apply Z.div_pos; lia). clearbody rL qL rU qU.
      destruct (vec_loop_ok O L 4 b sL (eL - rL) (t_valL t) (t_indL t) x (zrep 4 zero)) as (v1 & -> & N1 & E1); try lia; auto.
      { intros q Hq. apply CL. lia. }
      rewrite (dot_row_ok O L) by (lia || (intros q Hq; apply CL; lia)).
      destruct (vec_loop_ok O L 4 b (sU + 1) (eU - rU) (t_valU t) (t_indU t) x v1) as (v2 & -> & N2 & E2); try lia; auto.
      { intros q Hq. apply CU. lia. }
      rewrite (dot_row_ok O L) by (lia || (intros q Hq; apply CU; lia)). f_equal.
      rewrite (hsum4_ok O L v2) by exact N2. rewrite E2, E1.
      assert (Z4 : suml O (fun v => v) (zrep 4 zero) = zero) by apply (total_zrep O L).
      rewrite Z4.
      set (fL := fun k => tn (t_valL t) k *! tn x (zn (t_indL t) k - b)) in *. set (fU := fun k => tn (t_valU t) k *! tn x (zn (t_indU t) k - b)) in *.
      assert (SL : sumz O (sL - b) (eL - b) fL = sumz O 0 m (fun j => if j <=? i then A i j *! tn x j else zero)).
      { unfold fL. rewrite (row_sum_cols O L m m _ b (t_ptrL t) (t_indL t) (t_valL t) i (sL - b) (eL - b) (fun j => j <=? i) (fun v => v) (fun j => tn x j) WL L4 Hi (additive_id O)); try lia.
        - apply sumz_ext. intros j Hj. destruct (j <=? i) eqn:Ej; auto. f_equal. rewrite DA by (fold m; lia). rewrite Ej. reflexivity.
        - intros k Hk. unfold in_row in Hk. fold sL eL in Hk. split; [|lia]. intros _. destruct (Z.eq_dec k (eL - b - 1)) as [->|]; [lia|]. specialize (HL3 k ltac:(lia)). lia. }
      assert (SU : sumz O (sU + 1 - b) (eU - b) fU = sumz O 0 m (fun j => if i <? j then A i j *! tn x j else zero)).
      { unfold fU. rewrite (row_sum_cols O L m m _ b (t_ptrU t) (t_indU t) (t_valU t) i (sU + 1 - b) (eU - b) (fun j => i <? j) (fun v => v) (fun j => tn x j) WU L6 Hi (additive_id O)); try lia.
        - apply sumz_ext. intros j Hj. destruct (i <? j) eqn:Ej; auto. f_equal. rewrite DA by (fold m; lia). replace (j <=? i) with false by lia. reflexivity.
        - intros k Hk. unfold in_row in Hk. fold sU eU in Hk. split.
          + intros Hk2. specialize (HU3 k ltac:(lia)). lia.
          + intros Hk2. destruct (Z.eq_dec k (sU - b)) as [->|]; lia. }
      transitivity (sumz O (sL - b) (eL - b) fL +! sumz O (sU + 1 - b) (eU - b) fU).
      - rewrite (sumz_split O L (sL - b) (eL - rL - b) (eL - b)) by lia. rewrite (sumz_split O L (sU + 1 - b) (eU - rU - b) (eU - b)) by lia.
        destruct (negb (qL =? 0) || negb (qU =? 0)) eqn:Eq.
        + ring.
        + assert (qL = 0) by lia. assert (qU = 0) by lia. rewrite (sumz_nil O (sL - b)) by lia. rewrite (sumz_nil O (sU + 1 - b)) by lia. ring.
      - rewrite SL, SU, <- (sumz_add O L). apply sumz_ext. intros j Hj.
        destruct (Z.leb_spec j i), (Z.ltb_spec i j); try lia; ring.
    Qed.

    Lemma dtcsrmv_ok : forall alpha beta x y, zlen x = m -> zlen y = m ->
      exists y', dtcsrmv_avx2 O b alpha m (t_valL t) (t_valU t) (t_indL t) (t_indU t) (t_ptrL t) (t_ptrU t) x beta y = Some y' /\
        mv_spec O m m alpha beta A x y y'.
    Proof.
      intros alpha beta x y Lx Ly. assert (Hm : 0 <= m) by (subst m; apply OK). unfold dtcsrmv_avx2.
      match goal with |- context [for_ 0 m ?f y] =>
        destruct (rows_set O m (fun i yi => alpha *! sumz O 0 m (fun j => A i j *! tn x j) +! beta *! yi) f y Hm Ly) as (y' & E & L' & P) end.
      - intros i v Hi Lv. rewrite tcsr_row_ok by auto. cbv zeta. destruct (oeqb O beta zero) eqn:Eb; cbn [negb].
        + apply (l_eqb L) in Eb. subst beta. rewrite wr_upd by lia. do 2 f_equal. ring.
        + rewrite (rd_nthZ _ zero) by lia. rewrite wr_upd by lia. reflexivity.
      - exists y'. split; [exact E|]. split; [exact L'|]. intros i Hi. apply P; auto.
    Qed.

    (** Each half as the described triangle of [A]. *)
    Lemma low_described : forall ty dg i j, ty = mt_triangular \/ ty = mt_symmetric -> 0 <= i < m -> 0 <= j < m ->
      described O ty fm_lower dg (tlow O t) i j = described O ty fm_lower dg A i j.
    Proof.
      intros ty dg i j Hty Hi Hj. assert (E : forall a c, 0 <= a < m -> 0 <= c < m -> c <= a -> tlow O t a c = A a c).
      { intros a c Ha Hc Hle. rewrite DA by auto. replace (c <=? a) with true by lia. reflexivity. }
      destruct Hty as [-> | ->]; unfold described, descr_sem, mL, mSL, with_diag; (destruct (Z.leb_spec j i);
        [destruct (i =? j), dg; auto; apply E; lia|]); auto; destruct (j =? i), dg; auto; apply E; lia.
    Qed.
    Lemma upp_described : forall ty dg i j, ty = mt_triangular \/ ty = mt_symmetric -> dg <> dg_non_unit \/ diagonals_agree O t ->
      0 <= i < m -> 0 <= j < m ->
      described O ty fm_upper dg (tupp O t) i j = described O ty fm_upper dg A i j.
    Proof.
      intros ty dg i j Hty Hd Hi Hj. assert (E : forall a c, 0 <= a < m -> 0 <= c < m -> a < c -> tupp O t a c = A a c).
      { intros a c Ha Hc Hle. rewrite DA by auto. replace (c <=? a) with false by lia. reflexivity. }
      assert (D : forall a, 0 <= a < m -> diagonals_agree O t -> tupp O t a a = A a a).
      { intros a Ha H. rewrite DA by auto. replace (a <=? a) with true by lia. symmetry. apply H; auto. }
      destruct Hty as [-> | ->]; unfold described, descr_sem, mU, mSU, with_diag.
      - destruct (Z.leb_spec i j); auto. destruct (Z.eqb_spec i j) as [->|]; [|apply E; lia]. destruct dg; auto. destruct Hd as [Hd|Hd]; [congruence|]. apply D; auto.
      - destruct (Z.leb_spec i j).
        + destruct (Z.eqb_spec i j) as [->|]; [|apply E; lia]. destruct dg; auto. destruct Hd as [Hd|Hd]; [congruence|]. apply D; auto.
        + destruct (Z.eqb_spec j i) as [->|]; [lia|]. apply E; lia.
    Qed.
  End Mv.

  Lemma sym_transposed : forall fm dg (A : Z -> Z -> T) i j,
    mT (described O mt_symmetric fm dg A) i j = described O mt_symmetric fm dg A i j.
  Proof.
    intros fm dg A i j. unfold mT, described, descr_sem, mSL, mSU. destruct fm; destruct (Z.leb_spec i j), (Z.leb_spec j i); try lia; auto;
      replace i with j by lia; reflexivity.
  Qed.

  Variables (dt : dtype) (avx2 avx512 : bool).
  Hypothesis Hreal : is_cplx dt = false -> forall a, ocj O a = a.

  Lemma op_real : is_cplx dt = false -> forall op M i j, valid_op op = true ->
    op_sem O (match op with op_conjugate_transpose => op_transpose | o => o end) M i j = op_sem O op M i j.
  Proof. intros H op M i j Hop. destruct op; auto. cbn. unfold mC, mT. symmetry. apply Hreal; auto. Qed.

  (** The unit diagonal of long upper rows is lost by the double kernel (finding B2). *)
  Definition unit_upper_fine (t : tcsr T) (d : descr) (op : operation) : Prop :=
    dt = dt_d -> d_type d = mt_triangular -> d_fill d = fm_upper -> d_diag d = dg_unit -> op = op_none ->
    forall i, 0 <= i < t_m t -> zn (t_ptrU t) (i + 1) - zn (t_ptrU t) i <= 4.

  Ltac doid_now :=
    match goal with |- context [get_doid true ?a ?f ?o] =>
      let v := eval vm_compute in (get_doid true a f o) in change (get_doid true a f o) with v end; cbv beta iota;
    match goal with |- context [get_effective_doid gn ?a] =>
      let v := eval vm_compute in (get_effective_doid gn a) in change (get_effective_doid gn a) with v end; cbv beta iota;
    unfold tcsr_scored, tcsrmv; cbn [Z.eqb Z.leb Z.ltb Z.compare Pos.eqb Pos.compare Pos.compare_cont andb orb gn d_base d_type d_fill d_diag]; cbv zeta.

  Lemma tcsr_mv_ok : forall t A d op alpha beta x y,
    is_cplx dt = false -> tcsr_ok t -> denotes O t A -> d_base d = t_b t -> valid_op op = true ->
    zlen x = t_m t -> zlen y = t_m t ->
    (d_type d = mt_triangular \/ d_type d = mt_symmetric -> d_fill d = fm_upper -> d_diag d = dg_non_unit -> diagonals_agree O t) ->
    unit_upper_fine t d op ->
    exists st yr, tcsr_mv O dt avx2 avx512 op (Some alpha) (Some t) (Some d) (Some x) (Some beta) (Some y) = Some (st, yr) /\
      (st = success /\ (exists y', yr = Some y' /\
         mv_spec O (t_m t) (t_m t) alpha beta (op_sem O op (described O (d_type d) (d_fill d) (d_diag d) A)) x y y') \/
       st = not_implemented /\ yr = None /\
         (d_type d = mt_hermitian \/ d_type d = mt_general /\ (op <> op_none \/ dt <> dt_d \/ avx2 = false))).
  Proof.
    intros t A [ty fm dg bb] op alpha beta x y Hc OK DA Hb Hop Lx Ly Hag Huf. unfold unit_upper_fine in Huf. cbn [d_type d_fill d_diag d_base] in *. subst bb.
    destruct (low_ready t OK) as [RL FL]. destruct (upp_ready t OK) as [RU FU].
    pose proof OK as ((_ & HM & EN & HL & HU & Hnz) & (L1 & L2 & L3 & L4 & L5 & L6) & _ & _ & HD).
    pose proof (half_ptr _ _ _ _ _ HM (or_introl HL)) as N1. pose proof (half_ptr _ _ _ _ _ HM (or_intror HU)) as N2.
    assert (Ok : forall r M, (exists y', r = Some y' /\ mv_spec O (t_m t) (t_m t) alpha beta M x y y') ->
      (forall i j, 0 <= i < t_m t -> 0 <= j < t_m t -> M i j = op_sem O op (described O ty fm dg A) i j) ->
      exists st yr, (let* y0 := r in Some (success, Some y0)) = Some (st, yr) /\
      (st = success /\ (exists y', yr = Some y' /\
         mv_spec O (t_m t) (t_m t) alpha beta (op_sem O op (described O ty fm dg A)) x y y') \/
       st = not_implemented /\ yr = None /\
         (ty = mt_hermitian \/ ty = mt_general /\ (op <> op_none \/ dt <> dt_d \/ avx2 = false)))).
    { intros r M (y' & -> & S) E. exists success, (Some y'). split; [reflexivity|]. left. split; [reflexivity|]. exists y'. split; [reflexivity|].
      refine (mv_spec_ext O _ _ _ _ _ _ _ _ _ E S). }
    unfold tcsr_mv. cbn [d_type d_fill d_diag d_base]. rewrite Z.eqb_refl, Hop. cbn [negb].
    replace (negb (t_m t =? t_n t)) with false by lia. rewrite andb_false_r, Hc. cbv zeta.
    assert (Z0 : t_m t = 0 -> forall dim, dim = t_m t \/ dim = t_n t -> exists st yr,
       (let* y0 := vscale O y beta dim in Some (success, Some y0)) = Some (st, yr) /\
      (st = success /\ (exists y', yr = Some y' /\
         mv_spec O (t_m t) (t_m t) alpha beta (op_sem O op (described O ty fm dg A)) x y y') \/
       st = not_implemented /\ yr = None /\
         (ty = mt_hermitian \/ ty = mt_general /\ (op <> op_none \/ dt <> dt_d \/ avx2 = false)))).
    { intros E0 dim Hd. assert (dim = 0) by lia. subst dim. exists success, (Some y). split.
      - unfold vscale. destruct (negb _); reflexivity.
      - left. split; [reflexivity|]. exists y. split; [reflexivity|]. split; [lia|]. intros i Hi. lia. }
    assert (Sym : forall bsz, 0 < bsz -> fm = fm_lower -> exists y', csrmv_symm_kt O true bsz (t_b t) alpha (t_m t) dg fm (t_valL t) (t_indL t) (t_ptrL t) (t_idiag t) (tl (t_ptrL t)) x beta y = Some y' /\
       mv_spec O (t_m t) (t_m t) alpha beta (described O mt_symmetric fm dg A) x y y').
    { intros bsz Hbsz ->. destruct (csrmv_symm_kt_ok O L true bsz Hbsz _ _ _ _ _ _ _ (t_valL t) RL FL ltac:(lia) fm_lower dg alpha beta x y Lx Ly) as (y' & E & S).
      exists y'. split; [exact E|]. refine (mv_spec_ext O _ _ _ _ _ _ _ _ _ _ S). intros i j Hi Hj.
      rewrite (real_symM O dt Hreal Hc), (sym_described O). apply (low_described t A DA); auto. }
    assert (SymU : forall bsz, 0 < bsz -> ty = mt_symmetric -> fm = fm_upper -> exists y', csrmv_symm_kt O true bsz (t_b t) alpha (t_m t) dg fm (t_valU t) (t_indU t) (t_ptrU t) (first_rows (t_m t) (t_ptrU t)) (t_iurow t) x beta y = Some y' /\
       mv_spec O (t_m t) (t_m t) alpha beta (described O mt_symmetric fm dg A) x y y').
    { intros bsz Hbsz Et ->. destruct (csrmv_symm_kt_ok O L true bsz Hbsz _ _ _ _ _ _ _ (t_valU t) RU FU ltac:(lia) fm_upper dg alpha beta x y Lx Ly) as (y' & E & S).
      exists y'. split; [exact E|]. refine (mv_spec_ext O _ _ _ _ _ _ _ _ _ _ S). intros i j Hi Hj.
      rewrite (real_symM O dt Hreal Hc), (sym_described O). apply (upp_described t A DA); auto. destruct dg; auto; left; discriminate. }
    assert (Tsz : 0 < (if avx512 then tsz512 dt else tsz256 dt)) by (unfold tsz512, tsz256; destruct avx512, dt; lia).
    destruct ty.
    - (* general *)
      destruct (Z.eq_dec (t_m t) 0) as [E0|E0].
      { rewrite E0. cbn [Z.eqb orb]. rewrite <- E0. apply Z0; auto. destruct op; auto. }
      replace ((t_m t =? 0) || (t_n t =? 0) || (t_nnz t =? 0) && true) with false by lia.
      destruct op; try discriminate Hop; destruct fm; doid_now;
        try (eexists _, _; split; [reflexivity|]; right; split; [reflexivity|]; split; [reflexivity|]; right; split; [reflexivity|]; left; discriminate).
      all: destruct dt eqn:Edt; try discriminate Hc; destruct avx2 eqn:Eav; cbn [andb];
        try (eexists _, _; split; [reflexivity|]; right; split; [reflexivity|]; split; [reflexivity|]; right; split; [reflexivity|]; right; first [left; discriminate|right; reflexivity]).
      all: eapply Ok; [apply (dtcsrmv_ok t OK A DA); auto|]; intros i j Hi Hj; reflexivity.
    - (* symmetric *)
      destruct (Z.eq_dec (t_m t) 0) as [E0|E0].
      { rewrite E0. cbn [Z.eqb orb]. rewrite <- E0. apply Z0; auto. destruct op; auto. }
      rewrite andb_false_r. replace ((t_m t =? 0) || (t_n t =? 0) || false) with false by lia.
      destruct op; try discriminate Hop; destruct fm; doid_now;
        (eapply Ok; [first [apply Sym; auto | apply SymU; auto]|]); intros i j Hi Hj; cbn [op_sem]; unfold mC; rewrite ?(Hreal Hc), ?sym_transposed; reflexivity.
    - (* hermitian *) eexists _, _. split; [reflexivity|]. right. auto.
    - (* triangular *)
      destruct (Z.eq_dec (t_m t) 0) as [E0|E0].
      { rewrite E0. cbn [Z.eqb orb]. rewrite <- E0. apply Z0; auto. destruct op; auto. }
      rewrite andb_false_r. replace ((t_m t =? 0) || (t_n t =? 0) || false) with false by lia.
      assert (DUL : diag_usable (t_m t) (t_m t) (t_b t) (t_ptrL t) (t_indL t) dg) by (right; split; [lia|exact FL]).
      assert (DUU : diag_usable (t_m t) (t_m t) (t_b t) (t_ptrU t) (t_indU t) dg) by (right; split; [lia|exact FU]).
      assert (UD : fm = fm_upper -> forall i j, 0 <= i < t_m t -> 0 <= j < t_m t -> described O mt_triangular fm_upper dg (tupp O t) i j = described O mt_triangular fm_upper dg A i j).
      { intros -> i j Hi Hj. apply (upp_described t A DA); auto. destruct dg; auto; left; discriminate. }
      assert (LD : forall i j, 0 <= i < t_m t -> 0 <= j < t_m t -> described O mt_triangular fm_lower dg (tlow O t) i j = described O mt_triangular fm_lower dg A i j).
      { intros i j Hi Hj. apply (low_described t A DA); auto. }
      destruct op; try discriminate Hop; destruct fm; doid_now.
      + eapply Ok.
        * destruct dt eqn:Edt; try discriminate Hc.
          -- apply (ref_csrmv_tri_ok O L _ _ _ _ _ _ _ (t_valL t) (mkDescr mt_triangular fm_lower dg (t_b t)) alpha beta x y RL ltac:(lia) ltac:(lia) ltac:(lia) ltac:(discriminate) DUL).
          -- apply (avx2ptr_ok O L _ _ _ _ _ _ _ (t_valL t) (mkDescr mt_triangular fm_lower dg (t_b t)) alpha beta x y RL ltac:(lia) ltac:(lia) ltac:(lia) ltac:(discriminate) DUL). intros E; discriminate E.
        * intros i j Hi Hj. apply LD; auto.
      + eapply Ok.
        * destruct dt eqn:Edt; try discriminate Hc.
          -- apply (ref_csrmv_tri_ok O L _ _ _ _ _ _ _ (t_valU t) (mkDescr mt_triangular fm_upper dg (t_b t)) alpha beta x y RU ltac:(lia) ltac:(lia) ltac:(lia) ltac:(discriminate) DUU).
          -- apply (avx2ptr_ok O L _ _ _ _ _ _ _ (t_valU t) (mkDescr mt_triangular fm_upper dg (t_b t)) alpha beta x y RU ltac:(lia) ltac:(lia) ltac:(lia) ltac:(discriminate) DUU).
             intros _ Eu i Hi. cbn [d_diag] in Eu. specialize (Huf eq_refl eq_refl eq_refl Eu eq_refl i Hi). destruct (HD i Hi) as [_ ->]. lia.
        * intros i j Hi Hj. apply UD; auto.
      + eapply Ok.
        * rewrite <- EN. apply (ref_csrmv_tri_th_ok O L false _ _ _ _ _ _ _ (t_valL t) (mkDescr mt_triangular fm_lower dg (t_b t)) alpha beta x y RL ltac:(lia) ltac:(lia) ltac:(lia) ltac:(discriminate) DUL).
        * intros i j Hi Hj. cbn [op_sem cjh]. unfold mT. apply LD; auto.
      + eapply Ok.
        * rewrite <- EN. apply (ref_csrmv_tri_th_ok O L false _ _ _ _ _ _ _ (t_valU t) (mkDescr mt_triangular fm_upper dg (t_b t)) alpha beta x y RU ltac:(lia) ltac:(lia) ltac:(lia) ltac:(discriminate) DUU).
        * intros i j Hi Hj. cbn [op_sem cjh]. unfold mT. apply UD; auto.
      + eapply Ok.
        * rewrite <- EN. apply (ref_csrmv_tri_th_ok O L false _ _ _ _ _ _ _ (t_valL t) (mkDescr mt_triangular fm_lower dg (t_b t)) alpha beta x y RL ltac:(lia) ltac:(lia) ltac:(lia) ltac:(discriminate) DUL).
        * intros i j Hi Hj. cbn [op_sem cjh]. unfold mC, mT. rewrite (Hreal Hc). apply LD; auto.
      + eapply Ok.
        * rewrite <- EN. apply (ref_csrmv_tri_th_ok O L false _ _ _ _ _ _ _ (t_valU t) (mkDescr mt_triangular fm_upper dg (t_b t)) alpha beta x y RU ltac:(lia) ltac:(lia) ltac:(lia) ltac:(discriminate) DUU).
        * intros i j Hi Hj. cbn [op_sem cjh]. unfold mC, mT. rewrite (Hreal Hc). apply UD; auto.
  Qed.

  (** ** Solves *)
  Variable choice : Z -> option Z.
  Hypothesis DL : div_law O.

  Lemma tcsr_trsv_ok : forall w t A d op alpha rhs incb x incx kid,
    tcsr_ok t -> denotes O t A -> 0 < t_m t ->
    d_base d = t_b t -> valid_op op = true -> d_type d = mt_triangular \/ d_type d = mt_symmetric -> d_diag d <> dg_zero ->
    0 < w -> t_m t <= 2 ^ w - 1 -> incx <= 2 ^ w - 1 -> incb <= 2 ^ w - 1 ->
    holds (t_m t) incx x -> holds (t_m t) incb rhs ->
    (d_fill d = fm_upper -> d_diag d = dg_non_unit -> diagonals_agree O t) ->
    (d_diag d = dg_non_unit -> forall i, 0 <= i < t_m t -> A i i <> zero) ->
    (choice kid = Some 0 \/ is_none op = true \/ alpha <> zero /\
       (if (match d_fill d with fm_lower => true | _ => false end) then rows_distinct (t_m t) (t_b t) (t_ptrL t) (t_indL t)
        else rows_distinct (t_m t) (t_b t) (t_ptrU t) (t_indU t))) ->
    exists st xr,
      tcsr_trsv O dt choice w op alpha (Some t) (Some d) (Some rhs) incb (Some x) incx kid = Some (st, xr) /\
      (st = success /\ (exists x1, xr = Some x1 /\ only_strided O (t_m t) incx x x1 /\
         solves O (t_m t) alpha (op_sem O op (described O mt_triangular (d_fill d) (d_diag d) A)) rhs incb x1 incx) \/
       st = invalid_kid /\ xr = None /\ choice kid = None \/
       st = invalid_size /\ xr = None /\ (2 ^ w - 1 < (t_m t - 1) * incx \/ 2 ^ w - 1 < (t_m t - 1) * incb)).
  Proof.
    intros w t A [ty fm dg bb] op alpha rhs incb x incx kid OK DA Hm Hb Hop Hty Hdz Hw Bm Bx Bb Hx Hrhs Hag NZ Hk. cbn [d_type d_fill d_diag d_base] in *. subst bb.
    destruct (low_ready t OK) as [RL FL]. destruct (upp_ready t OK) as [RU FU].
    pose proof OK as ((Hbase & HM & EN & HL & HU & Hnz) & (L1 & L2 & L3 & L4 & L5 & L6) & _ & _ & HD).
    pose proof (half_ptr _ _ _ _ _ HM (or_introl HL)) as N1. pose proof (half_ptr _ _ _ _ _ HM (or_intror HU)) as N2.
    pose proof Hx as [X1 X2]. pose proof Hrhs as [R1 R2].
    unfold tcsr_trsv. cbn [d_type d_fill d_diag d_base]. cbv zeta.
    replace ((t_m t <=? 0) || (t_nnz t <=? 0)) with false by lia.
    replace (negb (t_m t =? t_n t) || (incb <=? 0) || (incx <=? 0)) with false by lia. rewrite Z.eqb_refl. cbn [negb].
    replace (negb ((t_b t =? 0) || (t_b t =? 1))) with false by lia. rewrite Hop. cbn [negb].
    replace (match ty with mt_symmetric | mt_triangular => false | _ => true end) with false by (destruct Hty as [-> | ->]; reflexivity).
    replace (diag_eqb dg dg_zero) with false by (destruct dg; auto; congruence).
    destruct (request_tri O dt fm op gn Hreal Hop (or_introl eq_refl)) as (r & -> & He & Hck & Hsem). cbv zeta in He, Hck, Hsem. cbn [gn gt Z.eqb] in He, Hck, Hsem.
    set (ops5 := match fm with fm_lower => (t_valL t, t_indL t, t_ptrL t, t_idiag t, tl (t_ptrL t)) | fm_upper => (t_valU t, t_indU t, t_ptrU t, first_rows (t_m t) (t_ptrU t), t_iurow t) end).
    assert (KK : forall k, choice kid = Some k ->
      let '(a, icol, ilrow, idiag, iurow) := ops5 in
      exists x1, trsv_kernel O dt k r alpha (t_m t) (t_b t) a icol ilrow idiag iurow rhs incb x incx (diag_eqb dg dg_unit) = Some x1 /\
      only_strided O (t_m t) incx x x1 /\
      solves O (t_m t) alpha (op_sem O op (described O mt_triangular fm dg A)) rhs incb x1 incx).
    { intros k Ek. subst ops5.
      assert (Eudg : udg (diag_eqb dg dg_unit) = dg) by (destruct dg; auto; congruence).
      assert (Fin : forall ptr ind val B, (forall i j, 0 <= i < t_m t -> 0 <= j < t_m t -> described O mt_triangular fm dg B i j = described O mt_triangular fm dg A i j) ->
        B = csr_mat O (t_b t) ptr ind val -> forall x1,
        solves O (t_m t) alpha (doid_sem O r (with_diag O (udg (diag_eqb dg dg_unit)) B)) rhs incb x1 incx ->
        solves O (t_m t) alpha (op_sem O op (described O mt_triangular fm dg A)) rhs incb x1 incx).
      { intros ptr ind val B EB HB x1 S i Hi. rewrite <- (S i Hi). apply sumz_ext. intros j Hj. f_equal. rewrite Eudg, Hsem.
        replace (stored_as _ _) with B by (unfold stored_as; reflexivity).
        destruct op; try discriminate Hop; cbn [op_sem]; unfold mC, mT; rewrite EB by auto; reflexivity. }
      destruct fm.
      - destruct (trsv_kernel_ok O L DL dt k r alpha (t_m t) _ (t_b t) (t_valL t) (t_indL t) (t_ptrL t) (t_idiag t) (tl (t_ptrL t)) rhs incb x incx (diag_eqb dg dg_unit) RL FL ltac:(lia)) as (x1 & E & S & V); auto.
        + intros Hu i Hi. replace (csr_mat O (t_b t) (t_ptrL t) (t_indL t) (t_valL t) i i) with (A i i); [apply NZ; auto; destruct dg; auto; discriminate Hu || congruence|].
          rewrite DA by auto. replace (i <=? i) with true by lia. reflexivity.
        + destruct Hk as [Hk|[Hk|[Ha Hd]]]; [left; congruence|right; left|right; right; auto]. rewrite Hck. rewrite Hk. reflexivity.
        + exists x1. split; [exact E|]. split; [exact S|]. eapply Fin; [|reflexivity|exact V]. intros i j Hi Hj. apply (low_described t A DA); auto.
      - destruct (trsv_kernel_ok O L DL dt k r alpha (t_m t) _ (t_b t) (t_valU t) (t_indU t) (t_ptrU t) (first_rows (t_m t) (t_ptrU t)) (t_iurow t) rhs incb x incx (diag_eqb dg dg_unit) RU FU ltac:(lia)) as (x1 & E & S & V); auto.
        + intros Hu i Hi. replace (csr_mat O (t_b t) (t_ptrU t) (t_indU t) (t_valU t) i i) with (A i i).
          * apply NZ; auto; destruct dg; auto; discriminate Hu || congruence.
          * rewrite DA by auto. replace (i <=? i) with true by lia. apply Hag; auto. destruct dg; auto; discriminate Hu || congruence.
        + destruct Hk as [Hk|[Hk|[Ha Hd]]]; [left; congruence|right; left|right; right; auto]. rewrite Hck. rewrite Hk. reflexivity.
        + exists x1. split; [exact E|]. split; [exact S|]. eapply Fin; [|reflexivity|exact V]. intros i j Hi Hj. apply (upp_described t A DA); auto.
          destruct dg; auto; left; discriminate. }
    destruct ops5 as [[[[a icol] ilrow] idiag] iurow].
    replace ((r - 12 <? 0) || (7 <? r - 12)) with false by lia.
    destruct (choice kid) as [k|] eqn:Ek; [|eexists _, _; split; [reflexivity|right; left; auto]].
    destruct (int_product_exact_nonneg w (t_m t - 1) incx) as (o1 & -> & O1); [lia|unfold int_max; lia|unfold int_max; lia|]; unfold int_max in O1.
    destruct (int_product_exact_nonneg w (t_m t - 1) incb) as (o2 & -> & O2); [lia|unfold int_max; lia|unfold int_max; lia|]; unfold int_max in O2.
    destruct (o1 || o2) eqn:Eo.
    { eexists _, _; split; [reflexivity|]. right. right. split; [reflexivity|]. split; [reflexivity|].
      rewrite <- O1, <- O2. destruct o1, o2; auto; discriminate. }
    destruct (KK k eq_refl) as (x1 & -> & S & V). eexists _, _; split; [reflexivity|]. left. split; [reflexivity|]. exists x1. auto.
  Qed.
End P.
