(** Expansion of one triangle to full storage. *)
From Coq Require Import ZArith List Bool Lia.
From Coq Require Import ZifyBool.
From Verif Require Import Base BaseFacts Algebra Csr CsrFacts CountSort Buckets Writes DoidModel MvModel MvProof Csr2CscModel HandleModel ExpandModel.
Import ListNotations.
Open Scope Z_scope.

Inductive bk := BO (r : Z) | BM (r : Z) | BD (r : Z).
Definition bk_eq : forall a b : bk, {a = b} + {a <> b}.
Proof. decide equality; apply Z.eq_dec. Defined.

Lemma zlen_filter_app : forall A (f : A -> bool) l l', zlen (filter f (l ++ l')) = zlen (filter f l) + zlen (filter f l').
Proof. intros. now rewrite filter_app, zlen_app. Qed.

Section X.
  Context {T : Type} (O : ops T) (re : T -> T) (herm : bool).
  Local Notation z := (o0 O).
  Variables (m nnz b : Z) (ptr ind : list Z) (val : list T) (up : bool).
  Hypothesis W : csr_wf m m nnz b ptr ind.
  Hypothesis Lv : zlen val = nnz.

  Definition keep (i j : Z) : bool := (negb up && (j <? i)) || (up && (i <? j)).
  Definition item := (Z * (Z * T))%type.
  Definition irow (p : item) := fst p.
  Definition icol (p : item) := fst (snd p).
  Definition ival (p : item) := snd (snd p).
  Definition it (i k : Z) : list item :=
    if keep i (zn ind k - b) then [(i, (zn ind k - b, nthZ z val k))] else [].
  Definition rlo i := zn ptr i - b.
  Definition rowit (i e : Z) : list item := flat_map (it i) (zrange (rlo i) e).
  Definition trav (i e : Z) : list item := flat_map (fun r => rowit r (rlo (r + 1))) (zrange 0 i) ++ rowit i e.
  Definition All : list item := flat_map (fun r => rowit r (rlo (r + 1))) (zrange 0 m).
  Definition nr (P : list item) (r : Z) : Z := zlen (filter (fun p => irow p =? r) P).
  Definition nc (P : list item) (r : Z) : Z := zlen (filter (fun p => icol p =? r) P).

  Lemma rb : forall i, 0 <= i < m -> 0 <= rlo i /\ rlo i <= rlo (i + 1) /\ rlo (i + 1) <= nnz.
  Proof. intros i Hi. destruct (row_bounds _ _ _ _ _ _ i W Hi) as (_ & _ & B1 & B2 & B3). unfold rlo. lia. Qed.

  Lemma trav_0 : trav 0 (rlo 0) = [].
  Proof. unfold trav, rowit. rewrite zrange_nil by lia. rewrite zrange_nil by lia. reflexivity. Qed.
  Lemma trav_row : forall i, 0 <= i -> trav i (rlo (i + 1)) = trav (i + 1) (rlo (i + 1)).
  Proof.
    intros i Hi. unfold trav, rowit. rewrite (zrange_last 0 i) by lia. rewrite flat_map_app. cbn [flat_map].
    rewrite (zrange_nil (rlo (i + 1))) by lia. cbn. now rewrite !app_nil_r.
  Qed.
  Lemma trav_step : forall i k, rlo i <= k -> trav i (k + 1) = trav i k ++ it i k.
  Proof.
    intros i k Hk. unfold trav, rowit. rewrite zrange_last by lia. rewrite flat_map_app. cbn [flat_map].
    rewrite app_nil_r. now rewrite app_assoc.
  Qed.
  Lemma trav_all : trav m (rlo m) = All.
  Proof. unfold trav, rowit, All. rewrite (zrange_nil (rlo m)) by lia. cbn. now rewrite app_nil_r. Qed.
  Lemma trav_prefix : forall i k, 0 <= i < m -> rlo i <= k < rlo (i + 1) -> exists rest, All = trav i k ++ it i k ++ rest.
  Proof.
    intros i k Hi Hk. unfold All, trav. rewrite (zrange_app 0 i m) by lia. rewrite flat_map_app.
    rewrite (zrange_first i m) by lia. cbn [flat_map]. unfold rowit at 2.
    rewrite (zrange_app (rlo i) k (rlo (i + 1))) by lia. rewrite (zrange_first k) by lia. rewrite flat_map_app. cbn [flat_map].
    eexists. rewrite <- !app_assoc. unfold rowit. reflexivity.
  Qed.
  Lemma trav_prefix' : forall i, 0 <= i <= m -> exists rest, All = trav i (rlo i) ++ rest.
  Proof.
    intros i Hi. unfold All, trav. assert (E : rowit i (rlo i) = []) by (unfold rowit; rewrite zrange_nil by lia; reflexivity).
    rewrite E, app_nil_r. rewrite (zrange_app 0 i m) by lia. rewrite flat_map_app. eauto.
  Qed.

  Definition left (P : list item) r := if up then nc P r else nr P r.
  Definition right (P : list item) r := if up then nr P r else nc P r.

  Lemma it_keep : forall i k, keep i (zn ind k - b) = true -> it i k = [(i, (zn ind k - b, nthZ z val k))].
  Proof. intros i k H. unfold it. now rewrite H. Qed.
  Lemma it_skip : forall i k, keep i (zn ind k - b) = false -> it i k = [].
  Proof. intros i k H. unfold it. now rewrite H. Qed.

  Lemma nr_snoc : forall P x r, nr (P ++ [x]) r = nr P r + (if irow x =? r then 1 else 0).
  Proof. intros. unfold nr. rewrite zlen_filter_app. cbn [filter]. destruct (irow x =? r); reflexivity. Qed.
  Lemma nc_snoc : forall P x r, nc (P ++ [x]) r = nc P r + (if icol x =? r then 1 else 0).
  Proof. intros. unfold nc. rewrite zlen_filter_app. cbn [filter]. destruct (icol x =? r); reflexivity. Qed.
  Lemma nr_app : forall P Q r, nr (P ++ Q) r = nr P r + nr Q r.
  Proof. intros. apply zlen_filter_app. Qed.
  Lemma nc_app : forall P Q r, nc (P ++ Q) r = nc P r + nc Q r.
  Proof. intros. apply zlen_filter_app. Qed.
  Lemma nr_nonneg : forall P r, 0 <= nr P r. Proof. intros; apply zlen_nonneg. Qed.
  Lemma nc_nonneg : forall P r, 0 <= nc P r. Proof. intros; apply zlen_nonneg. Qed.

  (** ** Counting *)
  Definition cinv (P : list item) (st : list Z * list Z) : Prop :=
    let '(dptr, nv) := st in zlen dptr = m + 1 /\ zlen nv = m /\ zn dptr 0 = 0 /\
    forall r, 0 <= r < m -> zn dptr (r + 1) = left P r /\ zn nv r = right P r.

  Lemma count_step : forall P i j v dptr nv, cinv P (dptr, nv) -> 0 <= i < m -> 0 <= j < m -> keep i j = true ->
    exists st', (if negb up && (j <? i) then
          let* dptr := incr dptr (i + 1) in let* nv := incr nv j in Some (dptr, nv)
        else if up && (i <? j) then
          let* dptr := incr dptr (j + 1) in let* nv := incr nv i in Some (dptr, nv)
        else Some (dptr, nv)) = Some st' /\ cinv (P ++ [(i, (j, v))]) st'.
  Proof.
    intros P i j v dptr nv (L1 & L2 & Z0 & H) Hi Hj K. unfold keep in K.
    destruct up eqn:U; cbn [negb andb orb] in *; try (rewrite orb_false_r in K); rewrite K;
      rewrite !incr_ok by lia; eexists; (split; [reflexivity|]); unfold cinv; rewrite !zlen_upd; (split; [auto|]); (split; [auto|]);
      rewrite nthZ_upd_other by lia; (split; [auto|]); intros r Hr; destruct (H r Hr) as [H1 H2]; rewrite !nthZ_upd by lia;
      unfold left, right in *; rewrite nr_snoc, nc_snoc; unfold irow, icol; cbn [fst snd]; rewrite U in *.
    - split.
      + destruct (Z.eqb_spec (r + 1) (j + 1)); destruct (Z.eqb_spec j r); try lia. replace j with r by lia. lia.
      + destruct (Z.eqb_spec r i); destruct (Z.eqb_spec i r); try lia. subst r. lia.
    - split.
      + destruct (Z.eqb_spec (r + 1) (i + 1)); destruct (Z.eqb_spec i r); try lia. replace i with r by lia. lia.
      + destruct (Z.eqb_spec r j); destruct (Z.eqb_spec j r); try lia. subst r. lia.
  Qed.

  Lemma expand_count_ok : forall dptr, zlen dptr = m + 1 -> (forall r, 0 <= r <= m -> zn dptr r = 0) ->
    exists st, expand_count m b up ptr ind dptr = Some st /\ cinv All st.
  Proof.
    intros dptr L0 Z0. unfold expand_count. destruct (wf_len _ _ _ _ _ _ W) as [Lp Li]. pose proof (wf_m _ _ _ _ _ _ W) as Hm.
    match goal with |- context [for_ 0 m ?f ?s] =>
      destruct (for_inv _ (fun i (st : list Z * list Z) => cinv (trav i (rlo i)) st) 0 m f s) as (st & E & R) end.
    - lia.
    - rewrite trav_0. unfold cinv. rewrite zlen_zrep by lia. ands; auto. { apply Z0; lia. }
      intros r Hr. rewrite Z0 by lia. rewrite nthZ_zrep by lia. unfold left, right, nr, nc. cbn. destruct up; auto.
    - intros i st Hi HI. rewrite (rd_nthZ _ 0) by lia. rewrite (rd_nthZ _ 0) by lia.
      fold (rlo i). fold (rlo (i + 1)). pose proof (rb i Hi) as B.
      match goal with |- context [for_ ?lo ?hi ?f ?s] =>
        destruct (for_inv _ (fun k (st : list Z * list Z) => cinv (trav i k) st) lo hi f s) as (st' & E & R) end.
      + lia.
      + exact HI.
      + intros k [dp nv] Hk HI'. rewrite (rd_nthZ _ 0) by lia.
        pose proof (wf_ind _ _ _ _ _ _ W k ltac:(lia)). rewrite trav_step by lia.
        destruct (keep i (zn ind k - b)) eqn:K.
        * rewrite it_keep by auto. apply (count_step _ _ _ (nthZ z val k)); auto; lia.
        * rewrite it_skip by auto. rewrite app_nil_r. unfold keep in K. exists (dp, nv). split; auto.
          destruct up; cbn [negb andb orb] in *; try (rewrite orb_false_r in K); rewrite K; reflexivity.
      + exists st'. split; [exact E|]. rewrite <- trav_row by lia. exact R.
    - rewrite E. rewrite trav_all in R. eauto.
  Qed.

  (** ** Positions *)
  Definition S (r : Z) : Z := sumz Zops 0 r (fun q => left All q + right All q + 1).
  Definition idg (r : Z) : Z := S r + left All r.
  Lemma S_0 : S 0 = 0. Proof. reflexivity. Qed.
  Lemma S_step : forall r, 0 <= r -> S (r + 1) = S r + (left All r + right All r + 1).
  Proof. intros r Hr. unfold S. rewrite (sumz_last Zops Zlaws) by lia. reflexivity. Qed.
  Lemma left_nonneg : forall P r, 0 <= left P r. Proof. intros; unfold left; destruct up; apply zlen_nonneg. Qed.
  Lemma right_nonneg : forall P r, 0 <= right P r. Proof. intros; unfold right; destruct up; apply zlen_nonneg. Qed.
  Lemma S_mono : forall r r', 0 <= r <= r' -> S r + (r' - r) <= S r'.
  Proof.
    intros r r' H. replace r' with (r + Z.of_nat (Z.to_nat (r' - r))) by lia. induction (Z.to_nat (r' - r)) as [|n IH]; [cbn [Z.of_nat]; rewrite Z.add_0_r; lia|].
    replace (r + Z.of_nat (Datatypes.S n)) with ((r + Z.of_nat n) + 1) by lia. rewrite S_step by lia.
    pose proof (left_nonneg All (r + Z.of_nat n)). pose proof (right_nonneg All (r + Z.of_nat n)). lia.
  Qed.

  Lemma expand_scan_ok : forall dptr nv idiag, cinv All (dptr, nv) -> zlen idiag = m ->
    exists dptr' idiag', expand_scan m dptr nv idiag = Some (dptr', idiag') /\ zlen dptr' = m + 1 /\ zlen idiag' = m /\
      (forall r, 0 <= r <= m -> zn dptr' r = S r) /\ (forall r, 0 <= r < m -> zn idiag' r = idg r).
  Proof.
    intros dptr nv idiag (L1 & L2 & Z0 & H) L3. unfold expand_scan. pose proof (wf_m _ _ _ _ _ _ W) as Hm.
    match goal with |- context [for_ 0 m ?f ?s] =>
      destruct (for_inv _ (fun e (st : list Z * list Z) => let '(dp, id) := st in zlen dp = m + 1 /\ zlen id = m /\
         (forall r, 0 <= r <= e -> zn dp r = S r) /\ (forall r, e < r <= m -> zn dp r = zn dptr r) /\
         (forall r, 0 <= r < e -> zn id r = idg r)) 0 m f s) as ([dp id] & E & R1 & R2 & R3 & _ & R4) end.
    - lia.
    - ands; auto; [|intros; lia]. intros r Hr. replace r with 0 by lia. rewrite Z0. reflexivity.
    - intros i [dp id] Hi (I1 & I2 & I3 & I4 & I5).
      rewrite (rd_nthZ _ 0) by lia. rewrite (rd_nthZ _ 0) by lia. rewrite wr_upd by lia.
      rewrite (rd_nthZ _ 0) by lia. rewrite wr_upd by lia. eexists; split; [reflexivity|].
      destruct (H i Hi) as [H1 H2]. rewrite (I3 i), (I4 (i + 1)), H1, H2 by lia. rewrite !zlen_upd. ands; auto.
      + intros r Hr. rewrite nthZ_upd by lia. destruct (Z.eqb_spec r (i + 1)) as [->|]; [rewrite S_step by lia; lia|apply I3; lia].
      + intros r Hr. rewrite nthZ_upd_other by lia. apply I4. lia.
      + intros r Hr. rewrite nthZ_upd by lia. destruct (Z.eqb_spec r i) as [->|]; [reflexivity|apply I5; lia].
    - rewrite E. exists dp, id. auto.
  Qed.

  (** ** Filling *)
  Definition bdom (q : bk) : Prop := match q with BO r | BM r | BD r => 0 <= r < m end.
  Definition bb (q : bk) : Z :=
    match q with BO r => if up then idg r + 1 else S r | BM r => if up then S r else idg r + 1 | BD r => idg r end.
  Definition bcap (q : bk) : Z := match q with BO r => nr All r | BM r => nc All r | BD r => 1 end.

  Lemma blayout : layout bdom bb bcap (S m).
  Proof.
    assert (G : forall q, bdom q -> exists r, (q = BO r \/ q = BM r \/ q = BD r) /\ 0 <= r < m /\ S r <= bb q /\ bb q + bcap q <= S (r + 1) /\ 0 <= bcap q).
    { intros q D. assert (X : exists r, (q = BO r \/ q = BM r \/ q = BD r) /\ 0 <= r < m) by (destruct q as [r|r|r]; exists r; auto).
      destruct X as (r & Q & Hr). exists r. split; auto. split; auto. rewrite S_step by lia.
      pose proof (nr_nonneg All r). pose proof (nc_nonneg All r).
      destruct Q as [-> |[-> | ->]]; cbn [bb bcap]; unfold idg, left, right; destruct up; lia. }
    split.
    - intros q D. destruct (G q D) as (r & _ & Hr & A1 & A2 & A3). pose proof (S_mono 0 r). pose proof (S_mono (r + 1) m). rewrite S_0 in *. lia.
    - intros q q' D D' N. destruct (G q D) as (r & Q & Hr & A1 & A2 & A3). destruct (G q' D') as (r' & Q' & Hr' & A1' & A2' & A3').
      destruct (Z.lt_trichotomy r r') as [C|[C|C]].
      + left. pose proof (S_mono (r + 1) r'). lia.
      + subst r'. pose proof (nr_nonneg All r). pose proof (nc_nonneg All r).
        destruct Q as [-> |[-> | ->]], Q' as [-> |[-> | ->]]; try congruence; cbn [bb bcap] in *; unfold idg, left, right in *; destruct up; lia.
      + right. pose proof (S_mono (r' + 1) r). lia.
  Qed.

  Definition f (v : T) : T := if herm then ocj O v else v.
  Definition g (v : T) : T := if herm then re v else v.
  Definition dpart (i e : Z) : list T :=
    map g (flat_map (fun k => if zn ind k =? i + b then olist (rd val k) else []) (zrange (rlo i) e)).
  Definition dgv (i : Z) : T := last (map g (ents b ptr ind val i i)) z.
  Definition BI (P : list item) (D : Z) (q : bk) : list Z :=
    match q with
    | BO r => map icol (filter (fun p => irow p =? r) P)
    | BM r => map irow (filter (fun p => icol p =? r) P)
    | BD r => if r <? D then [r] else []
    end.
  Definition BV (P : list item) (D : Z) (q : bk) : list T :=
    match q with
    | BO r => map ival (filter (fun p => irow p =? r) P)
    | BM r => map (fun p => f (ival p)) (filter (fun p => icol p =? r) P)
    | BD r => if r <? D then [dgv r] else []
    end.
  Lemma zlen_BI : forall P D q, zlen (BI P D q) = match q with BO r => nr P r | BM r => nc P r | BD r => if r <? D then 1 else 0 end.
  Proof. intros P D [r|r|r]; cbn [BI]; [rewrite zlen_map; reflexivity|rewrite zlen_map; reflexivity|destruct (r <? D); reflexivity]. Qed.
  Lemma zlen_BV : forall P D q, zlen (BV P D q) = zlen (BI P D q).
  Proof. intros P D [r|r|r]; cbn [BI BV]; [now rewrite !zlen_map|now rewrite !zlen_map|destruct (r <? D); reflexivity]. Qed.
  Lemma BI_cap : forall P D q rest, All = P ++ rest -> zlen (BI P D q) <= bcap q.
  Proof.
    intros P D q rest E. rewrite zlen_BI. destruct q as [r|r|r]; cbn [bcap]; rewrite ?E; unfold nr, nc; rewrite ?zlen_filter_app.
    - pose proof (zlen_nonneg _ (filter (fun p => irow p =? r) rest)). lia.
    - pose proof (zlen_nonneg _ (filter (fun p => icol p =? r) rest)). lia.
    - destruct (r <? D); lia.
  Qed.

  (** Storing one kept element in both triangles. *)
  Lemma push_item : forall A (d : A) (B B' : bk -> list A) P rest i j v (w1 w2 : A) D arr,
    All = P ++ [(i, (j, v))] ++ rest -> 0 <= i < m -> 0 <= j < m ->
    (forall q, zlen (B q) = zlen (BI P D q)) -> zlen arr = S m -> holds bdom bb d B arr ->
    B' (BO i) = B (BO i) ++ [w1] -> B' (BM j) = B (BM j) ++ [w2] ->
    (forall q, q <> BO i -> q <> BM j -> B' q = B q) ->
    exists a1, wr arr (bb (BO i) + nr P i) w1 = Some a1 /\ exists a2, wr a1 (bb (BM j) + nc P j) w2 = Some a2 /\
      zlen a1 = S m /\ zlen a2 = S m /\ holds bdom bb d B' a2.
  Proof.
    intros A d B B' P rest i j v w1 w2 D arr EA Hi Hj EB La HB E1 E2 E3.
    assert (C1 : zlen (BI P D (BO i)) < bcap (BO i)).
    { rewrite zlen_BI. cbn [bcap]. rewrite EA, app_assoc, nr_app, nr_snoc. unfold irow at 1. cbn [fst]. rewrite Z.eqb_refl.
      pose proof (nr_nonneg rest i). lia. }
    assert (C2 : zlen (BI P D (BM j)) < bcap (BM j)).
    { rewrite zlen_BI. cbn [bcap]. rewrite EA, app_assoc, nc_app, nc_snoc. unfold icol at 1. cbn [fst snd]. rewrite Z.eqb_refl.
      pose proof (nc_nonneg rest j). lia. }
    pose proof (BI_cap P D) as CAP. specialize (fun q => CAP q _ EA).
    pose (B1 := fun q => if bk_eq q (BO i) then B q ++ [w1] else B q).
    assert (Q1 : zlen (B (BO i)) = nr P i) by (rewrite EB, zlen_BI; reflexivity).
    assert (Q2 : zlen (B (BM j)) = nc P j) by (rewrite EB, zlen_BI; reflexivity).
    assert (Q2' : B1 (BM j) = B (BM j)) by (unfold B1; destruct (bk_eq (BM j) (BO i)); [discriminate|reflexivity]).
    assert (Q1' : B1 (BO i) = B (BO i) ++ [w1]) by (unfold B1; destruct (bk_eq (BO i) (BO i)); [reflexivity|congruence]).
    assert (Q3' : forall q, q <> BO i -> B1 q = B q) by (intros q N; unfold B1; destruct (bk_eq q (BO i)); [congruence|reflexivity]).
    clearbody B1.
    destruct (holds_push bk_eq bdom bb bcap (S m) A d B B1 arr (BO i) w1) as (a1 & W1 & L1 & H1); auto using blayout.
    - intros q' _. rewrite EB. apply CAP.
    - rewrite EB. exact C1.
    - rewrite Q1 in W1. exists a1. split; auto.
      destruct (holds_push bk_eq bdom bb bcap (S m) A d B1 B' a1 (BM j) w2) as (a2 & W2 & L2 & H2); auto using blayout.
      + intros q' _. destruct (bk_eq q' (BO i)) as [->|N].
        * rewrite Q1', zlen_app, EB. change (zlen [w1]) with 1. lia.
        * rewrite Q3', EB by auto. apply CAP.
      + rewrite Q2', EB. exact C2.
      + rewrite Q2'. exact E2.
      + intros q' _ N. destruct (bk_eq q' (BO i)) as [->|N']; [congruence|]. rewrite Q3' by auto. auto.
      + rewrite Q2', Q2 in W2. exists a2. auto.
  Qed.

  Definition finv (D : Z) (P : list item) (dind : list Z) (dval : list T) (cp : list Z) : Prop :=
    zlen dind = S m /\ zlen dval = S m /\ zlen cp = m /\ holds bdom bb 0 (BI P D) dind /\ holds bdom bb z (BV P D) dval /\
    (forall j, 0 <= j < m -> zn cp j = bb (BM j) + nc P j).

  Lemma dpart_step : forall i k, 0 <= k < nnz -> rlo i <= k ->
    dpart i (k + 1) = dpart i k ++ (if zn ind k =? i + b then [g (nthZ z val k)] else []).
  Proof.
    intros i k Hk Hr. unfold dpart. rewrite zrange_last by lia. rewrite flat_map_app, map_app. cbn [flat_map]. rewrite app_nil_r.
    destruct (zn ind k =? i + b); auto. rewrite (rd_nthZ _ z) by lia. reflexivity.
  Qed.

  Lemma fill_row : forall i dind dval cp, 0 <= i < m -> finv i (trav i (rlo i)) dind dval cp ->
    exists dind' dval' cp' p',
      for_ (rlo i) (rlo (i + 1)) (fun k st =>
          let '(dind, dval, cp, col_pos, diag) := st in
          let* c := rd ind k in
          let j := c - b in
          let* v := rd val k in
          if (negb up && (j <? i)) || (up && (i <? j)) then
            let* dval := wr dval col_pos v in
            let* dind := wr dind col_pos j in
            let* q := rd cp j in
            let* dval := wr dval q (if herm then ocj O v else v) in
            let* dind := wr dind q i in
            let* cp := wr cp j (q + 1) in
            Some (dind, dval, cp, col_pos + 1, diag)
          else if j =? i then Some (dind, dval, cp, col_pos, if herm then re v else v)
          else Some (dind, dval, cp, col_pos, diag))
        (dind, dval, cp, bb (BO i), z) = Some (dind', dval', cp', p', dgv i) /\
      finv i (trav i (rlo (i + 1))) dind' dval' cp'.
  Proof.
    intros i dind dval cp Hi HF. pose proof (rb i Hi) as B. destruct (wf_len _ _ _ _ _ _ W) as [Lp Li].
    match goal with |- context [for_ ?lo ?hi ?F ?s] =>
      destruct (for_inv _ (fun k (st : list Z * list T * list Z * Z * T) => let '(di, dv, cp, p, dg) := st in
         finv i (trav i k) di dv cp /\ p = bb (BO i) + nr (trav i k) i /\ dg = last (dpart i k) z) lo hi F s) as ([[[[di dv] cp'] p'] dg] & E & R1 & R2 & R3) end.
    - lia.
    - split; auto. split.
      + replace (nr (trav i (rlo i)) i) with 0; [lia|]. symmetry. unfold nr. 
        replace (filter (fun p => irow p =? i) (trav i (rlo i))) with (@nil item); auto. symmetry.
        unfold trav, rowit at 2. rewrite (zrange_nil (rlo i)) by lia. cbn [flat_map]. rewrite app_nil_r.
        assert (G : forall l, (forall r, In r l -> r < i) -> filter (fun p : item => irow p =? i) (flat_map (fun r => rowit r (rlo (r + 1))) l) = []).
        { induction l as [|r l IH]; intros Hl; auto. cbn [flat_map]. rewrite filter_app, IH by (intros; apply Hl; now right). rewrite app_nil_r.
          unfold rowit. assert (Hr : r < i) by (apply Hl; now left). clear - Hr. induction (zrange (rlo r) (rlo (r + 1))) as [|k l IH]; auto.
          cbn [flat_map]. rewrite filter_app, IH, app_nil_r. unfold it. destruct (keep r (zn ind k - b)); auto. cbn [filter]. unfold irow. cbn [fst].
          replace (r =? i) with false by lia. reflexivity. }
        apply G. intros r Hr. apply in_zrange in Hr. lia.
      + unfold dpart. rewrite zrange_nil by lia. reflexivity.
    - intros k [[[[di dv] cp'] p'] dg] Hk (I1 & I2 & I3). pose proof (wf_ind _ _ _ _ _ _ W k ltac:(lia)) as HI.
      rewrite (rd_nthZ _ 0) by lia. cbv zeta. rewrite (rd_nthZ _ z) by lia. fold (keep i (zn ind k - b)).
      rewrite trav_step by lia. rewrite dpart_step by lia.
      destruct (keep i (zn ind k - b)) eqn:K.
      + destruct (trav_prefix i k Hi ltac:(lia)) as (rest & EA). rewrite it_keep in * by auto.
        remember (zn ind k - b) as j eqn:Ej. remember (nthZ z val k) as v eqn:Ev.
        destruct I1 as (L1 & L2 & L3 & H1 & H2 & H3). set (P := trav i k) in *.
        destruct (push_item T z (BV P i) (BV (P ++ [(i, (j, v))]) i) P rest i j v v (f v) i dv) as (a1 & W1 & a2 & W2 & _ & La & HA); auto; try lia.
        { intros q. apply zlen_BV. }
        { cbn [BV]. rewrite filter_app, map_app. cbn [filter]. unfold irow at 2. cbn [fst]. rewrite Z.eqb_refl. reflexivity. }
        { cbn [BV]. rewrite filter_app, map_app. cbn [filter]. unfold icol at 2. cbn [fst snd]. rewrite Z.eqb_refl. reflexivity. }
        { intros [r|r|r] N1 N2; cbn [BV]; auto; rewrite filter_app, map_app; cbn [filter].
          - unfold irow at 2; cbn [fst]. replace (i =? r) with false by (symmetry; apply Z.eqb_neq; congruence). apply app_nil_r.
          - unfold icol at 2; cbn [fst snd]. replace (j =? r) with false by (symmetry; apply Z.eqb_neq; congruence). apply app_nil_r. }
        destruct (push_item Z 0 (BI P i) (BI (P ++ [(i, (j, v))]) i) P rest i j v j i i di) as (b1 & X1 & b2 & X2 & _ & Lb & HB); auto; try lia.
        { cbn [BI]. rewrite filter_app, map_app. cbn [filter]. unfold irow at 2. cbn [fst]. rewrite Z.eqb_refl. reflexivity. }
        { cbn [BI]. rewrite filter_app, map_app. cbn [filter]. unfold icol at 2. cbn [fst snd]. rewrite Z.eqb_refl. reflexivity. }
        { intros [r|r|r] N1 N2; cbn [BI]; auto; rewrite filter_app, map_app; cbn [filter].
          - unfold irow at 2; cbn [fst]. replace (i =? r) with false by (symmetry; apply Z.eqb_neq; congruence). apply app_nil_r.
          - unfold icol at 2; cbn [fst snd]. replace (j =? r) with false by (symmetry; apply Z.eqb_neq; congruence). apply app_nil_r. }
        rewrite I2, W1, X1. rewrite (rd_nthZ _ 0) by lia. rewrite (H3 j) by lia. fold (f v). rewrite W2, X2. rewrite wr_upd by lia.
        eexists; split; [reflexivity|]. split; [|split].
        * unfold finv. rewrite zlen_upd. ands; auto. intros j' Hj'. rewrite nthZ_upd by lia. rewrite nc_snoc. unfold icol at 1. cbn [fst snd].
          destruct (Z.eq_dec j' j) as [->|N]; [rewrite !Z.eqb_refl; lia|].
          replace (j' =? j) with false by lia. replace (j =? j') with false by lia. rewrite H3 by lia. lia.
        * rewrite nr_snoc. unfold irow at 1. cbn [fst]. rewrite Z.eqb_refl. lia.
        * replace (zn ind k =? i + b) with false; [now rewrite app_nil_r|]. unfold keep in K. lia.
      + rewrite it_skip by auto. rewrite app_nil_r. replace (zn ind k - b =? i) with (zn ind k =? i + b) by lia.
        destruct (zn ind k =? i + b).
        * eexists; split; [reflexivity|]. split; auto. split; auto. rewrite last_last. reflexivity.
        * rewrite app_nil_r. eexists; split; [reflexivity|]. cbv beta iota. auto.
    - rewrite E. exists di, dv, cp', p'. split; auto. rewrite R3. reflexivity.
  Qed.

  Lemma push_diag : forall A (d : A) (Bf : Z -> bk -> list A) P rest i (w : A) arr,
    All = P ++ rest -> 0 <= i < m -> (forall D q, zlen (Bf D q) = zlen (BI P D q)) -> zlen arr = S m ->
    holds bdom bb d (Bf i) arr -> (forall D r, Bf D (BO r) = Bf i (BO r)) -> (forall D r, Bf D (BM r) = Bf i (BM r)) ->
    (forall D r, D <= r -> Bf D (BD r) = []) -> Bf (i + 1) (BD i) = [w] -> (forall r, r <> i -> Bf (i + 1) (BD r) = Bf i (BD r)) ->
    exists arr', wr arr (idg i) w = Some arr' /\ zlen arr' = S m /\ holds bdom bb d (Bf (i + 1)) arr'.
  Proof.
    intros A d Bf P rest i w arr EA Hi EB La HB E1 E2 E3 E4 E5.
    destruct (holds_push bk_eq bdom bb bcap (S m) A d (Bf i) (Bf (i + 1)) arr (BD i) w) as (a & W1 & L1 & H1); auto using blayout.
    - intros q' _. rewrite EB. eapply BI_cap; eauto.
    - rewrite (E3 i i) by lia. cbn. lia.
    - rewrite (E3 i i) by lia. exact E4.
    - intros [r|r|r] D N; auto. apply E5. congruence.
    - exists a. split; auto. rewrite <- W1. rewrite (E3 i i) by lia. cbn [bb]. f_equal. unfold zlen. cbn. lia.
  Qed.

  Lemma expand_fill_ok : forall dptr idiag dind dval cp dg, zlen dptr = m + 1 -> zlen idiag = m ->
    (forall r, 0 <= r <= m -> zn dptr r = S r) -> (forall r, 0 <= r < m -> zn idiag r = idg r) ->
    zlen dind = S m -> zlen dval = S m -> zlen cp = m -> zlen dg = m -> (forall j, 0 <= j < m -> zn cp j = bb (BM j)) ->
    exists dind' dval' cp' dg', expand_fill O re m b herm up ptr ind val dptr idiag dind dval cp dg = Some (dind', dval', cp', dg') /\
      zlen dind' = S m /\ zlen dval' = S m /\ holds bdom bb 0 (BI All m) dind' /\ holds bdom bb z (BV All m) dval' /\
      zlen dg' = m /\ (forall r, 0 <= r < m -> nthZ z dg' r = dgv r).
  Proof.
    intros dptr idiag dind dval cp dg D1 D2 D3 D4 D5 D6 D7 D8 D9. unfold expand_fill.
    destruct (wf_len _ _ _ _ _ _ W) as [Lp Li]. pose proof (wf_m _ _ _ _ _ _ W) as Hm.
    match goal with |- context [for_ 0 m ?F ?s] =>
      destruct (for_inv _ (fun i (st : list Z * list T * list Z * list T) => let '(di, dv, cp, dg) := st in
         finv i (trav i (rlo i)) di dv cp /\ zlen dg = m /\ (forall r, 0 <= r < i -> nthZ z dg r = dgv r)) 0 m F s) as ([[[di dv] cp'] dg'] & E & R1 & R2 & R3) end.
    - lia.
    - rewrite trav_0. split; [|split; auto; intros; lia]. unfold finv. ands; auto.
      + intros [r|r|r] k Hd Hk; cbn in Hk, Hd; try lia. replace (r <? 0) with false in Hk by lia. cbn in Hk. lia.
      + intros [r|r|r] k Hd Hk; cbn in Hk, Hd; try lia. replace (r <? 0) with false in Hk by lia. cbn in Hk. lia.
      + intros j Hj. rewrite D9 by auto. unfold nc. cbn. lia.
    - intros i [[[di dv] cp'] dg'] Hi (I1 & I2 & I3). pose proof (rb i Hi) as B.
      rewrite (rd_nthZ _ 0) by lia. rewrite (rd_nthZ _ 0) by lia. rewrite (rd_nthZ _ 0) by lia. rewrite (rd_nthZ _ 0) by lia.
      rewrite (D3 i), (D4 i) by lia. fold (rlo i). fold (rlo (i + 1)).
      destruct (fill_row i di dv cp' Hi I1) as (di2 & dv2 & cp2 & p2 & ER & F1 & F2 & F3 & F4 & F5 & F6).
      replace (if negb up then S i else idg i + 1) with (bb (BO i)) by (cbn [bb]; destruct up; reflexivity).
      cbv zeta in ER. rewrite ER. rewrite trav_row in * by lia. destruct (trav_prefix' (i + 1) ltac:(lia)) as (rest & EA). set (P := trav (i + 1) (rlo (i + 1))) in *.
      assert (N : forall r, r <> i -> (r <? i + 1) = (r <? i)) by (intros; lia).
      destruct (push_diag T z (BV P) P rest i (dgv i) dv2) as (dv3 & W3 & L3 & H3); auto.
      { intros. apply zlen_BV. }
      { intros D r HD. cbn [BV]. replace (r <? D) with false by lia. reflexivity. }
      { cbn [BV]. replace (i <? i + 1) with true by lia. reflexivity. }
      { intros r Hr. cbn [BV]. now rewrite N. }
      destruct (push_diag Z 0 (BI P) P rest i i di2) as (di3 & X3 & M3 & G3); auto.
      { intros D r HD. cbn [BI]. replace (r <? D) with false by lia. reflexivity. }
      { cbn [BI]. replace (i <? i + 1) with true by lia. reflexivity. }
      { intros r Hr. cbn [BI]. now rewrite N. }
      rewrite W3. rewrite wr_upd by lia. rewrite X3. eexists; split; [reflexivity|]. split; [unfold finv; ands; auto|].
      rewrite zlen_upd. split; auto. intros r Hr. rewrite nthZ_upd by lia. destruct (Z.eqb_spec r i) as [->|]; auto. apply I3. lia.
    - rewrite E. exists di, dv, cp', dg'. destruct R1 as (Q1 & Q2 & Q3 & Q4 & Q5 & Q6). rewrite trav_all in *. ands; auto.
  Qed.

  (** ** What the full-storage arrays hold *)
  Lemma flat_map_all : forall A (h : item -> list A) r, 0 <= r < m -> (forall p, irow p <> r -> h p = []) ->
    flat_map h All = flat_map h (rowit r (rlo (r + 1))).
  Proof.
    intros A h r Hr H. unfold All. rewrite (zrange_app 0 r m), (zrange_first r m) by lia. rewrite !flat_map_app. cbn [flat_map]. rewrite flat_map_app.
    assert (G : forall l, ~ In r l -> flat_map h (flat_map (fun r => rowit r (rlo (r + 1))) l) = []).
    { induction l as [|q l IH]; intros Hl; auto. cbn [flat_map]. rewrite flat_map_app, IH by (intro; apply Hl; now right). rewrite app_nil_r.
      assert (Hq : q <> r) by (intro; apply Hl; now left). unfold rowit. induction (zrange (rlo q) (rlo (q + 1))) as [|k l' IH']; auto.
      cbn [flat_map]. rewrite flat_map_app, IH', app_nil_r. unfold it. destruct (keep q (zn ind k - b)); auto. cbn [flat_map]. rewrite app_nil_r. apply H. exact Hq. }
    rewrite (G (zrange 0 r)), (G (zrange (r + 1) m)), app_nil_r; auto; intros C; apply in_zrange in C; lia.
  Qed.

  Lemma row_pick : forall A (h : T -> list A) r j, 0 <= r < m -> 
    flat_map (fun p : item => if icol p =? j then h (ival p) else []) (rowit r (rlo (r + 1)))
    = if keep r j then flat_map h (ents b ptr ind val r j) else [].
  Proof.
    intros A h r j Hr. unfold rowit, ents. fold (rlo r). fold (rlo (r + 1)). pose proof (rb r Hr) as B.
    assert (G : forall l, (forall k, In k l -> 0 <= k < nnz) ->
      flat_map (fun p : item => if icol p =? j then h (ival p) else []) (flat_map (it r) l) =
      if keep r j then flat_map h (flat_map (fun k => if zn ind k =? j + b then olist (rd val k) else []) l) else []).
    { induction l as [|k l IH]; intros Hl; [destruct (keep r j); reflexivity|].
      cbn [flat_map]. rewrite flat_map_app, IH by (intros; apply Hl; now right). unfold it.
      assert (Hk : 0 <= k < nnz) by (apply Hl; now left). rewrite (rd_nthZ _ z) by lia.
      destruct (Z.eqb_spec (zn ind k) (j + b)) as [E|E].
      - replace (zn ind k - b) with j by lia. destruct (keep r j); auto. cbn [flat_map]. unfold icol, ival. cbn [fst snd]. rewrite Z.eqb_refl.
        rewrite flat_map_app. cbn [olist flat_map]. rewrite ?app_nil_r. reflexivity.
      - cbn [app]. destruct (keep r (zn ind k - b)); cbn [flat_map app]; auto. unfold icol at 1. cbn [fst snd]. replace (zn ind k - b =? j) with false by lia. reflexivity. }
    apply G. intros k Hk. apply in_zrange in Hk. lia.
  Qed.

  Lemma flat_map_filter : forall A B (c : A -> bool) (h : A -> list B) l, flat_map h (filter c l) = flat_map (fun a => if c a then h a else []) l.
  Proof. intros A B c h l. induction l as [|a l IH]; auto. cbn [filter flat_map]. destruct (c a); cbn [flat_map]; rewrite IH; reflexivity. Qed.
  Lemma flat_map_combine_map : forall X A (c : X -> Z) (v : X -> A) j l,
    flat_map (fun p : Z * A => if fst p =? j then [snd p] else []) (combine (map c l) (map v l)) = flat_map (fun x => if c x =? j then [v x] else []) l.
  Proof. induction l as [|x l IH]; auto. cbn [map combine flat_map fst snd]. now rewrite IH. Qed.
  Lemma flat_map_map_single : forall A B (h : A -> B) l, flat_map (fun a => [h a]) l = map h l.
  Proof. induction l as [|a l IH]; [reflexivity|]. cbn [map flat_map app]. now rewrite IH. Qed.

  Lemma pick_orig : forall i j, 0 <= i < m ->
    flat_map (fun p : Z * T => if fst p =? j then [snd p] else []) (combine (BI All m (BO i)) (BV All m (BO i)))
    = if keep i j then ents b ptr ind val i j else [].
  Proof.
    intros i j Hi. cbn [BI BV]. rewrite flat_map_combine_map, flat_map_filter. rewrite (flat_map_all _ _ i) by
      (auto; intros p N; replace (irow p =? i) with false by lia; reflexivity).
    transitivity (flat_map (fun p : item => if icol p =? j then [ival p] else []) (rowit i (rlo (i + 1)))).
    - unfold rowit. induction (zrange (rlo i) (rlo (i + 1))) as [|k l IH]; auto. cbn [flat_map]. rewrite !flat_map_app, IH. f_equal.
      unfold it. destruct (keep i (zn ind k - b)); auto. cbn [flat_map]. unfold irow. cbn [fst]. rewrite Z.eqb_refl. reflexivity.
    - rewrite (row_pick _ (fun v => [v])) by auto. destruct (keep i j); auto. rewrite (flat_map_map_single _ _ (fun v => v)). apply map_id.
  Qed.
  Lemma pick_mir : forall i j, 0 <= i < m -> 0 <= j < m ->
    flat_map (fun p : Z * T => if fst p =? j then [snd p] else []) (combine (BI All m (BM i)) (BV All m (BM i)))
    = if keep j i then map f (ents b ptr ind val j i) else [].
  Proof.
    intros i j Hi Hj. cbn [BI BV]. rewrite flat_map_combine_map, flat_map_filter. rewrite (flat_map_all _ _ j) by
      (auto; intros p N; replace (irow p =? j) with false by lia; now destruct (icol p =? i)).
    transitivity (flat_map (fun p : item => if icol p =? i then [f (ival p)] else []) (rowit j (rlo (j + 1)))).
    - unfold rowit. induction (zrange (rlo j) (rlo (j + 1))) as [|k l IH]; auto. cbn [flat_map]. rewrite !flat_map_app, IH. f_equal.
      unfold it. destruct (keep j (zn ind k - b)); auto. cbn [flat_map]. unfold irow. cbn [fst]. rewrite Z.eqb_refl. reflexivity.
    - rewrite (row_pick _ (fun v => [f v])) by auto. destruct (keep j i); [apply flat_map_map_single|reflexivity].
  Qed.

  Lemma expanded_ents : forall dptr dind dval i j, (forall r, 0 <= r <= m -> zn dptr r = S r) ->
    zlen dval = S m -> holds bdom bb 0 (BI All m) dind -> holds bdom bb z (BV All m) dval -> 0 <= i < m -> 0 <= j < m ->
    ents 0 dptr dind dval i j = if i =? j then [dgv i] else if keep i j then ents b ptr ind val i j else map f (ents b ptr ind val j i).
  Proof.
    intros dptr dind dval i j HP Lv' HI HV Hi Hj. unfold ents at 1. rewrite !HP by lia. rewrite !Z.sub_0_r.
    rewrite S_step by lia. pose proof (left_nonneg All i). pose proof (right_nonneg All i).
    rewrite (zrange_app (S i) (idg i)) by (unfold idg; lia). rewrite (zrange_app (idg i) (idg i + 1)) by (unfold idg; lia).
    rewrite !flat_map_app. rewrite Z.add_0_r.
    assert (SEG : forall q, bdom q -> flat_map (fun k => if zn dind k =? j then olist (rd dval k) else []) (zrange (bb q) (bb q + zlen (BI All m q)))
        = flat_map (fun p : Z * T => if fst p =? j then [snd p] else []) (combine (BI All m q) (BV All m q))).
    { intros q Dq. destruct blayout as [LY _]. specialize (LY q Dq).
      apply (bucket_ents bk T bdom bb z (BI All m) (BV All m)); auto; [now rewrite zlen_BV|lia|].
      rewrite zlen_BV. pose proof (BI_cap All m q [] ltac:(now rewrite app_nil_r)). lia. }
    pose proof (SEG (BO i) Hi) as SO. pose proof (SEG (BM i) Hi) as SM. pose proof (SEG (BD i) Hi) as SD.
    rewrite zlen_BI in SO, SM, SD. rewrite pick_orig in SO by auto. rewrite pick_mir in SM by auto.
    cbn [bb BI BV] in SO, SM, SD. replace (i <? m) with true in SD by lia. rewrite SD. cbn [combine flat_map fst snd]. rewrite app_nil_r.
    unfold idg, left, right in *. unfold keep in *. destruct up; cbn [negb andb orb] in *; rewrite ?orb_false_r in *.
    - rewrite SM. replace (S i + (nc All i + nr All i + 1)) with (S i + nc All i + 1 + nr All i) by lia. rewrite SO.
      destruct (Z.eqb_spec i j) as [->|N].
      + rewrite Z.ltb_irrefl. reflexivity.
      + destruct (Z.ltb_spec i j); destruct (Z.ltb_spec j i); try lia; rewrite ?app_nil_r; reflexivity.
    - rewrite SO. replace (S i + (nr All i + nc All i + 1)) with (S i + nr All i + 1 + nc All i) by lia. rewrite SM.
      destruct (Z.eqb_spec i j) as [->|N].
      + rewrite Z.ltb_irrefl. reflexivity.
      + destruct (Z.ltb_spec i j); destruct (Z.ltb_spec j i); try lia; rewrite ?app_nil_r; reflexivity.
  Qed.

  Lemma all_range : forall p, In p All -> 0 <= irow p < m /\ 0 <= icol p < m.
  Proof.
    intros p Hp. unfold All in Hp. apply in_flat_map in Hp as (r & Hr & Hp). apply in_zrange in Hr. unfold rowit in Hp.
    apply in_flat_map in Hp as (k & Hk & Hp). apply in_zrange in Hk. pose proof (rb r Hr). unfold it in Hp.
    destruct (keep r (zn ind k - b)); [|destruct Hp]. destruct Hp as [<-|[]]. unfold irow, icol. cbn [fst snd].
    pose proof (wf_ind _ _ _ _ _ _ W k ltac:(lia)). lia.
  Qed.
  Lemma S_find : forall p n, 0 <= n -> 0 <= p < S n -> exists r, 0 <= r < n /\ S r <= p < S (r + 1).
  Proof.
    intros p n Hn. replace n with (Z.of_nat (Z.to_nat n)) by lia. induction (Z.to_nat n) as [|k IH]; intros Hp.
    - change (Z.of_nat 0) with 0 in Hp. rewrite S_0 in Hp. lia.
    - replace (Z.of_nat (Datatypes.S k)) with (Z.of_nat k + 1) in * by lia. destruct (Z_lt_ge_dec p (S (Z.of_nat k))).
      + destruct IH as (r & H1 & H2); [lia|]. exists r. lia.
      + exists (Z.of_nat k). lia.
  Qed.
  Lemma slot_find : forall p, 0 <= p < S m -> exists q r, bdom q /\ p = bb q + r /\ 0 <= r < zlen (BI All m q).
  Proof.
    intros p Hp. pose proof (wf_m _ _ _ _ _ _ W). destruct (S_find p m) as (r & Hr & B); auto. rewrite S_step in B by lia.
    destruct (Z_lt_ge_dec p (idg r)) as [C|C]; [|destruct (Z.eq_dec p (idg r)) as [C'|C']].
    - unfold idg, left, right in *. destruct up eqn:U.
      + exists (BM r), (p - S r). rewrite zlen_BI. cbn [bdom bb]. unfold idg, left. rewrite U. lia.
      + exists (BO r), (p - S r). rewrite zlen_BI. cbn [bdom bb]. unfold idg, left. rewrite U. lia.
    - exists (BD r), 0. rewrite zlen_BI. cbn [bdom bb]. replace (r <? m) with true by lia. lia.
    - unfold idg, left, right in *. destruct up eqn:U.
      + exists (BO r), (p - (S r + nc All r + 1)). rewrite zlen_BI. cbn [bdom bb]. unfold idg, left. rewrite U. lia.
      + exists (BM r), (p - (S r + nr All r + 1)). rewrite zlen_BI. cbn [bdom bb]. unfold idg, left. rewrite U. lia.
  Qed.
  Lemma expanded_wf : forall dptr dind, zlen dptr = m + 1 -> zlen dind = S m ->
    (forall r, 0 <= r <= m -> zn dptr r = S r) -> holds bdom bb 0 (BI All m) dind -> csr_wf m m (S m) 0 dptr dind.
  Proof.
    intros dptr dind L1 L2 HP HI. pose proof (wf_m _ _ _ _ _ _ W) as Hm. constructor; auto.
    - pose proof (S_mono 0 m). rewrite S_0 in *. lia.
    - split; auto.
    - unfold ptr_ok. rewrite !HP by lia. ands; auto. intros i Hi. rewrite !HP by lia. pose proof (S_mono i (i + 1)). lia.
    - intros p Hp. destruct (slot_find p Hp) as (q & r & Dq & -> & Hr). rewrite HI by auto.
      assert (IN : In (zn (BI All m q) r) (BI All m q)) by (apply nthZ_In; auto).
      destruct q as [i|i|i]; cbn [BI bdom] in *.
      + apply in_map_iff in IN as (x & <- & IN). apply filter_In in IN as [IN _]. apply all_range in IN. lia.
      + apply in_map_iff in IN as (x & <- & IN). apply filter_In in IN as [IN _]. apply all_range in IN. lia.
      + replace (i <? m) with true in * by lia. destruct IN as [<-|[]]. lia.
  Qed.
End X.

Lemma ents_two : forall T b ptr ind (val : list T) i j k k', in_row ptr b i k -> in_row ptr b i k' -> k < k' ->
  zn ind k = j + b -> zn ind k' = j + b -> 0 <= k -> k' < zlen val -> (2 <= length (ents b ptr ind val i j))%nat.
Proof.
  intros T b ptr ind val i j k k' H1 H2 H E1 E2 H0 H3. unfold ents, in_row in *.
  rewrite (zrange_app _ k) by lia. rewrite (zrange_first k) by lia. rewrite (zrange_app (k + 1) k') by lia. rewrite (zrange_first k') by lia.
  rewrite flat_map_app. cbn [flat_map]. rewrite flat_map_app. cbn [flat_map].
  replace (zn ind k =? j + b) with true by lia. replace (zn ind k' =? j + b) with true by lia.
  assert (G : forall p, 0 <= p < zlen val -> exists v, rd val p = Some v).
  { intros p Hp. destruct val as [|v0 vs] eqn:EV; [cbn in Hp; lia|]. exists (nthZ v0 (v0 :: vs) p). apply rd_nthZ. exact Hp. }
  destruct (G k) as [v1 ->]; [lia|]. destruct (G k') as [v2 ->]; [lia|].
  rewrite !app_length. cbn [olist length app]. lia.
Qed.

(** ** The expansion *)
Section C.
  Context {T : Type} (O : ops T) (re : T -> T) (fz : Z -> list Z) (ft : Z -> list T).
  Hypothesis Hfz : forall k, 0 <= k -> zlen (fz k) = k.
  Hypothesis Hft : forall k, 0 <= k -> zlen (ft k) = k.

  (** Value placed on the diagonal: the last stored one. *)
  Definition diag_of (herm : bool) b ptr ind (val : list T) i : T :=
    last (map (fun v => if herm then re v else v) (ents b ptr ind val i i)) (o0 O).

  Lemma convert_ok : forall herm m nnz b ptr ind (val : list T) fm doid,
    csr_wf m m nnz b ptr ind -> zlen val = nnz ->
    exists c idiag dg, convert_mat_to_general O re fz ft herm m ptr ind val fm b doid = Some c /\
      c_m c = m /\ c_n c = m /\ c_doid c = doid /\ c_b c = 0 /\ c_opt c = false /\ c_mdiag c = dg_non_unit /\
      csr_wf m m (c_nnz c) 0 (c_ptr c) (c_ind c) /\ zlen (c_val c) = c_nnz c /\
      (forall i j, 0 <= i < m -> 0 <= j < m -> ents 0 (c_ptr c) (c_ind c) (c_val c) i j =
         if i =? j then [diag_of herm b ptr ind val i]
         else if (if is_upper fm then i <? j else j <? i) then ents b ptr ind val i j
         else map (fun v => if herm then ocj O v else v) (ents b ptr ind val j i)) /\
      c_idiag c = Some idiag /\ c_dval c = Some dg /\ zlen idiag = m /\ zlen dg = m /\
      (forall i, 0 <= i < m -> in_row (c_ptr c) 0 i (zn idiag i) /\ zn (c_ind c) (zn idiag i) = i /\
         nthZ (o0 O) dg i = diag_of herm b ptr ind val i).
  Proof.
    intros herm m nnz b ptr ind val fm doid W Lv. unfold convert_mat_to_general. pose proof (wf_m _ _ _ _ _ _ W) as Hm.
    set (up := is_upper fm).
    destruct (fill_range_ok Z 0 0 (m + 1) 0 (fz (m + 1))) as (p0 & E0 & L0 & V0); [lia|rewrite Hfz; lia|]. rewrite E0.
    destruct (fill_range_ok Z 0 0 m 0 (fz m)) as (d0 & E1 & L1 & V1); [lia|rewrite Hfz; lia|]. rewrite E1.
    rewrite Hfz in L0, L1 by lia.
    destruct (expand_count_ok O re m nnz b ptr ind val up W p0) as ([p1 nv] & E2 & C2); auto.
    { intros r Hr. rewrite V0 by lia. replace ((0 <=? r) && (r <? m + 1)) with true by lia. reflexivity. }
    rewrite E2. destruct (expand_scan_ok O m nnz b ptr ind val up W p1 nv d0 C2 L1) as (p2 & d2 & E3 & L2 & L3 & V2 & V3). rewrite E3.
    rewrite (rd_nthZ _ 0) by lia. rewrite V2 by lia. set (N := S O m b ptr ind val up m) in *.
    assert (HN : 0 <= N) by (pose proof (S_mono O m b ptr ind val up 0 m); rewrite S_0 in *; unfold N; lia).
    set (bM := fun j => bb O m b ptr ind val up (BM j)).
    assert (CP : exists cp, (if negb up
                then for_ 0 m (fun i cp => let* d := rd d2 i in wr cp i (d + 1)) (zrep m 0)
                else for_ 0 m (fun i cp => let* p := rd p2 i in wr cp i p) (zrep m 0)) = Some cp /\ zlen cp = m /\ (forall j, 0 <= j < m -> zn cp j = bM j)).
    { assert (G : forall (src : list Z) (h : Z -> Z), (forall j, 0 <= j < m -> h (zn src j) = bM j) -> m <= zlen src ->
        exists cp, for_ 0 m (fun i cp => let* d := rd src i in wr cp i (h d)) (zrep m 0) = Some cp /\ zlen cp = m /\ (forall j, 0 <= j < m -> zn cp j = bM j)).
      { intros src h Hh Ls. match goal with |- context [for_ 0 m ?F ?s] =>
          destruct (for_inv _ (fun e (cp : list Z) => zlen cp = m /\ (forall j, 0 <= j < e -> zn cp j = bM j)) 0 m F s) as (cp & E & R1 & R2) end.
        - lia.
        - rewrite zlen_zrep by lia. split; auto. intros; lia.
        - intros i cp Hi (I1 & I2). rewrite (rd_nthZ _ 0) by lia. rewrite wr_upd by lia. eexists; split; [reflexivity|].
          rewrite zlen_upd. split; auto. intros j Hj. rewrite nthZ_upd by lia. destruct (Z.eqb_spec j i) as [->|]; [apply Hh; lia|apply I2; lia].
        - eauto. }
      unfold bM in *. cbn [bb] in *. destruct up; cbn [negb].
      - apply (G p2 (fun p => p)); [|lia]. intros j Hj. rewrite V2 by lia. reflexivity.
      - apply (G d2 (fun p => p + 1)); [|lia]. intros j Hj. rewrite V3 by lia. reflexivity. }
    destruct CP as (cp & ECP & LCP & VCP). rewrite ECP.
    destruct (expand_fill_ok O re herm m nnz b ptr ind val up W Lv p2 d2 (fz N) (ft N) cp (ft m)) as (di & dv & cp' & dg & E5 & F1 & F2 & F3 & F4 & F5 & F6);
      auto; try (apply Hfz; auto); try (apply Hft; auto).
    rewrite E5. eexists. exists d2, dg. split; [reflexivity|]. cbn [c_m c_n c_doid c_b c_opt c_mdiag c_nnz c_ptr c_ind c_val c_idiag c_dval].
    ands; auto.
    - eapply expanded_wf; eauto.
    - intros i j Hi Hj. rewrite (expanded_ents O re herm m nnz b ptr ind val up W Lv p2 di dv i j); auto.
      destruct (i =? j); [reflexivity|]. unfold keep. destruct up; cbn [negb andb orb]; rewrite ?orb_false_r; reflexivity.
    - intros i Hi. specialize (F3 (BD i) 0). cbn [bdom bb BI] in F3. replace (i <? m) with true in F3 by lia. rewrite V3 by auto. ands.
      + unfold in_row. rewrite !V2 by lia. rewrite S_step by lia. unfold idg.
        pose proof (left_nonneg up (All O m b ptr ind val up) i). pose proof (right_nonneg up (All O m b ptr ind val up) i). lia.
      + rewrite Z.add_0_r in F3. rewrite F3; auto. cbn. lia.
      + rewrite F6 by auto. reflexivity.
  Qed.
End C.
