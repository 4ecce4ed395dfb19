From Coq Require Import ZArith List Bool Lia.
From Coq Require Import ZifyBool.
From Verif Require Import Base BaseFacts Csr CsrFacts Csr2CscModel CountSort.
Import ListNotations.
Open Scope Z_scope.

Lemma flat_map_filter : forall X Y (p : X -> bool) (g : X -> list Y) l,
  flat_map g (filter p l) = flat_map (fun x => if p x then g x else []) l.
Proof. induction l; cbn; auto. destruct (p a); cbn; now rewrite IHl. Qed.

Lemma flat_map_ext_in : forall X Y (f g : X -> list Y) l,
  (forall x, In x l -> f x = g x) -> flat_map f l = flat_map g l.
Proof. induction l; cbn; intros; auto. rewrite H by auto. f_equal. auto. Qed.

Lemma flat_map_nil : forall X Y (f : X -> list Y) l,
  (forall x, In x l -> f x = []) -> flat_map f l = [].
Proof. induction l; cbn; intros; auto. rewrite H by auto. auto. Qed.

(** The row of a stored position. *)
Definition rowf (m b : Z) (ptr : list Z) (k : Z) : Z :=
  zlen (filter (fun i => zn ptr (i + 1) - b <=? k) (zrange 0 m)).

Lemma rowf_in_row : forall m nnz b ptr, ptr_ok m nnz b ptr ->
  forall i k, 0 <= i < m -> in_row ptr b i k -> rowf m b ptr k = i.
Proof.
  intros m nnz b ptr P i k Hi (H1 & H2). unfold rowf.
  rewrite (zrange_app 0 i m), filter_app, zlen_app by lia.
  rewrite (filter_all _ _ (zrange 0 i)).
  2:{ intros x Hx. apply in_zrange in Hx.
      pose proof (ptr_mono _ _ _ _ P (x + 1) i ltac:(lia) ltac:(lia) ltac:(lia)). lia. }
  rewrite zlen_zrange by lia.
  destruct (filter (fun x => zn ptr (x + 1) - b <=? k) (zrange i m)) as [|x l] eqn:E.
  - rewrite zlen_nil. lia.
  - assert (I : In x (filter (fun x => zn ptr (x + 1) - b <=? k) (zrange i m))) by (rewrite E; left; auto).
    apply filter_In in I. destruct I as (I1 & I2). apply in_zrange in I1.
    pose proof (ptr_mono _ _ _ _ P (i + 1) (x + 1) ltac:(lia) ltac:(lia) ltac:(lia)). lia.
Qed.

(** Entries as a selection over all stored positions. *)
Lemma ents_global : forall T m n nnz b ptr ind (val : list T) i j,
  csr_wf m n nnz b ptr ind -> 0 <= i < m ->
  ents b ptr ind val i j =
  flat_map (fun k => if (rowf m b ptr k =? i) && (zn ind k =? j + b) then olist (rd val k) else [])
           (zrange 0 nnz).
Proof.
  intros T m n nnz b ptr ind val i j W Hi. pose proof (wf_ptr _ _ _ _ _ _ W) as P.
  pose proof (ptr_range _ _ _ _ P i ltac:(lia)) as R1.
  pose proof (ptr_range _ _ _ _ P (i + 1) ltac:(lia)) as R2.
  pose proof (proj2 (proj2 P) i Hi) as R3.
  assert (In0 : forall k, 0 <= k < nnz -> rowf m b ptr k = i -> in_row ptr b i k).
  { intros k Hk Er. destruct (row_of m nnz b ptr (wf_m _ _ _ _ _ _ W) P k Hk) as (i' & Hi' & Hr).
    rewrite (rowf_in_row m nnz b ptr P i' k Hi' Hr) in Er. subst; auto. }
  rewrite (zrange_app 0 (zn ptr i - b) nnz), flat_map_app by lia.
  rewrite (zrange_app (zn ptr i - b) (zn ptr (i + 1) - b) nnz), flat_map_app by lia.
  rewrite (flat_map_nil _ _ _ (zrange 0 (zn ptr i - b))).
  2:{ intros k Hk. apply in_zrange in Hk. destruct (rowf m b ptr k =? i) eqn:E; auto.
      exfalso. destruct (In0 k); lia. }
  rewrite (flat_map_nil _ _ _ (zrange (zn ptr (i + 1) - b) nnz)).
  2:{ intros k Hk. apply in_zrange in Hk. destruct (rowf m b ptr k =? i) eqn:E; auto.
      exfalso. destruct (In0 k); lia. }
  rewrite app_nil_r. cbn [app]. unfold ents. apply flat_map_ext_in. intros k Hk. apply in_zrange in Hk.
  rewrite (rowf_in_row m nnz b ptr P i k Hi) by (unfold in_row; lia).
  rewrite Z.eqb_refl. reflexivity.
Qed.

Lemma cnt_surj : forall key j e p, 0 <= e -> 0 <= p < cnt key j e ->
  exists k, 0 <= k < e /\ key k = j /\ cnt key j k = p.
Proof.
  intros key j e p He. replace e with (Z.of_nat (Z.to_nat e)) by lia.
  generalize (Z.to_nat e) as n. clear e He. induction n; intros Hp.
  - change (Z.of_nat 0) with 0 in Hp. rewrite cnt_0 in Hp. lia.
  - replace (Z.of_nat (S n)) with (Z.of_nat n + 1) in * by lia. rewrite cnt_step in Hp by lia.
    destruct (Z_lt_ge_dec p (cnt key j (Z.of_nat n))) as [C|C].
    + destruct IHn as (k & Hk & E1 & E2); [lia|]. exists k. ands; auto; lia.
    + destruct (key (Z.of_nat n) =? j) eqn:E; [|lia]. exists (Z.of_nat n). ands; try lia.
Qed.

(** Structure of counting-sorted output. *)
Section Out.
  Variables (n nnz : Z) (key : Z -> Z).
  Hypothesis Hn : 0 <= n.
  Hypothesis Hnnz : 0 <= nnz.
  Hypothesis Hkey : forall k, 0 <= k < nnz -> 0 <= key k < n.

  Lemma start_ptr_ok : forall b ptr, zlen ptr = n + 1 ->
    (forall j, 0 <= j <= n -> zn ptr j = start key nnz j + b) -> ptr_ok n nnz b ptr.
  Proof.
    intros b ptr L P. split; [|split].
    - rewrite P, start_0 by (try lia; intros; apply Hkey; auto). lia.
    - rewrite P, start_n by (try lia; intros; apply Hkey; auto). lia.
    - intros i Hi. rewrite !P by lia. pose proof (start_mono key nnz i (i + 1)). lia.
  Qed.

  Lemma out_pos : forall b ptr, zlen ptr = n + 1 ->
    (forall j, 0 <= j <= n -> zn ptr j = start key nnz j + b) ->
    forall j p, 0 <= j < n -> in_row ptr b j p -> exists k, 0 <= k < nnz /\ key k = j /\ p = pos key nnz k /\
       cnt key j k = p - start key nnz j.
  Proof.
    intros b ptr L P j p Hj (H1 & H2). rewrite !P in * by lia. rewrite start_step in H2.
    destruct (cnt_surj key j nnz (p - start key nnz j) Hnnz ltac:(lia)) as (k & Hk & E1 & E2).
    exists k. ands; auto; try lia. unfold pos. rewrite E1, E2. lia.
  Qed.
End Out.

Lemma wf_zero : forall m n nnz b ptr ind, csr_wf m n nnz b ptr ind -> m = 0 \/ n = 0 \/ nnz = 0 -> nnz = 0.
Proof.
  intros m n nnz b ptr ind W H. destruct W as [Wm Wn Wz _ (P0 & Pm & _) Wi].
  destruct H as [H|[H|H]]; auto.
  - subst. lia.
  - destruct (Z.eq_dec nnz 0); auto. specialize (Wi 0 ltac:(lia)). lia.
Qed.

Lemma ents_empty : forall T b ptr ind (val : list T) i j, zn ptr i = zn ptr (i + 1) -> ents b ptr ind val i j = [].
Proof. intros T b ptr ind val i j E. unfold ents. rewrite E, zrange_nil by lia. reflexivity. Qed.

Lemma csr2csc_ok : forall T m n nnz bR bC ptr ind (val : list T) colptr rowind cval,
  (bR = 0 \/ bR = 1) -> (bC = 0 \/ bC = 1) ->
  csr_wf m n nnz bR ptr ind -> zlen val = nnz ->
  zlen colptr = n + 1 -> zlen rowind = nnz -> zlen cval = nnz ->
  exists cp ri cv,
    csr2csc m n nnz bR bC (Some ptr) (Some ind) (Some val) (Some rowind) (Some colptr) (Some cval)
      = Some (success, Some cp, Some ri, Some cv) /\
    csr_wf n m nnz bC cp ri /\ zlen cv = nnz /\ rows_sorted n bC cp ri /\
    (forall i j, 0 <= i < m -> 0 <= j < n -> ents bC cp ri cv j i = ents bR ptr ind val i j).
Proof.
  intros T m n nnz bR bC ptr ind val colptr rowind cval HbR HbC W Lv L1 L2 L3.
  pose proof (wf_m _ _ _ _ _ _ W) as Wm. pose proof (wf_n _ _ _ _ _ _ W) as Wn.
  pose proof (wf_nnz _ _ _ _ _ _ W) as Wz. destruct (wf_len _ _ _ _ _ _ W) as (Lp & Li).
  pose proof (wf_ptr _ _ _ _ _ _ W) as P. pose proof (wf_ind _ _ _ _ _ _ W) as WI.
  unfold csr2csc. replace ((m <? 0) || (n <? 0) || (nnz <? 0)) with false by lia.
  destruct ((m =? 0) || (n =? 0) || (nnz =? 0)) eqn:Eq.
  { assert (Z0 : nnz = 0) by (eapply wf_zero; eauto; lia). subst nnz.
    destruct (fill_range_ok Z 0 0 (n + 1) bC colptr ltac:(lia) ltac:(lia)) as (cp & E & Lc & R).
    rewrite E. exists cp, rowind, cval. split; [reflexivity|].
    assert (C : forall j, 0 <= j <= n -> zn cp j = bC).
    { intros j Hj. rewrite R by lia. replace ((0 <=? j) && (j <? n + 1)) with true by lia. auto. }
    split.
    { constructor; auto; try (split; lia); try lia. split; [|split].
      - apply C; lia. - rewrite C by lia; lia. - intros; rewrite !C; lia. }
    split; [auto|]. split.
    { intros i k k' Hi (H1 & H2). rewrite !C in * by lia. lia. }
    intros i j Hi Hj. rewrite !ents_empty; auto.
    - pose proof (ptr_range _ _ _ _ P i). pose proof (ptr_range _ _ _ _ P (i + 1)). lia.
    - rewrite !C by lia. auto. }
  replace (negb (bR =? 0) && negb (bR =? 1)) with false by lia.
  replace (negb (bC =? 0) && negb (bC =? 1)) with false by lia.
  unfold csr2csc_core.
  set (key := fun k => zn ind k - bR). set (src := fun k => rowf m bR ptr k + bC).
  assert (Hkey : forall k, 0 <= k < nnz -> 0 <= key k < n).
  { intros k Hk. unfold key. specialize (WI k Hk). lia. }
  destruct (fill_range_ok Z 0 0 (n + 1) 0 colptr ltac:(lia) ltac:(lia)) as (c1 & E1 & Lc1 & R1).
  rewrite E1.
  destruct (count_ok n nnz key Wn Wz Hkey (fun i cp => let* c := rd ind i in incr cp (c - bR + 1)) c1)
    as (c2 & E2 & Lc2 & Z2 & R2).
  { lia. }
  { intros i Hi. rewrite R1 by lia. replace ((0 <=? i) && (i <? n + 1)) with true by lia. auto. }
  { intros i a Hi. rewrite (rd_nthZ _ 0) by lia. reflexivity. }
  rewrite E2.
  destruct (scan_ok n nnz key Wn Hkey c2 Lc2 Z2 R2) as (c3 & E3 & Lc3 & R3).
  rewrite E3.
  match goal with |- context [for_ 0 m ?f ?s] =>
    destruct (for_inv _ (fun i st => finv n nnz key src val (zn ptr i - bR) st) 0 m f s Wm)
    as (st & E4 & F4) end.
  { replace (zn ptr 0 - bR) with 0 by (destruct P as (-> & _); lia).
    apply finv_init; auto. }
  { intros i st Hi F. rewrite !(rd_nthZ _ 0) by lia.
    pose proof (proj2 (proj2 P) i Hi) as Mi.
    apply (for_inv _ (fun e st => finv n nnz key src val e st)); auto; [lia|].
    intros e [[cp ri] cv] He Fe.
    assert (Hr : in_row ptr bR i e) by (unfold in_row; lia).
    pose proof (in_row_range _ _ _ _ P i e Hi Hr) as He'.
    destruct (rd val e) as [v|] eqn:Ev.
    2:{ exfalso. destruct val as [|d vl]; [cbn in Lv; lia|].
        rewrite (rd_nthZ _ d) in Ev by lia. discriminate. }
    rewrite (rd_nthZ _ 0 ind) by lia. fold (key e).
    destruct (finv_step n nnz key Wz Hkey T src val e cp ri cv v He' Ev Fe) as (Ep & Bp & F').
    specialize (Hkey e He') as Hke.
    destruct Fe as (G1 & G2 & G3 & _).
    rewrite (rd_nthZ _ 0 cp) by lia. rewrite Ep.
    rewrite !wr_upd by lia. rewrite incr_ok by lia.
    eexists; split; [reflexivity|].
    replace (i + bC) with (src e) by (unfold src; rewrite (rowf_in_row m nnz bR ptr P i e Hi Hr); auto).
    rewrite Ep in *. exact F'. }
  rewrite E4. destruct st as [[cp ri] cv].
  replace (zn ptr m - bR) with nnz in F4 by (destruct P as (_ & -> & _); lia).
  destruct (F4) as (G1 & G2 & G3 & G4 & G5).
  destruct (shift_ok n nnz key Wn Wz Hkey bC cp G1) as (c5 & E5 & Lc5 & R5).
  { intros j Hj. rewrite G4 by lia. now rewrite start_step. }
  rewrite E5. exists c5, ri, cv. split; [reflexivity|].
  assert (Pc : ptr_ok n nnz bC c5) by (apply (start_ptr_ok n nnz key); auto).
  assert (RF : forall k, 0 <= k < nnz -> 0 <= rowf m bR ptr k < m).
  { intros k Hk. destruct (row_of m nnz bR ptr Wm P k Hk) as (i & Hi & Hr).
    rewrite (rowf_in_row m nnz bR ptr P i k Hi Hr). lia. }
  split.
  { constructor; auto; [clear - Lc5 G1 G2 G3; split; lia|]. intros p Hp.
    destruct (row_of n nnz bC c5 Wn Pc p Hp) as (j & Hj & Hr).
    destruct (out_pos n nnz key Wz Hkey bC c5 Lc5 R5 j p Hj Hr) as (k & Hk & Ek & -> & _).
    destruct (G5 k Hk) as (-> & _). unfold src. specialize (RF k Hk). lia. }
  split; [clear - G1 G2 G3; lia|]. split.
  { intros j p p' Hj Hr Hr' Hlt.
    destruct (out_pos n nnz key Wz Hkey bC c5 Lc5 R5 j p Hj Hr) as (k & Hk & Ek & -> & Ck).
    destruct (out_pos n nnz key Wz Hkey bC c5 Lc5 R5 j p' Hj Hr') as (k' & Hk' & Ek' & -> & Ck').
    destruct (G5 k Hk) as (-> & _). destruct (G5 k' Hk') as (-> & _).
    assert (Klt : k < k').
    { destruct (Z_lt_ge_dec k k') as [C|C]; auto.
      pose proof (cnt_mono key j k' k ltac:(lia)). lia. }
    unfold src. destruct (row_of m nnz bR ptr Wm P k Hk) as (i & Hi & Hri).
    destruct (row_of m nnz bR ptr Wm P k' Hk') as (i' & Hi' & Hri').
    rewrite (rowf_in_row m nnz bR ptr P i k Hi Hri), (rowf_in_row m nnz bR ptr P i' k' Hi' Hri').
    destruct (Z_le_gt_dec i i') as [C|C]; [lia|].
    unfold in_row in *. pose proof (ptr_mono _ _ _ _ P (i' + 1) i ltac:(lia) ltac:(lia) ltac:(lia)). lia. }
  intros i j Hi Hj.
  rewrite (bucket_ents n nnz key Wz Hkey T src val c5 ri cv bC (cp, ri, cv) F4 eq_refl eq_refl R5 j i Hj).
  rewrite (ents_global T m n nnz bR ptr ind val i j W Hi).
  rewrite flat_map_filter. apply flat_map_ext_in. intros k Hk. unfold key, src.
  replace (rowf m bR ptr k + bC =? i + bC) with (rowf m bR ptr k =? i) by (clear; lia).
  replace (zn ind k - bR =? j) with (zn ind k =? j + bR) by (clear; lia).
  destruct (rowf m bR ptr k =? i), (zn ind k =? j + bR); reflexivity.
Qed.

(** Coordinate storage: values stored at (i, j) in storage order. *)
Definition coo_ents {T} (b nnz : Z) (row col : list Z) (val : list T) (i j : Z) : list T :=
  flat_map (fun k => if (zn row k =? i + b) && (zn col k =? j + b) then olist (rd val k) else [])
           (zrange 0 nnz).

Definition coo_wf (M N nnz b : Z) (row col : list Z) : Prop :=
  0 <= M /\ 0 <= N /\ 0 <= nnz /\ zlen row = nnz /\ zlen col = nnz /\
  forall k, 0 <= k < nnz -> b <= zn row k < b + M /\ b <= zn col k < b + N.

Lemma coo2csr_ok : forall T M N nnz b row col (cval : list T) ptr ind val,
  coo_wf M N nnz b row col -> zlen cval = nnz ->
  zlen ptr = M + 1 -> zlen ind = nnz -> zlen val = nnz ->
  exists p c v,
    coo2csr M N nnz b (Some row) (Some col) (Some cval) (Some ptr) (Some ind) (Some val)
      = Some (success, Some p, Some c, Some v) /\
    csr_wf M N nnz b p c /\ zlen v = nnz /\
    (forall i j, 0 <= i < M -> ents b p c v i j = coo_ents b nnz row col cval i j).
Proof.
  intros T M N nnz b row col cval ptr ind val (HM & HN & Wz & Lr & Lc & WI) Lv L1 L2 L3.
  unfold coo2csr. replace ((M <? 0) || (N <? 0) || (nnz <? 0)) with false by lia.
  destruct ((M =? 0) || (N =? 0) || (nnz =? 0)) eqn:Eq.
  { assert (Z0 : nnz = 0).
    { destruct (Z.eq_dec nnz 0); auto. specialize (WI 0 ltac:(lia)). lia. }
    destruct (fill_range_ok Z 0 0 (M + 1) b ptr ltac:(lia) ltac:(lia)) as (cp & E & Lcp & R).
    rewrite E. exists cp, ind, val. split; [reflexivity|].
    assert (C : forall j, 0 <= j <= M -> zn cp j = b).
    { intros j Hj. rewrite R by lia. replace ((0 <=? j) && (j <? M + 1)) with true by lia. auto. }
    split.
    { constructor; auto; try (split; lia); try lia. split; [|split].
      - apply C; lia. - rewrite C by lia; lia. - intros; rewrite !C; lia. }
    split; [auto|]. intros i j Hi. rewrite ents_empty by (rewrite !C by lia; auto).
    unfold coo_ents. rewrite zrange_nil by lia. reflexivity. }
  unfold coo2csr_core.
  set (key := fun k => zn row k - b).
  assert (Hkey : forall k, 0 <= k < nnz -> 0 <= key k < M).
  { intros k Hk. unfold key. specialize (WI k Hk). lia. }
  destruct (fill_range_ok Z 0 0 (M + 1) 0 ptr ltac:(lia) ltac:(lia)) as (c1 & E1 & Lc1 & R1).
  rewrite E1.
  destruct (count_ok M nnz key HM Wz Hkey (fun i rp => let* r := rd row i in incr rp (r + 1 - b)) c1)
    as (c2 & E2 & Lc2 & Z2 & R2).
  { lia. }
  { intros i Hi. rewrite R1 by lia. replace ((0 <=? i) && (i <? M + 1)) with true by lia. auto. }
  { intros i a Hi. rewrite (rd_nthZ _ 0) by lia. f_equal. unfold key. lia. }
  rewrite E2.
  destruct (scan_ok M nnz key HM Hkey c2 Lc2 Z2 R2) as (c3 & E3 & Lc3 & R3).
  rewrite E3.
  match goal with |- context [for_ 0 nnz ?f ?s] =>
    destruct (for_inv _ (fun e st => finv M nnz key (zn col) cval e st) 0 nnz f s Wz)
    as (st & E4 & F4) end.
  { apply finv_init; auto. }
  { intros e [[cp ri] cv] He Fe.
    destruct (rd cval e) as [v|] eqn:Ev.
    2:{ exfalso. destruct cval as [|d vl]; [cbn in Lv; lia|].
        rewrite (rd_nthZ _ d) in Ev by lia. discriminate. }
    rewrite (rd_nthZ _ 0 row), (rd_nthZ _ 0 col) by lia. fold (key e).
    destruct (finv_step M nnz key Wz Hkey T (zn col) cval e cp ri cv v He Ev Fe) as (Ep & Bp & F').
    specialize (Hkey e He) as Hke.
    destruct Fe as (G1 & G2 & G3 & _).
    rewrite (rd_nthZ _ 0 cp) by lia. rewrite Ep.
    rewrite !wr_upd by lia. rewrite incr_ok by lia.
    eexists; split; [reflexivity|]. rewrite Ep in *. exact F'. }
  rewrite E4. destruct st as [[cp ri] cv].
  destruct (F4) as (G1 & G2 & G3 & G4 & G5).
  destruct (shift_ok M nnz key HM Wz Hkey b cp G1) as (c5 & E5 & Lc5 & R5).
  { intros j Hj. rewrite G4 by lia. now rewrite start_step. }
  rewrite E5. exists c5, ri, cv. split; [reflexivity|].
  assert (Pc : ptr_ok M nnz b c5) by (apply (start_ptr_ok M nnz key); auto).
  split.
  { constructor; auto; [clear - Lc5 G1 G2 G3; split; lia|]. intros p Hp.
    destruct (row_of M nnz b c5 HM Pc p Hp) as (j & Hj & Hr).
    destruct (out_pos M nnz key Wz Hkey b c5 Lc5 R5 j p Hj Hr) as (k & Hk & Ek & -> & _).
    destruct (G5 k Hk) as (-> & _). specialize (WI k Hk). lia. }
  split; [clear - G1 G2 G3; lia|]. intros i j Hi.
  rewrite (bucket_ents M nnz key Wz Hkey T (zn col) cval c5 ri cv b (cp, ri, cv) F4 eq_refl eq_refl R5 i j Hi).
  unfold coo_ents. rewrite flat_map_filter. apply flat_map_ext_in. intros k Hk. unfold key.
  replace (zn row k - b =? i) with (zn row k =? i + b) by (clear; lia).
  destruct (zn row k =? i + b), (zn col k =? j + b); reflexivity.
Qed.

(** Converting twice gives back the same entries. *)
Lemma csr2csc_roundtrip : forall T m n nnz b b1 ptr ind (val : list T) cp0 ri0 cv0 p0 i0 v0,
  (b = 0 \/ b = 1) -> (b1 = 0 \/ b1 = 1) ->
  csr_wf m n nnz b ptr ind -> zlen val = nnz ->
  zlen cp0 = n + 1 -> zlen ri0 = nnz -> zlen cv0 = nnz ->
  zlen p0 = m + 1 -> zlen i0 = nnz -> zlen v0 = nnz ->
  exists cp ri cv p c v,
    csr2csc m n nnz b b1 (Some ptr) (Some ind) (Some val) (Some ri0) (Some cp0) (Some cv0)
      = Some (success, Some cp, Some ri, Some cv) /\
    csr2csc n m nnz b1 b (Some cp) (Some ri) (Some cv) (Some i0) (Some p0) (Some v0)
      = Some (success, Some p, Some c, Some v) /\
    csr_wf m n nnz b p c /\ zlen v = nnz /\ rows_sorted m b p c /\
    (forall i j, 0 <= i < m -> 0 <= j < n -> ents b p c v i j = ents b ptr ind val i j).
Proof.
  intros T m n nnz b b1 ptr ind val cp0 ri0 cv0 p0 i0 v0 Hb Hb1 W Lv L1 L2 L3 L4 L5 L6.
  destruct (csr2csc_ok T m n nnz b b1 ptr ind val cp0 ri0 cv0 Hb Hb1 W Lv L1 L2 L3)
    as (cp & ri & cv & E & W1 & Lc & S1 & En).
  destruct (csr2csc_ok T n m nnz b1 b cp ri cv p0 i0 v0 Hb1 Hb W1 Lc L4 L5 L6)
    as (p & c & v & E2 & W2 & Lc2 & S2 & En2).
  exists cp, ri, cv, p, c, v. ands; auto. intros i j Hi Hj. rewrite En2, En; auto.
Qed.

Lemma csr2csc_null_refuted :
  csr2csc (T := Z) 2 2 0 0 0 (Some [0;0;0]) (Some []) (Some []) (Some []) None (Some []) = None.
Proof. reflexivity. Qed.

Lemma csr2csc_null_ok : forall T m n nnz bR bC ptr_p ind_p (val_p : option (list T)) ri_p cp_p cv_p,
  0 < m -> 0 < n -> 0 < nnz -> (bR = 0 \/ bR = 1) -> (bC = 0 \/ bC = 1) ->
  ptr_p = None \/ ind_p = None \/ val_p = None \/ ri_p = None \/ cp_p = None \/ cv_p = None ->
  csr2csc m n nnz bR bC ptr_p ind_p val_p ri_p cp_p cv_p = Some (invalid_pointer, cp_p, ri_p, cv_p).
Proof.
  intros T m n nnz bR bC ptr_p ind_p val_p ri_p cp_p cv_p Hm Hn Hz HbR HbC H.
  unfold csr2csc. replace ((m <? 0) || (n <? 0) || (nnz <? 0)) with false by lia.
  replace ((m =? 0) || (n =? 0) || (nnz =? 0)) with false by lia.
  replace (negb (bR =? 0) && negb (bR =? 1)) with false by lia.
  replace (negb (bC =? 0) && negb (bC =? 1)) with false by lia.
  destruct val_p, ptr_p, ind_p, cv_p, ri_p, cp_p; auto.
  repeat destruct H as [H|H]; discriminate.
Qed.

Lemma csr2csc_bad_size : forall T m n nnz bR bC ptr_p ind_p (val_p : option (list T)) ri_p cp_p cv_p,
  m < 0 \/ n < 0 \/ nnz < 0 ->
  csr2csc m n nnz bR bC ptr_p ind_p val_p ri_p cp_p cv_p = Some (invalid_size, cp_p, ri_p, cv_p).
Proof.
  intros. unfold csr2csc. replace ((m <? 0) || (n <? 0) || (nnz <? 0)) with true by lia. reflexivity.
Qed.
