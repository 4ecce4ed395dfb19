From Coq Require Import ZArith List Bool Lia.
From Coq Require Import ZifyBool.
From Verif Require Import Base BaseFacts Csr CsrFacts CheckModel CheckSpec CheckProof.
Import ListNotations.
Open Scope Z_scope.

Section Csd.
  Variables (m n nnz b : Z) (ptr ind : list Z).
  Hypothesis Hm : 0 <= m.
  Hypothesis Hn : 0 <= n.
  Hypothesis Hlen : lens_ok m nnz ptr ind.
  Hypothesis Hptr : ptr_ok m nnz b ptr.
  Hypothesis Hdu : diag_unique m b ptr ind.

  Let gv := gviol m b ptr ind.

  Definition cinv (i : Z) (fd0 : bool) (e : Z) (st : bool * bool * bool * bool) : Prop :=
    let '(so, fd, lo, fo) := st in
    so = true /\ fd = fd0 /\ ~ gv e /\
    (lo = true <-> forall k, in_row ptr b i k -> k < e -> zn ind k < i + b) /\
    (fo = true <-> exists k, in_row ptr b i k /\ k < e /\ zn ind k = i + b).

  Definition cverdict (r : status * bool * bool) : Prop := r = (success, false, false) /\ gv nnz.

  Lemma csd_step : forall i fd0 e st, 0 <= i < m -> in_row ptr b i e -> cinv i fd0 e st ->
    (exists st', csd_entry b i ind e st = Some (Go st') /\ cinv i fd0 (e + 1) st') \/
    (exists st', csd_entry b i ind e st = Some (Brk st') /\ False) \/
    (exists r, csd_entry b i ind e st = Some (Ret r) /\ cverdict r).
  Proof.
    intros i fd0 e [[[so fd] lo] fo] Hi He (-> & -> & NG & IL & IF).
    pose proof (in_row_range _ _ _ _ Hptr i e Hi He) as Hr. destruct Hlen as (HL1 & HL2).
    unfold csd_entry. rewrite (rd_nthZ _ 0) by lia.
    set (c := zn ind e) in *.
    assert (Hex : forall (Q : Z -> Prop),
      (exists k, in_row ptr b i k /\ k < e + 1 /\ Q k) <-> (exists k, in_row ptr b i k /\ k < e /\ Q k) \/ Q e).
    { intros Q; split.
      - intros (k & Hk1 & Hk2 & Hk3). destruct (Z.eq_dec k e) as [->|N]; [right; auto|].
        left; exists k; ands; auto; lia.
      - intros [(k & Hk1 & Hk2 & Hk3)|HQ]; [exists k|exists e]; ands; auto; lia. }
    assert (Hall : (forall k, in_row ptr b i k -> k < e + 1 -> zn ind k < i + b) <->
        (forall k, in_row ptr b i k -> k < e -> zn ind k < i + b) /\ c < i + b).
    { split.
      - intros A; split; [intros; apply A; auto; lia|apply A; auto; lia].
      - intros (A & B) k Hk1 Hk2. destruct (Z.eq_dec k e) as [->|N]; auto. apply A; auto; lia. }
    (* a non-lower prefix contains a diagonal or upper entry *)
    assert (Hnl : lo = false -> exists k, in_row ptr b i k /\ k < e /\ zn ind k >= i + b).
    { intros ->.
      destruct (forc_inv unit Z (fun e' _ => zn ptr i - b <= e' /\ forall k, in_row ptr b i k -> k < e' -> zn ind k < i + b)
        (fun _ => False) (fun k => in_row ptr b i k /\ k < e /\ zn ind k >= i + b)
        (zn ptr i - b) e (fun k (_ : unit) => if zn ind k <? i + b then Some (Go tt) else Some (Ret k)) tt)
        as [(s & _ & [I|F])|(r & _ & W)].
      - apply He.
      - split; [lia|]. intros k (Hk & _) Hk2; lia.
      - intros k s Hk (I1 & I2). destruct (zn ind k <? i + b) eqn:E.
        + left. eexists; split; eauto. split; [lia|]. intros k' Hk' Hlt.
          destruct (Z.eq_dec k' k) as [->|N]; [lia|]. apply I2; auto; lia.
        + right; right. eexists; split; eauto. split; [|lia]. unfold in_row in *. lia.
      - exfalso. destruct IL as (_ & IL). destruct I as (_ & I). specialize (IL I). discriminate.
      - destruct F.
      - exists r; auto. }
    assert (NGs : (forall k, in_row ptr b i k -> k < e -> zn ind k > i + b -> c > i + b) ->
                  (forall k, in_row ptr b i k -> k < e -> zn ind k = i + b -> c >= i + b) -> ~ gv (e + 1)).
    { intros A B G. apply (gviol_step shape_general m 0 nnz b ptr ind Hptr i e Hi He) in G.
      destruct G as [G|(k & Hk1 & Hk2 & [(Hx & Hy)|(Hx & Hy)])]; auto.
      - specialize (A k Hk1 Hk2 Hx). fold c in Hy. lia.
      - specialize (B k Hk1 Hk2 Hx). fold c in Hy. lia. }
    assert (Gv : forall k, in_row ptr b i k -> k < e -> 
         ((zn ind k > i + b /\ c <= i + b) \/ (zn ind k = i + b /\ c < i + b)) -> gv nnz).
    { intros k Hk1 Hk2 Hk3. exists i, k, e. ands; auto; lia. }
    destruct (c - b =? i) eqn:Eji.
    - destruct fo.
      + exfalso. destruct IF as (IF & _). destruct (IF eq_refl) as (k & Hk1 & Hk2 & Hk3).
        assert (k = e) by (apply (Hdu i k e Hi Hk1 He); auto; fold c; lia). lia.
      + destruct lo; cbn [negb].
        * left. eexists; split; [reflexivity|]. unfold cinv. destruct IL as (IL & _). specialize (IL eq_refl).
          ands; auto.
          -- apply NGs; intros k Hk1 Hk2 Hk3; specialize (IL k Hk1 Hk2); lia.
          -- rewrite Hall. split; [discriminate|]. lia.
          -- rewrite Hex. fold c. split; auto. intros _; right; lia.
        * right; right. eexists; split; [reflexivity|]. split; auto.
          destruct (Hnl eq_refl) as (k & Hk1 & Hk2 & Hk3). apply (Gv k); auto.
          assert (zn ind k <> i + b).
          { intros X. destruct IF as (_ & IF). assert (false = true) by (apply IF; exists k; auto). discriminate. }
          lia.
    - destruct lo; cbn [negb].
      + left. eexists; split; [reflexivity|]. unfold cinv. destruct IL as (IL & _). specialize (IL eq_refl).
        ands; auto.
        * apply NGs; intros k Hk1 Hk2 Hk3; specialize (IL k Hk1 Hk2); lia.
        * rewrite Hall. split; [intros; split; auto; lia|]. intros (_ & X); lia.
        * rewrite Hex, IF. fold c. intuition lia.
      + destruct (i <? c - b) eqn:Eu; cbn [andb negb].
        * left. eexists; split; [reflexivity|]. unfold cinv. ands; auto.
          -- apply NGs; intros; lia.
          -- rewrite Hall. split; [discriminate|]. lia.
          -- rewrite Hex, IF. fold c. intuition lia.
        * right; right. eexists; split; [reflexivity|]. split; auto.
          destruct (Hnl eq_refl) as (k & Hk1 & Hk2 & Hk3). apply (Gv k); auto. lia.
  Qed.

  Lemma check_sort_diag_ok :
    exists so fd, check_sort_diag m n b (Some ptr) (Some ind) = Some (success, so, fd) /\
      (so = true <-> rows_grouped m b ptr ind) /\
      (fd = true <-> rows_grouped m b ptr ind /\ full_diag m n b ptr ind).
  Proof.
    assert (GV1 : gv nnz -> ~ rows_grouped m b ptr ind).
    { intros G. apply (sort_inv_says shape_general m 0 nnz b ptr ind Hptr unsorted G). }
    assert (GV2 : ~ gv nnz -> rows_grouped m b ptr ind).
    { intros NG i k k' Hi H1 H2 Hlt. pose proof (in_row_range _ _ _ _ Hptr i k' Hi H2).
      split; intros Hk.
      * destruct (Z_le_gt_dec (zn ind k') (i + b)) as [C|C]; auto. exfalso; apply NG.
        exists i, k, k'. ands; auto; lia.
      * destruct (Z_lt_ge_dec (zn ind k') (i + b)) as [C|C]; auto. exfalso; apply NG.
        exists i, k, k'. ands; auto; lia. }
    unfold check_sort_diag. replace ((m <? 0) || (n <? 0)) with false by lia.
    set (body := fun i st => let '(sorted, fulldiag) := st in _).
    destruct (forc_inv (bool * bool) (status * bool * bool)
      (fun i st => fst st = true /\ ~ gv (zn ptr i - b) /\
        (snd st = true <-> forall i', 0 <= i' < i -> i' < n -> exists k, in_row ptr b i' k /\ zn ind k = i' + b))
      (fun _ => False) cverdict 0 m body (true, true) Hm) as [(st' & E & [I|F])|(r & E & V)].
    - cbn [fst snd]. destruct Hptr as (H0 & _). ands; auto.
      + intros (i & k & k' & Hi & Hr & Hr' & Hk & _).
        pose proof (in_row_range _ _ _ _ Hptr i k Hi Hr). lia.
      + split; auto. intros _ i' Hi'; lia.
    - intros i [so fd] Hi (I1 & NG & IF). cbn [fst snd] in *. subst so. unfold body.
      destruct Hlen as (HL1 & HL2). rewrite !(rd_nthZ _ 0) by lia.
      pose proof (proj2 (proj2 Hptr) i Hi) as Hmon.
      destruct (forc_inv _ _ (cinv i fd) (fun _ => False) cverdict
         (zn ptr i - b) (zn ptr (i + 1) - b) (csd_entry b i ind) (true, fd, true, false) ltac:(lia))
         as [(st' & E & [J|F])|(r & E & V)].
      + unfold cinv. ands; auto.
        * split; auto. intros _ k (Hk & _) Hk2. lia.
        * split; [discriminate|]. intros (k & (Hk & _) & Hk2 & _). lia.
      + intros e st He J. apply csd_step; auto.
      + rewrite E. destruct st' as [[[so' fd'] lo] fo]. destruct J as (-> & -> & NG' & JL & JF).
        cbn [negb]. left. eexists; split; [reflexivity|]. cbn [fst snd]. ands; auto.
        assert (Hfo : fo = true <-> exists k, in_row ptr b i k /\ zn ind k = i + b).
        { rewrite JF. split.
          - intros (k & H1 & H2 & H3); exists k; auto.
          - intros (k & H1 & H2); exists k; ands; auto; apply H1. }
        destruct fo; cbn [negb andb].
        * rewrite IF. split; intros Hf i' Hi' Hn'.
          -- destruct (Z.eq_dec i' i) as [->|N]; [now apply Hfo|]. apply Hf; lia.
          -- apply Hf; lia.
        * destruct (i <? n) eqn:En.
          -- split; [discriminate|]. intros Hf. exfalso.
             assert (false = true) as X by (apply Hfo; apply Hf; lia). discriminate.
          -- rewrite IF. split; intros Hf i' Hi' Hn'; apply Hf; lia.
      + destruct F.
      + rewrite E. right; right. eauto.
    - rewrite E. destruct st' as [so fd]. destruct I as (I1 & I2 & I3). cbn [fst snd] in *. subst so.
      exists true, fd. split; [reflexivity|].
      destruct Hptr as (H0 & Hpm & _). rewrite Hpm in I2. replace (b + nnz - b) with nnz in I2 by lia.
      specialize (GV2 I2). split; [tauto|]. rewrite I3. unfold full_diag. tauto.
    - destruct F.
    - rewrite E. destruct V as (-> & G). exists false, false. split; [reflexivity|].
      specialize (GV1 G). split; split; intros X; try discriminate; tauto.
  Qed.
End Csd.

Section Indices.
  Variables (m nnz b : Z) (ptr ind : list Z).
  Hypothesis Hm : 0 <= m.
  Hypothesis Hlen : lens_ok m nnz ptr ind.
  Hypothesis Hptr : ptr_ok m nnz b ptr.
  Hypothesis Hdu : diag_unique m b ptr ind.
  Hypothesis Hgr : rows_grouped m b ptr ind.

  Lemma indices_ok : forall idiag0 iurow0, zlen idiag0 = m -> zlen iurow0 = m ->
    exists idiag iurow, csr_csc_indices m b ptr ind idiag0 iurow0 = Some (idiag, iurow) /\
      zlen idiag = m /\ zlen iurow = m /\
      (forall i, 0 <= i < m -> splits_row b ptr ind idiag iurow i).
  Proof.
    intros idiag0 iurow0 L1 L2. unfold csr_csc_indices.
    match goal with |- context [for_ 0 m ?f ?s] =>
      destruct (for_inv _ (fun i st => zlen (fst st) = m /\ zlen (snd st) = m /\
         forall i', 0 <= i' < i -> splits_row b ptr ind (fst st) (snd st) i') 0 m f s Hm)
      as ([idiag iurow] & E & J1 & J2 & J3) end.
    - cbn [fst snd]. ands; auto. intros; lia.
    - intros i [idg iur] Hi (J1 & J2 & J3). cbn [fst snd] in *.
      destruct Hlen as (HL1 & HL2). rewrite !(rd_nthZ _ 0) by lia.
      pose proof (proj2 (proj2 Hptr) i Hi) as Hmon.
      assert (Wr : forall vd vu, 
         (forall idg' iur', zn idg' i = vd -> zn iur' i = vu -> splits_row b ptr ind idg' iur' i) ->
         forall i', 0 <= i' < i + 1 -> splits_row b ptr ind (upd idg i vd) (upd iur i vu) i').
      { intros vd vu A i' Hi'. destruct (Z.eq_dec i' i) as [->|N].
        - apply A; rewrite nthZ_upd_same; auto; lia.
        - assert (B := J3 i' ltac:(lia)). unfold splits_row in *.
          rewrite !nthZ_upd_other by lia. exact B. }
      match goal with |- context [forc ?lo ?hi ?f tt] =>
        destruct (forc_inv unit (Z * Z) (fun e _ => forall k, in_row ptr b i k -> k < e -> zn ind k < i + b)
          (fun _ => False)
          (fun r => in_row ptr b i (fst r) /\ snd r = zn ind (fst r) - b /\ zn ind (fst r) >= i + b /\
             forall k, in_row ptr b i k -> k < fst r -> zn ind k < i + b)
          lo hi f tt) as [(s & E & [I|F])|([idx j] & E & W1 & W2 & W3 & W4)] end.
      + lia.
      + intros k (Hk & _) Hk2; lia.
      + intros e [] He I. pose proof (in_row_range _ _ _ _ Hptr i e Hi He) as Hr.
        rewrite (rd_nthZ _ 0) by lia.
        destruct (i <=? zn ind e - b) eqn:Ec.
        * right; right. eexists; split; [reflexivity|]. cbn [fst snd]. ands; auto; lia.
        * left. eexists; split; [reflexivity|]. intros k Hk1 Hk2.
          destruct (Z.eq_dec k e) as [->|N]; [lia|]. apply I; auto; lia.
      + rewrite E. rewrite !wr_upd by lia. eexists; split; [reflexivity|]. cbn [fst snd].
        rewrite !zlen_upd. ands; auto. apply Wr. intros idg' iur' E1 E2.
        unfold splits_row. rewrite E1, E2. ands; try lia.
        intros k Hk. specialize (I k Hk ltac:(apply Hk)). unfold in_row in Hk. lia.
      + destruct F.
      + cbn [fst snd] in *. rewrite E. rewrite !wr_upd by lia. eexists; split; [reflexivity|]. cbn [fst snd].
        rewrite !zlen_upd. ands; auto. apply Wr. intros idg' iur' E1 E2.
        unfold splits_row. rewrite E1, E2. assert (W1' := W1). unfold in_row in W1'.
        assert (Gidx : forall k, in_row ptr b i k -> idx < k -> zn ind k > i + b).
        { intros k Hk Hlt. destruct (Hgr i idx k Hi W1 Hk Hlt) as (G1 & G2).
          destruct (Z.eq_dec (zn ind idx) (i + b)) as [Eq|Ne]; [|apply G1; lia].
          assert (zn ind k <> i + b); [|specialize (G2 Eq); lia].
          intros X. assert (idx = k) by (apply (Hdu i idx k Hi W1 Hk); auto). lia. }
        destruct (j =? i) eqn:Ej.
        * ands; try lia. intros k Hk.
          destruct (Z_lt_ge_dec k idx) as [C|C].
          { specialize (W4 k Hk C). lia. }
          destruct (Z.eq_dec k idx) as [->|N]; [lia|].
          specialize (Gidx k Hk ltac:(lia)). lia.
        * ands; try lia. intros k Hk.
          destruct (Z_lt_ge_dec k idx) as [C|C].
          { specialize (W4 k Hk C). lia. }
          destruct (Z.eq_dec k idx) as [->|N]; [lia|].
          specialize (Gidx k Hk ltac:(lia)). lia.
    - rewrite E. exists idiag, iurow. ands; auto.
  Qed.
End Indices.

(** ** Statements used by Props_Check.v *)

Lemma create_csr_lemma : forall b M N nnz ptr ind,
  (0 <= M -> zlen ptr = M + 1) -> (0 <= nnz -> zlen ind = nnz) ->
  let sizes := 0 <= N /\ 0 <= M /\ 0 <= nnz in
  let bad := bad_index shape_general M N b ptr ind in
  let dup := dup_diag M b ptr ind in
  exists st h, create_csr false true b M N nnz (Some ptr) (Some ind) false false = Some (st, h) /\
   (st = success <-> sizes /\ csr_wf M N nnz b ptr ind /\ diag_unique M b ptr ind) /\
   (st = invalid_size <-> ~ sizes) /\
   (st = invalid_value <-> sizes /\ (~ ptr_ok M nnz b ptr \/
       ptr_ok M nnz b ptr /\ exists k, dup k /\ ~ bad k /\ forall k', k' < k -> ~ bad k' /\ ~ dup k')) /\
   (st = invalid_index_value <-> sizes /\ ptr_ok M nnz b ptr /\
       exists k, bad k /\ forall k', k' < k -> ~ bad k' /\ ~ dup k') /\
   (st = success \/ st = invalid_size \/ st = invalid_value \/ st = invalid_index_value) /\
   (st <> success -> h = None) /\
   (st = success -> exists so fd, h = Some (mkHandle M N nnz (mkRep M N nnz b ptr ind false) so fd) /\
       (so = fully_sorted <-> rows_sorted M b ptr ind) /\
       (so = partially_sorted <-> ~ rows_sorted M b ptr ind /\ rows_grouped M b ptr ind) /\
       (so = unsorted <-> ~ rows_grouped M b ptr ind) /\
       (so <> unknown_sort) /\
       (fd = true <-> full_diag M N b ptr ind)).
Proof.
  intros b M N nnz ptr ind HP HI sizes bad dup.
  destruct (mat_check_spec shape_general M N nnz b ptr ind HP HI) as (st & res & E & D).
  cbv zeta in D. subst sizes bad dup. cbv beta.
  unfold create_csr. rewrite E.
  set (sizes := 0 <= N /\ 0 <= M /\ 0 <= nnz) in *.
  set (bad := bad_index shape_general M N b ptr ind) in *.
  set (dup := dup_diag M b ptr ind) in *.
  assert (Fo : forall k, dup k -> ptr_ok M nnz b ptr -> ~ structure_ok shape_general M N nnz b ptr ind).
  { intros k H _ (_ & _ & X). apply (X k H). }
  assert (Fo2 : forall k, bad k -> ~ structure_ok shape_general M N nnz b ptr ind).
  { intros k H (_ & X & _). apply (X k H). }
  assert (WF : sizes -> (structure_ok shape_general M N nnz b ptr ind <->
      csr_wf M N nnz b ptr ind /\ diag_unique M b ptr ind)).
  { intros (S1 & S2 & S3). apply structure_ok_wf; auto. }
  assert (Ex : forall k k', bad k -> (forall x, x < k -> ~ bad x /\ ~ dup x) ->
      dup k' -> ~ bad k' -> (forall x, x < k' -> ~ bad x /\ ~ dup x) -> False).
  { intros k k' B1 C1 D2 NB C2. destruct (Z_lt_ge_dec k k') as [X|X].
    - destruct (C2 k X); auto.
    - destruct (Z.eq_dec k k') as [->|Y]; auto. destruct (C1 k' ltac:(lia)); auto. }
  clearbody sizes.
  destruct D as [(-> & S & OK & so & fd & -> & SS & FD)|[(-> & S)|[(-> & S & NP)|[(-> & S & P & k & B & C)|(-> & S & P & k & Du & NB & C)]]]].
  - eexists _, _; split; [reflexivity|].
    split. { split; [intros _; split; [exact S|now apply (WF S)]|auto]. }
    split. { split; [discriminate|intros X; exfalso; exact (X S)]. }
    split. { split; [discriminate|]. intros (_ & [X|(_ & k & Dk & _)]).
      - exfalso; apply X, OK.
      - exfalso. apply (Fo k Dk); auto. apply OK. }
    split. { split; [discriminate|]. intros (_ & _ & k & Bk & _). exfalso. apply (Fo2 k Bk OK). }
    split; [tauto|]. split; [tauto|]. intros _. exists so, fd. split; [reflexivity|].
    assert (RG := rows_sorted_grouped M b ptr ind).
    destruct so; cbn in SS; try tauto; ands; try discriminate; split; intros; try discriminate; tauto.
  - eexists _, _; split; [reflexivity|].
    split; [split; [discriminate|tauto]|]. split; [tauto|]. split; [split; [discriminate|tauto]|].
    split; [split; [discriminate|tauto]|]. split; [tauto|]. split; [auto|discriminate].
  - eexists _, _; split; [reflexivity|].
    split. { split; [discriminate|]. intros (_ & X & _). exfalso; apply NP, X. }
    split; [split; [discriminate|tauto]|]. split; [tauto|]. split; [split; [discriminate|tauto]|].
    split; [tauto|]. split; [auto|discriminate].
  - eexists _, _; split; [reflexivity|].
    split. { split; [discriminate|]. intros (_ & X).
             exfalso. apply (Fo2 k B). now apply (WF S). }
    split; [split; [discriminate|tauto]|].
    split. { split; [discriminate|]. intros (_ & [X|(_ & k' & D1 & D2 & D3)]); [tauto|].
             exfalso. eapply (Ex k k'); eauto. }
    split. { split; [intros _|auto]. ands; auto. exists k; auto. }
    split; [tauto|]. split; [auto|discriminate].
  - eexists _, _; split; [reflexivity|].
    split. { split; [discriminate|]. intros (_ & X).
             exfalso. apply (Fo k Du P). now apply (WF S). }
    split; [split; [discriminate|tauto]|].
    split. { split; [intros _|auto]. split; [auto|]. right; split; auto. exists k; auto. }
    split. { split; [discriminate|]. intros (_ & _ & k' & D1 & D2).
             exfalso. eapply (Ex k' k); eauto. }
    split; [tauto|]. split; [auto|discriminate].
Qed.

(** Column storage: the same with rows and columns exchanged. *)
Lemma create_csc_csr : forall b M N nnz ptr ind st h,
  create_csr false true b N M nnz (Some ptr) (Some ind) false false = Some (st, h) ->
  create_csc false true b M N nnz (Some ptr) (Some ind) false =
    Some (st, match h with
              | Some hd => Some (mkHandle M N nnz (mkRep N M nnz b ptr ind true) (h_sort hd) (h_fulldiag hd))
              | None => None
              end).
Proof.
  intros b M N nnz ptr ind st h H. unfold create_csr, create_csc in *.
  destruct (mat_check N M nnz (Some ptr) (Some ind) false shape_general b false) as [[s [[so fd]|]]|];
    [| |discriminate]; destruct s; inversion H; reflexivity.
Qed.

Lemma create_csc_lemma : forall b M N nnz ptr ind,
  (0 <= N -> zlen ptr = N + 1) -> (0 <= nnz -> zlen ind = nnz) ->
  exists st h, create_csc false true b M N nnz (Some ptr) (Some ind) false = Some (st, h) /\
   (st = success <-> (0 <= M /\ 0 <= N /\ 0 <= nnz) /\ csr_wf N M nnz b ptr ind /\ diag_unique N b ptr ind) /\
   (st = invalid_size <-> ~ (0 <= M /\ 0 <= N /\ 0 <= nnz)) /\
   (st = success \/ st = invalid_size \/ st = invalid_value \/ st = invalid_index_value) /\
   (st <> success -> h = None) /\
   (st = success -> exists so fd, h = Some (mkHandle M N nnz (mkRep N M nnz b ptr ind true) so fd) /\
       (so = fully_sorted <-> rows_sorted N b ptr ind) /\
       (so = partially_sorted <-> ~ rows_sorted N b ptr ind /\ rows_grouped N b ptr ind) /\
       (so = unsorted <-> ~ rows_grouped N b ptr ind) /\
       (fd = true <-> full_diag N M b ptr ind)).
Proof.
  intros b M N nnz ptr ind HP HI.
  destruct (create_csr_lemma b N M nnz ptr ind HP HI) as (st & h & E & A1 & A2 & _ & _ & A5 & A6 & A7).
  exists st. eexists. split; [eapply create_csc_csr; eauto|].
  split; [exact A1|]. split; [exact A2|]. split; [exact A5|].
  split. { intros N1. rewrite (A6 N1). reflexivity. }
  intros ->. destruct (A7 eq_refl) as (so & fd & -> & B1 & B2 & B3 & _ & B4).
  exists so, fd. cbn [h_sort h_fulldiag]. ands; auto; tauto.
Qed.

(** Null pointers and the fast mode. *)
Lemma create_null_lemma : forall mat_null alloc b M N nnz ptr_p ind_p val_null fast,
  mat_null = true \/ ptr_p = None \/ ind_p = None \/ val_null = true ->
  create_csr mat_null alloc b M N nnz ptr_p ind_p val_null fast = Some (invalid_pointer, None) /\
  create_csc mat_null alloc b M N nnz ptr_p ind_p val_null = Some (invalid_pointer, None).
Proof.
  intros mat_null alloc b M N nnz ptr_p ind_p val_null fast H.
  unfold create_csr, create_csc, mat_check.
  destruct mat_null; [auto|]. destruct ptr_p; [|auto]. destruct ind_p; [|auto].
  destruct val_null; [auto|]. destruct H as [H|[H|[H|H]]]; discriminate.
Qed.

Lemma create_coo_lemma : forall b M N nnz row col,
  (0 <= nnz -> zlen row = nnz /\ zlen col = nnz) ->
  exists st, create_coo false true b M N nnz (Some row) (Some col) false = Some st /\
    (st = success <-> (0 <= M /\ 0 <= N /\ 0 <= nnz) /\
       forall k, 0 <= k < nnz -> b <= zn row k < b + M /\ b <= zn col k < b + N) /\
    (st = invalid_size <-> ~ (0 <= M /\ 0 <= N /\ 0 <= nnz)) /\
    (st = invalid_index_value <-> (0 <= M /\ 0 <= N /\ 0 <= nnz) /\
       exists k, 0 <= k < nnz /\ ~ (b <= zn row k < b + M /\ b <= zn col k < b + N)).
Proof.
  intros b M N nnz row col HL. unfold create_coo.
  destruct (M <? 0) eqn:E1.
  { eexists; split; [reflexivity|]. ands; split; intros; try discriminate; try lia; auto. }
  destruct (N <? 0) eqn:E2.
  { eexists; split; [reflexivity|]. ands; split; intros; try discriminate; try lia; auto. }
  destruct (nnz <? 0) eqn:E3.
  { eexists; split; [reflexivity|]. ands; split; intros; try discriminate; try lia; auto. }
  destruct (HL ltac:(lia)) as (L1 & L2).
  match goal with |- context [forc ?lo ?hi ?f ?s] =>
    destruct (forc_inv unit status
      (fun e _ => forall k, 0 <= k < e -> b <= zn row k < b + M /\ b <= zn col k < b + N)
      (fun _ => False)
      (fun r => r = invalid_index_value /\
         exists k, 0 <= k < nnz /\ ~ (b <= zn row k < b + M /\ b <= zn col k < b + N))
      lo hi f s) as [(s' & E & [I|F])|(r & E & -> & W)] end.
  - lia.
  - intros; lia.
  - intros i [] Hi I. rewrite !(rd_nthZ _ 0) by lia.
    destruct ((zn row i <? b) || (M + b <=? zn row i)) eqn:C1.
    { right; right. eexists; split; [reflexivity|]. split; auto. exists i. lia. }
    destruct ((zn col i <? b) || (N + b <=? zn col i)) eqn:C2.
    { right; right. eexists; split; [reflexivity|]. split; auto. exists i. lia. }
    left. eexists; split; [reflexivity|]. intros k Hk.
    destruct (Z.eq_dec k i) as [->|Ne]; [lia|]. apply I; lia.
  - rewrite E. eexists; split; [reflexivity|]. ands; split; intros; try discriminate; try lia; auto.
    + ands; try lia; intros; now apply I.
    + destruct H as (_ & k & Hk & X). exfalso. apply X. now apply I.
  - destruct F.
  - rewrite E. eexists; split; [reflexivity|]. ands; split; intros; try discriminate; try lia; auto.
    + destruct W as (k & Hk & X). exfalso. apply X. now apply H.
    + ands; auto; lia.
Qed.
