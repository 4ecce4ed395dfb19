From Coq Require Import ZArith List Bool Lia.
From Coq Require Import ZifyBool.
From Verif Require Import Base BaseFacts Csr CsrFacts CheckModel CheckSpec.
Import ListNotations.
Open Scope Z_scope.

Lemma col_allowed_nonneg : forall sh mn i j, 0 <= i -> col_allowed sh mn i j -> 0 <= j.
Proof. intros sh mn i j Hi H; destruct sh; cbn in H; lia. Qed.

Lemma jb_allowed0 : forall sh mn i j,
    (let '(lo, hi) := jbounds sh mn i in (j <? lo) || (hi <? j)) = false <-> col_allowed sh mn i j.
Proof. intros sh mn i j. destruct sh; cbn; lia. Qed.

Section Check.
  Variables (sh : shape) (maj mn nnz b : Z) (ptr ind : list Z).
  Hypothesis Hmaj : 0 <= maj.
  Hypothesis Hlen : lens_ok maj nnz ptr ind.
  Hypothesis Hptr : ptr_ok maj nnz b ptr.

  Let bad k := bad_index sh maj mn b ptr ind k.
  Let dup k := dup_diag maj b ptr ind k.
  Definition clean (e : Z) := forall k, k < e -> ~ bad k /\ ~ dup k.

  (** bounded forms of "not sorted" and "not grouped" *)
  Definition desc (e : Z) := exists i k k', 0 <= i < maj /\ in_row ptr b i k /\ in_row ptr b i k' /\
     k < k' < e /\ zn ind k > zn ind k'.
  Definition gviol (e : Z) := exists i k k', 0 <= i < maj /\ in_row ptr b i k /\ in_row ptr b i k' /\
     k < k' < e /\ ((zn ind k > i + b /\ zn ind k' <= i + b) \/ (zn ind k = i + b /\ zn ind k' < i + b)).

  Definition sort_inv (e : Z) (s : msort) :=
    match s with
    | fully_sorted => ~ desc e
    | partially_sorted => desc e /\ ~ gviol e
    | unsorted => gviol e
    | unknown_sort => False
    end.

  Lemma gviol_desc : forall e, gviol e -> desc e.
  Proof. intros e (i & k & k' & H1 & H2 & H3 & H4 & H5). exists i, k, k'. ands; auto; lia. Qed.

  Lemma desc_mono : forall e e', e <= e' -> desc e -> desc e'.
  Proof. intros e e' H (i & k & k' & H1 & H2 & H3 & H4 & H5). exists i, k, k'. ands; auto; lia. Qed.
  Lemma gviol_mono : forall e e', e <= e' -> gviol e -> gviol e'.
  Proof. intros e e' H (i & k & k' & H1 & H2 & H3 & H4 & H5). exists i, k, k'. ands; auto; lia. Qed.

  (** New descents when position [e] of row [i] is added. *)
  Lemma desc_step : forall i e, 0 <= i < maj -> in_row ptr b i e ->
    desc (e + 1) -> desc e \/ exists k, in_row ptr b i k /\ k < e /\ zn ind k > zn ind e.
  Proof.
    intros i e Hi He (i' & k & k' & H1 & H2 & H3 & H4 & H5).
    destruct (Z.eq_dec k' e) as [->|N].
    - right. assert (i' = i) by (eapply (row_unique maj nnz b ptr Hptr i' i e); eauto). subst. exists k; ands; auto; lia.
    - left. exists i', k, k'; ands; auto; lia.
  Qed.
  Lemma gviol_step : forall i e, 0 <= i < maj -> in_row ptr b i e ->
    gviol (e + 1) -> gviol e \/ exists k, in_row ptr b i k /\ k < e /\
     ((zn ind k > i + b /\ zn ind e <= i + b) \/ (zn ind k = i + b /\ zn ind e < i + b)).
  Proof.
    intros i e Hi He (i' & k & k' & H1 & H2 & H3 & H4 & H5).
    destruct (Z.eq_dec k' e) as [->|N].
    - right. assert (i' = i) by (eapply (row_unique maj nnz b ptr Hptr i' i e); eauto). subst. exists k; ands; auto; lia.
    - left. exists i', k, k'; ands; auto; lia.
  Qed.

  (** Invariant of the entry loop of row [i] before position [e]. *)
  Record einv (i e : Z) (st : msort * bool * bool * Z) : Prop := {
    ei_clean : clean e;
    ei_sort : sort_inv e (fst (fst (fst st)));
    ei_diag : snd (fst (fst st)) = true <-> exists k, in_row ptr b i k /\ k < e /\ zn ind k = i + b;
    ei_upper : snd (fst st) = true <-> exists k, in_row ptr b i k /\ k < e /\ zn ind k > i + b;
    ei_prev : fst (fst (fst st)) = fully_sorted ->
       (forall k, in_row ptr b i k -> k < e -> zn ind k - b <= snd st) /\
       (snd st = -1 \/ exists k, in_row ptr b i k /\ k < e /\ zn ind k - b = snd st)
  }.

  Definition first_bad (e : Z) := bad e /\ clean e.
  Definition first_dup (e : Z) := dup e /\ ~ bad e /\ clean e.
  Definition verdict (r : status) :=
    exists e, (r = invalid_index_value /\ first_bad e) \/ (r = invalid_value /\ first_dup e).

  Lemma jb_allowed : forall i j,
    (let '(lo, hi) := jbounds sh mn i in (j <? lo) || (hi <? j)) = false <-> col_allowed sh mn i j.
  Proof. apply jb_allowed0. Qed.

  Lemma clean_step : forall e, clean e -> ~ bad e -> ~ dup e -> clean (e + 1).
  Proof.
    intros e C B D k Hk. destruct (Z.eq_dec k e) as [->|N]; auto. apply C. lia.
  Qed.

  Lemma check_entry_step : forall i e st, 0 <= i < maj -> in_row ptr b i e -> einv i e st ->
    (exists st', check_entry sh mn b i ind e st = Some (Go st') /\ einv i (e + 1) st') \/
    (exists st', check_entry sh mn b i ind e st = Some (Brk st') /\ False) \/
    (exists r, check_entry sh mn b i ind e st = Some (Ret r) /\ verdict r).
  Proof.
    intros i e [[[so dg] up] pv] Hi He I. destruct I as [IC IS ID IU IP]. cbn [fst snd] in *.
    pose proof (in_row_range _ _ _ _ Hptr i e Hi He) as Hr.
    destruct Hlen as (HL1 & HL2).
    unfold check_entry. rewrite (rd_nthZ _ 0) by lia.
    set (c := zn ind e) in *. 
    destruct (jbounds sh mn i) as [jmin jmax] eqn:EJ.
    pose proof (jb_allowed i (c - b)) as JA. rewrite EJ in JA.
    destruct ((c - b <? jmin) || (jmax <? c - b)) eqn:Eb.
    { right; right. eexists; split; [reflexivity|]. exists e; left; split; auto. split; auto.
      exists i; split; [auto|split; [auto|]]. intros A. apply JA in A. discriminate. }
    assert (Hall : col_allowed sh mn i (c - b)) by now apply JA.
    assert (Nb : ~ bad e).
    { intros (i' & Hi' & Hr' & Hn). assert (i' = i) by (eapply (row_unique maj nnz b ptr Hptr i' i e); eauto). subst. apply Hn; auto. }
    (* sort update *)
    set (sp := if negb (is_unsorted so) then
        let '(sort1, prev1) := if c - b <? pv then (partially_sorted, pv) else (so, c - b) in
        let sort2 := if ((c - b <=? i) && up) || ((c - b <? i) && dg) then unsorted else sort1 in
        (sort2, prev1)
      else (so, pv)).
    (* the diagonal is not repeated here or there is a return *)
    assert (Dup : dup e <-> (c = i + b /\ dg = true)).
    { split.
      - intros (i' & k' & Hi' & Hr1 & Hr2 & Hlt & E1 & E2).
        assert (i' = i) by (eapply (row_unique maj nnz b ptr Hptr i' i e); eauto). subst i'. split; auto. apply ID. exists k'; auto.
      - intros (E1 & E2). apply ID in E2. destruct E2 as (k' & Hk1 & Hk2 & Hk3).
        exists i, k'. ands; auto; try lia. }
    assert (SP : ~ dup e -> sort_inv (e + 1) (fst sp) /\
       (fst sp = fully_sorted ->
         (forall k, in_row ptr b i k -> k < e + 1 -> zn ind k - b <= snd sp) /\
         (snd sp = -1 \/ exists k, in_row ptr b i k /\ k < e + 1 /\ zn ind k - b = snd sp))).
    { intros ND. subst sp. destruct so; cbn [is_unsorted negb] in *.
      - destruct IS.
      - destruct (IP eq_refl) as (IP1 & IP2).
        destruct (c - b <? pv) eqn:E1.
        + assert (Hd : desc (e + 1)).
          { destruct IP2 as [->|(k & Hk1 & Hk2 & Hk3)].
            - exfalso. apply col_allowed_nonneg in Hall; lia.
            - exists i, k, e. ands; auto; try lia. }
          destruct (((c - b <=? i) && up) || ((c - b <? i) && dg)) eqn:E2; cbn [fst snd].
          * split; [|discriminate]. unfold sort_inv.
            assert ((c <= i + b /\ up = true) \/ (c < i + b /\ dg = true)) as [(Hc & Hu)|(Hc & Hu)] by lia.
            -- apply IU in Hu. destruct Hu as (k & Hk1 & Hk2 & Hk3). exists i, k, e.
               ands; auto; try lia; left; fold c; lia.
            -- apply ID in Hu. destruct Hu as (k & Hk1 & Hk2 & Hk3). exists i, k, e.
               ands; auto; try lia; right; fold c; lia.
          * split; [|discriminate]. split; auto. intros G.
            apply (gviol_step i e Hi He) in G. destruct G as [G|(k & Hk1 & Hk2 & Hk3)].
            -- apply IS. now apply gviol_desc.
            -- fold c in Hk3. destruct Hk3 as [(Hx & Hy)|(Hx & Hy)].
               ++ assert (up = true) by (apply IU; exists k; auto). lia.
               ++ assert (dg = true) by (apply ID; exists k; auto). lia.
        + assert (Hnd : ~ desc (e + 1)).
          { intros D. apply (desc_step i e Hi He) in D. destruct D as [D|(k & Hk1 & Hk2 & Hk3)]; auto.
            specialize (IP1 k Hk1 Hk2). fold c in Hk3. lia. }
          destruct (((c - b <=? i) && up) || ((c - b <? i) && dg)) eqn:E2; cbn [fst snd].
          * exfalso.
            assert ((c <= i + b /\ up = true) \/ (c < i + b /\ dg = true)) as [(Hc & Hu)|(Hc & Hu)] by lia.
            -- apply IU in Hu. destruct Hu as (k & Hk1 & Hk2 & Hk3).
               specialize (IP1 k Hk1 Hk2). lia.
            -- apply ID in Hu. destruct Hu as (k & Hk1 & Hk2 & Hk3).
               specialize (IP1 k Hk1 Hk2). lia.
          * split; auto. intros _. split.
            -- intros k Hk1 Hk2. destruct (Z.eq_dec k e) as [->|N]; [fold c; lia|].
               specialize (IP1 k Hk1 ltac:(lia)). lia.
            -- right. exists e. ands; auto; try lia.
      - destruct IS as (IS1 & IS2).
        assert (desc (e + 1)) by (eapply desc_mono; eauto; lia).
        assert (HH : forall pv' s', s' = partially_sorted ->
           sort_inv (e + 1) (fst (if ((c - b <=? i) && up) || ((c - b <? i) && dg) then unsorted else s', pv' : Z)) /\
           (if ((c - b <=? i) && up) || ((c - b <? i) && dg) then unsorted else s') <> fully_sorted).
        { intros pv' s' ->. cbn [fst].
          destruct (((c - b <=? i) && up) || ((c - b <? i) && dg)) eqn:E2; (split; [|discriminate]).
          - unfold sort_inv.
            assert ((c <= i + b /\ up = true) \/ (c < i + b /\ dg = true)) as [(Hc & Hu)|(Hc & Hu)] by lia.
            + apply IU in Hu. destruct Hu as (k & Hk1 & Hk2 & Hk3). exists i, k, e.
               ands; auto; try lia; left; fold c; lia.
            + apply ID in Hu. destruct Hu as (k & Hk1 & Hk2 & Hk3). exists i, k, e.
               ands; auto; try lia; right; fold c; lia.
          - split; auto. intros G.
            apply (gviol_step i e Hi He) in G. destruct G as [G|(k & Hk1 & Hk2 & Hk3)]; auto.
            fold c in Hk3. destruct Hk3 as [(Hx & Hy)|(Hx & Hy)].
            + assert (up = true) by (apply IU; exists k; auto). lia.
            + assert (dg = true) by (apply ID; exists k; auto). lia. }
        destruct (c - b <? pv); cbn [fst snd];
          match goal with |- context [(if _ then unsorted else ?s')] =>
            destruct (HH 0 s' eq_refl) as (HH1 & HH2) end; cbn [fst] in *;
          split; auto; intros; contradiction.
      - split; [|discriminate]. cbn [fst]. eapply gviol_mono; [|exact IS]; lia. }
    destruct sp as [so' pv'] eqn:Esp. cbn [fst snd] in SP.
    assert (Hins : forall (Q : Z -> Prop), 
      (exists k, in_row ptr b i k /\ k < e + 1 /\ Q k) <-> (exists k, in_row ptr b i k /\ k < e /\ Q k) \/ Q e).
    { intros Q; split.
      - intros (k & Hk1 & Hk2 & Hk3). destruct (Z.eq_dec k e) as [->|N]; [right; auto|].
        left; exists k; ands; auto; lia.
      - intros [(k & Hk1 & Hk2 & Hk3)|HQ]; [exists k|exists e]; ands; auto; lia. }
    destruct (i <? c - b) eqn:E3.
    - left. eexists; split; [reflexivity|].
      assert (ND : ~ dup e) by (rewrite Dup; lia). destruct (SP ND) as (SP1 & SP2).
      constructor; cbn [fst snd]; auto.
      + now apply clean_step.
      + rewrite Hins, ID. fold c. intuition lia.
      + rewrite Hins. fold c. intuition lia.
    - destruct (c - b =? i) eqn:E4.
      + destruct dg.
        * right; right. eexists; split; [reflexivity|]. exists e. right. split; auto.
          split; [apply Dup; split; auto; lia|]. split; auto.
        * left. eexists; split; [reflexivity|].
          assert (ND : ~ dup e) by (rewrite Dup; intros (_ & X); discriminate).
          destruct (SP ND) as (SP1 & SP2).
          constructor; cbn [fst snd]; auto.
          -- now apply clean_step.
          -- rewrite Hins. fold c. intuition lia.
          -- rewrite Hins, IU. fold c. intuition lia.
      + left. eexists; split; [reflexivity|].
        assert (ND : ~ dup e) by (rewrite Dup; lia). destruct (SP ND) as (SP1 & SP2).
        constructor; cbn [fst snd]; auto.
        * now apply clean_step.
        * rewrite Hins, ID. fold c. intuition lia.
        * rewrite Hins, IU. fold c. intuition lia.
  Qed.

  (** Invariant of the row loop. *)
  Definition rinv (i : Z) (st : msort * bool) : Prop :=
    clean (zn ptr i - b) /\ sort_inv (zn ptr i - b) (fst st) /\
    (snd st = true <-> (forall i', 0 <= i' < i -> i' < mn -> exists k, in_row ptr b i' k /\ zn ind k = i' + b)).

  Lemma check_row_step : forall i st, 0 <= i < maj -> rinv i st ->
    (exists st', check_row sh mn b ptr ind i st = Some (Go st') /\ rinv (i + 1) st') \/
    (exists st', check_row sh mn b ptr ind i st = Some (Brk st') /\ False) \/
    (exists r, check_row sh mn b ptr ind i st = Some (Ret r) /\ verdict r).
  Proof.
    intros i [so fd] Hi (IC & IS & IF). cbn [fst snd] in *.
    destruct Hlen as (HL1 & HL2).
    unfold check_row. rewrite !(rd_nthZ _ 0) by lia.
    pose proof (proj2 (proj2 Hptr) i Hi) as Hm.
    assert (I0 : einv i (zn ptr i - b) (so, false, false, -1)).
    { constructor; cbn [fst snd]; auto.
      - split; [discriminate|]. intros (k & (Hk & _) & Hk2 & _). lia.
      - split; [discriminate|]. intros (k & (Hk & _) & Hk2 & _). lia.
      - intros _; split; auto. intros k (Hk & _) Hk2. lia. }
    destruct (forc_inv _ _ (einv i) (fun _ => False) verdict
       (zn ptr i - b) (zn ptr (i + 1) - b) (check_entry sh mn b i ind) (so, false, false, -1)
       ltac:(lia) I0) as [(st' & E & [I|F])|(r & E & V)].
    - intros e st He I. apply check_entry_step; auto.
    - rewrite E. destruct st' as [[[so' dg] up] pv].
      destruct I as [JC JS JD JU JP]; cbn [fst snd] in *.
      left. eexists; split; [reflexivity|]. split; [|split]; cbn [fst snd]; auto.
      assert (Hdg : dg = true <-> exists k, in_row ptr b i k /\ zn ind k = i + b).
      { rewrite JD. split.
        - intros (k & H1 & H2 & H3); exists k; auto.
        - intros (k & H1 & H2); exists k; ands; auto; apply H1. }
      destruct dg; cbn [negb andb].
      + rewrite IF. split; intros Hf i' Hi' Hn.
        * destruct (Z.eq_dec i' i) as [->|N]; [now apply Hdg|]. apply Hf; lia.
        * apply Hf; lia.
      + destruct (i <? mn) eqn:En.
        * split; [discriminate|]. intros Hf. exfalso.
          assert (false = true) as X by (apply Hdg; apply Hf; lia). discriminate.
        * rewrite IF. split; intros Hf i' Hi' Hn; apply Hf; lia.
    - destruct F.
    - rewrite E. right; right. eauto.
  Qed.

  Lemma check_rows_ok :
    (exists so fd, forc 0 maj (check_row sh mn b ptr ind) (fully_sorted, true) = Some (inl (so, fd)) /\
        (forall k, ~ bad k /\ ~ dup k) /\ sort_inv nnz so /\
        (fd = true <-> full_diag maj mn b ptr ind)) \/
    (exists r, forc 0 maj (check_row sh mn b ptr ind) (fully_sorted, true) = Some (inr r) /\ verdict r).
  Proof.
    destruct (forc_inv _ _ rinv (fun _ => False) verdict 0 maj (check_row sh mn b ptr ind)
      (fully_sorted, true) Hmaj) as [(st' & E & [I|F])|(r & E & V)].
    - destruct Hptr as (H0 & _ & _). split; [|split]; cbn [fst snd].
      + intros k Hk. rewrite H0 in Hk. replace (b - b) with 0 in Hk by lia. split.
        * intros (i & Hi & Hr & _). pose proof (in_row_range _ _ _ _ Hptr i k Hi Hr). lia.
        * intros (i & k' & Hi & Hr & _). pose proof (in_row_range _ _ _ _ Hptr i k Hi Hr). lia.
      + intros (i & k & k' & Hi & Hr & Hr' & Hk & _). rewrite H0 in Hk.
        pose proof (in_row_range _ _ _ _ Hptr i k Hi Hr). lia.
      + split; auto. intros _ i' Hi'. lia.
    - intros i s Hi I. now apply check_row_step.
    - left. destruct st' as [so fd]. exists so, fd. split; auto.
      destruct I as (IC & IS & IF). cbn [fst snd] in *.
      destruct Hptr as (H0 & Hm & _). rewrite Hm in *. replace (b + nnz - b) with nnz in * by lia.
      ands; auto.
      intros k; split.
      + intros B. assert (B' := B). destruct B' as (i & Hi & Hr & _).
        pose proof (in_row_range _ _ _ _ Hptr i k Hi Hr). destruct (IC k); auto; lia.
      + intros B. assert (B' := B). destruct B' as (i & k' & Hi & Hr & _).
        pose proof (in_row_range _ _ _ _ Hptr i k Hi Hr). destruct (IC k); auto; lia.
    - destruct F.
    - right; eauto.
  Qed.

  Lemma sort_inv_says : forall s, sort_inv nnz s -> sort_says s maj b ptr ind.
  Proof.
    intros s H. destruct s; cbn in *; auto.
    - intros i k k' Hi H1 H2 Hlt.
      destruct (Z_le_gt_dec (zn ind k) (zn ind k')) as [C|C]; auto. exfalso; apply H.
      exists i, k, k'. pose proof (in_row_range _ _ _ _ Hptr i k' Hi H2).
      ands; auto; lia.
    - destruct H as (D & NG). split.
      + intros R. destruct D as (i & k & k' & Hi & H1 & H2 & H3 & H4).
        specialize (R i k k' Hi H1 H2). lia.
      + intros i k k' Hi H1 H2 Hlt. pose proof (in_row_range _ _ _ _ Hptr i k' Hi H2).
        split; intros Hk.
        * destruct (Z_le_gt_dec (zn ind k') (i + b)) as [C|C]; auto. exfalso; apply NG.
          exists i, k, k'. ands; auto; lia.
        * destruct (Z_lt_ge_dec (zn ind k') (i + b)) as [C|C]; auto. exfalso; apply NG.
          exists i, k, k'. ands; auto; lia.
    - intros R. destruct H as (i & k & k' & Hi & H1 & H2 & H3 & H4).
      destruct (R i k k' Hi H1 H2 ltac:(lia)). lia.
  Qed.
End Check.

Lemma ptr_loop : forall maj ptr, 0 <= maj -> zlen ptr = maj + 1 ->
  (forc 1 (maj + 1) (fun i (_ : unit) =>
       let* a := rd ptr (i - 1) in
       let* c := rd ptr i in
       if c <? a then Some (Ret invalid_value) else Some (Go tt)) tt = Some (inl tt) /\
   (forall i, 0 <= i < maj -> zn ptr i <= zn ptr (i + 1))) \/
  (forc 1 (maj + 1) (fun i (_ : unit) =>
       let* a := rd ptr (i - 1) in
       let* c := rd ptr i in
       if c <? a then Some (Ret invalid_value) else Some (Go tt)) tt = Some (inr invalid_value) /\
   ~ (forall i, 0 <= i < maj -> zn ptr i <= zn ptr (i + 1))).
Proof.
  intros maj ptr Hm HL.
  destruct (forc_inv unit status
     (fun i _ => forall j, 0 <= j < i - 1 -> zn ptr j <= zn ptr (j + 1)) (fun _ => False)
     (fun r => r = invalid_value /\ ~ (forall i, 0 <= i < maj -> zn ptr i <= zn ptr (i + 1)))
     1 (maj + 1) (fun i (_ : unit) =>
       let* a := rd ptr (i - 1) in
       let* c := rd ptr i in
       if c <? a then Some (Ret invalid_value) else Some (Go tt)) tt)
   as [(s & E & [I|F])|(r & E & -> & N)].
  - lia.
  - intros; lia.
  - intros i [] Hi I. rewrite !(rd_nthZ _ 0) by lia.
    destruct (zn ptr i <? zn ptr (i - 1)) eqn:C.
    + right; right. eexists; split; [reflexivity|]. split; auto. intros A.
      specialize (A (i - 1) ltac:(lia)). replace (i - 1 + 1) with i in A by lia. lia.
    + left. eexists; split; [reflexivity|]. intros j Hj.
      destruct (Z.eq_dec j (i - 1)) as [->|Nj].
      * replace (i - 1 + 1) with i by lia. lia.
      * apply I. lia.
  - left. destruct s. split; auto. intros i Hi. apply I. lia.
  - destruct F.
  - right. split; auto.
Qed.

Lemma mat_check_spec : forall sh maj mn nnz b ptr ind,
  (0 <= maj -> zlen ptr = maj + 1) -> (0 <= nnz -> zlen ind = nnz) ->
  let sizes := 0 <= mn /\ 0 <= maj /\ 0 <= nnz in
  let bad := bad_index sh maj mn b ptr ind in
  let dup := dup_diag maj b ptr ind in
  exists st res, mat_check maj mn nnz (Some ptr) (Some ind) false sh b false = Some (st, res) /\
   ( (st = success /\ sizes /\ structure_ok sh maj mn nnz b ptr ind /\
      exists so fd, res = Some (so, fd) /\ sort_says so maj b ptr ind /\
        (fd = true <-> full_diag maj mn b ptr ind)) \/
     (st = invalid_size /\ ~ sizes) \/
     (st = invalid_value /\ sizes /\ ~ ptr_ok maj nnz b ptr) \/
     (st = invalid_index_value /\ sizes /\ ptr_ok maj nnz b ptr /\
        exists k, bad k /\ forall k', k' < k -> ~ bad k' /\ ~ dup k') \/
     (st = invalid_value /\ sizes /\ ptr_ok maj nnz b ptr /\
        exists k, dup k /\ ~ bad k /\ forall k', k' < k -> ~ bad k' /\ ~ dup k') ).
Proof.
  intros sh maj mn nnz b ptr ind HP HI sizes bad dup. unfold mat_check.
  destruct ((mn <? 0) || (maj <? 0) || (nnz <? 0)) eqn:Es.
  { eexists _, _; split; [reflexivity|]. right; left. split; auto. unfold sizes. lia. }
  assert (Hs : sizes) by (unfold sizes; lia). destruct Hs as (Hmn & Hmaj & Hnnz).
  specialize (HP Hmaj). specialize (HI Hnnz).
  assert (Hs : sizes) by (unfold sizes; lia).
  rewrite !(rd_nthZ _ 0) by lia.
  destruct (zn ptr 0 - b =? 0) eqn:E0; cbn [negb].
  2:{ eexists _, _; split; [reflexivity|]. right; right; left. ands; auto. intros (A & _). lia. }
  destruct (zn ptr maj - b =? nnz) eqn:E1; cbn [negb].
  2:{ eexists _, _; split; [reflexivity|]. right; right; left. ands; auto. intros (_ & A & _). lia. }
  destruct (ptr_loop maj ptr Hmaj HP) as [(E & M)|(E & M)]; rewrite E.
  2:{ eexists _, _; split; [reflexivity|]. right; right; left. ands; auto. intros (_ & _ & A). auto. }
  assert (Hptr : ptr_ok maj nnz b ptr) by (unfold ptr_ok; ands; auto; lia).
  assert (HL : lens_ok maj nnz ptr ind) by (split; auto).
  destruct (check_rows_ok sh maj mn nnz b ptr ind Hmaj HL Hptr) as [(so & fd & E2 & C & S & F)|(r & E2 & V)];
    rewrite E2.
  - eexists _, _; split; [reflexivity|]. left. split; [auto|]. split; [auto|]. split.
    { split; [auto|]. split; intros k; apply C. }
    exists so, fd. ands; auto. eapply sort_inv_says; eauto.
  - eexists _, _; split; [reflexivity|]. right; right; right.
    destruct V as (e & [(-> & B & C)|(-> & D & NB & C)]).
    + left. split; auto. split; auto. split; auto. exists e. split; auto.
    + right. split; auto. split; auto. split; auto. exists e. split; auto.
Qed.

Lemma rows_sorted_grouped : forall m b ptr ind, rows_sorted m b ptr ind -> rows_grouped m b ptr ind.
Proof. intros m b ptr ind H i k k' Hi H1 H2 Hlt. specialize (H i k k' Hi H1 H2 Hlt). lia. Qed.

Lemma structure_ok_wf : forall maj mn nnz b ptr ind,
  0 <= maj -> 0 <= mn -> 0 <= nnz -> zlen ptr = maj + 1 -> zlen ind = nnz ->
  (structure_ok shape_general maj mn nnz b ptr ind <->
   csr_wf maj mn nnz b ptr ind /\ diag_unique maj b ptr ind).
Proof.
  intros maj mn nnz b ptr ind H1 H2 H3 H4 H5. split.
  - intros (P & B & D). split.
    + constructor; auto; [split; auto|]. intros k Hk.
      destruct (row_of maj nnz b ptr H1 P k Hk) as (i & Hi & Hr).
      destruct (Z_le_gt_dec b (zn ind k)); destruct (Z_lt_ge_dec (zn ind k) (b + mn)); try lia;
        exfalso; apply (B k); exists i; (split; [auto|split; [auto|]]); cbn; lia.
    + intros i k k' Hi Hr Hr' E E'.
      destruct (Z_lt_ge_dec k k') as [C|C].
      * exfalso. apply (D k'). exists i, k. ands; auto; lia.
      * destruct (Z_lt_ge_dec k' k) as [C'|C']; [|lia].
        exfalso. apply (D k). exists i, k'. ands; auto; lia.
  - intros (W & U). split; [apply W|]. split.
    + intros k (i & Hi & Hr & N). apply N. cbn.
      pose proof (wf_ind _ _ _ _ _ _ W k (in_row_range _ _ _ _ (wf_ptr _ _ _ _ _ _ W) i k Hi Hr)). lia.
    + intros k (i & k' & Hi & Hr & Hr' & Hlt & E & E').
      pose proof (U i k k' Hi Hr Hr' E E'). lia.
Qed.
