(** Inserting the missing diagonal entries. *)
From Coq Require Import ZArith List Bool Lia ZifyBool Permutation.
From Verif Require Import Base BaseFacts Algebra Vec Csr CsrFacts CountSort Csr2CscProof SortModel SortSpec SortProof.
Import ListNotations.
Open Scope Z_scope.

Lemma find_diag_ok : forall b i ind lo hi, 0 <= lo <= hi -> hi <= zlen ind ->
  exists f idx, find_diag b i ind lo hi = Some (f, idx) /\ lo <= idx <= hi /\
    (forall k, lo <= k < idx -> zn ind k - b < i) /\
    (f = true -> idx < hi /\ zn ind idx - b = i) /\
    (f = false -> idx < hi -> zn ind idx - b > i).
Proof.
  intros b i ind lo hi H L. unfold find_diag.
  match goal with |- context [forc lo hi ?f ?s] =>
    destruct (forc_inv Z (bool * Z) (fun e st => st = e /\ forall k, lo <= k < e -> zn ind k - b < i) (fun _ => False)
      (fun r : bool * Z => lo <= snd r < hi /\ (forall k, lo <= k < snd r -> zn ind k - b < i) /\
         (if fst r then zn ind (snd r) - b = i else zn ind (snd r) - b > i)) lo hi f s)
      as [(st & E & [[-> R]|[]])|([fd idx] & E & R)] end.
  - lia.
  - split; [reflexivity|]. intros; lia.
  - intros k st Hk [-> Hb]. rewrite (rd_nthZ _ 0) by lia.
    destruct (i =? zn ind k - b) eqn:E1; [right; right|destruct (i <? zn ind k - b) eqn:E2; [right; right|left]].
    + eexists; split; [reflexivity|]. cbn. ands; auto; lia.
    + eexists; split; [reflexivity|]. cbn. ands; auto; lia.
    + eexists; split; [reflexivity|]. split; [reflexivity|]. intros k' Hk'.
      destruct (Z.eq_dec k' k) as [->|]; [lia|apply Hb; lia].
  - rewrite E. exists false, hi. ands; auto; try lia; discriminate.
  - rewrite E. exists fd, idx. cbn in R. destruct R as (R1 & R2 & R3). ands; auto; try lia.
Qed.

Section F.
  Context {T : Type}.
  Variable zero : T.
  Variables (m n nnz : Z) (ptr ind : list Z) (val : list T).
  Hypothesis Hwf : csr_wf m n nnz 0 ptr ind.
  Hypothesis Lv : zlen val = nnz.
  Hypothesis Hg : rows_grouped m 0 ptr ind.
  Hypothesis Hu : diag_unique m 0 ptr ind.

  Definition fd i := find_diag 0 i ind (zn ptr i - 0) (zn ptr (i + 1) - 0).
  Definition mis i : bool := match fd i with Some (f, _) => negb f && (i <? n) | None => false end.
  Definition pos i : Z := match fd i with Some (_, p) => p | None => 0 end.
  Definition miscnt i : Z := zlen (filter mis (zrange 0 i)).
  Definition z2 (c : bool) : Z := if c then 1 else 0.

  Let Hm : 0 <= m. Proof. apply Hwf. Qed.
  Let Hp : ptr_ok m nnz 0 ptr. Proof. apply Hwf. Qed.
  Let Lp : zlen ptr = m + 1. Proof. apply Hwf. Qed.
  Let Li : zlen ind = nnz. Proof. apply Hwf. Qed.

  Lemma miscnt_step : forall i, 0 <= i -> miscnt (i + 1) = miscnt i + z2 (mis i).
  Proof.
    intros i Hi. unfold miscnt. rewrite zrange_last by lia. rewrite filter_app, zlen_app. cbn.
    unfold z2. destruct (mis i); reflexivity.
  Qed.

  Lemma miscnt_nonneg : forall i, 0 <= miscnt i.
  Proof. intros; apply zlen_nonneg. Qed.

  Lemma row_rng : forall i, 0 <= i < m -> 0 <= zn ptr i <= zn ptr (i + 1) /\ zn ptr (i + 1) <= nnz.
  Proof.
    intros i Hi. pose proof (ptr_range _ _ _ _ Hp i). pose proof (ptr_range _ _ _ _ Hp (i + 1)).
    destruct Hp as (_ & _ & Q). specialize (Q i Hi). lia.
  Qed.

  Lemma fd_facts : forall i, 0 <= i < m -> exists f, fd i = Some (f, pos i) /\ mis i = negb f && (i <? n) /\
    zn ptr i <= pos i <= zn ptr (i + 1) /\
    (forall k, zn ptr i <= k < pos i -> zn ind k < i) /\
    (f = true -> pos i < zn ptr (i + 1) /\ zn ind (pos i) = i) /\
    (f = false -> pos i < zn ptr (i + 1) -> zn ind (pos i) > i).
  Proof.
    intros i Hi. pose proof (row_rng i Hi).
    destruct (find_diag_ok 0 i ind (zn ptr i - 0) (zn ptr (i + 1) - 0)) as (f & idx & E & R1 & R2 & R3 & R4); [lia|lia|].
    exists f. unfold mis, pos. unfold fd. rewrite E. ands; auto; try lia.
  Qed.

  (** Facts about a missing diagonal: everything before [pos] is lower, everything
      from [pos] on is upper. *)
  Lemma mis_split : forall i, 0 <= i < m -> mis i = true ->
    i < n /\ forall k, zn ptr i <= k < zn ptr (i + 1) -> (k < pos i -> zn ind k < i) /\ (pos i <= k -> zn ind k > i).
  Proof.
    intros i Hi M. destruct (fd_facts i Hi) as (f & _ & E & R1 & R2 & R3 & R4).
    rewrite E in M. destruct f; [discriminate|]. cbn in M. split; [lia|]. intros k Hk. split; [intros; apply R2; lia|].
    intros Hge. specialize (R4 eq_refl). assert (G : zn ind (pos i) > i) by (apply R4; lia).
    destruct (Z.eq_dec k (pos i)) as [->|]; [exact G|].
    destruct (Hg i (pos i) k Hi) as [G1 _]; unfold in_row; try lia.
  Qed.

  Lemma mis_not : forall i, 0 <= i < m -> i < n -> mis i = false ->
    in_row ptr 0 i (pos i) /\ zn ind (pos i) = i.
  Proof.
    intros i Hi Hin M. destruct (fd_facts i Hi) as (f & _ & E & R1 & R2 & R3 & R4).
    rewrite E in M. destruct f; [|cbn in M; lia]. unfold in_row. specialize (R3 eq_refl). lia.
  Qed.

  Lemma find_missing_ok : exists missing, find_missing m n 0 ptr ind = Some (missing, miscnt m) /\
    zlen missing = m /\ forall i, 0 <= i < m -> zn missing i = if mis i then pos i + miscnt i else -1.
  Proof.
    unfold find_missing.
    match goal with |- context [for_ 0 m ?f ?s] => destruct (for_inv _ (fun e st => snd st = miscnt e /\ zlen (fst st) = m /\
        forall i, 0 <= i < m -> zn (fst st) i = if (i <? e) && mis i then pos i + miscnt i else -1) 0 m f s) as ([mi c] & E & R) end.
    - exact Hm.
    - cbn [fst snd]. ands; auto. + rewrite zlen_zrep; lia.
      + intros i Hi. rewrite nthZ_zrep by lia. replace (i <? 0) with false by lia. reflexivity.
    - intros i [mi c] Hi (Hc & L & R). cbn [fst snd] in *. subst c. rewrite !(rd_nthZ _ 0) by lia.
      destruct (fd_facts i Hi) as (f & E & Em & R1 & _). unfold fd in E. rewrite E. rewrite <- Em.
      rewrite miscnt_step by lia. destruct (mis i) eqn:M.
      + rewrite wr_upd by lia. eexists; split; [reflexivity|]. cbn [fst snd]. rewrite zlen_upd. ands; auto.
        intros k Hk. rewrite (nthZ_upd _ 0) by lia. destruct (Z.eq_dec k i) as [->|].
        * rewrite Z.eqb_refl, M. replace (i <? i + 1) with true by lia. reflexivity.
        * replace (k =? i) with false by lia. rewrite R by lia. replace (k <? i + 1) with (k <? i) by lia. reflexivity.
      + eexists; split; [reflexivity|]. cbn [fst snd]. unfold z2. ands; auto; try lia.
        intros k Hk. rewrite R by lia. destruct (Z.eq_dec k i) as [->|].
        * rewrite M, !andb_false_r. reflexivity.
        * replace (k <? i + 1) with (k <? i) by lia. reflexivity.
    - rewrite E. cbn [fst snd] in R. destruct R as (Hc & L & R). subst c. exists mi. ands; auto.
      intros i Hi. rewrite R by lia. replace (i <? m) with true by lia. reflexivity.
  Qed.

  (** Where position [k] of row [i] goes. *)
  Definition newpos i k := k + miscnt i + z2 (mis i && (pos i <=? k)).

  Definition rowdone (icol : list Z) (aval : list T) (i hi : Z) (dg : bool) : Prop :=
    (forall k, zn ptr i <= k < hi -> zn icol (newpos i k) = zn ind k /\ rd aval (newpos i k) = rd val k) /\
    (dg = true -> zn icol (pos i + miscnt i) = i /\ rd aval (pos i + miscnt i) = Some zero).

  Lemma miscnt_mono : forall i j, 0 <= i <= j -> miscnt i <= miscnt j.
  Proof.
    intros i j H. unfold miscnt. rewrite (zrange_app 0 i j) by lia. rewrite filter_app, zlen_app.
    pose proof (zlen_nonneg _ (filter mis (zrange i j))). lia.
  Qed.

  Definition fill_result (ptr' ind' : list Z) (val' : list T) : Prop :=
    zlen ptr' = m + 1 /\ zlen ind' = nnz + miscnt m /\ zlen val' = nnz + miscnt m /\
    (forall i, 0 <= i <= m -> zn ptr' i = zn ptr i + miscnt i) /\
    forall i, 0 <= i < m -> rowdone ind' val' i (zn ptr (i + 1)) (mis i).

  Lemma newpos_0 : miscnt m = 0 -> forall i, 0 <= i < m -> mis i = false /\ miscnt i = 0.
  Proof.
    intros H i Hi. pose proof (miscnt_mono i m). pose proof (miscnt_nonneg i).
    pose proof (miscnt_mono (i + 1) m). pose proof (miscnt_step i). unfold z2 in *.
    destruct (mis i); split; auto; lia.
  Qed.

  Lemma fill_diag_raw : forall fresh,
    (forall z, 0 <= z -> let '(icol0, aval0, icrow0) := fresh z in zlen icol0 = z /\ zlen aval0 = z /\ zlen icrow0 = m + 1) ->
    exists ptr' ind' val', fill_diag zero m n nnz 0 ptr ind val fresh = Some (ptr', ind', val') /\
      fill_result ptr' ind' val'.
  Proof.
    intros fresh Hf. unfold fill_diag. destruct find_missing_ok as (missing & E & Lm & Hmiss). rewrite E.
    pose proof (miscnt_nonneg m). assert (Hz : 0 <= nnz) by apply Hwf.
    destruct (miscnt m <=? 0) eqn:E0.
    - exists ptr, ind, val. split; [reflexivity|]. unfold fill_result. ands; auto; try lia.
      + intros i Hi. pose proof (miscnt_mono i m). pose proof (miscnt_nonneg i). lia.
      + intros i Hi. destruct (newpos_0 ltac:(lia) i Hi) as [M C]. unfold rowdone, newpos. rewrite M, C. cbn.
        split; [|discriminate]. intros k Hk. rewrite !Z.add_0_r. auto.
    - specialize (Hf (nnz + miscnt m) ltac:(lia)). destruct (fresh (nnz + miscnt m)) as [[ic0 av0] ir0].
      destruct Hf as (L1 & L2 & L3). set (NN := nnz + miscnt m) in *.
      set (P := fun e (st : list Z * list Z * list T * Z * Z) => let '(ir, ic, av, na, nc) := st in
        zlen ir = m + 1 /\ zlen ic = NN /\ zlen av = NN /\ na = miscnt e /\ nc = zn ptr e + miscnt e /\
        (forall r, 0 <= r < e -> zn ir r = zn ptr r + miscnt r) /\
        forall r, 0 <= r < e -> rowdone ic av r (zn ptr (r + 1)) (mis r)).
      match goal with |- context [for_ 0 m ?f ?s] => destruct (for_inv _ P 0 m f s) as (st & EE & R) end.
      + exact Hm.
      + unfold P. change (miscnt 0) with 0. destruct Hp as (P0 & _). ands; auto; lia.
      + intros i [[[[ir ic] av] na] nc] Hi (Lr & Lc & La & -> & -> & Hr & Hd). cbv beta iota.
        pose proof (row_rng i Hi) as RR. rewrite !(rd_nthZ _ 0) by lia. rewrite wr_upd by lia.
        rewrite Hmiss by lia. rewrite !Z.sub_0_r.
        destruct (fd_facts i Hi) as (fb & _ & _ & RP & _).
        pose proof (miscnt_nonneg i). pose proof (miscnt_mono (i + 1) m ltac:(lia)) as MM.
        pose proof (miscnt_step i ltac:(lia)) as MS.
        set (miss := if mis i then pos i + miscnt i else -1).
        set (c := miscnt i) in *. set (lo := zn ptr i) in *. set (hi := zn ptr (i + 1)) in *.
        set (fr := fun (ic' : list Z) (av' : list T) => zlen ic' = NN /\ zlen av' = NN /\
              forall k, 0 <= k < lo + c -> zn ic' k = zn ic k /\ rd av' k = rd av k).
        set (Q := fun e (st : list Z * list T * Z * Z) => let '(ic', av', na, nc) := st in
           fr ic' av' /\ na = c + z2 (mis i && (pos i <? e)) /\ nc = e + na /\
           rowdone ic' av' i e (mis i && (pos i <? e))).
        (* inserting the diagonal at [e = pos i] *)
        assert (ADD : forall e ic' av', lo <= e <= hi -> e = pos i -> mis i = true ->
           fr ic' av' -> rowdone ic' av' i e false ->
           0 <= e + c < NN /\ fr (upd ic' (e + c) i) (upd av' (e + c) zero) /\
           rowdone (upd ic' (e + c) i) (upd av' (e + c) zero) i e true).
        { intros e ic' av' He -> M (F1 & F2 & F3) (D1 & _). rewrite M in *. cbn [z2] in *.
          assert (Hin : 0 <= pos i + c < NN) by lia.
          split; [exact Hin|]. unfold fr, rowdone. rewrite !zlen_upd. ands; auto.
          - intros k Hk. rewrite (nthZ_upd _ 0), rd_upd by lia. replace (k =? pos i + c) with false by lia. apply F3; lia.
          - intros k Hk. assert (newpos i k = k + c) as NP
              by (unfold newpos; fold c; rewrite M; replace (true && (pos i <=? k)) with false by lia; cbn [z2]; lia).
            specialize (D1 k Hk). rewrite NP in *.
            rewrite (nthZ_upd _ 0), rd_upd by lia. replace (k + c =? pos i + c) with false by lia. exact D1.
          - intros _. fold c. rewrite (nthZ_upd _ 0), rd_upd by lia. rewrite Z.eqb_refl. auto. }
        match goal with |- context [for_ lo hi ?f ?s] => destruct (for_inv _ Q lo hi f s) as (st & EE & R) end.
        * lia.
        * unfold Q. replace (pos i <? lo) with false by lia. rewrite andb_false_r. cbn [z2].
          unfold fr, rowdone. ands; auto; try lia; try (intros; lia); try discriminate.
        * intros idx [[[ic' av'] na'] nc'] Hidx (F & -> & -> & D). cbv beta iota.
          (* state before the copy *)
          assert (PRE : exists ic2 av2, (if idx + (c + z2 (mis i && (pos i <? idx))) =? miss
                  then (let* icol := wr ic' (idx + (c + z2 (mis i && (pos i <? idx)))) i in
                        let* aval := wr av' (idx + (c + z2 (mis i && (pos i <? idx)))) zero in
                        Some (icol, aval, c + z2 (mis i && (pos i <? idx)) + 1, idx + (c + z2 (mis i && (pos i <? idx))) + 1))
                  else Some (ic', av', c + z2 (mis i && (pos i <? idx)), idx + (c + z2 (mis i && (pos i <? idx))))) =
                  Some (ic2, av2, c + z2 (mis i && (pos i <? idx + 1)), idx + (c + z2 (mis i && (pos i <? idx + 1)))) /\
                  fr ic2 av2 /\ rowdone ic2 av2 i idx (mis i && (pos i <? idx + 1))).
          { destruct (mis i) eqn:M.
            - unfold miss. destruct (Z_lt_ge_dec (pos i) idx) as [C|C].
              + replace (pos i <? idx) with true in * by lia. replace (pos i <? idx + 1) with true by lia. cbn [andb z2] in *.
                replace (idx + (c + 1) =? pos i + c) with false by lia. exists ic', av'. auto.
              + replace (pos i <? idx) with false in * by lia. cbn [andb z2] in *.
                destruct (Z.eq_dec idx (pos i)) as [C2|C2].
                * replace (idx + (c + 0) =? pos i + c) with true by lia.
                  destruct (ADD idx ic' av') as (A1 & A2 & A3); auto; [lia|].
                  replace (idx + (c + 0)) with (idx + c) by lia.
                  destruct F as (F1 & F2 & F3). rewrite !wr_upd by lia.
                  replace (pos i <? idx + 1) with true by lia. cbn [z2].
                  exists (upd ic' (idx + c) i), (upd av' (idx + c) zero). split; [|auto].
                  replace (c + 0 + 1) with (c + 1) by lia. replace (idx + c + 1) with (idx + (c + 1)) by lia. reflexivity.
                * replace (idx + (c + 0) =? pos i + c) with false by lia.
                  replace (pos i <? idx + 1) with false by lia. cbn [z2]. exists ic', av'. auto.
            - unfold miss. cbn [andb z2] in *. replace (idx + (c + 0) =? -1) with false by lia. exists ic', av'. auto. }
          destruct PRE as (ic2 & av2 & -> & F' & D').
          set (nc2 := idx + (c + z2 (mis i && (pos i <? idx + 1)))).
          assert (Hnc : 0 <= nc2 < NN /\ lo + c <= nc2).
          { unfold nc2. unfold z2 in *. destruct (mis i); cbn [andb]; destruct (pos i <? idx + 1); lia. }
          destruct F' as (F1 & F2 & F3).
          destruct (rd val idx) as [v|] eqn:Ev.
          2:{ assert (Hx : 0 <= idx < zlen val) by lia. revert Ev. unfold rd.
              replace (idx <? 0) with false by lia. intro Ev. apply nth_error_None in Ev. unfold zlen in Hx. lia. }
          rewrite wr_upd by lia. rewrite (rd_nthZ _ 0) by lia. rewrite wr_upd by lia. rewrite Z.sub_0_r.
          eexists. split; [reflexivity|]. unfold Q. ands; auto.
          -- unfold fr. rewrite !zlen_upd. ands; auto. intros k Hk. rewrite (nthZ_upd _ 0), rd_upd by lia.
             replace (k =? nc2) with false by lia. apply F3; lia.
          -- unfold nc2. lia.
          -- destruct D' as (D1 & D2). assert (NPX : newpos i idx = nc2).
             { unfold newpos, nc2. fold c. replace (pos i <? idx + 1) with (pos i <=? idx) by lia. lia. }
             unfold rowdone. split.
             ++ intros k Hk. assert (0 <= newpos i k) by (unfold newpos, z2; fold c; destruct (mis i && (pos i <=? k)); lia).
                rewrite (nthZ_upd _ 0), rd_upd by lia.
                destruct (Z.eq_dec k idx) as [->|Hne].
                ** rewrite NPX, Z.eqb_refl. auto.
                ** assert (newpos i k < nc2).
                   { rewrite <- NPX. unfold newpos. unfold z2. destruct (mis i); cbn [andb]; [|lia].
                     destruct (pos i <=? k) eqn:?; destruct (pos i <=? idx) eqn:?; lia. }
                   replace (newpos i k =? nc2) with false by lia. apply D1. lia.
             ++ intros Hdg. fold c. rewrite (nthZ_upd _ 0), rd_upd by lia.
                replace (pos i + c =? nc2) with false. apply D2; auto.
                unfold nc2. rewrite Hdg. cbn [z2]. apply andb_true_iff in Hdg. lia.
        * destruct st as [[[ic' av'] na'] nc']. rewrite EE. cbv beta iota. destruct R as (F & -> & -> & D).
          assert (POST : exists ic2 av2, (if hi + (c + z2 (mis i && (pos i <? hi))) =? miss
                  then (let* icol := wr ic' (hi + (c + z2 (mis i && (pos i <? hi)))) i in
                        let* aval := wr av' (hi + (c + z2 (mis i && (pos i <? hi)))) zero in
                        Some (icol, aval, c + z2 (mis i && (pos i <? hi)) + 1, hi + (c + z2 (mis i && (pos i <? hi))) + 1))
                  else Some (ic', av', c + z2 (mis i && (pos i <? hi)), hi + (c + z2 (mis i && (pos i <? hi))))) =
                  Some (ic2, av2, miscnt (i + 1), hi + miscnt (i + 1)) /\
                  fr ic2 av2 /\ rowdone ic2 av2 i hi (mis i)).
          { rewrite MS. destruct (mis i) eqn:M.
            - unfold miss. destruct (Z_lt_ge_dec (pos i) hi) as [C|C].
              + replace (pos i <? hi) with true in * by lia. cbn [andb z2] in *.
                replace (hi + (c + 1) =? pos i + c) with false by lia. exists ic', av'. auto.
              + replace (pos i <? hi) with false in * by lia. cbn [andb z2] in *.
                assert (hi = pos i) as C2 by lia.
                replace (hi + (c + 0) =? pos i + c) with true by lia.
                destruct (ADD hi ic' av') as (A1 & A2 & A3); auto; [lia|].
                replace (hi + (c + 0)) with (hi + c) by lia.
                destruct F as (F1 & F2 & F3). rewrite !wr_upd by lia.
                exists (upd ic' (hi + c) i), (upd av' (hi + c) zero). split; [|auto].
                replace (c + 0 + 1) with (c + 1) by lia. replace (hi + c + 1) with (hi + (c + 1)) by lia. reflexivity.
            - unfold miss. cbn [andb z2] in *. replace (hi + (c + 0) =? -1) with false by lia. exists ic', av'.
              rewrite !Z.add_0_r. auto. }
          destruct POST as (ic2 & av2 & -> & (F1 & F2 & F3) & D').
          eexists. split; [reflexivity|]. unfold P. rewrite zlen_upd. ands; auto.
          -- intros r Hr'. rewrite (nthZ_upd _ 0) by lia. destruct (Z.eq_dec r i) as [->|].
             ++ rewrite Z.eqb_refl. reflexivity.
             ++ replace (r =? i) with false by lia. apply Hr. lia.
          -- intros r Hr'. destruct (Z.eq_dec r i) as [->|Hne]; [exact D'|].
             destruct (Hd r) as (D1 & D2); [lia|].
             assert (Hri : zn ptr (r + 1) <= lo) by (apply (ptr_mono _ _ _ _ Hp); lia).
             pose proof (row_rng r ltac:(lia)) as RRr. pose proof (miscnt_nonneg r).
             assert (Hci : miscnt r + z2 (mis r) <= c).
             { rewrite <- miscnt_step by lia. apply miscnt_mono. lia. }
             split.
             ++ intros k Hk. destruct (F3 (newpos r k)) as [-> ->]; [|apply D1; lia].
                unfold newpos. unfold z2 in *. destruct (mis r); cbn [andb]; try destruct (pos r <=? k); lia.
             ++ intros M. destruct (F3 (pos r + miscnt r)) as [-> ->]; [|apply D2; auto].
                destruct (fd_facts r ltac:(lia)) as (_ & _ & _ & RPr & _). rewrite M in Hci. cbn [z2] in Hci. lia.
      + destruct st as [[[[ir ic] av] na] nc]. rewrite EE. destruct R as (Lr & Lc & La & _ & _ & Hr & Hd).
        rewrite wr_upd by lia. exists (upd ir m NN), ic, av. split; [reflexivity|].
        unfold fill_result. rewrite zlen_upd. ands; auto.
        intros i Hi. rewrite (nthZ_upd _ 0) by lia. destruct (Z.eq_dec i m) as [->|].
        * rewrite Z.eqb_refl. destruct Hp as (_ & Pm & _). unfold NN. lia.
        * replace (i =? m) with false by lia. apply Hr. lia.
  Qed.
End F.

Section G.
  Context {T : Type}.
  Variable zero : T.
  Variables (m n nnz : Z) (ptr ind : list Z) (val : list T).
  Hypothesis Hwf : csr_wf m n nnz 0 ptr ind.
  Hypothesis Lv : zlen val = nnz.
  Hypothesis Hg : rows_grouped m 0 ptr ind.
  Variables (ptr' ind' : list Z) (val' : list T).
  Hypothesis HR : fill_result zero m n nnz ptr ind val ptr' ind' val'.

  Notation mis := (mis n ptr ind).
  Notation pos := (pos ptr ind).
  Notation miscnt := (miscnt n ptr ind).
  Notation newpos := (newpos n ptr ind).

  Lemma fill_ptr_ok : ptr_ok m (nnz + miscnt m) 0 ptr'.
  Proof.
    destruct HR as (_ & _ & _ & P & _). destruct Hwf as [Hm _ _ _ (P0 & Pm & PM) _].
    repeat split.
    - rewrite P by lia. change (miscnt 0) with 0. lia.
    - rewrite P by lia. lia.
    - intros i Hi. rewrite !P by lia. specialize (PM i Hi). pose proof (miscnt_mono n ptr ind i (i + 1)). lia.
  Qed.

  (** Every position of the new row is either an old one or the new diagonal. *)
  Lemma fill_inv : forall i p, 0 <= i < m -> in_row ptr' 0 i p ->
    (exists k, in_row ptr 0 i k /\ p = newpos i k /\ zn ind' p = zn ind k /\ rd val' p = rd val k) \/
    (mis i = true /\ p = pos i + miscnt i /\ zn ind' p = i /\ rd val' p = Some zero).
  Proof.
    intros i p Hi Hp. destruct HR as (_ & _ & _ & P & D). unfold in_row in Hp. rewrite !P in Hp by lia.
    rewrite (miscnt_step n ptr ind) in Hp by lia. destruct (D i Hi) as (D1 & D2).
    destruct (fd_facts m n nnz ptr ind Hwf i Hi) as (_ & _ & _ & RP & _).
    assert (K : forall k, in_row ptr 0 i k -> p = newpos i k ->
       exists k, in_row ptr 0 i k /\ p = newpos i k /\ zn ind' p = zn ind k /\ rd val' p = rd val k).
    { intros k Hk ->. exists k. unfold in_row in Hk. destruct (D1 k); [lia|]. ands; auto. }
    destruct (mis i) eqn:M.
    - cbn [z2] in Hp. destruct (Z_lt_ge_dec (p - miscnt i) (pos i)) as [C|C].
      + left. apply (K (p - miscnt i)); unfold in_row; try lia. unfold newpos. rewrite M.
        replace (pos i <=? p - miscnt i) with false by lia. cbn [andb z2]. lia.
      + destruct (Z.eq_dec (p - miscnt i) (pos i)) as [C2|C2].
        * right. destruct D2 as [D2 D3]; auto. replace p with (pos i + miscnt i) by lia. auto.
        * left. apply (K (p - miscnt i - 1)); unfold in_row; try lia. unfold newpos. rewrite M.
          replace (pos i <=? p - miscnt i - 1) with true by lia. cbn [andb z2]. lia.
    - cbn [z2] in Hp. left. apply (K (p - miscnt i)); unfold in_row; try lia. unfold newpos. rewrite M. cbn [andb z2]. lia.
  Qed.

  Lemma fill_fwd : forall i k, 0 <= i < m -> in_row ptr 0 i k ->
    in_row ptr' 0 i (newpos i k) /\ zn ind' (newpos i k) = zn ind k /\ rd val' (newpos i k) = rd val k.
  Proof.
    intros i k Hi Hk. destruct HR as (_ & _ & _ & P & D). destruct (D i Hi) as (D1 & _). unfold in_row in *.
    rewrite !P by lia. rewrite (miscnt_step n ptr ind) by lia. split; [|apply D1; lia].
    unfold newpos. unfold z2. destruct (mis i); cbn [andb]; try destruct (pos i <=? k); lia.
  Qed.

  Lemma newpos_mono : forall i k k', k < k' -> newpos i k < newpos i k'.
  Proof. intros i k k' H. unfold newpos, z2. destruct (mis i); cbn [andb]; [|lia].
    destruct (pos i <=? k) eqn:?; destruct (pos i <=? k') eqn:?; lia. Qed.

  Lemma newpos_lt : forall i k k', newpos i k < newpos i k' -> k < k'.
  Proof.
    intros i k k' H. destruct (Z_lt_ge_dec k k') as [|C]; auto.
    destruct (Z.eq_dec k k') as [->|]; [lia|]. pose proof (newpos_mono i k' k). lia.
  Qed.

  Lemma fill_wf : csr_wf m n (nnz + miscnt m) 0 ptr' ind'.
  Proof.
    pose proof fill_ptr_ok as PO. pose proof (miscnt_nonneg n ptr ind m).
    pose proof HR as (L1 & L2 & _). pose proof Hwf as [Hm Hn Hz _ _ HI].
    constructor; auto; try lia.
    - split; auto.
    - intros p Hp. destruct (row_of m _ 0 ptr' Hm PO p Hp) as (i & Hi & Hr).
      destruct (fill_inv i p Hi Hr) as [(k & Hk & -> & -> & _)|(M & _ & -> & _)].
      + apply HI. apply (in_row_range m nnz 0 ptr) with (i := i); auto. apply Hwf.
      + destruct (mis_split m n nnz ptr ind Hwf Hg i Hi M). lia.
  Qed.

  Lemma fill_full : full_diag m n 0 ptr' ind'.
  Proof.
    intros i Hi Hin. destruct (mis i) eqn:M.
    - exists (pos i + miscnt i). destruct HR as (_ & _ & _ & P & D). destruct (D i Hi) as (_ & D2).
      destruct (D2 M) as [D3 _]. rewrite D3. split; [|lia].
      unfold in_row. rewrite !P by lia. rewrite (miscnt_step n ptr ind) by lia. rewrite M. cbn [z2].
      destruct (fd_facts m n nnz ptr ind Hwf i Hi) as (_ & _ & _ & RP & _). lia.
    - destruct (mis_not m n nnz ptr ind Hwf i Hi Hin M) as [R E].
      exists (newpos i (pos i)). destruct (fill_fwd i (pos i) Hi R) as (A & B & _). split; [exact A|lia].
  Qed.

  Lemma fill_grouped : rows_grouped m 0 ptr' ind'.
  Proof.
    intros i p p' Hi Hp Hp' Hlt.
    destruct (fill_inv i p Hi Hp) as [(k & Hk & E & -> & _)|(M & E & -> & _)];
    destruct (fill_inv i p' Hi Hp') as [(k' & Hk' & E' & -> & _)|(M' & E' & -> & _)]; try (subst p); try (subst p').
    - apply (Hg i k k'); auto. apply (newpos_lt i). lia.
    - destruct (mis_split m n nnz ptr ind Hwf Hg i Hi M') as [_ S]. specialize (S k). unfold in_row in *.
      unfold newpos in Hlt. rewrite M' in Hlt. cbn [andb] in Hlt. unfold z2 in Hlt. destruct (pos i <=? k) eqn:?; lia.
    - destruct (mis_split m n nnz ptr ind Hwf Hg i Hi M) as [_ S]. specialize (S k'). unfold in_row in *.
      unfold newpos in Hlt. rewrite M in Hlt. cbn [andb] in Hlt. unfold z2 in Hlt. destruct (pos i <=? k') eqn:?; lia.
    - lia.
  Qed.

  Lemma fill_unique : diag_unique m 0 ptr ind -> diag_unique m 0 ptr' ind'.
  Proof.
    intros Hu i p p' Hi Hp Hp' E1 E2.
    destruct (fill_inv i p Hi Hp) as [(k & Hk & E & F & _)|(M & E & _ & _)];
    destruct (fill_inv i p' Hi Hp') as [(k' & Hk' & E' & F' & _)|(M' & E' & _ & _)]; try (subst p); try (subst p'); auto.
    - f_equal. apply (Hu i k k'); auto; lia.
    - destruct (mis_split m n nnz ptr ind Hwf Hg i Hi M') as [_ S]. specialize (S k). unfold in_row in *. lia.
    - destruct (mis_split m n nnz ptr ind Hwf Hg i Hi M) as [_ S]. specialize (S k'). unfold in_row in *. lia.
  Qed.

  Lemma fill_sorted : rows_sorted m 0 ptr ind -> rows_sorted m 0 ptr' ind'.
  Proof.
    intros Hs i p p' Hi Hp Hp' Hlt.
    destruct (fill_inv i p Hi Hp) as [(k & Hk & E & -> & _)|(M & E & -> & _)];
    destruct (fill_inv i p' Hi Hp') as [(k' & Hk' & E' & -> & _)|(M' & E' & -> & _)]; try (subst p); try (subst p'); try lia.
    - apply (Hs i k k'); auto. apply (newpos_lt i). lia.
    - destruct (mis_split m n nnz ptr ind Hwf Hg i Hi M') as [_ S]. specialize (S k). unfold in_row in *.
      unfold newpos in Hlt. rewrite M' in Hlt. cbn [andb] in Hlt. unfold z2 in Hlt. destruct (pos i <=? k) eqn:?; lia.
    - destruct (mis_split m n nnz ptr ind Hwf Hg i Hi M) as [_ S]. specialize (S k'). unfold in_row in *.
      unfold newpos in Hlt. rewrite M in Hlt. cbn [andb] in Hlt. unfold z2 in Hlt. destruct (pos i <=? k') eqn:?; lia.
  Qed.

  Lemma flat_map_shift : forall X (f g : Z -> list X) lo hi d,
    (forall k, lo <= k < hi -> g (k + d) = f k) -> flat_map g (zrange (lo + d) (hi + d)) = flat_map f (zrange lo hi).
  Proof.
    intros X f g lo hi d H. rewrite zrange_shift, !flat_map_concat_map, map_map. f_equal.
    apply map_ext_in. intros k Hk. apply in_zrange in Hk. auto.
  Qed.

  Lemma fill_ents : forall i j, 0 <= i < m ->
    ents 0 ptr' ind' val' i j =
      match ents 0 ptr ind val i j with
      | [] => if (i =? j) && (i <? n) then [zero] else []
      | l => l
      end.
  Proof.
    intros i j Hi. pose proof HR as (_ & _ & _ & P & D). destruct (D i Hi) as (D1 & D2).
    destruct (fd_facts m n nnz ptr ind Hwf i Hi) as (f & _ & EM & RP & RL & RT & RF).
    assert (LV : forall k, in_row ptr 0 i k -> exists v, rd val k = Some v).
    { intros k Hk. assert (0 <= k < zlen val).
      { rewrite Lv. apply (in_row_range m nnz 0 ptr) with (i := i); auto. apply Hwf. }
      destruct (rd val k) eqn:E; eauto. revert E. unfold rd. replace (k <? 0) with false by lia.
      intro E. apply nth_error_None in E. unfold zlen in *. lia. }
    destruct (mis i) eqn:M.
    - destruct (mis_split m n nnz ptr ind Hwf Hg i Hi M) as [Hin S].
      destruct D2 as [D2 D3]; auto.
      assert (EQ : ents 0 ptr' ind' val' i j =
         flat_map (fun k => if zn ind k =? j + 0 then olist (rd val k) else []) (zrange (zn ptr i) (pos i)) ++
         (if i =? j then [zero] else []) ++
         flat_map (fun k => if zn ind k =? j + 0 then olist (rd val k) else []) (zrange (pos i) (zn ptr (i + 1)))).
      { unfold ents. rewrite !P by lia. rewrite (miscnt_step n ptr ind) by lia. rewrite M. cbn [z2].
        set (c := miscnt i) in *.
        rewrite (zrange_app _ (pos i + c)) by lia. rewrite flat_map_app. f_equal.
        - replace (zn ptr i + c - 0) with (zn ptr i + c) by lia. apply flat_map_shift. intros k Hk.
          destruct (D1 k) as [A B]; [lia|].
          assert (NP : newpos i k = k + c) by (unfold newpos; fold c; rewrite M; replace (pos i <=? k) with false by lia; cbn [andb z2]; lia).
          rewrite NP in *. rewrite A, B. reflexivity.
        - rewrite (zrange_first (pos i + c)) by lia. cbn [flat_map]. rewrite D2, D3. cbn [olist].
          replace (i =? j + 0) with (i =? j) by lia. f_equal.
          replace (pos i + c + 1) with (pos i + (c + 1)) by lia.
          replace (zn ptr (i + 1) + (c + 1) - 0) with (zn ptr (i + 1) + (c + 1)) by lia.
          apply flat_map_shift. intros k Hk. destruct (D1 k) as [A B]; [lia|].
          assert (NP : newpos i k = k + (c + 1)) by (unfold newpos; fold c; rewrite M; replace (pos i <=? k) with true by lia; cbn [andb z2]; lia).
          rewrite NP in *. rewrite A, B. reflexivity. }
      assert (OLD : ents 0 ptr ind val i j =
         flat_map (fun k => if zn ind k =? j + 0 then olist (rd val k) else []) (zrange (zn ptr i) (pos i)) ++
         flat_map (fun k => if zn ind k =? j + 0 then olist (rd val k) else []) (zrange (pos i) (zn ptr (i + 1)))).
      { unfold ents. rewrite !Z.sub_0_r. rewrite (zrange_app (zn ptr i) (pos i)) by lia. apply flat_map_app. }
      rewrite EQ, OLD. destruct (i =? j) eqn:E.
      + assert (NIL : forall lo hi, zn ptr i <= lo -> hi <= zn ptr (i + 1) ->
          flat_map (fun k => if zn ind k =? j + 0 then olist (rd val k) else []) (zrange lo hi) = []).
        { intros lo hi H1 H2. apply flat_map_nil. intros k Hk. apply in_zrange in Hk. specialize (S k).
          destruct (zn ind k =? j + 0) eqn:E2; [|reflexivity]. lia. }
        rewrite !NIL by lia. cbn [andb app]. replace (i <? n) with true by lia. reflexivity.
      + cbn [app andb]. match goal with |- ?l = match ?l with _ => _ end => destruct l; reflexivity end.
    - assert (EQ : ents 0 ptr' ind' val' i j = ents 0 ptr ind val i j).
      { unfold ents. rewrite !P by lia. rewrite (miscnt_step n ptr ind) by lia. rewrite M. cbn [z2].
        rewrite !Z.sub_0_r. replace (zn ptr (i + 1) + (miscnt i + 0)) with (zn ptr (i + 1) + miscnt i) by lia.
        apply flat_map_shift. intros k Hk. destruct (D1 k) as [A B]; [lia|].
        assert (NP : newpos i k = k + miscnt i) by (unfold newpos; rewrite M; cbn [andb z2]; lia).
        rewrite NP in *. rewrite A, B. reflexivity. }
      rewrite EQ. destruct (ents 0 ptr ind val i j) eqn:E; [|reflexivity].
      destruct ((i =? j) && (i <? n)) eqn:C; [|reflexivity]. exfalso.
      destruct (mis_not m n nnz ptr ind Hwf i Hi ltac:(lia) M) as [R F].
      destruct (LV _ R) as (v & Ev).
      assert (X : In v (ents 0 ptr ind val i j)).
      { unfold ents. apply in_flat_map. exists (pos i). unfold in_row in R. split; [apply in_zrange; lia|].
        replace (zn ind (pos i) =? j + 0) with true by lia. rewrite Ev. left; reflexivity. }
      rewrite E in X. destruct X.
  Qed.
End G.

(** C05 in one statement. *)
Lemma fill_diag_ok : forall T (zero : T) m n nnz ptr ind val fresh,
  csr_wf m n nnz 0 ptr ind -> zlen val = nnz -> rows_grouped m 0 ptr ind -> diag_unique m 0 ptr ind ->
  (forall z, 0 <= z -> let '(icol0, aval0, icrow0) := fresh z in zlen icol0 = z /\ zlen aval0 = z /\ zlen icrow0 = m + 1) ->
  exists ptr' ind' val' nnz', fill_diag zero m n nnz 0 ptr ind val fresh = Some (ptr', ind', val') /\
    csr_wf m n nnz' 0 ptr' ind' /\ zlen val' = nnz' /\
    full_diag m n 0 ptr' ind' /\ rows_grouped m 0 ptr' ind' /\ diag_unique m 0 ptr' ind' /\
    (rows_sorted m 0 ptr ind -> rows_sorted m 0 ptr' ind') /\
    forall i j, 0 <= i < m -> ents 0 ptr' ind' val' i j =
      match ents 0 ptr ind val i j with
      | [] => if (i =? j) && (i <? n) then [zero] else []
      | l => l
      end.
Proof.
  intros T zero m n nnz ptr ind val fresh Hwf Lv Hg Hu Hf.
  destruct (fill_diag_raw zero m n nnz ptr ind val Hwf Lv fresh Hf) as (ptr' & ind' & val' & E & R).
  exists ptr', ind', val', (nnz + miscnt n ptr ind m). split; [exact E|]. ands.
  - eapply fill_wf; eauto.
  - apply R.
  - eapply fill_full; eauto.
  - eapply fill_grouped; eauto.
  - eapply fill_unique; eauto.
  - eapply fill_sorted; eauto.
  - intros i j Hi. eapply fill_ents; eauto.
Qed.
