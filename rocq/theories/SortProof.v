(** Sorting rows keeps the stored entries and orders them. *)
From Coq Require Import ZArith List Bool Lia ZifyBool Permutation.
From Verif Require Import Base BaseFacts Algebra Vec Csr CsrFacts CountSort Csr2CscProof SortModel SortSpec.
Import ListNotations.
Open Scope Z_scope.

Lemma wr_list_ok : forall A (d : A) v l i, 0 <= i -> i + zlen v <= zlen l ->
  exists l', wr_list l i v = Some l' /\ zlen l' = zlen l /\
    forall k, 0 <= k < zlen l -> nthZ d l' k = if (i <=? k) && (k <? i + zlen v) then nthZ d v (k - i) else nthZ d l k.
Proof.
  induction v as [|x v IH]; intros l i Hi Hl; simpl.
  - exists l. rewrite zlen_nil in *. split; [reflexivity|]. split; [reflexivity|].
    intros k Hk. replace ((i <=? k) && (k <? i + 0)) with false by lia. reflexivity.
  - rewrite zlen_cons in *. pose proof (zlen_nonneg _ v). rewrite wr_upd by lia.
    destruct (IH (upd l i x) (i + 1)) as (l' & E & L & N); [lia| rewrite zlen_upd; lia|].
    exists l'. rewrite zlen_upd in *. split; [exact E|]. split; [exact L|]. intros k Hk.
    rewrite N by lia. rewrite (nthZ_upd _ d l i x k) by lia.
    destruct (Z.eq_dec k i) as [->|Hne].
    + replace ((i + 1 <=? i) && (i <? i + 1 + zlen v)) with false by lia.
      replace ((i <=? i) && (i <? i + (1 + zlen v))) with true by lia.
      rewrite Z.eqb_refl, Z.sub_diag. reflexivity.
    + replace (k =? i) with false by lia.
      destruct ((i + 1 <=? k) && (k <? i + 1 + zlen v)) eqn:C.
      * replace ((i <=? k) && (k <? i + (1 + zlen v))) with true by lia.
        unfold nthZ. replace (Z.to_nat (k - i)) with (S (Z.to_nat (k - (i + 1)))) by lia. reflexivity.
      * replace ((i <=? k) && (k <? i + (1 + zlen v))) with false by lia. reflexivity.
Qed.

Lemma zlen_perm : forall A (l l' : list A), Permutation l l' -> zlen l = zlen l'.
Proof. intros A l l' H. unfold zlen. rewrite (Permutation_length H). reflexivity. Qed.

Section S.
  Context {T : Type}.
  Variable srt : (Z -> Z -> bool) -> list Z -> list Z.
  Hypothesis Hsrt : sort_contract srt.

  (** Row [i] of the destination is the source row taken in the order [p]. *)
  Definition row_perm (sb : Z) (sptr sidx : list Z) (sval : list T) (db : Z) (didx : list Z) (dval : list T) (i : Z) : Prop :=
    let lo := zn sptr i - sb in let hi := zn sptr (i + 1) - sb in
    exists p, Permutation p (zrange lo hi) /\
      (forall t u, 0 <= t < u -> u < hi - lo -> zn sidx (zn p t) < zn sidx (zn p u)) /\
      forall t, 0 <= t < hi - lo ->
        zn didx (lo + t) = zn sidx (zn p t) - (if sb =? db then 0 else 1) /\
        rd dval (lo + t) = rd sval (zn p t).

  Lemma std_sort_row : forall sidx lo hi, lo <= hi ->
    (forall k k', lo <= k < hi -> lo <= k' < hi -> k <> k' -> zn sidx k <> zn sidx k') ->
    exists p, std_sort srt (fun a c => zn sidx a <=? zn sidx c) (zrange lo hi) = Some p /\
      Permutation p (zrange lo hi) /\
      (forall t u, 0 <= t < u -> u < hi - lo -> zn sidx (zn p t) < zn sidx (zn p u)).
  Proof.
    intros sidx lo hi Hlh Hd.
    exists (srt (fun a c => zn sidx a <=? zn sidx c) (zrange lo hi)).
    assert (Hc : forallb (fun a => forallb (fun c => (a =? c) || negb ((zn sidx a <=? zn sidx c) && (zn sidx c <=? zn sidx a)))
                  (zrange lo hi)) (zrange lo hi) = true).
    { apply forallb_forall. intros a Ha. apply forallb_forall. intros c Hcc.
      apply in_zrange in Ha, Hcc. destruct (Z.eq_dec a c); [lia|]. specialize (Hd a c Ha Hcc n). lia. }
    unfold std_sort. rewrite Hc. split; [reflexivity|].
    destruct (Hsrt (fun a c => zn sidx a <=? zn sidx c) (zrange lo hi)) as [P S].
    - apply NoDup_zrange.
    - intros a c Ha Hcc Hne. apply in_zrange in Ha, Hcc. specialize (Hd a c Ha Hcc Hne). lia.
    - intros a c d _ _ _ _ _ _ H1 H2. lia.
    - split; [exact P|]. intros t u Ht Hu. rewrite zlen_zrange in S by lia.
      specialize (S t u Ht Hu). cbv beta in S.
      assert (L : zlen (srt (fun a c => zn sidx a <=? zn sidx c) (zrange lo hi)) = hi - lo)
        by (rewrite (zlen_perm _ _ _ P), zlen_zrange; lia).
      set (p := srt _ _) in *. clearbody p.
      assert (I : forall t, 0 <= t < hi - lo -> lo <= zn p t < hi).
      { intros t' Ht'. apply in_zrange. apply (Permutation_in _ P). apply nthZ_In. lia. }
      assert (zn p t <> zn p u).
      { intro E. assert (ND : NoDup p) by (apply (Permutation_NoDup (Permutation_sym P)), NoDup_zrange).
        rewrite NoDup_nth with (d := 0) in ND. unfold nthZ in E, L. unfold zlen in L.
        specialize (ND (Z.to_nat t) (Z.to_nat u)). lia. }
      specialize (Hd (zn p t) (zn p u)). pose proof (I t). pose proof (I u). lia.
  Qed.

  Lemma sort_idx_val_ok : forall m n nnz sb sptr sidx (sval : list T) db didx dval,
    csr_wf m n nnz sb sptr sidx -> rows_distinct m sb sptr sidx -> zlen sval = nnz ->
    zlen didx = nnz -> zlen dval = nnz ->
    exists didx' dval', sort_idx_val srt m nnz sb sptr sidx sval db didx dval = Some (didx', dval') /\
      zlen didx' = nnz /\ zlen dval' = nnz /\
      forall i, 0 <= i < m -> row_perm sb sptr sidx sval db didx' dval' i.
  Proof.
    intros m n nnz sb sptr sidx sval db didx dval [Hm Hn Hz [Lp Li] Hp Hi] Hd Lv Ldi Ldv.
    unfold sort_idx_val. destruct ((m =? 0) || (nnz =? 0)) eqn:E0.
    - exists didx, dval. ands; auto. intros i Him. pose proof (ptr_range _ _ _ _ Hp i). pose proof (ptr_range _ _ _ _ Hp (i + 1)).
      destruct Hp as (P0 & Pm & Pmono). pose proof (Pmono i). exists []. rewrite zrange_nil by lia.
      split; [constructor|]. split; intros; lia.
    - set (P := fun e (st : list Z * list Z * list T) => let '(perm, di, dv) := st in
          zlen perm = nnz /\ zlen di = nnz /\ zlen dv = nnz /\
          (forall k, zn sptr e - sb <= k < nnz -> zn perm k = k) /\
          forall r, 0 <= r < e -> row_perm sb sptr sidx sval db di dv r).
      match goal with |- context [for_ 0 m ?f ?s] => destruct (for_inv _ P 0 m f s) as (st & E & R) end.
      + lia.
      + unfold P. rewrite zlen_zrange by lia. ands; auto; try lia.
        intros k Hk. destruct Hp as (P0 & _). rewrite nthZ_zrange; lia.
      + intros i [[perm di] dv] Him (Lpm & Ldi' & Ldv' & Hperm & Hrows). cbv beta iota.
        pose proof (ptr_range _ _ _ _ Hp i). pose proof (ptr_range _ _ _ _ Hp (i + 1)).
        assert (Hmono : zn sptr i <= zn sptr (i + 1)) by (destruct Hp as (_ & _ & Q); apply Q; lia).
        rewrite !(rd_nthZ _ 0) by lia. set (lo := zn sptr i - sb) in *.
        replace (lo + (zn sptr (i + 1) - sb - lo)) with (zn sptr (i + 1) - sb) by lia.
        set (hi := zn sptr (i + 1) - sb) in *.
        replace (hi - lo <? 0) with false by lia.
        rewrite (mapM_map _ _ (rd perm) (fun k => k)).
        2:{ intros k Hk. apply in_zrange in Hk. rewrite (rd_nthZ _ 0) by lia. f_equal. apply Hperm. lia. }
        rewrite map_id. rewrite (mapM_map _ _ (rd sidx) (zn sidx)).
        2:{ intros k Hk. apply in_zrange in Hk. rewrite (rd_nthZ _ 0) by lia. reflexivity. }
        destruct (std_sort_row sidx lo hi) as (p & Ep & Pp & Sp).
        { lia. }
        { intros k k' Hk Hk' Hne. apply (Hd i k k'); auto; unfold in_row; lia. }
        rewrite Ep.
        assert (Lpp : zlen p = hi - lo) by (rewrite (zlen_perm _ _ _ Pp), zlen_zrange; lia).
        destruct (wr_list_ok _ 0 p perm lo) as (perm' & Ew & Lw & Nw); [lia|lia|]. rewrite Ew.
        set (Q := fun e (st : list Z * list T) => let '(di', dv') := st in
           zlen di' = nnz /\ zlen dv' = nnz /\
           (forall k, 0 <= k < lo -> zn di' k = zn di k /\ rd dv' k = rd dv k) /\
           forall k, lo <= k < e -> zn di' k = zn sidx (zn p (k - lo)) - (if sb =? db then 0 else 1) /\
              rd dv' k = rd sval (zn p (k - lo))).
        match goal with |- context [for_ lo hi ?f ?s] => destruct (for_inv _ Q lo hi f s) as (st & E & R) end.
        * lia.
        * unfold Q. ands; auto; intros; lia.
        * intros j [di' dv'] Hj (La & Lb & Hlow & Hdone). cbv beta iota.
          rewrite (rd_nthZ _ 0) by lia. rewrite Nw by lia.
          replace ((lo <=? j) && (j <? lo + zlen p)) with true by lia.
          assert (Ip : lo <= zn p (j - lo) < hi).
          { apply in_zrange. apply (Permutation_in _ Pp). apply nthZ_In. lia. }
          rewrite (rd_nthZ _ 0) by lia. rewrite wr_upd by lia.
          destruct (rd sval (zn p (j - lo))) as [v|] eqn:Ev.
          2:{ assert (Hx : 0 <= zn p (j - lo) < zlen sval) by lia. revert Ev. unfold rd.
              replace (zn p (j - lo) <? 0) with false by lia. intro Ev. apply nth_error_None in Ev.
              unfold zlen in Hx. lia. }
          rewrite wr_upd by lia. eexists. split; [reflexivity|]. unfold Q. rewrite !zlen_upd.
          ands; auto.
          -- intros k Hk. rewrite (nthZ_upd _ 0) by lia. rewrite rd_upd by lia.
             replace (k =? j) with false by lia. apply Hlow. lia.
          -- intros k Hk. rewrite (nthZ_upd _ 0) by lia. rewrite rd_upd by lia.
             destruct (Z.eq_dec k j) as [->|]; [rewrite Z.eqb_refl; auto|].
             replace (k =? j) with false by lia. apply Hdone. lia.
        * destruct st as [di' dv']. rewrite E. destruct R as (La & Lb & Hlow & Hdone).
          eexists. split; [reflexivity|]. unfold P. ands; auto; try lia.
          -- intros k Hk. rewrite Nw by lia. replace ((lo <=? k) && (k <? lo + zlen p)) with false by lia.
             apply Hperm. lia.
          -- intros r Hr. destruct (Z.eq_dec r i) as [->|Hne].
             ++ exists p. fold lo hi. ands; auto. intros t Ht.
                destruct (Hdone (lo + t)) as [Da Db]; [lia|]. replace (lo + t - lo) with t in * by lia. auto.
             ++ destruct (Hrows r) as (q & Pq & Sq & Dq); [lia|]. exists q. ands; auto.
                intros t Ht. destruct (Dq t Ht) as [Da Db]. rewrite <- Da, <- Db.
                assert (zn sptr (r + 1) <= zn sptr i) by (apply (ptr_mono _ _ _ _ Hp); lia).
                pose proof (ptr_range _ _ _ _ Hp r).
                apply Hlow. lia.
      + destruct st as [[perm di] dv]. rewrite E. destruct R as (_ & La & Lb & _ & Hr). eauto 6.
  Qed.
End S.

Section C.
  Context {T : Type}.
  Variables (m n nnz sb : Z) (sptr sidx : list Z) (sval : list T) (db : Z) (dptr didx : list Z) (dval : list T).
  Hypothesis Hwf : csr_wf m n nnz sb sptr sidx.
  Hypothesis Hb : sb = db \/ sb = 1 /\ db = 0.
  Hypothesis Lp : zlen dptr = m + 1.
  Hypothesis Hptr : forall i, 0 <= i <= m -> zn dptr i - db = zn sptr i - sb.
  Hypothesis Li : zlen didx = nnz.
  Hypothesis Hrow : forall i, 0 <= i < m -> row_perm sb sptr sidx sval db didx dval i.

  Let sh : (if sb =? db then 0 else 1) = sb - db.
  Proof. destruct Hb as [->|[-> ->]]; [rewrite Z.eqb_refl; lia|reflexivity]. Qed.

  (** Every destination position comes from a source position of the same row. *)
  Lemma sorted_src : forall i k, 0 <= i < m -> in_row dptr db i k ->
    exists k', in_row sptr sb i k' /\ zn didx k - db = zn sidx k' - sb /\ rd dval k = rd sval k'.
  Proof.
    intros i k Hi Hk. destruct (Hrow i Hi) as (p & Pp & _ & D). unfold in_row in *.
    pose proof (Hptr i). pose proof (Hptr (i + 1)).
    set (lo := zn sptr i - sb) in *. set (hi := zn sptr (i + 1) - sb) in *.
    destruct (D (k - lo)) as [Da Db]; [lia|]. replace (lo + (k - lo)) with k in * by lia. rewrite sh in Da.
    exists (zn p (k - lo)). split; [|split; [lia|exact Db]].
    apply in_zrange. apply (Permutation_in _ Pp). apply nthZ_In.
    rewrite (zlen_perm _ _ _ Pp), zlen_zrange; lia.
  Qed.

  Lemma sorted_dst : forall i k', 0 <= i < m -> in_row sptr sb i k' ->
    exists k, in_row dptr db i k /\ zn didx k - db = zn sidx k' - sb /\ rd dval k = rd sval k'.
  Proof.
    intros i k' Hi Hk. destruct (Hrow i Hi) as (p & Pp & _ & D). unfold in_row in *.
    pose proof (Hptr i). pose proof (Hptr (i + 1)).
    set (lo := zn sptr i - sb) in *. set (hi := zn sptr (i + 1) - sb) in *.
    assert (In k' p) by (apply (Permutation_in _ (Permutation_sym Pp)), in_zrange; lia).
    destruct (In_nthZ _ 0 p k') as (t & Ht & Et); [auto|].
    rewrite (zlen_perm _ _ _ Pp), zlen_zrange in Ht by lia.
    destruct (D t) as [Da Db]; [lia|]. rewrite sh in Da. exists (lo + t). rewrite Et in *. split; [lia|]. split; [lia|auto].
  Qed.

  Lemma sorted_strict : forall i k k', 0 <= i < m -> in_row dptr db i k -> in_row dptr db i k' -> k < k' ->
    zn didx k < zn didx k'.
  Proof.
    intros i k k' Hi Hk Hk' Hlt. destruct (Hrow i Hi) as (p & Pp & S & D). unfold in_row in *.
    pose proof (Hptr i). pose proof (Hptr (i + 1)).
    set (lo := zn sptr i - sb) in *. set (hi := zn sptr (i + 1) - sb) in *.
    destruct (D (k - lo)) as [Da _]; [lia|]. destruct (D (k' - lo)) as [Da' _]; [lia|].
    replace (lo + (k - lo)) with k in * by lia. replace (lo + (k' - lo)) with k' in * by lia.
    specialize (S (k - lo) (k' - lo)). lia.
  Qed.

  Lemma sorted_wf : csr_wf m n nnz db dptr didx.
  Proof.
    destruct Hwf as [Hm Hn Hz [Lsp Lsi] (P0 & Pm & Pmono) Hi]. constructor; auto.
    - split; auto.
    - repeat split.
      + pose proof (Hptr 0). lia.
      + pose proof (Hptr m). lia.
      + intros i Hi'. pose proof (Hptr i). pose proof (Hptr (i + 1)). pose proof (Pmono i). lia.
    - intros k Hk.
      assert (PO : ptr_ok m nnz db dptr).
      { repeat split; [pose proof (Hptr 0); lia| pose proof (Hptr m); lia |].
        intros i Hi'. pose proof (Hptr i). pose proof (Hptr (i + 1)). pose proof (Pmono i). lia. }
      destruct (row_of m nnz db dptr Hm PO k Hk) as (i & Him & Hr).
      destruct (sorted_src i k Him Hr) as (k' & Hk' & E & _).
      assert (0 <= k' < nnz) by (apply (in_row_range m nnz sb sptr) with (i := i); auto; repeat split; auto).
      specialize (Hi k'). lia.
  Qed.

  Lemma sorted_sorted : rows_sorted m db dptr didx.
  Proof. intros i k k' Hi Hk Hk' Hlt. pose proof (sorted_strict i k k' Hi Hk Hk' Hlt). lia. Qed.

  Lemma sorted_distinct : rows_distinct m db dptr didx.
  Proof.
    intros i k k' Hi Hk Hk' Hne. destruct (Z_lt_ge_dec k k').
    - pose proof (sorted_strict i k k'). lia.
    - pose proof (sorted_strict i k' k). lia.
  Qed.

  Lemma sorted_full : full_diag m n sb sptr sidx <-> full_diag m n db dptr didx.
  Proof.
    split; intros F i Hi Hin; destruct (F i Hi Hin) as (k & Hk & E).
    - destruct (sorted_dst i k Hi Hk) as (k' & Hk' & E' & _). exists k'. split; [auto|lia].
    - destruct (sorted_src i k Hi Hk) as (k' & Hk' & E' & _). exists k'. split; [auto|lia].
  Qed.

  Lemma flat_map_perm : forall A B (f : A -> list B) l l', Permutation l l' ->
    Permutation (flat_map f l) (flat_map f l').
  Proof. intros. now apply Permutation_flat_map. Qed.

  Lemma short_perm : forall A (l l' : list A), Permutation l l' -> (length l' <= 1)%nat -> l = l'.
  Proof.
    intros A l l' P L. destruct l' as [|x [|y l']].
    - apply Permutation_nil. now apply Permutation_sym.
    - apply Permutation_length_1_inv. now apply Permutation_sym.
    - cbn in L. lia.
  Qed.

  Lemma distinct_short : rows_distinct m sb sptr sidx -> forall i j, 0 <= i < m ->
    (length (ents sb sptr sidx sval i j) <= 1)%nat.
  Proof.
    intros Hd i j Hi. unfold ents.
    assert (G : forall l, NoDup l -> (forall k, In k l -> in_row sptr sb i k) ->
       (length (flat_map (fun k => if (zn sidx k =? j + sb)%Z then olist (rd sval k) else []) l) <= 1)%nat).
    { induction l as [|a l IH]; intros ND Hin; [cbn; lia|]. inversion ND; subst.
      cbn [flat_map]. rewrite app_length. destruct (zn sidx a =? j + sb) eqn:E.
      - replace (flat_map _ l) with (@nil T).
        + destruct (rd sval a); cbn; lia.
        + symmetry. apply flat_map_nil. intros k Hk.
          destruct (zn sidx k =? j + sb) eqn:E2; [|reflexivity].
          assert (a <> k) by congruence. exfalso. apply (Hd i a k); auto; try lia; apply Hin; cbn; auto.
      - cbn. apply IH; auto. intros k Hk; apply Hin; cbn; auto. }
    apply G; [apply NoDup_zrange|]. intros k Hk. apply in_zrange in Hk. unfold in_row. lia.
  Qed.

  Lemma sorted_ents_perm : forall i j, 0 <= i < m ->
    Permutation (ents db dptr didx dval i j) (ents sb sptr sidx sval i j).
  Proof.
    intros i j Hi. destruct (Hrow i Hi) as (p & Pp & _ & D). unfold ents.
    rewrite !Hptr by lia. set (lo := zn sptr i - sb) in *. set (hi := zn sptr (i + 1) - sb) in *.
    etransitivity; [|apply (flat_map_perm _ _ _ _ _ Pp)].
    assert (Hlh : lo <= hi). { destruct Hwf as [_ _ _ _ (_ & _ & Pmono) _]. pose proof (Pmono i). lia. }
    assert (Lpp : zlen p = hi - lo) by (rewrite (zlen_perm _ _ _ Pp), zlen_zrange; lia).
    rewrite <- (map_nthZ_zrange _ 0 p). rewrite Lpp.
    replace (zrange lo hi) with (zrange (0 + lo) (hi - lo + lo)) by (f_equal; lia).
    rewrite zrange_shift. rewrite !flat_map_concat_map, !map_map.
    apply Permutation_refl'. f_equal. apply map_ext_in. intros t Ht. apply in_zrange in Ht.
    cbv beta. destruct (D t) as [Da Db]; [lia|]. rewrite (Z.add_comm t lo), Da, Db. rewrite sh.
    replace (zn sidx (zn p t) - (sb - db) =? j + db) with (zn sidx (zn p t) =? j + sb) by lia.
    reflexivity.
  Qed.

  Lemma sorted_ents : rows_distinct m sb sptr sidx -> forall i j, 0 <= i < m ->
    ents db dptr didx dval i j = ents sb sptr sidx sval i j.
  Proof. intros Hd i j Hi. apply short_perm; [now apply sorted_ents_perm|now apply distinct_short]. Qed.
End C.

(** Whole call: aoclsparse_order_mat on a CSR matrix (or a square CSC one). *)
Lemma order_mat_ok : forall T srt m n b ptr ind (val : list T) nnz,
  sort_contract srt -> csr_wf m n nnz b ptr ind -> rows_distinct m b ptr ind -> zlen val = nnz ->
  exists ind' val', order_mat srt m n nnz b ptr ind val = Some (success, ind', val') /\
    csr_wf m n nnz b ptr ind' /\ zlen val' = nnz /\ rows_sorted m b ptr ind' /\
    forall i j, 0 <= i < m -> ents b ptr ind' val' i j = ents b ptr ind val i j.
Proof.
  intros T srt m n b ptr ind val nnz Hs Hwf Hd Lv. unfold order_mat.
  replace ((m <? 0) || (n <? 0) || (nnz <? 0)) with false by (destruct Hwf; lia).
  destruct ((m =? 0) || (n =? 0) || (nnz =? 0)) eqn:E0.
  - exists ind, val. ands; auto. intros i k k' Hi Hk.
    assert (nnz = 0) by (apply (wf_zero m n nnz b ptr ind); auto; lia).
    pose proof (in_row_range m nnz b ptr (wf_ptr _ _ _ _ _ _ Hwf) i k Hi Hk). lia.
  - destruct (wf_len _ _ _ _ _ _ Hwf) as [Lp Li].
    destruct (sort_idx_val_ok srt Hs m n nnz b ptr ind val b ind val) as (ind' & val' & E & Li' & Lv' & R); auto.
    rewrite E. exists ind', val'. ands; auto.
    + apply sorted_wf with (sb := b) (sptr := ptr) (sidx := ind) (sval := val) (dval := val'); auto.
    + apply sorted_sorted with (sb := b) (sptr := ptr) (sidx := ind) (sval := val) (dval := val'); auto.
    + intros i j Hi. apply sorted_ents with (m := m) (n := n) (nnz := nnz); auto.
Qed.
