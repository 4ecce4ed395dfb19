(** Proofs about sparse addition. *)
From Coq Require Import ZArith List Bool Lia Permutation.
From Coq Require Import ZifyBool.
From Verif Require Import Base BaseFacts Algebra Csr CsrFacts CountSort MvFacts SortSpec Csr2CscModel Csr2CscProof DoidModel CheckModel MvModel MvSpec DoidSpec CsrmvModel HandleModel HandleSpec HandleFacts SortProof RowProg AddModel AddSpec.
From Verif Require ExpandProof.
Import ListNotations.
Open Scope Z_scope.

(** ** Row lists *)
Section L.
  Context {T : Type} (O : ops T) (L : laws O).
  Add Ring TRing : (l_ring L).
  Definition memb (c : Z) (l : list (Z * T)) : bool := existsb (fun p => fst p =? c) l.
  Fixpoint lastpos (c : Z) (l : list (Z * T)) : Z :=
    match l with [] => 0 | p :: l' => if memb c l' then 1 + lastpos c l' else 0 end.
  (** [la] with the entries of [lb] added at the last place of their column *)
  Fixpoint amend (lb la : list (Z * T)) : list (Z * T) :=
    match la with
    | [] => []
    | (c, v) :: la' => (c, if memb c la' then v else oadd O v (colsum O c lb)) :: amend lb la'
    end.
  Definition fresh (la lb : list (Z * T)) := filter (fun p => negb (memb (fst p) la)) lb.
  (** The row of alpha*op(A) + B. *)
  Definition sumrow (la lb : list (Z * T)) := amend lb la ++ fresh la lb.

  Lemma memb_app : forall c l l', memb c (l ++ l') = memb c l || memb c l'.
  Proof. intros. apply existsb_app. Qed.
  Lemma lastpos_range : forall c l, memb c l = true -> 0 <= lastpos c l < zlen l /\ fst (nthZ (0, o0 O) l (lastpos c l)) = c.
  Proof.
    induction l as [|[c' v] l IH]; intros H; [discriminate|]. cbn [memb existsb fst] in H. cbn [lastpos]. rewrite zlen_cons. pose proof (zlen_nonneg _ l).
    destruct (memb c l) eqn:E.
    - destruct (IH eq_refl) as (R & Q). split; [lia|]. unfold nthZ in *. replace (Z.to_nat (1 + lastpos c l)) with (S (Z.to_nat (lastpos c l))) by lia. exact Q.
    - unfold memb in E. rewrite E in H. rewrite orb_false_r in H. change (fst (nthZ (0, o0 O) ((c', v) :: l) 0)) with c'. split; [lia|]. now apply Z.eqb_eq in H.
  Qed.
  Lemma lastpos_snoc : forall c c' v l, lastpos c (l ++ [(c', v)]) = if c' =? c then zlen l else lastpos c l.
  Proof.
    induction l as [|p l IH]; cbn [app lastpos].
    - cbn. destruct (c' =? c); reflexivity.
    - rewrite memb_app, IH, zlen_cons. cbn [memb existsb fst]. destruct (Z.eqb_spec c' c) as [->|Ne]; cbn [orb].
      + rewrite orb_true_r. reflexivity.
      + rewrite orb_false_r. reflexivity.
  Qed.
  Lemma zlen_amend : forall lb la, zlen (amend lb la) = zlen la.
  Proof. induction la as [|[c v] la IH]; [reflexivity|]. cbn [amend]. rewrite !zlen_cons, IH. reflexivity. Qed.
  Lemma amend_nil : forall la, amend [] la = la.
  Proof.
    induction la as [|[c v] la IH]; [reflexivity|]. cbn [amend]. rewrite IH. f_equal. f_equal. destruct (memb c la); auto.
    cbn. rewrite (Radd_comm (l_ring L)). apply (Radd_0_l (l_ring L)).
  Qed.
  Lemma amend_cols : forall lb la, map fst (amend lb la) = map fst la.
  Proof. induction la as [|[c v] la IH]; [reflexivity|]. cbn. now rewrite IH. Qed.
  Lemma amend_other : forall c b lb la, memb c la = false -> amend (lb ++ [(c, b)]) la = amend lb la.
  Proof.
    induction la as [|[c' v] la IH]; intros H; [reflexivity|]. cbn [memb existsb fst] in H. apply orb_false_elim in H. destruct H as (H1 & H2).
    cbn [amend]. rewrite IH by exact H2. f_equal. f_equal. destruct (memb c' la); auto. rewrite (colsum_app O L). f_equal.
    cbn. destruct (Z.eqb_spec c c'); [lia|]. ring.
  Qed.
  Lemma amend_hit : forall c b lb la, memb c la = true ->
    amend (lb ++ [(c, b)]) la = upd (amend lb la) (lastpos c la) (c, oadd O (snd (nthZ (0, o0 O) (amend lb la) (lastpos c la))) b).
  Proof.
    induction la as [|[c' v] la IH]; intros H; [discriminate|]. cbn [amend lastpos]. destruct (memb c la) eqn:E.
    - pose proof (lastpos_range c la E). rewrite IH by auto. unfold upd, nthZ. replace (Z.to_nat (1 + lastpos c la)) with (S (Z.to_nat (lastpos c la))) by lia.
      cbn [upd_nat nth]. f_equal. f_equal. destruct (memb c' la) eqn:E2; auto. rewrite (colsum_app O L). f_equal. cbn.
      destruct (Z.eqb_spec c c') as [->|]; [congruence|]. ring.
    - assert (c' = c). { cbn [memb existsb fst] in H. unfold memb in E. rewrite E, orb_false_r in H. lia. } subst c'.
      rewrite E. cbn. rewrite amend_other by auto. f_equal. f_equal. rewrite (colsum_app O L). cbn. rewrite Z.eqb_refl.
      ring.
  Qed.
  Lemma colsum_memb : forall c l, memb c l = false -> colsum O c l = o0 O.
  Proof.
    intros c l H. apply (colsum_out O L). intros p Hp E. unfold memb in H. assert (X : existsb (fun p => fst p =? c) l = true); [|congruence].
    apply existsb_exists. exists p. split; auto. lia.
  Qed.
  Lemma colsum_amend : forall j lb la, colsum O j (amend lb la) = oadd O (colsum O j la) (if memb j la then colsum O j lb else o0 O).
  Proof.
    pose proof (l_ring L) as RT. induction la as [|[c v] la IH]; [cbn; now rewrite (Radd_0_l RT)|]. cbn [amend memb existsb fst].
    unfold colsum in IH |- *. cbn [suml map fold_right fst snd] in IH |- *. unfold colsum, suml in *. cbn [map fold_right fst snd]. rewrite IH. clear IH.
    destruct (Z.eqb_spec c j) as [->|Ne]; cbn [orb].
    - destruct (memb j la).
      + ring.
      + ring.
    - rewrite <- (Radd_assoc RT). reflexivity.
  Qed.
  Lemma colsum_fresh : forall j la lb, colsum O j (fresh la lb) = if memb j la then o0 O else colsum O j lb.
  Proof.
    pose proof (l_ring L) as RT. induction lb as [|[c v] lb IH]; [destruct (memb j la); reflexivity|]. unfold fresh in *. cbn [filter fst].
    destruct (memb c la) eqn:E; cbn [negb].
    - rewrite IH. destruct (memb j la) eqn:E2; auto. unfold colsum, suml. cbn [map fold_right fst snd]. destruct (Z.eqb_spec c j) as [->|]; [congruence|].
      now rewrite (Radd_0_l RT).
    - unfold colsum, suml in *. cbn [map fold_right fst snd]. rewrite IH. destruct (Z.eqb_spec c j) as [->|].
      + rewrite E. reflexivity.
      + destruct (memb j la); now rewrite ?(Radd_0_l RT).
  Qed.
  Lemma colsum_sumrow : forall j la lb, colsum O j (sumrow la lb) = oadd O (colsum O j la) (colsum O j lb).
  Proof.
    intros. unfold sumrow. rewrite (colsum_app O L), colsum_amend, colsum_fresh. pose proof (l_ring L) as RT. destruct (memb j la).
    - rewrite (Radd_comm RT _ (o0 O)), (Radd_0_l RT). reflexivity.
    - rewrite <- (Radd_assoc RT), (Radd_0_l RT). reflexivity.
  Qed.
  Lemma fresh_app : forall la l l', fresh la (l ++ l') = fresh la l ++ fresh la l'.
  Proof. intros. apply filter_app. Qed.
  Lemma memb_true : forall c l, memb c l = true <-> exists p, In p l /\ fst p = c.
  Proof. intros. unfold memb. rewrite existsb_exists. split; intros (p & I & E); exists p; split; auto; lia. Qed.
End L.
Arguments memb {T}. Arguments fresh {T}. Arguments lastpos {T}.

Lemma zlen_fresh_snoc : forall T (la l : list (Z * T)) c v, zlen (fresh la (l ++ [(c, v)])) = zlen (fresh la l) + (if memb c la then 0 else 1).
Proof. intros. rewrite fresh_app, zlen_app. unfold fresh at 2. cbn [filter fst]. destruct (memb c la); reflexivity. Qed.
Lemma rowl_last : forall T (d : T) s e ind val, s <= e -> rowl d s (e + 1) ind val = rowl d s e ind val ++ [(zn ind e, nthZ d val e)].
Proof. intros. unfold rowl. rewrite zrange_last by lia. rewrite map_app. reflexivity. Qed.
Lemma rowl_app : forall T (d : T) s m e ind val, s <= m <= e -> rowl d s e ind val = rowl d s m ind val ++ rowl d m e ind val.
Proof. intros. unfold rowl. rewrite <- map_app, <- zrange_app by lia. reflexivity. Qed.

Section R.
  Context {T : Type} (O : ops T) (L : laws O).
  Add Ring TRing2 : (l_ring L).
  Variables (conjA : bool) (M N bA bB nA nB : Z) (Aptr Aind : list Z) (Aval : list T) (alpha : T) (Bptr Bind : list Z) (Bval : list T).
  Hypothesis (WA : csr_wf M N nA bA Aptr Aind) (WB : csr_wf M N nB bB Bptr Bind).
  Hypothesis (LA : zlen Aval = nA) (LB : zlen Bval = nB) (HbA : bA = 0 \/ bA = 1) (HD : rows_distinct M bB Bptr Bind).

  Definition fA (p : Z * T) : Z * T := (fst p, omul O alpha (if conjA then ocj O (snd p) else snd p)).
  Definition fB (p : Z * T) : Z * T := (fst p - bB + bA, snd p).
  Definition rowA i := map fA (crow (o0 O) bA Aptr Aind Aval i).
  Definition rowB i := map fB (crow (o0 O) bB Bptr Bind Bval i).
  Definition rowC i := sumrow O (rowA i) (rowB i).

  Lemma boundsA : forall i, 0 <= i < M -> zlen Aptr = M + 1 /\ zlen Aind = nA /\ 0 <= zn Aptr i - bA <= zn Aptr (i + 1) - bA /\ zn Aptr (i + 1) - bA <= nA.
  Proof.
    intros i Hi. destruct (wf_len _ _ _ _ _ _ WA) as (X & Y). pose proof (ptr_range _ _ _ _ (wf_ptr _ _ _ _ _ _ WA)) as R.
    pose proof (R i ltac:(lia)). pose proof (R (i + 1) ltac:(lia)). pose proof (ptr_mono _ _ _ _ (wf_ptr _ _ _ _ _ _ WA) i (i + 1) ltac:(lia)). lia.
  Qed.
  Lemma boundsB : forall i, 0 <= i < M -> zlen Bptr = M + 1 /\ zlen Bind = nB /\ 0 <= zn Bptr i - bB <= zn Bptr (i + 1) - bB /\ zn Bptr (i + 1) - bB <= nB.
  Proof.
    intros i Hi. destruct (wf_len _ _ _ _ _ _ WB) as (X & Y). pose proof (ptr_range _ _ _ _ (wf_ptr _ _ _ _ _ _ WB)) as R.
    pose proof (R i ltac:(lia)). pose proof (R (i + 1) ltac:(lia)). pose proof (ptr_mono _ _ _ _ (wf_ptr _ _ _ _ _ _ WB) i (i + 1) ltac:(lia)). lia.
  Qed.

  (** Marks: rows before [i] only. *)
  Definition old (i : Z) (nnz : list Z) : Prop := zlen nnz = N + 1 /\ forall c, 0 <= c <= N -> zn nnz c < i.
  (** Marks during row [i]: exactly the columns of [l]. *)
  Definition marked (i : Z) (nnz : list Z) (l : list (Z * T)) : Prop :=
    zlen nnz = N + 1 /\ forall c, 0 <= c <= N -> zn nnz c <= i /\ (zn nnz c = i <-> memb c l = true).

  Lemma marked_push : forall i nnz l c v, 0 <= c <= N -> marked i nnz l -> marked i (upd nnz c i) (l ++ [(c, v)]).
  Proof.
    intros i nnz l c v Hc (H1 & H2). split; [now rewrite zlen_upd|]. intros k Hk. rewrite memb_app. cbn. destruct (H2 k Hk) as (X & Y).
    rewrite nthZ_upd by lia. destruct (Z.eqb_spec k c) as [->|Ne].
    - split; [lia|]. rewrite Z.eqb_refl. rewrite orb_true_r. tauto.
    - destruct (Z.eqb_spec c k); [lia|]. rewrite orb_false_r. tauto.
  Qed.
  Lemma marked_same : forall i nnz l c v, memb c l = true -> marked i nnz l -> marked i nnz (l ++ [(c, v)]).
  Proof.
    intros i nnz l c v Hc (H1 & H2). split; auto. intros k Hk. rewrite memb_app. cbn. destruct (H2 k Hk) as (X & Y). split; auto.
    destruct (Z.eqb_spec c k) as [->|]; [rewrite Hc; cbn; rewrite Hc in Y; tauto|]. rewrite orb_false_r. tauto.
  Qed.
  Lemma old_marked : forall i nnz, old i nnz -> marked i nnz [].
  Proof. intros i nnz (H1 & H2). split; auto. intros c Hc. specialize (H2 c Hc). cbn. split; [lia|]. split; [lia|discriminate]. Qed.
  Lemma marked_old : forall i nnz l, marked i nnz l -> old (i + 1) nnz.
  Proof. intros i nnz l (H1 & H2). split; auto. intros c Hc. destruct (H2 c Hc). lia. Qed.

  (** The columns of B's row are distinct. *)
  Lemma next_new : forall i k, 0 <= i < M -> zn Bptr i - bB <= k < zn Bptr (i + 1) - bB ->
    memb (zn Bind k - bB + bA) (map fB (rowl (o0 O) (zn Bptr i - bB) k Bind Bval)) = false.
  Proof.
    intros i k Hi Hk. destruct (memb _ _) eqn:E; auto. apply memb_true in E. destruct E as (p & I & E). apply in_map_iff in I. destruct I as (q & <- & I).
    unfold rowl in I. apply in_map_iff in I. destruct I as (k' & <- & I). apply in_zrange in I. cbn in E. exfalso.
    apply (HD i k' k Hi); unfold in_row; lia.
  Qed.
  Lemma colA : forall i k, 0 <= i < M -> zn Aptr i - bA <= k < zn Aptr (i + 1) - bA -> bA <= zn Aind k < bA + N.
  Proof. intros i k Hi Hk. apply (wf_ind _ _ _ _ _ _ WA). pose proof (boundsA i Hi). lia. Qed.
  Lemma colB : forall i k, 0 <= i < M -> zn Bptr i - bB <= k < zn Bptr (i + 1) - bB -> bB <= zn Bind k < bB + N.
  Proof. intros i k Hi Hk. apply (wf_ind _ _ _ _ _ _ WB). pose proof (boundsB i Hi). lia. Qed.

  Lemma count_row_ok : forall i nnz cptr, 0 <= i < M -> old i nnz -> zlen cptr = M + 1 ->
    exists nnz', count_row bA bB Aptr Aind Bptr Bind i (nnz, cptr) = Some (nnz', upd cptr (i + 1) (zlen (rowC i))) /\ old (i + 1) nnz'.
  Proof.
    intros i nnz cptr Hi Ho Lc. destruct (boundsA i Hi) as (P1 & P2 & P3 & P4). destruct (boundsB i Hi) as (Q1 & Q2 & Q3 & Q4).
    unfold count_row. rewrite !(rd_nthZ _ 0) by lia.
    match goal with |- context [for_ (zn Aptr i - bA) ?hi ?f ?s] => destruct (for_inv _ (fun k (st : list Z * Z) =>
      marked i (fst st) (map fA (rowl (o0 O) (zn Aptr i - bA) k Aind Aval)) /\ snd st = k - (zn Aptr i - bA)) (zn Aptr i - bA) hi f s) as ([nz c] & E & I1 & I2) end.
    - lia.
    - cbn [fst snd]. rewrite rowl_nil by lia. split; [now apply old_marked|lia].
    - intros k [nz c] Hk (I1 & I2). cbn [fst snd] in I1, I2. pose proof (colA i k Hi Hk) as HC. rewrite (rd_nthZ _ 0) by lia. pose proof (proj1 I1) as Ln. rewrite wr_upd by lia.
      eexists; split; [reflexivity|]. cbn [fst snd]. rewrite rowl_last by lia. rewrite map_app. split; [|lia]. 
apply marked_push; auto.
cbn [fst]. lia.
    - rewrite E. cbn [fst snd] in I1, I2. clear E.
      match goal with |- context [for_ (zn Bptr i - bB) ?hi ?f ?s] => destruct (for_inv _ (fun k (st : list Z * Z) =>
        marked i (fst st) (rowA i ++ map fB (rowl (o0 O) (zn Bptr i - bB) k Bind Bval)) /\
        snd st = zlen (rowA i) + zlen (fresh (rowA i) (map fB (rowl (o0 O) (zn Bptr i - bB) k Bind Bval)))) (zn Bptr i - bB) hi f s) as ([nz' c'] & E & J1 & J2) end.
      + lia.
      + cbn. rewrite rowl_nil by lia. cbn. rewrite app_nil_r. split; auto. unfold rowA, crow. rewrite zlen_map, zlen_rowl by lia. unfold fresh, zlen; cbn; lia.
      + intros k [nz' c'] Hk (J1 & J2). cbn [fst snd] in J1, J2. pose proof (colB i k Hi Hk) as HC. rewrite (rd_nthZ _ 0) by lia. pose proof (proj1 J1) as Ln. rewrite (rd_nthZ _ 0) by lia.
        rewrite rowl_last by lia. rewrite map_app. set (PB := map fB (rowl (o0 O) (zn Bptr i - bB) k Bind Bval)) in *. cbn [map]. unfold fB. cbn [fst snd].
        set (cb := zn Bind k - bB + bA) in *. assert (NB := next_new i k Hi Hk). fold cb PB in NB.
        destruct (proj2 J1 cb ltac:(lia)) as (_ & K). rewrite memb_app, NB, orb_false_r in K.
        setoid_rewrite zlen_fresh_snoc. setoid_rewrite app_assoc. destruct (Z.eqb_spec (zn nz' cb) i) as [Eq|Ne]; cbn [negb].
        * assert (Mc : memb cb (rowA i) = true) by tauto. eexists; split; [reflexivity|]. cbn [fst snd]. rewrite Mc. split; [|lia].
          apply marked_same; auto. rewrite memb_app, Mc. reflexivity.
        * assert (Mc : memb cb (rowA i) = false) by (destruct (memb cb (rowA i)); tauto). rewrite wr_upd by lia. eexists; split; [reflexivity|]. cbn [fst snd]. rewrite Mc. split; [|lia].
          apply marked_push; auto. lia.
      + rewrite E. cbn [fst snd] in J1, J2. rewrite wr_upd by lia. exists nz'. split; [|eapply marked_old; eauto].
        rewrite J2. unfold rowC, sumrow. rewrite zlen_app, zlen_amend. reflexivity.
  Qed.

  Lemma fill_row_ok : forall (computed : bool) i nnz rec idx0 cptr ind val s, 0 <= i < M -> old i nnz -> zlen rec = N + 1 ->
    (if computed then zn cptr i - bA = s else idx0 = s) -> zlen cptr = M + 1 -> 0 <= s -> s + zlen (rowC i) <= zlen ind -> s + zlen (rowC i) <= zlen val ->
    exists nnz' rec' ind' val', fill_row O conjA computed bA bB Aptr Aind Aval alpha Bptr Bind Bval i ((nnz, rec, idx0), (cptr, ind, val))
        = Some ((nnz', rec', s + zlen (rowC i)), (if computed then cptr else upd cptr (i + 1) (s + zlen (rowC i) + bA), ind', val')) /\
      old (i + 1) nnz' /\ zlen rec' = N + 1 /\ zlen ind' = zlen ind /\ zlen val' = zlen val /\
      rowl (o0 O) s (s + zlen (rowC i)) ind' val' = rowC i /\
      (forall k, 0 <= k -> ~ (s <= k < s + zlen (rowC i)) -> zn ind' k = zn ind k /\ nthZ (o0 O) val' k = nthZ (o0 O) val k).
  Proof.
    intros computed i nnz rec idx0 cptr ind val s Hi Ho Lr Hs Lc Hs0 Li Lv.
    destruct (boundsA i Hi) as (P1 & P2 & P3 & P4). destruct (boundsB i Hi) as (Q1 & Q2 & Q3 & Q4).
    assert (LC : zlen (rowC i) = zlen (rowA i) + zlen (fresh (rowA i) (rowB i))) by (unfold rowC, sumrow; rewrite zlen_app, zlen_amend; reflexivity).
    assert (LRA : zlen (rowA i) = zn Aptr (i + 1) - zn Aptr i) by (unfold rowA, crow; rewrite zlen_map, zlen_rowl by lia; lia).
    pose proof (zlen_nonneg _ (fresh (rowA i) (rowB i))) as NF.
    unfold fill_row. rewrite !(rd_nthZ _ 0) by lia.
    assert (X : (if computed then Some (zn cptr i - bA) else Some idx0) = Some s) by (destruct computed; now rewrite Hs).
    rewrite X. clear X.
    match goal with |- context [for_ (zn Aptr i - bA) ?hi ?f ?s0] => destruct (for_inv _ (fun k (st : list Z * list Z * Z * list Z * list T) =>
      let '(nz, rc, ix, id, vl) := st in let PA := map fA (rowl (o0 O) (zn Aptr i - bA) k Aind Aval) in
      marked i nz PA /\ zlen rc = N + 1 /\ (forall c, 0 <= c <= N -> memb c PA = true -> zn rc c = s + lastpos c PA) /\
      ix = s + (k - (zn Aptr i - bA)) /\ zlen id = zlen ind /\ zlen vl = zlen val /\ rowl (o0 O) s ix id vl = PA /\
      (forall q, 0 <= q -> ~ (s <= q < ix) -> zn id q = zn ind q /\ nthZ (o0 O) vl q = nthZ (o0 O) val q)) (zn Aptr i - bA) hi f s0)
      as ([[[[nz rc] ix] id] vl] & E & I1 & I2 & I3 & I4 & I5 & I6 & I7 & I8) end.
    - lia.
    - cbv beta iota zeta. rewrite !rowl_nil by lia. cbn [map]. split; [now apply old_marked|]. split; auto. split; [intros; discriminate|]. split; [lia|]. auto.
    - intros k [[[[nz rc] ix] id] vl] Hk (I1 & I2 & I3 & I4 & I5 & I6 & I7 & I8). pose proof (colA i k Hi Hk) as HC. pose proof (proj1 I1) as Ln.
      rewrite (rd_nthZ _ 0) by lia. rewrite !wr_upd by lia. rewrite (rd_nthZ _ (o0 O)) by lia. rewrite wr_upd by lia.
      eexists; split; [reflexivity|]. cbv beta iota zeta. rewrite rowl_last by lia. rewrite map_app. cbn [map]. unfold fA at 2 4 6 8. cbn [fst snd].
      set (PA := map fA (rowl (o0 O) (zn Aptr i - bA) k Aind Aval)) in *.
      assert (LP : zlen PA = k - (zn Aptr i - bA)) by (unfold PA; rewrite zlen_map, zlen_rowl; lia).
      split; [apply marked_push; auto; lia|]. split; [now rewrite zlen_upd|]. split.
      { intros c Hc Mc. rewrite lastpos_snoc. rewrite nthZ_upd by lia. destruct (Z.eqb_spec c (zn Aind k)) as [->|Ne].
        - rewrite Z.eqb_refl. lia.
        - destruct (Z.eqb_spec (zn Aind k) c); [lia|]. apply I3; auto. rewrite memb_app in Mc. cbn in Mc. destruct (Z.eqb_spec (zn Aind k) c); [lia|]. now rewrite orb_false_r in Mc. }
      split; [lia|]. rewrite !zlen_upd. split; auto. split; auto. split.
      { rewrite rowl_push by lia. rewrite I7. reflexivity. }
      { intros q Hq Hn. rewrite !nthZ_upd by lia. destruct (Z.eqb_spec q ix); [lia|]. apply I8; lia. }
    - rewrite E. clear E. replace (map fA (rowl (o0 O) (zn Aptr i - bA) (zn Aptr (i + 1) - bA) Aind Aval)) with (rowA i) in * by reflexivity.
      match goal with |- context [for_ (zn Bptr i - bB) ?hi ?f ?s0] => destruct (for_inv _ (fun k (st : list Z * Z * list Z * list T) =>
        let '(nz, ix, id, vl) := st in let PB := map fB (rowl (o0 O) (zn Bptr i - bB) k Bind Bval) in
        marked i nz (rowA i ++ PB) /\
        ix = s + zlen (sumrow O (rowA i) PB) /\ zlen id = zlen ind /\ zlen vl = zlen val /\ rowl (o0 O) s ix id vl = sumrow O (rowA i) PB /\
        (forall q, 0 <= q -> ~ (s <= q < ix) -> zn id q = zn ind q /\ nthZ (o0 O) vl q = nthZ (o0 O) val q)) (zn Bptr i - bB) hi f s0)
        as ([[[nz' ix'] id'] vl'] & E & J1 & J4 & J5 & J6 & J7 & J8) end.
      + lia.
      + cbv beta iota zeta. rewrite (rowl_nil _ (zn Bptr i - bB)) by lia. cbn [map]. rewrite app_nil_r. unfold sumrow. rewrite (amend_nil O L). cbn [fresh filter]. rewrite app_nil_r.
        ands; auto. lia.
      + intros k [[[nz' ix'] id'] vl'] Hk (J1 & J4 & J5 & J6 & J7 & J8). pose proof (colB i k Hi Hk) as HC. pose proof (proj1 J1) as Ln.
        rewrite (rd_nthZ _ 0) by lia. rewrite (rd_nthZ _ 0) by lia. rewrite (rd_nthZ _ (o0 O)) by lia.
        rewrite rowl_last by lia. rewrite map_app. cbn [map]. set (PB := map fB (rowl (o0 O) (zn Bptr i - bB) k Bind Bval)) in *.
        unfold fB. cbn [fst snd]. set (c := zn Bind k - bB + bA) in *. set (v := nthZ (o0 O) Bval k) in *.
        assert (NB := next_new i k Hi Hk). fold c PB in NB. destruct (proj2 J1 c ltac:(lia)) as (_ & K). rewrite memb_app, NB, orb_false_r in K.
        assert (FR : zlen (fresh (rowA i) (rowB i)) = zlen (fresh (rowA i) (PB ++ [(c, v)])) + zlen (fresh (rowA i) (map fB (rowl (o0 O) (k + 1) (zn Bptr (i + 1) - bB) Bind Bval)))).
        { rewrite <- zlen_app, <- fresh_app. f_equal. f_equal. unfold rowB, crow. rewrite (rowl_app _ _ _ (k + 1)) by lia. rewrite map_app. f_equal.
          rewrite rowl_last by lia. rewrite map_app. reflexivity. }
        pose proof (zlen_nonneg _ (fresh (rowA i) (map fB (rowl (o0 O) (k + 1) (zn Bptr (i + 1) - bB) Bind Bval)))) as NR.
        pose proof (zlen_nonneg _ (fresh (rowA i) PB)) as NP.
        rewrite zlen_fresh_snoc in FR.
        assert (LS : zlen (sumrow O (rowA i) PB) = zlen (rowA i) + zlen (fresh (rowA i) PB)) by (unfold sumrow; rewrite zlen_app, zlen_amend; reflexivity).
        destruct (Z.eqb_spec (zn nz' c) i) as [Eq|Ne]; cbn [negb].
        * assert (Mc : memb c (rowA i) = true) by tauto. destruct (lastpos_range O c (rowA i) Mc) as (B1 & B2).
          rewrite (rd_nthZ _ 0) by lia. rewrite I3 by (auto; lia). rewrite (rd_nthZ _ (o0 O)) by lia. rewrite wr_upd by lia. eexists; split; [reflexivity|]. cbv beta iota zeta.
          assert (SR : sumrow O (rowA i) (PB ++ [(c, v)]) = upd (sumrow O (rowA i) PB) (lastpos c (rowA i)) (c, oadd O (nthZ (o0 O) vl' (s + lastpos c (rowA i))) v)).
          { assert (G : nthZ (0, o0 O) (amend O PB (rowA i)) (lastpos c (rowA i)) = (zn id' (s + lastpos c (rowA i)), nthZ (o0 O) vl' (s + lastpos c (rowA i)))).
            { rewrite <- (rowl_nth _ s ix' id' vl' _ (0, o0 O)) by lia. rewrite J7. unfold sumrow. rewrite nthZ_app1; auto. rewrite zlen_amend. lia. }
            unfold sumrow. rewrite (amend_hit O L) by auto. rewrite G. cbn [snd]. rewrite fresh_app. unfold fresh at 2. cbn [filter fst]. rewrite Mc. cbn [negb]. rewrite app_nil_r.
            unfold upd. assert (GL : (Z.to_nat (lastpos c (rowA i)) < length (amend O PB (rowA i)))%nat) by (pose proof (zlen_amend O PB (rowA i)); unfold zlen in *; lia).
            revert GL. generalize (amend O PB (rowA i)) (Z.to_nat (lastpos c (rowA i))). clear. induction l as [|a l IH]; intros [|n]; cbn; intros; try lia; auto. f_equal. apply IH. lia. }
          assert (CC : zn id' (s + lastpos c (rowA i)) = c).
          { assert (G : fst (nthZ (0, o0 O) (rowl (o0 O) s ix' id' vl') (lastpos c (rowA i))) = c).
            { rewrite J7. unfold sumrow. rewrite nthZ_app1 by (rewrite zlen_amend; lia). rewrite <- B2 at 2. pose proof (amend_cols O PB (rowA i)) as AC. clear - AC B1.
              unfold nthZ. rewrite <- !(map_nth fst). rewrite AC. reflexivity. }
            rewrite rowl_nth in G by lia. exact G. }
          split; [rewrite app_assoc; apply marked_same; auto; rewrite memb_app, Mc; reflexivity|].
          rewrite SR, zlen_upd. split; auto. split; auto. rewrite zlen_upd. split; auto. split.
          { rewrite rowl_set by lia. rewrite J7, CC. reflexivity. }
          { intros q Hq Hn. rewrite nthZ_upd by lia. destruct (Z.eqb_spec q (s + lastpos c (rowA i))); [lia|]. apply J8; lia. }
        * assert (Mc : memb c (rowA i) = false) by (destruct (memb c (rowA i)); tauto). rewrite Mc in FR.
          rewrite !wr_upd by lia. eexists; split; [reflexivity|]. cbv beta iota zeta.
          assert (SR : sumrow O (rowA i) (PB ++ [(c, v)]) = sumrow O (rowA i) PB ++ [(c, v)]).
          { unfold sumrow. rewrite (amend_other O L) by auto. rewrite fresh_app. unfold fresh at 2. cbn [filter fst]. rewrite Mc. cbn [negb]. now rewrite app_assoc. }
          split; [rewrite app_assoc; apply marked_push; auto; lia|]. rewrite SR, zlen_app, !zlen_upd. split; [cbn; lia|]. split; auto. split; auto. split.
          { rewrite rowl_push by lia. now rewrite J7. }
          { intros q Hq Hn. rewrite !nthZ_upd by lia. destruct (Z.eqb_spec q ix'); [lia|]. apply J8; lia. }
      + rewrite E. clear E. replace (map fB (rowl (o0 O) (zn Bptr i - bB) (zn Bptr (i + 1) - bB) Bind Bval)) with (rowB i) in * by reflexivity.
        fold (rowC i) in J4, J7. rewrite J4 in *. exists nz', rc, id', vl'. split.
        { destruct computed; auto. rewrite wr_upd by lia. reflexivity. }
        ands; auto. eapply marked_old; eauto.
  Qed.

  (** ** The whole computation *)
  Notation start := (offs rowC).
  Lemma offs_sum : forall R : Z -> list (Z * T), forall i, 0 <= i -> offs R (i + 1) = offs R i + zlen (R i).
  Proof. clear. intros. now apply offs_S. Qed.

  Lemma count_ok : forall imax te c0, threads_ok te -> zlen c0 = M + 1 ->
    exists cptr, zlen cptr = M + 1 /\ (forall i, 0 <= i <= M -> zn cptr i = bA + start i) /\
      count_nnz imax te M N bA bB Aptr Aind Bptr Bind c0 = Some (if imax <? bA + start M then (invalid_size, 0, cptr) else (success, start M, cptr)).
  Proof.
    intros imax te c0 (T1 & T2 & T3 & T4) Lc. pose proof (wf_m _ _ _ _ _ _ WA) as HM. pose proof (wf_n _ _ _ _ _ _ WA) as HN.
    unfold count_nnz. rewrite wr_upd by lia.
    destruct (team_ok (list Z) (list Z) M (zlen (te_count te)) (te_count te) (zrep (N + 1) (-1)) (count_row bA bB Aptr Aind Bptr Bind) (upd c0 0 bA)
      (fun c => zlen c = M + 1 /\ zn c 0 = bA) old (fun i c => zn c (i + 1) = zlen (rowC i))) as (c1 & E & (L1 & Z1) & D); auto.
    - destruct (te_count te); [congruence|]. rewrite zlen_cons. pose proof (zlen_nonneg _ l). lia.
    - rewrite zlen_upd. split; auto. rewrite nthZ_upd by lia. reflexivity.
    - intros i Hi. split; [apply zlen_zrep; lia|]. intros c Hc. rewrite nthZ_zrep by lia. lia.
    - intros i p s Hi (Ls & Zs) Ho. destruct (count_row_ok i p s Hi Ho Ls) as (nz & E & Ho'). exists nz. eexists. split; [exact E|].
      rewrite zlen_upd. split; [split; auto; rewrite nthZ_upd by lia; replace (0 =? i + 1) with false by lia; auto|]. split; auto. split.
      + rewrite nthZ_upd by lia. rewrite Z.eqb_refl. reflexivity.
      + intros i' Hi' Ne Hd. rewrite nthZ_upd by lia. replace (i' + 1 =? i + 1) with false by lia. auto.
    - rewrite E. clear E.
      match goal with |- context [for_ 1 (M + 1) ?f ?s] => destruct (for_inv _ (fun k (st : list Z * Z) => zlen (fst st) = M + 1 /\ snd st = bA + start (k - 1) /\
        (forall i, 0 <= i < k -> zn (fst st) i = bA + start i) /\ (forall i, k <= i <= M -> zn (fst st) i = zlen (rowC (i - 1)))) 1 (M + 1) f s) as ([c2 s2] & E & I1 & I2 & I3 & I4) end.
      + lia.
      + cbn [fst snd]. replace (1 - 1) with 0 by lia. split; auto. change (start 0) with 0. split; [lia|]. split.
        * intros i Hi. replace i with 0 by lia. change (start 0) with 0. lia.
        * intros i Hi. specialize (D (i - 1) ltac:(lia)). now replace (i - 1 + 1) with i in D by lia.
      + intros k [c2 s2] Hk (I1 & I2 & I3 & I4). cbn [fst snd] in *. rewrite (rd_nthZ _ 0) by lia. rewrite wr_upd by lia. eexists; split; [reflexivity|]. cbn [fst snd].
        assert (SS : s2 + zn c2 k = bA + start k).
        { rewrite I4, I2 by lia. pose proof (offs_sum rowC (k - 1) ltac:(lia)) as X. replace (k - 1 + 1) with k in X by lia. lia. }
        rewrite zlen_upd. split; auto. split; [rewrite SS; f_equal; f_equal; lia|]. split.
        * intros i Hi. rewrite nthZ_upd by lia. destruct (Z.eqb_spec i k) as [->|]; auto. apply I3. lia.
        * intros i Hi. rewrite nthZ_upd by lia. replace (i =? k) with false by lia. apply I4. lia.
      + rewrite E. clear E. cbn [fst snd] in *. replace (M + 1 - 1) with M in I2 by lia. rewrite I2. exists c2. split; auto. split; [intros; apply I3; lia|].
        destruct (imax <? bA + start M); [reflexivity|]. rewrite (rd_nthZ _ 0) by lia. rewrite I3 by lia. do 3 f_equal. lia.
  Qed.

  Lemma rowC_cols : forall i p, 0 <= i < M -> In p (rowC i) -> bA <= fst p < bA + N.
  Proof.
    intros i p Hi I. unfold rowC, sumrow in I. apply in_app_iff in I. destruct I as [I|I].
    - assert (I' : In (fst p) (map fst (rowA i))) by (rewrite <- (amend_cols O (rowB i)); now apply in_map). unfold rowA in I'. rewrite map_map in I'.
      apply in_map_iff in I'. destruct I' as (q & <- & I'). unfold crow, rowl in I'. apply in_map_iff in I'. destruct I' as (k & <- & I'). apply in_zrange in I'.
      cbn [fA fst]. apply (colA i); auto.
    - unfold fresh in I. apply filter_In in I. destruct I as (I & _). unfold rowB in I. apply in_map_iff in I. destruct I as (q & <- & I).
      unfold crow, rowl in I. apply in_map_iff in I. destruct I as (k & <- & I). apply in_zrange in I. cbn [fB fst]. pose proof (colB i k Hi I). lia.
  Qed.
  Lemma start_mono : forall i j, 0 <= i <= j -> 0 <= start i <= start j.
  Proof. intros. now apply offs_mono. Qed.

  Lemma fill_two_pass : forall te cptr ind val, threads_ok te -> zlen cptr = M + 1 -> (forall i, 0 <= i <= M -> zn cptr i = bA + start i) ->
    start M <= zlen ind -> start M <= zlen val ->
    exists ind' val', run_team M (te_req te) (te_fill te) (zrep (N + 1) (-1), zrep (N + 1) (-1), 0) (fill_row O conjA true bA bB Aptr Aind Aval alpha Bptr Bind Bval) (cptr, ind, val)
      = Some (cptr, ind', val') /\ built O M bA rowC cptr ind' val'.
  Proof.
    intros te cptr ind val (T1 & T2 & T3 & T4) Lc Hc Li Lv. pose proof (wf_m _ _ _ _ _ _ WA) as HM. pose proof (wf_n _ _ _ _ _ _ WA) as HN.
    destruct (team_ok _ _ M (te_req te) (te_fill te) (zrep (N + 1) (-1), zrep (N + 1) (-1), 0) (fill_row O conjA true bA bB Aptr Aind Aval alpha Bptr Bind Bval) (cptr, ind, val)
      (fun st => fst (fst st) = cptr /\ start M <= zlen (snd (fst st)) /\ start M <= zlen (snd st))
      (fun i p => old i (fst (fst p)) /\ zlen (snd (fst p)) = N + 1)
      (fun i st => rowl (o0 O) (start i) (start (i + 1)) (snd (fst st)) (snd st) = rowC i)) as ([[c1 i1] v1] & E & (I1 & I2 & I3) & D); auto.
    - lia.
    - intros i Hi. cbn [fst snd]. rewrite zlen_zrep by lia. split; auto. split; [apply zlen_zrep; lia|]. intros c Hc'. rewrite nthZ_zrep by lia. lia.
    - intros i [[nz rc] ix] [[c1 i1] v1] Hi (I1 & I2 & I3) (O1 & O2). cbn [fst snd] in *. subst c1. pose proof (start_mono 0 i). pose proof (start_mono (i + 1) M).
      pose proof (offs_sum rowC i ltac:(lia)) as SS.
      destruct (fill_row_ok true i nz rc ix cptr i1 v1 (start i) Hi O1 O2) as (nz' & rc' & i2 & v2 & E & K1 & K2 & K3 & K4 & K5 & K6); try lia.
      { rewrite Hc by lia. lia. }
      eexists; eexists. split; [exact E|]. cbn [fst snd]. rewrite SS. ands; auto; try lia.
      intros i' Hi' Ne D. cbn [fst snd] in D. rewrite <- D. apply rowl_ext. intros k Hk. pose proof (start_mono 0 i'). apply K6; [lia|].
      destruct (Z_lt_dec i' i).
      + pose proof (start_mono (i' + 1) i). lia.
      + pose proof (start_mono (i + 1) i'). lia.
    - cbn [fst snd] in *. subst c1. exists i1, v1. split; auto. unfold built. ands; auto.
  Qed.

  Lemma fill_one_pass : forall ptr0 ind val, zlen ptr0 = M + 1 -> zn ptr0 0 = bA -> start M <= zlen ind -> start M <= zlen val ->
    exists cptr ind' val', run_team M 1 [0] (zrep (N + 1) (-1), zrep (N + 1) (-1), 0) (fill_row O conjA false bA bB Aptr Aind Aval alpha Bptr Bind Bval) (ptr0, ind, val)
      = Some (cptr, ind', val') /\ built O M bA rowC cptr ind' val'.
  Proof.
    intros ptr0 ind val Lp P0 Li Lv. pose proof (wf_m _ _ _ _ _ _ WA) as HM. pose proof (wf_n _ _ _ _ _ _ WA) as HN. unfold run_team. cbn [foldM].
    replace (blo M 1 0) with 0 by (symmetry; apply blo_0; lia). replace (blo M 1 (0 + 1)) with M by (symmetry; apply (blo_nt M 1); lia).
    match goal with |- context [for_ 0 M ?f ?s] => destruct (for_inv _ (fun k (st : (list Z * list Z * Z) * (list Z * list Z * list T)) =>
      let '((nz, rc, ix), (cp, id, vl)) := st in old k nz /\ zlen rc = N + 1 /\ ix = start k /\ zlen cp = M + 1 /\ start M <= zlen id /\ start M <= zlen vl /\
      (forall i, 0 <= i <= k -> zn cp i = bA + start i) /\ (forall i, 0 <= i < k -> rowl (o0 O) (start i) (start (i + 1)) id vl = rowC i)) 0 M f s)
      as ([[[nz rc] ix] [[cp id] vl]] & E & I1 & I2 & I3 & I4 & I5 & I6 & I7 & I8) end.
    - lia.
    - cbv beta iota. rewrite zlen_zrep by lia. ands; auto; try lia.
      + split; [apply zlen_zrep; lia|]. intros c Hc. rewrite nthZ_zrep by lia. lia.
      + intros i Hi. replace i with 0 by lia. change (start 0) with 0. lia.
    - intros k [[[nz rc] ix] [[cp id] vl]] Hk (I1 & I2 & I3 & I4 & I5 & I6 & I7 & I8). pose proof (start_mono 0 k). pose proof (start_mono (k + 1) M).
      pose proof (offs_sum rowC k ltac:(lia)) as SS.
      destruct (fill_row_ok false k nz rc ix cp id vl (start k) Hk I1 I2) as (nz' & rc' & i2 & v2 & E & K1 & K2 & K3 & K4 & K5 & K6); try lia; auto.
      eexists. split; [exact E|]. cbv beta iota. rewrite zlen_upd, <- SS. ands; auto; try lia.
      + intros i Hi. rewrite nthZ_upd by lia. destruct (Z.eqb_spec i (k + 1)) as [->|]; [lia|]. apply I7. lia.
      + intros i Hi. destruct (Z.eq_dec i k) as [->|Ne]; [rewrite SS; auto|]. rewrite <- (I8 i) by lia. apply rowl_ext. intros q Hq.
        pose proof (start_mono 0 i). pose proof (start_mono (i + 1) k). apply K6; lia.
    - rewrite E. exists cp, id, vl. split; auto. unfold built. ands; auto.
  Qed.

  Lemma start_bound : start M <= nA + nB.
  Proof.
    pose proof (wf_m _ _ _ _ _ _ WA) as HM. destruct (wf_ptr _ _ _ _ _ _ WA) as (A0 & A1 & _). destruct (wf_ptr _ _ _ _ _ _ WB) as (B0 & B1 & _).
    assert (G : forall n : nat, Z.of_nat n <= M -> start (Z.of_nat n) <= (zn Aptr (Z.of_nat n) - bA) + (zn Bptr (Z.of_nat n) - bB)).
    { induction n as [|n IH]; intros Hn; [change (start (Z.of_nat 0)) with 0; change (Z.of_nat 0) with 0; lia|].
      replace (Z.of_nat (S n)) with (Z.of_nat n + 1) by lia. rewrite (offs_sum rowC) by lia. pose proof (IH ltac:(lia)).
      assert (X : zlen (rowC (Z.of_nat n)) <= (zn Aptr (Z.of_nat n + 1) - zn Aptr (Z.of_nat n)) + (zn Bptr (Z.of_nat n + 1) - zn Bptr (Z.of_nat n))); [|lia].
      pose proof (boundsA (Z.of_nat n) ltac:(lia)). pose proof (boundsB (Z.of_nat n) ltac:(lia)).
      unfold rowC, sumrow. rewrite zlen_app, zlen_amend. unfold rowA at 1, crow. rewrite zlen_map, zlen_rowl by lia.
      assert (Y : zlen (fresh (rowA (Z.of_nat n)) (rowB (Z.of_nat n))) <= zlen (rowB (Z.of_nat n))).
      { unfold fresh. generalize (rowB (Z.of_nat n)) as l. clear. induction l as [|a l IH]; [cbn; lia|]. cbn [filter]. destruct (negb _); rewrite !zlen_cons; lia. }
      unfold rowB at 2 in Y. unfold crow in Y. rewrite zlen_map, zlen_rowl in Y by lia. lia. }
    pose proof (G (Z.to_nat M) ltac:(lia)) as X. replace (Z.of_nat (Z.to_nat M)) with M in X by lia. lia.
  Qed.

  Definition result nnz ptr ind (val : list T) := mkCmat M N nnz gn bA ptr ind val None None false dg_non_unit None.

  Lemma add_ref_ok : forall fz ft imax te, (forall n, 0 <= n -> zlen (fz n) = n) -> (forall n, 0 <= n -> zlen (ft n : list T) = n) -> threads_ok te ->
    (add_csr_ref O fz ft imax te conjA M N bA bB nA nB Aptr Aind Aval alpha Bptr Bind Bval = Some (internal_error, None) /\ imax < bA + start M) \/
    exists ptr ind val, add_csr_ref O fz ft imax te conjA M N bA bB nA nB Aptr Aind Aval alpha Bptr Bind Bval = Some (success, Some (result (start M) ptr ind val)) /\
      built O M bA rowC ptr ind val.
  Proof.
    intros fz ft imax te Hz Ht Te. pose proof (wf_m _ _ _ _ _ _ WA) as HM. pose proof (wf_n _ _ _ _ _ _ WA) as HN. pose proof (start_mono 0 M ltac:(lia)) as SM. pose proof start_bound as SB.
    pose proof (wf_nnz _ _ _ _ _ _ WA). pose proof (wf_nnz _ _ _ _ _ _ WB).
    unfold add_csr_ref. destruct ((M =? 0) || (N =? 0) || ((nA =? 0) && (nB =? 0))) eqn:Eq.
    - right. assert (S0 : start M = 0).
      { assert (nA = 0 /\ nB = 0); [|lia]. split; destruct (Z.eq_dec nA 0), (Z.eq_dec nB 0); try lia; first [apply (wf_zero _ _ _ _ _ _ WA) | apply (wf_zero _ _ _ _ _ _ WB)]; lia. }
      destruct (fill_range_ok Z 0 0 (M + 1) bA (fz (M + 1)) ltac:(lia)) as (p & E & Lp & R); [rewrite Hz; lia|]. rewrite E. rewrite S0. exists p, (fz 0), (ft 0). split; [reflexivity|].
      unfold built. rewrite Lp, !Hz, !Ht by lia. ands; auto; try lia.
      + intros i Hi. rewrite R by lia. replace ((0 <=? i) && (i <? M + 1)) with true by lia. pose proof (start_mono 0 i). pose proof (start_mono i M). lia.
      + intros i Hi. pose proof (offs_sum rowC i ltac:(lia)). pose proof (start_mono 0 i). pose proof (start_mono i (i + 1)). pose proof (start_mono (i + 1) M).
        assert (X : zlen (rowC i) = 0) by lia. rewrite rowl_nil by lia. destruct (rowC i); auto. rewrite zlen_cons in X. pose proof (zlen_nonneg _ l). lia.
    - cbv zeta. destruct (negb (te_req te =? 1) || (imax <? nA + nB)) eqn:Ec.
      + destruct (count_ok imax te (fz (M + 1)) Te ltac:(apply Hz; lia)) as (cp & Lc & Hc & E). rewrite E. destruct (Z.ltb_spec imax (bA + start M)) as [Ov|Ok].
        * left. split; [reflexivity|lia].
        * right. destruct (fill_two_pass te cp (fz (start M)) (ft (start M)) Te Lc Hc) as (id & vl & E2 & B); [rewrite Hz; lia | rewrite Ht; lia |].
          rewrite E2. exists cp, id, vl. split; auto.
      + right. assert (T1 : te_req te = 1) by lia. destruct Te as (_ & T2 & _). rewrite T1 in T2. change (zrange 0 1) with [0] in T2. apply Permutation_sym, Permutation_length_1_inv in T2.
        replace (nA + nB =? 0) with false by lia. rewrite wr_upd by (rewrite Hz; lia). rewrite T1, T2.
        destruct (fill_one_pass (upd (fz (M + 1)) 0 bA) (fz (nA + nB)) (ft (nA + nB))) as (cp & id & vl & E2 & B).
        { rewrite zlen_upd. apply Hz. lia. } { pose proof (Hz (M + 1) ltac:(lia)); rewrite nthZ_upd by lia. reflexivity. } { rewrite Hz by lia. lia. } { rewrite Ht by lia. lia. }
        rewrite E2. pose proof B as (X1 & X2 & _). rewrite (rd_nthZ _ 0) by lia. rewrite X2 by lia. exists cp, id, vl. split; auto. do 3 f_equal. unfold result. f_equal. lia.
  Qed.

  Lemma rowC_mat : forall i j, 0 <= i < M -> colsum O (j + bA) (rowC i) =
    oadd O (omul O alpha (let a := csr_mat O bA Aptr Aind Aval i j in if conjA then ocj O a else a)) (csr_mat O bB Bptr Bind Bval i j).
  Proof.
    intros i j Hi. unfold rowC. rewrite (colsum_sumrow O L). f_equal.
    - rewrite (csr_mat_colsum O L M N nA) by auto. unfold rowA. unfold colsum. rewrite (suml_map O). cbv zeta.
      transitivity (suml O (fun p : Z * T => omul O alpha (if conjA then ocj O (if fst p =? j + bA then snd p else o0 O) else (if fst p =? j + bA then snd p else o0 O))) (crow (o0 O) bA Aptr Aind Aval i)).
      + apply (suml_ext O). intros p _. cbn [fA fst snd]. destruct (fst p =? j + bA); auto.
        pose proof (cj_0 O L) as C0. destruct conjA; rewrite ?C0; ring.
      + rewrite (suml_mul_l O L). f_equal. destruct conjA; auto. rewrite (suml_cj O L). reflexivity.
    - rewrite (csr_mat_colsum O L M N nB) by auto. unfold rowB. unfold colsum. rewrite (suml_map O). apply (suml_ext O). intros p _. cbn [fB fst snd].
      replace (fst p - bB + bA =? j + bA) with (fst p =? j + bB) by lia. reflexivity.
  Qed.
End R.

(** ** Handles *)
Lemma distinct_ents : forall T m n nnz b ptr ind (val : list T), csr_wf m n nnz b ptr ind -> zlen val = nnz -> rows_distinct m b ptr ind ->
  forall i j, 0 <= i < m -> (length (ents b ptr ind val i j) <= 1)%nat.
Proof.
  intros T m n nnz b ptr ind val W Lv Hd i j Hi. unfold ents.
  assert (G : forall l, NoDup l -> (forall k, In k l -> in_row ptr b i k) ->
     (length (flat_map (fun k => if (zn ind k =? j + b)%Z then olist (rd val k) else []) l) <= 1)%nat).
  { induction l as [|a l IH]; intros ND Hin; [cbn; lia|]. inversion ND; subst. cbn [flat_map]. rewrite app_length. destruct (zn ind a =? j + b) eqn:E.
    - replace (flat_map _ l) with (@nil T).
      + destruct (rd val a); cbn; lia.
      + symmetry. apply flat_map_nil. intros k Hk. destruct (zn ind k =? j + b) eqn:E2; [|reflexivity].
        assert (a <> k) by congruence. exfalso. apply (Hd i a k); auto; try lia; apply Hin; cbn; auto.
    - cbn. apply IH; auto. intros k Hk; apply Hin; cbn; auto. }
  apply G; [apply NoDup_zrange|]. intros k Hk. apply in_zrange in Hk. unfold in_row. lia.
Qed.
Lemma ents_distinct : forall T m n nnz b ptr ind (val : list T), csr_wf m n nnz b ptr ind -> zlen val = nnz ->
  (forall i j, 0 <= i < m -> 0 <= j < n -> (length (ents b ptr ind val i j) <= 1)%nat) -> rows_distinct m b ptr ind.
Proof.
  intros T m n nnz b ptr ind val W Lv H i k k' Hi K K' Ne E.
  pose proof (in_row_range _ _ _ _ (wf_ptr _ _ _ _ _ _ W) i k Hi K) as R. pose proof (in_row_range _ _ _ _ (wf_ptr _ _ _ _ _ _ W) i k' Hi K') as R'.
  pose proof (wf_ind _ _ _ _ _ _ W k R). specialize (H i (zn ind k - b) Hi ltac:(lia)).
  assert (X : (2 <= length (ents b ptr ind val i (zn ind k - b)))%nat); [|lia].
  destruct (Z_lt_dec k k').
  - apply (ExpandProof.ents_two _ _ _ _ _ _ _ k k'); auto; lia.
  - apply (ExpandProof.ents_two _ _ _ _ _ _ _ k' k); auto; lia.
Qed.

Section H.
  Context {T : Type} (O : ops T) (L : laws O).

  (** CSR arrays of [F], an [m] x [n] matrix. *)
  Definition arrays_of (m n nnz b : Z) (F : Z -> Z -> T) (a : list Z * list Z * list T) : Prop :=
    let '(p, i, v) := a in csr_wf m n nnz b p i /\ zlen v = nnz /\ forall r c, 0 <= r < m -> 0 <= c < n -> csr_mat O b p i v r c = F r c.

  Lemma transposed_ok : forall u : cmat T, arrays_ok u ->
    exists a, transposed O u = Some (success, a) /\ arrays_of (c_n u) (c_m u) (c_nnz u) (c_b u) (mT (csr_mat O (c_b u) (c_ptr u) (c_ind u) (c_val u))) a /\
      (rows_distinct (c_m u) (c_b u) (c_ptr u) (c_ind u) -> rows_distinct (c_n u) (c_b u) (fst (fst a)) (snd (fst a))).
  Proof.
    intros u (W & _ & Lv & Hb). unfold transposed.
    pose proof (wf_n _ _ _ _ _ _ W) as Wn. pose proof (wf_nnz _ _ _ _ _ _ W) as Wz.
    destruct (csr2csc_ok T (c_m u) (c_n u) (c_nnz u) (c_b u) (c_b u) (c_ptr u) (c_ind u) (c_val u) (zrep (c_n u + 1) 0) (zrep (c_nnz u) 0) (zrep (c_nnz u) (o0 O)))
      as (cp & ri & cv & E & W' & Lv' & _ & HE); auto; try (rewrite zlen_zrep; lia).
    rewrite E. exists (cp, ri, cv). split; [reflexivity|]. split.
    - split; auto. split; auto. intros r c Hr Hc. unfold mT, csr_mat. rewrite (HE c r) by lia. reflexivity.
    - intros HD. cbn [fst snd]. apply (ents_distinct T _ (c_m u) (c_nnz u) _ _ _ cv); auto. intros i j Hi Hj. rewrite (HE j i) by lia.
      apply (distinct_ents T (c_m u) (c_n u) (c_nnz u)); auto.
  Qed.

  (** The matrix op(A) up to conjugation. *)
  Definition shape (op : operation) (F : Z -> Z -> T) : Z -> Z -> T := match op with op_none => F | _ => mT F end.

  Lemma prep_A : forall op (A B : hnd T) a, holds A a -> conform op A B ->
    let tA := Bool.eqb (c_doid a =? gt) (match op with op_none => true | _ => false end) in
    (if tA then c_n a else c_m a) = H_m B /\ (if tA then c_m a else c_n a) = H_n B /\
    exists ar, (if tA then transposed O a else Some (success, (c_ptr a, c_ind a, c_val a))) = Some (success, ar) /\
      arrays_of (H_m B) (H_n B) (H_nnz A) (c_b a) (shape op (hnd_mat O a)) ar.
  Proof.
    intros op A B a ((Ha & Hn & _ & _ & Hd) & _) Hc. cbv zeta. pose proof (transposed_ok a Ha) as (ar & Et & At & _). destruct Ha as (W & _ & Lv & Hb). rewrite Hn.
    assert (D : (c_doid a =? gt) = true /\ c_m a = H_n A /\ c_n a = H_m A \/ (c_doid a =? gt) = false /\ c_m a = H_m A /\ c_n a = H_n A)
      by (destruct Hd as [(-> & ? & ?)|(-> & ? & ?)]; [right|left]; auto).
    unfold hnd_mat, stored_as. destruct D as [(-> & D1 & D2)|(-> & D1 & D2)]; destruct op; cbn [Bool.eqb conform shape] in *; destruct Hc as (C1 & C2);
      (split; [lia|]; split; [lia|]);
      match goal with
      | |- context [transposed O a] => exists ar; split; [exact Et|]; replace (H_m B) with (c_n a) by lia; replace (H_n B) with (c_m a) by lia; exact At
      | _ => eexists; split; [reflexivity|]; replace (H_m B) with (c_m a) by lia; replace (H_n B) with (c_n a) by lia; split; auto; split; auto
      end.
  Qed.
  Lemma prep_B : forall (B : hnd T) b, holds B b -> rows_distinct (c_m b) (c_b b) (c_ptr b) (c_ind b) ->
    exists ar, (if c_doid b =? gt then transposed O b else Some (success, (c_ptr b, c_ind b, c_val b))) = Some (success, ar) /\
      arrays_of (H_m B) (H_n B) (H_nnz B) (c_b b) (hnd_mat O b) ar /\ rows_distinct (H_m B) (c_b b) (fst (fst ar)) (snd (fst ar)).
  Proof.
    intros B b ((Ha & Hn & _ & _ & Hd) & _) HD. pose proof (transposed_ok b Ha) as (ar & Et & At & Dt). destruct Ha as (W & _ & Lv & Hb). rewrite Hn.
    unfold hnd_mat, stored_as. destruct Hd as [(E & D1 & D2)|(E & D1 & D2)]; rewrite E.
    - change (gn =? gt) with false. cbv iota. eexists; split; [reflexivity|]. cbn [fst snd]. rewrite <- D1, <- D2. split; auto. split; auto.
    - change (gt =? gt) with true. cbv iota. exists ar. split; auto. rewrite <- D1, <- D2. auto.
  Qed.

  Definition answer (op : operation) (alpha : T) (a b : cmat T) (i j : Z) : T :=
    oadd O (omul O alpha (op_sem O op (hnd_mat O a) i j)) (hnd_mat O b i j).

  Lemma add_rows : forall op (A B : hnd T) a b alpha, holds A a -> holds B b -> conform op A B -> valid_op op = true ->
    rows_distinct (c_m b) (c_b b) (c_ptr b) (c_ind b) ->
    exists R, 0 <= H_m B /\ 0 <= H_n B /\ (forall i p, 0 <= i < H_m B -> In p (R i) -> c_b a <= fst p < c_b a + H_n B) /\
      (forall i j, 0 <= i < H_m B -> 0 <= j < H_n B -> colsum O (j + c_b a) (R i) = answer op alpha a b i j) /\
      offs R (H_m B) <= H_nnz A + H_nnz B /\
      forall fz ft imax te, (forall n, 0 <= n -> zlen (fz n) = n) -> (forall n, 0 <= n -> zlen (ft n : list T) = n) -> threads_ok te ->
        add_t O fz ft imax te op (Some A) alpha (Some B) false = Some (internal_error, None) /\ imax < c_b a + offs R (H_m B) \/
        exists ptr ind val, built O (H_m B) (c_b a) R ptr ind val /\
          add_t O fz ft imax te op (Some A) alpha (Some B) false = Some (success, Some (mkHnd (H_m B) (H_n B) (offs R (H_m B))
            [Some (result (H_m B) (H_n B) (c_b a) (offs R (H_m B)) ptr ind val)] unknown_sort false false false [])).
  Proof.
    intros op A B a b alpha HA HB Hc Ho HD. destruct (prep_A op A B a HA Hc) as (EM & EN & [[ap ai] av] & EA & WA & LA & FA).
    destruct (prep_B B b HB HD) as ([[bp bi] bv] & EB & (WB & LB & FB) & DB). cbn [fst snd] in DB.
    pose proof (wf_m _ _ _ _ _ _ WA) as HM. pose proof (wf_n _ _ _ _ _ _ WA) as HN.
    assert (Hb : c_b a = 0 \/ c_b a = 1) by (destruct HA as ((Ha & _) & _); apply Ha).
    set (cj := match op with op_conjugate_transpose => true | _ => false end).
    exists (rowC O cj (c_b a) (c_b b) ap ai av alpha bp bi bv). split; auto. split; auto. split; [|split; [|split]].
    - intros i p Hi. eapply rowC_cols; eauto.
    - intros i j Hi Hj. rewrite (rowC_mat O L cj (H_m B) (H_n B) _ _ (H_nnz A) (H_nnz B)) by auto. unfold answer. rewrite FB by lia. f_equal. f_equal. cbv zeta. rewrite FA by lia.
      destruct op; try discriminate; reflexivity.
    - eapply start_bound; eauto.
    - intros fz ft imax te Hz Ht Te.
      destruct (add_ref_ok O L cj (H_m B) (H_n B) (c_b a) (c_b b) (H_nnz A) (H_nnz B) ap ai av alpha bp bi bv WA WB LA LB Hb DB fz ft imax te Hz Ht Te) as [(E & Ov)|(ptr & ind & val & E & Bt)].
      all: assert (DA : negb (c_doid a =? gn) && negb (c_doid a =? gt) = false) by (destruct HA as ((_ & _ & _ & _ & [(-> & _)|(-> & _)]) & _); reflexivity).
      all: assert (DB' : negb (c_doid b =? gn) && negb (c_doid b =? gt) = false) by (destruct HB as ((_ & _ & _ & _ & [(-> & _)|(-> & _)]) & _); reflexivity).
      all: destruct HA as (_ & ra & MA); destruct HB as (_ & rb & MB).
      all: unfold add_t; rewrite MA, MB; cbv zeta.
      all: replace (if match op with op_none => true | _ => false end then negb (H_m A =? H_m B) || negb (H_n A =? H_n B) else negb (H_m A =? H_n B) || negb (H_n A =? H_m B)) with false
        by (destruct op; cbn [conform] in Hc; lia).
      all: rewrite DA, DB'; rewrite EM, EN, EA, EB; fold cj; rewrite E.
      + left. auto.
      + right. exists ptr, ind, val. split; auto.
  Qed.

  Lemma add_ok : forall fz ft imax te op (A B : hnd T) a b alpha,
    (forall n, 0 <= n -> zlen (fz n) = n) -> (forall n, 0 <= n -> zlen (ft n : list T) = n) -> threads_ok te ->
    holds A a -> holds B b -> conform op A B -> valid_op op = true -> rows_distinct (c_m b) (c_b b) (c_ptr b) (c_ind b) ->
    (exists C c, add_t O fz ft imax te op (Some A) alpha (Some B) false = Some (success, Some C) /\
       csr_result O (H_m B) (H_n B) (c_b a) (fun i j => oadd O (omul O alpha (op_sem O op (hnd_mat O a) i j)) (hnd_mat O b i j)) C c) \/
    add_t O fz ft imax te op (Some A) alpha (Some B) false = Some (internal_error, None) /\ imax < c_b a + H_nnz A + H_nnz B.
  Proof.
    intros fz ft imax te op A B a b alpha Hz Ht Te HA HB Hc Ho HD.
    destruct (add_rows op A B a b alpha HA HB Hc Ho HD) as (R & HM & HN & RC & RM & RB & H). destruct (H fz ft imax te Hz Ht Te) as [(E & Ov)|(ptr & ind & val & Bt & E)].
    - right. split; auto. lia.
    - left. eexists; eexists. split; [exact E|]. destruct (built_wf O _ _ _ R HM ptr ind val Bt HN RC) as (W & Lv). pose proof Bt as (_ & _ & B3 & B4 & _). constructor; try reflexivity; auto.
      intros i j Hi Hj. transitivity (colsum O (j + c_b a) (R i)); [|now apply RM]. apply (built_mat O L _ (H_n B) _ R HM); auto.
  Qed.

  Lemma add_same : forall fz ft fz' ft' imax te te' op (A B : hnd T) a b alpha C C',
    (forall n, 0 <= n -> zlen (fz n) = n) -> (forall n, 0 <= n -> zlen (ft n : list T) = n) -> threads_ok te ->
    (forall n, 0 <= n -> zlen (fz' n) = n) -> (forall n, 0 <= n -> zlen (ft' n : list T) = n) -> threads_ok te' ->
    holds A a -> holds B b -> conform op A B -> valid_op op = true -> rows_distinct (c_m b) (c_b b) (c_ptr b) (c_ind b) ->
    add_t O fz ft imax te op (Some A) alpha (Some B) false = Some (success, Some C) ->
    add_t O fz' ft' imax te' op (Some A) alpha (Some B) false = Some (success, Some C') ->
    exists c c', H_mats C = [Some c] /\ H_mats C' = [Some c'] /\ H_nnz C' = H_nnz C /\ c_ptr c' = c_ptr c /\
      prefix (H_nnz C) (c_ind c') = prefix (H_nnz C) (c_ind c) /\ prefix (H_nnz C) (c_val c') = prefix (H_nnz C) (c_val c).
  Proof.
    intros fz ft fz' ft' imax te te' op A B a b alpha C C' Hz Ht Te Hz' Ht' Te' HA HB Hc Ho HD EC EC'.
    destruct (add_rows op A B a b alpha HA HB Hc Ho HD) as (R & HM & HN & RC & RM & RB & H).
    destruct (H fz ft imax te Hz Ht Te) as [(E & Ov)|(ptr & ind & val & Bt & E)]; [congruence|].
    destruct (H fz' ft' imax te' Hz' Ht' Te') as [(E' & Ov)|(ptr' & ind' & val' & Bt' & E')]; [congruence|].
    rewrite E in EC. rewrite E' in EC'. injection EC as <-. injection EC' as <-. eexists; eexists. split; [reflexivity|]. split; [reflexivity|]. cbn.
    destruct (built_unique T O _ _ R _ _ _ _ _ _ HM Bt Bt') as (-> & X & Y). auto.
  Qed.
End H.
