(** The sparse product A^T * B with A transposed on the fly: what the kernel shared by the
    symmetric products builds. *)
From Coq Require Import ZArith List Bool Lia ZifyBool Permutation Ring.
From Verif Require Import Base BaseFacts Algebra Csr CsrFacts CheckModel SortSpec MvModel MvFacts MvProof RowProg WinFacts Csr2mProof OftModel OftProof SyrkdProof SyrkModel.
Import ListNotations.
Open Scope Z_scope.

(** Visits of the columns of a matrix: every stored element of column i once. *)
Definition visits (m k b : Z) (ptr ind : list Z) (V : Z -> list (Z * Z)) : Prop :=
  forall i, 0 <= i < k -> NoDup (V i) /\ forall r q, In (r, q) (V i) <-> 0 <= r < m /\ in_row ptr b r q /\ zn ind q - b = i.

Section A.
  Context {T : Type} (O : ops T) (L : laws O).
  Local Notation z := (o0 O).
  Local Notation tn := (nthZ (o0 O)).
  Local Infix "+!" := (oadd O) (at level 50, left associativity).
  Local Infix "*!" := (omul O) (at level 40, left associativity).
  Add Ring Tring5 : (l_ring L).
  Variables (only_u conjA conjB : bool) (m k n : Z) (vA : list T) (bB nB : Z) (pB iB : list Z) (vB : list T).
  Hypothesis (Hkk : 0 <= k) (WB : csr_wf m n nB bB pB iB) (LB : zlen vB = nB).
  (** Visits (row of B, position of the coefficient) that exist. *)
  Definition vok (V : Z -> list (Z * Z)) : Prop := forall i r q, 0 <= i < k -> In (r, q) (V i) -> 0 <= r < m /\ 0 <= q < zlen vA.

  Definition keep (i j : Z) : bool := negb (only_u && (j <? i)).
  (** The products of element [q] of A with row [r] of B, in row [i] of the result. *)
  Definition terms (i r q : Z) : list (Z * T) :=
    flat_map (fun k => if keep i (zn iB k - bB) then [(zn iB k - bB, cj_if O conjA (tn vA q) *! cj_if O conjB (tn vB k))] else []) (zrange (zn pB r - bB) (zn pB (r + 1) - bB)).
  Definition contribs (V : Z -> list (Z * Z)) (i : Z) : list (Z * T) := flat_map (fun rk => terms i (fst rk) (snd rk)) (V i).
  Definition arow (b : Z) (V : Z -> list (Z * Z)) (i : Z) : list (Z * T) := map (fun c => (c + b, colsum O c (contribs V i))) (firsts (map fst (contribs V i))).

  (** Row [i] starts at [s]; the products [l] have been added so far. *)
  Definition Ir (i s : Z) (jc0 : list Z) (l : list (Z * T)) (st : list Z * list T * list Z * Z) : Prop :=
    let '(nz, val, jc, tot) := st in
    mk_ok n i nz (map fst l) /\ zlen val = n /\ (forall c, In c (map fst l) -> tn val c = colsum O c l) /\
    zlen jc = zlen jc0 /\ tot = s + zlen (firsts (map fst l)) /\ map (zn jc) (zrange s tot) = firsts (map fst l) /\
    (forall q, 0 <= q -> ~ (s <= q < tot) -> zn jc q = zn jc0 q) /\ (forall c, In c (map fst l) -> 0 <= c < n).

  Lemma terms_cols : forall i r q c, 0 <= r < m -> In c (map fst (terms i r q)) -> 0 <= c < n /\ keep i c = true.
  Proof.
    intros i r q c Hr H. apply in_map_iff in H. destruct H as (p & <- & H). unfold terms in H. apply in_flat_map in H. destruct H as (x & Hx & H). apply in_zrange in Hx.
    destruct (row_bounds _ _ _ _ _ _ r WB Hr) as (_ & _ & B1 & B2 & B3). pose proof (wf_ind _ _ _ _ _ _ WB x ltac:(lia)).
    destruct (keep i (zn iB x - bB)) eqn:E; [|destruct H]. destruct H as [ <- |[]]. cbn [fst]. split; [lia|exact E].
  Qed.

  Lemma add_sprow_ok : forall i s jc0 r q l st, 0 <= s -> 0 <= r < m -> Ir i s jc0 l st ->
    s + zlen (firsts (map fst (l ++ terms i r q))) <= zlen jc0 ->
    exists st', add_sprow O only_u conjB i (cj_if O conjA (tn vA q)) (zn pB r - bB) (zn pB (r + 1) - bB) iB vB bB st = Some st' /\ Ir i s jc0 (l ++ terms i r q) st'.
  Proof.
    intros i s jc0 r q l st Hs Hr HI Room. destruct (row_bounds _ _ _ _ _ _ r WB Hr) as (_ & Li & B1 & B2 & B3). unfold add_sprow.
    set (tm := fun e => flat_map (fun k => if keep i (zn iB k - bB) then [(zn iB k - bB, cj_if O conjA (tn vA q) *! cj_if O conjB (tn vB k))] else []) (zrange (zn pB r - bB) e)).
    assert (TM : forall e, zn pB r - bB <= e -> tm (e + 1) = tm e ++ (if keep i (zn iB e - bB) then [(zn iB e - bB, cj_if O conjA (tn vA q) *! cj_if O conjB (tn vB e))] else [])).
    { intros e He. unfold tm. rewrite zrange_last by lia. rewrite flat_map_app. cbn [flat_map]. rewrite app_nil_r. reflexivity. }
    assert (TR : forall e, zn pB r - bB <= e <= zn pB (r + 1) - bB -> exists rest, terms i r q = tm e ++ rest).
    { intros e He. unfold terms, tm. rewrite (zrange_app (zn pB r - bB) e) by lia. rewrite flat_map_app. eexists. reflexivity. }
    match goal with |- context [for_ ?lo ?hi ?f st] => destruct (for_inv _ (fun e st => Ir i s jc0 (l ++ tm e) st) lo hi f st ltac:(lia)) as (st' & E & R) end.
    - unfold tm. rewrite zrange_nil by lia. cbn [flat_map]. rewrite app_nil_r. exact HI.
    - intros e (((nz, val), jc), tot) He (K1 & K2 & K3 & K4 & K5 & K6 & K7 & K8). pose proof (wf_ind _ _ _ _ _ _ WB e ltac:(lia)) as Hc. destruct (wf_len _ _ _ _ _ _ WB) as (_ & LiB).
      rewrite (rd_nthZ _ 0 iB) by lia. rewrite TM by lia. unfold keep. destruct (only_u && (zn iB e - bB <? i)) eqn:EK; cbn [negb].
      { eexists. split; [reflexivity|]. rewrite app_nil_r. unfold Ir. ands; auto. }
      rewrite (rd_nthZ _ z vB) by lia. pose proof (proj1 K1) as Ln. rewrite (rd_nthZ _ 0 nz) by lia.
      change (if conjB then ocj O (tn vB e) else tn vB e) with (cj_if O conjB (tn vB e)). set (c := zn iB e - bB) in *. set (p := cj_if O conjA (tn vA q) *! cj_if O conjB (tn vB e)). fold p.
      rewrite app_assoc. set (l1 := l ++ tm e) in *. destruct (proj2 K1 c ltac:(lia)) as (_ & KI).
      assert (RM : s + zlen (firsts (map fst (l1 ++ [(c, p)]))) <= zlen jc0).
      { destruct (TR (e + 1) ltac:(lia)) as (rest & ER). rewrite ER, TM in Room by lia. unfold keep in Room. fold c in Room. rewrite EK in Room. cbn [negb] in Room. fold p in Room. rewrite !app_assoc in Room. fold l1 in Room.
        rewrite map_app in Room. pose proof (firsts_mono (map fst rest) (map fst (l1 ++ [(c, p)]))). lia. }
      assert (C8 : forall x, In x (map fst (l1 ++ [(c, p)])) -> 0 <= x < n).
      { intros x Hx. rewrite map_app in Hx. apply in_app_iff in Hx. destruct Hx as [Hx|[ <- |[]]]; [apply K8; auto|cbn [fst]; lia]. }
      rewrite map_app in RM. cbn [map fst] in RM. rewrite firsts_snoc in RM.
      destruct (Z.eqb_spec (zn nz c) i) as [Eq|Ne]; cbn [negb].
      + assert (IN : In c (map fst l1)) by tauto. assert (IB : inb c (map fst l1) = true) by now apply inb_iff. rewrite (rd_nthZ _ z val) by lia. rewrite wr_upd by lia. eexists. split; [reflexivity|].
        unfold Ir. ands.
        * rewrite map_app. cbn [map fst]. now apply mk_same.
        * rewrite zlen_upd. exact K2.
        * intros x Hx. pose proof (C8 x Hx). rewrite (colsum_app O L). rewrite nthZ_upd by lia. rewrite map_app in Hx. apply in_app_iff in Hx. cbn in Hx. cbn.
          destruct (Z.eqb_spec x c) as [->|]; [rewrite K3, Z.eqb_refl by auto; ring|]. destruct (Z.eqb_spec c x); [lia|]. rewrite K3 by (destruct Hx as [?|[?|[]]]; auto; lia). ring.
        * exact K4.
        * rewrite map_app. cbn [map fst]. rewrite firsts_snoc, IB. exact K5.
        * rewrite map_app. cbn [map fst]. rewrite firsts_snoc, IB. exact K6.
        * exact K7.
        * exact C8.
      + assert (IB : inb c (map fst l1) = false) by (destruct (inb c (map fst l1)) eqn:Q; auto; apply inb_iff in Q; tauto). rewrite IB in RM. rewrite zlen_app in RM. change (zlen [c]) with 1 in RM.
        pose proof (zlen_nonneg _ (firsts (map fst l1))) as NN. rewrite !wr_upd by lia. eexists. split; [reflexivity|]. unfold Ir. ands.
        * rewrite map_app. cbn [map fst]. apply mk_push; auto. lia.
        * rewrite zlen_upd. exact K2.
        * intros x Hx. pose proof (C8 x Hx). rewrite (colsum_app O L). rewrite nthZ_upd by lia. rewrite map_app in Hx. apply in_app_iff in Hx. cbn in Hx. cbn.
          destruct (Z.eqb_spec x c) as [->|].
          -- rewrite Z.eqb_refl. rewrite (colsum_out O L); [ring|]. intros y Hy Ec. assert (ICc : In c (map fst l1)) by (rewrite <- Ec; now apply in_map). apply inb_iff in ICc. congruence.
          -- destruct (Z.eqb_spec c x); [lia|]. rewrite K3 by (destruct Hx as [?|[?|[]]]; auto; lia). ring.
        * rewrite zlen_upd. exact K4.
        * rewrite map_app. cbn [map fst]. rewrite firsts_snoc, IB. rewrite zlen_app. change (zlen [c]) with 1. lia.
        * rewrite map_app. cbn [map fst]. rewrite firsts_snoc, IB. rewrite zrange_last by lia. rewrite map_app. cbn [map]. rewrite nthZ_upd by lia. rewrite Z.eqb_refl. f_equal. rewrite <- K6. apply map_ext_in. intros y Hy. apply in_zrange in Hy.
          rewrite nthZ_upd by lia. destruct (Z.eqb_spec y tot); [lia|reflexivity].
        * intros y Hy Hn. rewrite nthZ_upd by lia. destruct (Z.eqb_spec y tot); [lia|]. apply K7; lia.
        * exact C8.
    - exists st'. split; [exact E|]. exact R.
  Qed.

  Lemma contribs_cols : forall V i c, vok V -> 0 <= i < k -> In c (map fst (contribs V i)) -> 0 <= c < n /\ keep i c = true.
  Proof.
    intros V i c HV Hi H. unfold contribs in H. rewrite map_flat_map in H. apply in_flat_map in H. destruct H as ((r, q) & H1 & H2). cbn [fst snd] in H2. apply (HV i r q Hi) in H1. apply (terms_cols i r q); auto. lia.
  Qed.

  (** All the products of one row. *)
  Definition rbody (i r q : Z) (st : (list Z * list T * list Z * Z) * (list Z * list T)) : option ((list Z * list T * list Z * Z) * (list Z * list T)) :=
    let '(st, out) := st in
    let* v := rd vA q in
    let* s := rd pB r in
    let* e := rd pB (r + 1) in
    let* st := add_sprow O only_u conjB i (if conjA then ocj O v else v) (s - bB) (e - bB) iB vB bB st in
    Some (st, out).
  Lemma row_products : forall V i s nz val jc out, vok V -> 0 <= i < k -> 0 <= s -> mk_old n i nz -> zlen val = n ->
    s + zlen (arow 0 V i) <= zlen jc ->
    exists st, foldM (fun rk st => rbody i (fst rk) (snd rk) st) (V i) ((nz, val, jc, s), out) = Some (st, out) /\ Ir i s jc (contribs V i) st.
  Proof.
    intros V i s nz val jc out HV Hi Hs Ho Lv Room. unfold arow in Room. rewrite zlen_map in Room.
    destruct (foldM_inv _ _ (fun rk st => rbody i (fst rk) (snd rk) st) (fun pre st => Ir i s jc (flat_map (fun rk => terms i (fst rk) (snd rk)) pre) (fst st) /\ snd st = out) (V i) ((nz, val, jc, s), out)) as ((st, o) & E & R & Eo).
    - cbn [fst snd flat_map]. split; [|reflexivity]. unfold Ir. cbn [map]. change (firsts []) with (@nil Z). change (zlen (@nil Z)) with 0. rewrite Z.add_0_r. ands; auto.
      + now apply mk_start.
      + intros c [].
      + rewrite zrange_nil by lia. reflexivity.
      + intros c [].
    - intros pre (r, q) post (st, o) E (HI & Eo). cbn [fst snd] in *. subst o. assert (IN : In (r, q) (V i)) by (rewrite E; apply in_elt). apply (HV i r q Hi) in IN. destruct IN as (Hr & Hq).
      destruct (row_bounds _ _ _ _ _ _ r WB Hr) as (LpB & _ & B1 & B2 & B3).
      unfold rbody. rewrite (rd_nthZ _ z vA) by lia. rewrite !(rd_nthZ _ 0) by lia. change (if conjA then ocj O (tn vA q) else tn vA q) with (cj_if O conjA (tn vA q)).
      destruct (add_sprow_ok i s jc r q _ st Hs Hr HI) as (st' & E2 & R2).
      { unfold contribs in Room. rewrite E in Room. rewrite flat_map_app in Room. cbn [flat_map fst snd] in Room. rewrite app_assoc in Room. rewrite map_app in Room.
        match type of Room with context [map fst ?x ++ map fst ?y] => pose proof (firsts_mono (map fst y) (map fst x)) end. lia. }
      rewrite E2. exists (st', out). split; [reflexivity|]. split; [|reflexivity]. rewrite flat_map_app. cbn [flat_map fst snd]. rewrite app_nil_r. exact R2.
    - exists st. cbn [fst snd] in *. subst o. split; [exact E|exact R].
  Qed.

  Lemma copy_out_ok : forall V i s jc0 nz val jc tot ic vc, vok V -> 0 <= i < k -> 0 <= s -> Ir i s jc0 (contribs V i) (nz, val, jc, tot) ->
    zlen ic = k + 1 -> zn ic i = s -> s + zlen (arow 0 V i) <= zlen jc0 -> s + zlen (arow 0 V i) <= zlen vc ->
    exists val' vc', copy_out O i (nz, val, jc, tot, (ic, vc)) = Some (nz, val', jc, tot, (upd ic (i + 1) tot, vc')) /\ tot = s + zlen (arow 0 V i) /\
      zlen val' = n /\ zlen vc' = zlen vc /\ rowl z s tot jc vc' = arow 0 V i /\ (forall q, 0 <= q -> ~ (s <= q < tot) -> tn vc' q = tn vc q).
  Proof.
    intros V i s jc0 nz val jc tot ic vc HV Hi Hs (K1 & K2 & K3 & K4 & K5 & K6 & K7 & K8) Lc Ei R1 R2.
    assert (LR : zlen (arow 0 V i) = zlen (firsts (map fst (contribs V i)))) by (unfold arow; apply zlen_map). pose proof (zlen_nonneg _ (firsts (map fst (contribs V i)))) as NN.
    unfold copy_out. rewrite wr_upd by lia. rewrite (rd_nthZ _ 0) by (rewrite zlen_upd; lia). rewrite nthZ_upd by lia. replace (i =? i + 1) with false by lia. rewrite Ei.
    match goal with |- context [for_ s tot ?f ?s0] => destruct (for_inv _ (fun q (st : list T * list T) => zlen (fst st) = n /\ zlen (snd st) = zlen vc /\
      (forall p, q <= p < tot -> tn (fst st) (zn jc p) = tn val (zn jc p)) /\ (forall p, s <= p < q -> tn (snd st) p = tn val (zn jc p)) /\
      (forall p, 0 <= p -> ~ (s <= p < tot) -> tn (snd st) p = tn vc p)) s tot f s0) as ((val', vc') & E & J1 & J2 & J3 & J4 & J5) end.
    - lia.
    - cbn [fst snd]. ands; auto. intros; lia.
    - intros q (v1, c1) Hq (J1 & J2 & J3 & J4 & J5). cbn [fst snd] in *.
      assert (IN : forall p, s <= p < tot -> In (zn jc p) (map fst (contribs V i))) by (intros p Hp; apply firsts_in; rewrite <- K6; apply in_map; now apply in_zrange).
      pose proof (K8 _ (IN q Hq)) as HC. rewrite (rd_nthZ _ 0 jc) by lia. rewrite (rd_nthZ _ z v1) by lia. rewrite !wr_upd by lia. eexists. split; [reflexivity|]. cbn [fst snd]. rewrite !zlen_upd. ands; auto.
      + intros p Hp. pose proof (K8 _ (IN p ltac:(lia))). rewrite nthZ_upd by lia. destruct (Z.eqb_spec (zn jc p) (zn jc q)) as [Ep|]; [|apply J3; lia]. exfalso.
        assert (NDF : NoDup (map (zn jc) (zrange s tot))) by (rewrite K6; apply firsts_nodup).
        assert (p = q); [|lia]. apply (NoDup_map_eq _ _ (zn jc) (zrange s tot)); auto; apply in_zrange; lia.
      + intros p Hp. rewrite nthZ_upd by lia. destruct (Z.eqb_spec p q) as [->|]; [apply J3; lia|apply J4; lia].
      + intros p Hp Hn. rewrite nthZ_upd by lia. destruct (Z.eqb_spec p q); [lia|]. apply J5; auto.
    - rewrite E. cbn [fst snd] in *. exists val', vc'. split; [reflexivity|]. split; [lia|]. split; [exact J1|]. split; [exact J2|]. split; [|exact J5].
      unfold rowl, arow. rewrite <- K6. rewrite map_map. apply map_ext_in. intros p Hp. apply in_zrange in Hp. rewrite J4 by lia.
      rewrite K3 by (apply firsts_in; rewrite <- K6; apply in_map; now apply in_zrange). rewrite Z.add_0_r. reflexivity.
  Qed.

  Lemma offs_base : forall b V i, offs (arow b V) i = offs (arow 0 V) i.
  Proof. intros b V i. unfold offs. apply (sumz_ext Zops). intros q _. unfold arow. rewrite !zlen_map. reflexivity. Qed.
  Lemma arow_base : forall b V i, arow b V i = map (fun p => (fst p + b, snd p)) (arow 0 V i).
  Proof. intros b V i. unfold arow. rewrite map_map. apply map_ext. intros c. cbn [fst snd]. f_equal. lia. Qed.

  (** The output arrays after [i] rows. *)
  Definition outs (V : Z -> list (Z * Z)) (cj cv i : Z) (jc ic : list Z) (vc : list T) : Prop :=
    zlen jc = cj /\ zlen vc = cv /\ zlen ic = k + 1 /\ (forall q, 0 <= q <= i -> zn ic q = offs (arow 0 V) q) /\
    (forall q, 0 <= q < i -> rowl z (offs (arow 0 V) q) (offs (arow 0 V) (q + 1)) jc vc = arow 0 V q).

  Lemma rows_built : forall V ic jc vc, vok V -> zlen ic = k + 1 -> offs (arow 0 V) k <= zlen jc -> offs (arow 0 V) k <= zlen vc ->
    zn ic 0 = 0 ->
    exists nz val jc' ic' vc', for_ 0 k (fun i st => let* st := foldM (fun rk st => rbody i (fst rk) (snd rk) st) (V i) st in copy_out O i st) (zrep n (-1), zrep n z, jc, 0, (ic, vc))
      = Some (nz, val, jc', offs (arow 0 V) k, (ic', vc')) /\ outs V (zlen jc) (zlen vc) k jc' ic' vc'.
  Proof.
    intros V ic jc vc HV Lc R1 R2 E0. pose proof (wf_n _ _ _ _ _ _ WB) as Hn. set (off := offs (arow 0 V)) in *.
    assert (OM : forall i j, 0 <= i <= j -> 0 <= off i <= off j) by (exact (offs_mono (arow 0 V))). assert (OS : forall i, 0 <= i -> off (i + 1) = off i + zlen (arow 0 V i)) by (exact (offs_S (arow 0 V))).
    match goal with |- context [for_ 0 k ?f ?s0] => destruct (for_inv _ (fun i (st : (list Z * list T * list Z * Z) * (list Z * list T)) => let '(nz, val, jc', tot, (ic', vc')) := st in
      mk_old n i nz /\ zlen val = n /\ tot = off i /\ outs V (zlen jc) (zlen vc) i jc' ic' vc') 0 k f s0) as (((((nz, val), jc'), tot), (ic', vc')) & E & I1 & I2 & I3 & I4) end.
    - lia.
    - ands; auto; try lia.
      + apply mk_init; lia.
      + apply zlen_zrep. lia.
      + unfold outs. ands; auto; try (intros; lia). intros q Hq. replace q with 0 by lia. exact E0.
    - intros i ((((nz, val), jc1), tot), (ic1, vc1)) Hi (I1 & I2 & I3 & J1 & J2 & J3 & J4 & J5). pose proof (OM 0 i ltac:(lia)). pose proof (OM (i + 1) k ltac:(lia)). pose proof (OS i ltac:(lia)).
      destruct (row_products V i tot nz val jc1 (ic1, vc1) HV Hi ltac:(lia) I1 I2 ltac:(lia)) as ((((nz2, val2), jc2), tot2) & -> & R).
      destruct (copy_out_ok V i tot jc1 nz2 val2 jc2 tot2 ic1 vc1 HV Hi ltac:(lia) R J3 ltac:(rewrite J4 by lia; fold off; lia) ltac:(lia) ltac:(lia)) as (val3 & vc3 & -> & Q1 & Q2 & Q3 & Q4 & Q5).
      eexists. split; [reflexivity|]. cbv beta iota. destruct R as (K1 & K2 & K3 & K4 & K5 & K6 & K7 & K8). ands; auto.
      + eapply mk_end; eauto.
      + lia.
      + unfold outs. rewrite zlen_upd. fold off. ands; auto; try lia.
        * intros q Hq. rewrite nthZ_upd by lia. destruct (Z.eqb_spec q (i + 1)) as [->|]; [lia|]. apply J4. lia.
        * intros q Hq. destruct (Z.eq_dec q i) as [->|Nq].
          -- rewrite <- I3. replace (off (i + 1)) with tot2 by lia. exact Q4.
          -- rewrite <- (J5 q) by lia. fold off. apply rowl_ext. intros p Hp. pose proof (OM 0 q ltac:(lia)). pose proof (OM (q + 1) i ltac:(lia)). rewrite K7, Q5 by lia. auto.
    - subst tot. exists nz, val, jc', ic', vc'. split; [exact E|exact I4].
  Qed.

  Lemma incr_ok : forall (l : list Z) hi, 0 <= hi <= zlen l -> exists l', for_ 0 hi (fun i l => let* x := rd l i in wr l i (x + 1)) l = Some l' /\ zlen l' = zlen l /\
    (forall i, 0 <= i < hi -> zn l' i = zn l i + 1).
  Proof.
    intros l hi Hh. match goal with |- context [for_ 0 hi ?f l] => destruct (for_inv _ (fun e l' => zlen l' = zlen l /\ (forall i, 0 <= i < e -> zn l' i = zn l i + 1) /\ forall i, e <= i < zlen l -> zn l' i = zn l i) 0 hi f l) as (l' & E & R1 & R2 & _) end.
    - lia.
    - ands; auto; intros; lia.
    - intros e l1 He (R1 & R2 & R3). rewrite (rd_nthZ _ 0) by lia. rewrite wr_upd by lia. eexists. split; [reflexivity|]. rewrite zlen_upd. ands; auto.
      + intros i Hi. rewrite nthZ_upd by lia. destruct (Z.eqb_spec i e) as [->|]; [rewrite R3 by lia; reflexivity|apply R2; lia].
      + intros i Hi. rewrite nthZ_upd by lia. destruct (Z.eqb_spec i e); [lia|apply R3; lia].
    - exists l'. auto.
  Qed.

  (** ** What the rows are *)
  Lemma arow_cols : forall b V i p, vok V -> 0 <= i < k -> In p (arow b V i) -> b <= fst p < b + n /\ keep i (fst p - b) = true.
  Proof.
    intros b V i p HV Hi H. unfold arow in H. apply in_map_iff in H. destruct H as (c & <- & H). apply (proj1 (firsts_in _ _)) in H. cbn [fst]. destruct (contribs_cols V i c HV Hi H) as (H1 & H2).
    replace (c + b - b) with c by lia. split; [lia|exact H2].
  Qed.
  Lemma arow_nodup : forall b V i, NoDup (map fst (arow b V i)).
  Proof. intros b V i. unfold arow. rewrite map_map. cbn [fst]. apply FinFun.Injective_map_NoDup; [intros x y; lia|apply firsts_nodup]. Qed.
  Lemma arow_colsum : forall b V i j, colsum O (j + b) (arow b V i) = colsum O j (contribs V i).
  Proof.
    intros b V i j. unfold arow. set (l := contribs V i). unfold colsum at 1. rewrite (suml_map O). cbn [fst snd].
    assert (G : forall cs, NoDup cs -> suml O (fun c => if c + b =? j + b then colsum O c l else z) cs = if inb j cs then colsum O j l else z).
    { induction cs as [|c cs IH]; intros ND; [reflexivity|]. inversion ND; subst. cbn [suml fold_right]. change (fold_right _ z cs) with (suml O (fun c => if c + b =? j + b then colsum O c l else z) cs).
      rewrite IH by auto. unfold inb. cbn [existsb]. fold (inb j cs). destruct (Z.eqb_spec (c + b) (j + b)).
      - assert (c = j) by lia. subst c. rewrite Z.eqb_refl. cbn [orb]. destruct (inb j cs) eqn:E; [apply inb_iff in E; contradiction|]. ring.
      - replace (j =? c) with false by lia. cbn [orb]. ring. }
    rewrite G by apply firsts_nodup. destruct (inb j (firsts (map fst l))) eqn:E; auto. symmetry. apply (colsum_out O L). intros p Hp Ec.
    assert (X : inb j (firsts (map fst l)) = true); [|congruence]. apply inb_iff, firsts_in. rewrite <- Ec. now apply in_map.
  Qed.
  Lemma cj_if_0 : forall c, cj_if O c z = z. Proof. intros [|]; [apply (cj_0 O L)|reflexivity]. Qed.
  Lemma terms_sum : forall i r q j, 0 <= r < m -> keep i j = true -> colsum O j (terms i r q) = cj_if O conjA (tn vA q) *! cj_if O conjB (csr_mat O bB pB iB vB r j).
  Proof.
    intros i r q j Hr Hk. destruct (row_bounds _ _ _ _ _ _ r WB Hr) as (_ & _ & B1 & B2 & B3). unfold colsum, terms. rewrite (suml_flat_map O L).
    unfold csr_mat. rewrite <- (cj_if_sum O L). rewrite <- (filter_ents O L nB bB pB iB vB (cj_if O conjB) r j) by auto.
    rewrite <- (suml_mul_l O L).
    generalize (zrange (zn pB r - bB) (zn pB (r + 1) - bB)). induction l as [|x l IH]; [reflexivity|]. cbn [filter]. destruct (Z.eqb_spec (zn iB x) (j + bB)) as [Ex|Ex].
    - cbn [suml fold_right]. fold (suml O (fun k => cj_if O conjA (tn vA q) *! cj_if O conjB (tn vB k)) (filter (fun k => zn iB k =? j + bB) l)). rewrite <- IH. replace (zn iB x - bB) with j by lia. rewrite Hk. cbn [fst snd suml fold_right].
      rewrite Z.eqb_refl. unfold suml. ring.
    - rewrite <- IH. cbn [suml fold_right]. destruct (keep i (zn iB x - bB)); cbn [suml fold_right fst snd]; [replace (zn iB x - bB =? j) with false by lia|]; unfold suml; ring.
  Qed.
End A.

Section B.
  Context {T : Type} (O : ops T) (L : laws O).
  Local Notation z := (o0 O).
  Local Notation tn := (nthZ (o0 O)).
  Local Infix "+!" := (oadd O) (at level 50, left associativity).
  Local Infix "*!" := (omul O) (at level 40, left associativity).
  Add Ring Tring6 : (l_ring L).
  Variables (only_u conjA conjB : bool) (m k n bA nA : Z) (pA iA : list Z) (vA : list T) (bB nB : Z) (pB iB : list Z) (vB : list T).
  Hypothesis (WA : csr_wf m k nA bA pA iA) (LA : zlen vA = nA) (WB : csr_wf m n nB bB pB iB) (LB : zlen vB = nB).
  Local Notation arow := (arow O only_u conjA conjB vA bB pB iB vB).
  Local Notation contribs := (contribs O only_u conjA conjB vA bB pB iB vB).
  Local Notation rbody := (rbody O only_u conjA conjB vA bB pB iB vB).
  Lemma visits_ok : forall V, visits m k bA pA iA V -> vok m k vA V.
  Proof. intros V HV i r q Hi H. apply (HV i Hi) in H. destruct H as (H1 & H2 & _). unfold in_row in H2. destruct (row_bounds _ _ _ _ _ _ r WA H1) as (_ & _ & A1 & A2 & A3). lia. Qed.

  (** Every column of A is visited in some order, whatever is done with its elements. *)
  Definition runs_as (V : Z -> list (Z * Z)) : Prop := exists o, oft_init (skipn 1 pA) bA iA bA m k pA bA = Some o /\
    forall (S : Type) (body : Z -> Z -> Z -> S -> option S) (post : Z -> S -> option S) s,
      (let* os := for_ 0 k (fun i os => let* (o, s) := oft_column (skipn 1 pA) bA iA bA m (body i) i os in let* s := post i s in Some (o, s)) (o, s) in Some (snd os)) =
      for_ 0 k (fun i s => let* s := foldM (fun rk s => body i (fst rk) (snd rk) s) (V i) s in post i s) s.
  Lemma atb_runs : rows_sorted m bA pA iA -> rows_distinct m bA pA iA -> exists V, visits m k bA pA iA V /\ runs_as V.
  Proof.
    intros So Di. pose proof (wf_n _ _ _ _ _ _ WA) as Hk. pose proof (wf_m _ _ _ _ _ _ WA) as Hm.
    destruct (wf_len _ _ _ _ _ _ WA) as (Lp & Li). pose proof (ptr_range _ _ _ _ (wf_ptr _ _ _ _ _ _ WA)) as PR.
    assert (EN : forall r, 0 <= r < m -> zn (skipn 1 pA) r = zn pA (r + 1)) by (intros r Hr; destruct pA as [|p0 ptr']; [cbn in Lp; unfold zlen in Lp; cbn in Lp; lia|]; unfold nthZ; cbn [skipn]; replace (Z.to_nat (r + 1)) with (Datatypes.S (Z.to_nat r)) by lia; reflexivity).
    assert (LE : m <= zlen (skipn 1 pA)) by (destruct pA as [|p0 ptr']; unfold zlen in *; cbn [skipn length] in *; lia).
    assert (Wr : forall r q, 0 <= r < m -> zn pA r - bA <= q < zn (skipn 1 pA) r - bA -> 0 <= q < zlen iA /\ 0 <= zn iA q - bA < k).
    { intros r q Hr Hq. rewrite EN in Hq by auto. pose proof (PR r ltac:(lia)). pose proof (PR (r + 1) ltac:(lia)). pose proof (wf_ind _ _ _ _ _ _ WA q ltac:(lia)). lia. }
    assert (Ws : forall r q q', 0 <= r < m -> zn pA r - bA <= q -> q < q' -> q' < zn (skipn 1 pA) r - bA -> zn iA q - bA < zn iA q' - bA).
    { intros r q q' Hr H1 H2 H3. rewrite EN in H3 by auto. assert (K : in_row pA bA r q) by (unfold in_row; lia). assert (K' : in_row pA bA r q') by (unfold in_row; lia).
      pose proof (So r q q' Hr K K' H2). pose proof (Di r q q' Hr K K' ltac:(lia)). lia. }
    destruct (init_ok m k pA bA (skipn 1 pA) bA iA bA Hm Hk ltac:(lia) LE Wr Ws) as (o & EO & RO).
    destruct (columns_visit_all m k pA bA (skipn 1 pA) bA iA bA Hm Hk LE Wr Ws o RO) as (V & HV & EV).
    assert (HV' : visits m k bA pA iA V).
    { intros i Hi. destruct (HV i Hi) as (N1 & N2). split; [exact N1|]. intros r q. rewrite N2. split.
      - intros (Q1 & Q2 & Q3). rewrite EN in Q2 by auto. split; [exact Q1|]. split; [exact Q2|exact Q3].
      - intros (Q1 & Q2 & Q3). rewrite EN by auto. split; [exact Q1|]. split; [exact Q2|exact Q3]. }
    exists V. split; [exact HV'|]. exists o. split; [exact EO|]. intros S body post s. rewrite <- (EV S (fun _ s => Some s) body post s). symmetry.
    rewrite (for_ext _ 0 k _ (fun i os => let* (o, s) := oft_column (skipn 1 pA) bA iA bA m (body i) i os in let* s := post i s in Some (o, s))); [reflexivity|].
    intros i (o1, s1) _. reflexivity.
  Qed.

  Lemma atb_fill : forall V, visits m k bA pA iA V -> runs_as V ->
    forall bC ic jc vc, (bC = 0 \/ bC = 1) -> zlen ic = k + 1 -> offs (arow 0 V) k <= zlen jc -> offs (arow 0 V) k <= zlen vc ->
    exists ic' jc' vc', online_atb O only_u conjA conjB m k n bA pA iA vA bB pB iB vB bC ic jc vc = Some (ic', jc', vc', offs (arow bC V) k) /\
      built O k bC (arow bC V) ic' jc' vc' /\ zlen jc' = zlen jc /\ zlen vc' = zlen vc.
  Proof.
    intros V HV (o & EO & EV0) bC ic jc vc HbC Lc R1 R2. pose proof (visits_ok V HV) as HV'. pose proof (wf_n _ _ _ _ _ _ WA) as Hk.
    pose proof (EV0 _ rbody (copy_out O)) as EV. unfold online_atb. rewrite EO. rewrite wr_upd by lia. specialize (EV (zrep n (-1), zrep n z, jc, 0, (upd ic 0 0, vc))).
    destruct (rows_built O L only_u conjA conjB m k n vA bB nB pB iB vB Hk WB LB V (upd ic 0 0) jc vc HV') as (nz & val & jc1 & ic1 & vc1 & E1 & J1 & J2 & J3 & J4 & J5); auto.
    { rewrite zlen_upd. exact Lc. } { rewrite nthZ_upd_same by lia. reflexivity. }
    rewrite E1 in EV.
    match type of EV with (match ?x with _ => _ end) = _ => destruct x as [(o', s2)|] eqn:EX; [|discriminate] end. cbn [snd] in EV. inversion EV; subst s2. clear EV.
    change (for_ 0 k (fun i os => let* (o, st) := oft_column (skipn 1 pA) bA iA bA m (rbody i) i os in let* st := copy_out O i st in Some (o, st)) (o, (zrep n (-1), zrep n z, jc, 0, (upd ic 0 0, vc))) = Some (o', (nz, val, jc1, offs (arow 0 V) k, (ic1, vc1)))) in EX.
    unfold AtbProof.rbody in EX. rewrite EX. clear EX. rewrite (offs_base O only_u conjA conjB vA bB pB iB vB bC).
    destruct HbC as [-> | ->]; cbn [Z.eqb Pos.eqb].
    - exists ic1, jc1, vc1. split; [reflexivity|]. ands; auto. unfold built. ands; auto; try lia; intros; rewrite ?J4 by lia; auto; lia.
    - pose proof (offs_mono (arow 0 V) 0 k ltac:(lia)) as OM.
      destruct (incr_ok ic1 (k + 1) ltac:(lia)) as (ic2 & -> & X1 & X2). destruct (incr_ok jc1 (offs (arow 0 V) k) ltac:(lia)) as (jc2 & -> & Y1 & Y2).
      exists ic2, jc2, vc1. split; [reflexivity|]. split; [|split; lia]. unfold built. ands; try lia.
      + intros i Hi. rewrite X2 by lia. rewrite J4 by lia. rewrite (offs_base O only_u conjA conjB vA bB pB iB vB 1). lia.
      + rewrite (offs_base O only_u conjA conjB vA bB pB iB vB 1). lia.
      + rewrite (offs_base O only_u conjA conjB vA bB pB iB vB 1). lia.
      + intros i Hi. rewrite !(offs_base O only_u conjA conjB vA bB pB iB vB 1). rewrite arow_base. rewrite <- (J5 i Hi). unfold rowl. rewrite map_map. apply map_ext_in. intros q Hq. apply in_zrange in Hq. cbn [fst snd].
        pose proof (offs_mono (arow 0 V) 0 i ltac:(lia)). pose proof (offs_mono (arow 0 V) (i + 1) k ltac:(lia)). rewrite Y2 by lia. reflexivity.
  Qed.

  Lemma atb_built : rows_sorted m bA pA iA -> rows_distinct m bA pA iA ->
    exists V, visits m k bA pA iA V /\ forall bC ic jc vc, (bC = 0 \/ bC = 1) -> zlen ic = k + 1 -> offs (arow 0 V) k <= zlen jc -> offs (arow 0 V) k <= zlen vc ->
    exists ic' jc' vc', online_atb O only_u conjA conjB m k n bA pA iA vA bB pB iB vB bC ic jc vc = Some (ic', jc', vc', offs (arow bC V) k) /\
      built O k bC (arow bC V) ic' jc' vc' /\ zlen jc' = zlen jc /\ zlen vc' = zlen vc.
  Proof. intros So Di. destruct (atb_runs So Di) as (V & HV & R). exists V. split; [exact HV|]. exact (atb_fill V HV R). Qed.

  Lemma contribs_sum : forall V i j, visits m k bA pA iA V -> 0 <= i < k -> keep only_u i j = true ->
    colsum O j (contribs V i) = sumz O 0 m (fun r => cj_if O conjA (csr_mat O bA pA iA vA r i) *! cj_if O conjB (csr_mat O bB pB iB vB r j)).
  Proof.
    intros V i j HV Hi Hk. unfold AtbProof.contribs. transitivity (suml O (fun rk : Z * Z => colsum O j (terms O only_u conjA conjB vA bB pB iB vB i (fst rk) (snd rk))) (V i)).
    { unfold colsum at 1. rewrite (suml_flat_map O L). reflexivity. }
    rewrite (suml_ext O _ _ (fun rk => (fun r q => cj_if O conjA (tn vA q) *! cj_if O conjB (csr_mat O bB pB iB vB r j)) (fst rk) (snd rk))).
    2:{ intros (r, q) Hin. apply (HV i Hi) in Hin. cbn [fst snd]. apply (terms_sum O L only_u conjA conjB m n vA bB nB pB iB vB WB LB); auto. lia. }
    rewrite (visits_sum O L m bA pA iA i (V i) (fun r q => cj_if O conjA (tn vA q) *! cj_if O conjB (csr_mat O bB pB iB vB r j)) (HV i Hi)). apply sumz_ext. intros r Hr.
    destruct (row_bounds _ _ _ _ _ _ r WA Hr) as (_ & _ & B1 & B2 & B3).
    rewrite (filter_ents O L nA bA pA iA vA (fun v => cj_if O conjA v *! cj_if O conjB (csr_mat O bB pB iB vB r j))) by auto.
    rewrite (suml_mul_r O L). rewrite (cj_if_sum O L). unfold csr_mat. ring.
  Qed.
End B.
