(** The product of a symmetric (Hermitian) matrix given by one triangle with a sparse matrix,
    and the counting stage of the two products behind the symmetric triple product. *)
From Coq Require Import ZArith List Bool Lia ZifyBool Permutation Ring.
From Verif Require Import Base BaseFacts Algebra Csr CsrFacts CheckModel CheckSpec SortSpec MvModel MvSpec MvFacts MvProof RowProg WinFacts Csr2mProof OftModel OftProof SyrkdProof SyrkModel AtbProof SyprModel.
Import ListNotations.
Open Scope Z_scope.

(** ** Counting *)
Section C.
  Context {T : Type} (O : ops T).
  Variables (only_u conjA conjB : bool) (m k n : Z) (vA : list T) (bB nB : Z) (pB iB : list Z) (vB : list T).
  Hypothesis (Hkk : 0 <= k) (WB : csr_wf m n nB bB pB iB) (LB : zlen vB = nB).
  Local Notation terms := (terms O only_u conjA conjB vA bB pB iB vB).
  Local Notation contribs := (contribs O only_u conjA conjB vA bB pB iB vB).
  Local Notation arow := (arow O only_u conjA conjB vA bB pB iB vB).

  Definition Ic (i s : Z) (l : list (Z * T)) (st : list Z * Z) : Prop :=
    mk_ok n i (fst st) (map fst l) /\ snd st = s + zlen (firsts (map fst l)).
  Lemma count_sprow_ok : forall i s r q l st, 0 <= r < m -> Ic i s l st ->
    exists st', count_sprow only_u i (zn pB r - bB) (zn pB (r + 1) - bB) iB bB st = Some st' /\ Ic i s (l ++ terms i r q) st'.
  Proof.
    intros i s r q l st Hr HI. destruct (row_bounds _ _ _ _ _ _ r WB Hr) as (_ & Li & B1 & B2 & B3). unfold count_sprow.
    set (tt := fun k => (zn iB k - bB, omul O (cj_if O conjA (nthZ (o0 O) vA q)) (cj_if O conjB (nthZ (o0 O) vB k)))).
    set (tm := fun e => flat_map (fun k => if keep only_u i (zn iB k - bB) then [tt k] else []) (zrange (zn pB r - bB) e)).
    assert (TM : forall e, zn pB r - bB <= e -> tm (e + 1) = tm e ++ (if keep only_u i (zn iB e - bB) then [tt e] else [])).
    { intros e He. unfold tm. rewrite zrange_last by lia. rewrite flat_map_app. cbn [flat_map]. rewrite app_nil_r. reflexivity. }
    match goal with |- context [for_ ?lo ?hi ?f st] => destruct (for_inv _ (fun e st => Ic i s (l ++ tm e) st) lo hi f st ltac:(lia)) as (st' & E & R) end.
    - unfold tm. rewrite zrange_nil by lia. cbn [flat_map]. rewrite app_nil_r. exact HI.
    - intros e (nz, tot) He (K1 & K2). cbn [fst snd] in *. pose proof (wf_ind _ _ _ _ _ _ WB e ltac:(lia)) as Hc.
      rewrite (rd_nthZ _ 0 iB) by lia. rewrite TM by lia. unfold keep. destruct (only_u && (zn iB e - bB <? i)) eqn:EK; cbn [negb].
      { eexists. split; [reflexivity|]. rewrite app_nil_r. split; auto. }
      pose proof (proj1 K1) as Ln. rewrite (rd_nthZ _ 0 nz) by lia. rewrite app_assoc. set (l1 := l ++ tm e) in *. destruct (proj2 K1 (zn iB e - bB) ltac:(lia)) as (_ & KI).
      unfold Ic. rewrite map_app. cbn [map]. change (fst (tt e)) with (zn iB e - bB). rewrite firsts_snoc. set (c := zn iB e - bB) in *.
      destruct (Z.eqb_spec (zn nz c) i) as [Eq|Ne]; cbn [negb].
      + assert (IN : In c (map fst l1)) by tauto. assert (IB : inb c (map fst l1) = true) by now apply inb_iff. eexists. split; [reflexivity|]. cbn [fst snd]. rewrite IB. split; [now apply mk_same|exact K2].
      + assert (IB : inb c (map fst l1) = false) by (destruct (inb c (map fst l1)) eqn:Q; auto; apply inb_iff in Q; tauto). rewrite wr_upd by lia. eexists. split; [reflexivity|]. cbn [fst snd]. rewrite IB. split; [apply mk_push; auto; lia|].
        rewrite zlen_app. change (zlen [c]) with 1. lia.
    - exists st'. split; [exact E|exact R].
  Qed.

  Definition cbody (i r q : Z) (st : (list Z * Z) * list Z) : option ((list Z * Z) * list Z) :=
    let '(st, ic) := st in
    let* v := rd vA q in
    let* s := rd pB r in
    let* e := rd pB (r + 1) in
    let* st := count_sprow only_u i (s - bB) (e - bB) iB bB st in
    Some (st, ic).
  Lemma row_counted : forall V i s nz ic, vok m k vA V -> 0 <= i < k -> mk_old n i nz ->
    exists st, foldM (fun rk st => cbody i (fst rk) (snd rk) st) (V i) ((nz, s), ic) = Some (st, ic) /\ Ic i s (contribs V i) st.
  Proof.
    intros V i s nz ic HV Hi Ho.
    destruct (foldM_inv _ _ (fun rk st => cbody i (fst rk) (snd rk) st) (fun pre st => Ic i s (flat_map (fun rk => terms i (fst rk) (snd rk)) pre) (fst st) /\ snd st = ic) (V i) ((nz, s), ic)) as ((st, o) & E & R & Eo).
    - cbn [fst snd flat_map]. split; [|reflexivity]. split; cbn [fst snd map]; [now apply mk_start|]. change (zlen (firsts [])) with 0. lia.
    - intros pre (r, q) post (st, o) E (HI & Eo). cbn [fst snd] in *. subst o. assert (IN : In (r, q) (V i)) by (rewrite E; apply in_elt). apply (HV i r q Hi) in IN. destruct IN as (Hr & Hq).
      destruct (row_bounds _ _ _ _ _ _ r WB Hr) as (LpB & _ & B1 & B2 & B3). unfold cbody. rewrite (rd_nthZ _ (o0 O) vA) by lia. rewrite !(rd_nthZ _ 0) by lia.
      destruct (count_sprow_ok i s r q _ st Hr HI) as (st' & E2 & R2). rewrite E2. exists (st', ic). split; [reflexivity|]. split; [|reflexivity]. rewrite flat_map_app. cbn [flat_map fst snd]. rewrite app_nil_r. exact R2.
    - exists st. cbn [fst snd] in *. subst o. split; [exact E|exact R].
  Qed.
  Lemma rows_counted : forall V ic, vok m k vA V -> zlen ic = k + 1 -> zn ic 0 = 0 ->
    exists nz ic', for_ 0 k (fun i st => let* st := foldM (fun rk st => cbody i (fst rk) (snd rk) st) (V i) st in count_end i st) ((zrep n (-1), 0), ic) = Some (nz, offs (arow 0 V) k, ic') /\
      zlen ic' = k + 1 /\ forall q, 0 <= q <= k -> zn ic' q = offs (arow 0 V) q.
  Proof.
    intros V ic HV Lc E0. pose proof (wf_n _ _ _ _ _ _ WB) as Hn. set (off := offs (arow 0 V)) in *.
    assert (OS : forall i, 0 <= i -> off (i + 1) = off i + zlen (arow 0 V i)) by (exact (offs_S (arow 0 V))).
    match goal with |- context [for_ 0 k ?f ?s0] => destruct (for_inv _ (fun i (st : (list Z * Z) * list Z) => let '(nz, tot, ic') := st in
      mk_old n i nz /\ tot = off i /\ zlen ic' = k + 1 /\ forall q, 0 <= q <= i -> zn ic' q = off q) 0 k f s0) as (((nz, tot), ic') & E & I1 & I2 & I3 & I4) end.
    - lia.
    - ands; auto; try lia.
      + apply mk_init; lia.
      + intros q Hq. replace q with 0 by lia. exact E0.
    - intros i ((nz, tot), ic1) Hi (I1 & I2 & I3 & I4).
      destruct (row_counted V i tot nz ic1 HV Hi I1) as ((nz2, tot2) & -> & (K1 & K2)). cbn [fst snd] in *. cbn [count_end]. rewrite wr_upd by lia. eexists. split; [reflexivity|]. cbv beta iota.
      assert (LR : zlen (arow 0 V i) = zlen (firsts (map fst (contribs V i)))) by (unfold AtbProof.arow; apply zlen_map).
      rewrite zlen_upd. ands; auto.
      + eapply mk_end; eauto.
      + rewrite OS by lia. lia.
      + intros q Hq. rewrite nthZ_upd by lia. destruct (Z.eqb_spec q (i + 1)) as [->|]; [rewrite OS by lia; lia|apply I4; lia].
    - subst tot. exists nz, ic'. auto.
  Qed.
End C.

(** The elements visited, summed row by row. *)
Section V.
  Context {T : Type} (O : ops T) (L : laws O).
  Lemma window_sum : forall mm b (lo hi : Z -> Z) ind i V (f : Z -> Z -> T),
    (NoDup V /\ forall r k, In (r, k) V <-> 0 <= r < mm /\ lo r <= k < hi r /\ zn ind k - b = i) ->
    suml O (fun rk => f (fst rk) (snd rk)) V = sumz O 0 mm (fun r => sumz O (lo r) (hi r) (fun k => if zn ind k - b =? i then f r k else o0 O)).
  Proof.
    intros mm b lo hi ind i V f (N & M). assert (RT := l_ring L).
    set (F := fun r => filter (fun k => zn ind k - b =? i) (zrange (lo r) (hi r))).
    set (E := flat_map (fun r => map (fun k => (r, k)) (F r)) (zrange 0 mm)).
    assert (PE : Permutation V E).
    { apply NoDup_Permutation; auto.
      - unfold E. generalize (NoDup_zrange 0 mm). generalize (zrange 0 mm). induction l as [|x l IH]; intros Nl; [constructor|]. inversion Nl; subst. cbn [flat_map].
        assert (NI : forall q, In q (map (fun k => (x, k)) (F x)) -> ~ In q (flat_map (fun r => map (fun k => (r, k)) (F r)) l)).
        { intros q Q1 Q2. apply in_map_iff in Q1. destruct Q1 as (k & <- & _). apply in_flat_map in Q2. destruct Q2 as (r & Hr & Q2). apply in_map_iff in Q2. destruct Q2 as (k' & Q2 & _). inversion Q2; subst. contradiction. }
        assert (N1 : NoDup (map (fun k => (x, k)) (F x))).
        { apply FinFun.Injective_map_NoDup; [intros p q Q; congruence|]. apply NoDup_filter. apply NoDup_zrange. }
        specialize (IH H2). revert N1 NI. generalize (map (fun k => (x, k)) (F x)).
        induction l0 as [|y l0 IH0]; intros N1 NI; [exact IH|]. inversion N1; subst. cbn [app]. constructor.
        + rewrite in_app_iff. intros [Q|Q]; [contradiction|]. apply (NI y); auto. now left.
        + apply IH0; auto. intros q Q. apply NI. now right.
      - intros (r, k). rewrite M. unfold E. rewrite in_flat_map. split.
        + intros (Q1 & Q2 & Q3). exists r. split; [apply in_zrange; auto|]. apply in_map. apply filter_In. split; [apply in_zrange; exact Q2|]. lia.
        + intros (r' & Q1 & Q2). apply in_map_iff in Q2. destruct Q2 as (k' & Q2 & Q3). inversion Q2; subst. apply in_zrange in Q1. apply filter_In in Q3. destruct Q3 as (Q3 & Q4). apply in_zrange in Q3. split; [exact Q1|]. split; [exact Q3|lia]. }
    rewrite (suml_perm O L _ _ _ _ PE). unfold E. rewrite (suml_flat_map O L). unfold sumz at 1. apply suml_ext. intros r Hr. rewrite (suml_map O). cbn [fst snd]. unfold F, sumz.
    generalize (zrange (lo r) (hi r)). induction l as [|x l IH]; [reflexivity|]. cbn [filter]. change (suml O (fun k => if zn ind k - b =? i then f r k else o0 O) (x :: l)) with
      (oadd O (if zn ind x - b =? i then f r x else o0 O) (suml O (fun k => if zn ind k - b =? i then f r k else o0 O) l)). rewrite <- IH. destruct (zn ind x - b =? i); [reflexivity|]. symmetry. apply (Radd_0_l RT).
  Qed.
End V.

(** ** The symmetric matrix *)
Section Y.
  Context {T : Type} (O : ops T) (L : laws O).
  Local Notation z := (o0 O).
  Local Notation tn := (nthZ (o0 O)).
  Local Infix "+!" := (oadd O) (at level 50, left associativity).
  Local Infix "*!" := (omul O) (at level 40, left associativity).
  Add Ring TringY : (l_ring L).
  Variables (low : bool) (m nA bA : Z) (pA iA idg iu : list Z) (vA : list T).
  Hypothesis R : tri_ready m m nA bA pA iA idg iu.
  Hypothesis FD : full_diag m m bA pA iA.
  Hypothesis LA : zlen vA = nA.
  Hypothesis SO : rows_sorted m bA pA iA.
  Hypothesis DI : rows_distinct m bA pA iA.
  Let WA : csr_wf m m nA bA pA iA := tr_wf _ _ _ _ _ _ _ _ R.
  Local Notation irstart := (if low then pA else idg).
  Local Notation irend := (if low then idg else skipn 1 pA).
  Local Notation s_offT := (if low then bA else bA - 1).
  Local Notation e_off := (if low then bA - 1 else bA).
  Definition nlo (i : Z) : Z := zn irstart i - bA.
  Definition nhi (i : Z) : Z := zn irend i - e_off.
  Definition tlo (i : Z) : Z := zn irstart i - s_offT.
  Definition thi (i : Z) : Z := zn irend i - bA.
  Definition half (i j : Z) : bool := if low then j <=? i else i <=? j.
  Definition strict (i j : Z) : bool := if low then j <? i else i <? j.

  Lemma skip1 : forall r, 0 <= r < m -> zn (skipn 1 pA) r = zn pA (r + 1).
  Proof.
    intros r Hr. destruct (wf_len _ _ _ _ _ _ WA) as (Lp & _). destruct pA as [|p0 ptr']; [unfold zlen in Lp; cbn in Lp; lia|].
    unfold nthZ; cbn [skipn]; replace (Z.to_nat (r + 1)) with (Datatypes.S (Z.to_nat r)) by lia; reflexivity.
  Qed.
  Lemma windows : forall i, 0 <= i < m ->
    zn pA i - bA <= nlo i /\ nlo i <= nhi i /\ nhi i <= zn pA (i + 1) - bA /\
    zn pA i - bA <= tlo i /\ tlo i <= thi i /\ thi i <= zn pA (i + 1) - bA /\
    forall k, in_row pA bA i k -> (nlo i <= k < nhi i <-> half i (zn iA k - bA) = true) /\ (tlo i <= k < thi i <-> strict i (zn iA k - bA) = true).
  Proof.
    intros i Hi. destruct (tr_split _ _ _ _ _ _ _ _ R i Hi) as (S1 & S2 & S3). destruct (diag_one _ _ _ _ _ _ _ _ i R (Z.le_refl m) FD Hi) as (D1 & D2 & D3).
    pose proof (skip1 i Hi) as SK. unfold nlo, nhi, tlo, thi, half, strict, in_row in *. destruct low; rewrite ?SK; (split; [lia|]); (split; [lia|]); (split; [lia|]); (split; [lia|]); (split; [lia|]); (split; [lia|]);
      intros k Hk; destruct (S3 k Hk) as (Q1 & Q2 & Q3); lia.
  Qed.

  (** Values for both halves: the second half conjugated. *)
  Definition vX : list T := vA ++ map (ocj O) vA.
  Lemma vX_lo : forall q, 0 <= q < nA -> tn vX q = tn vA q.
  Proof. intros q Hq. unfold vX, nthZ. rewrite app_nth1; [reflexivity|]. unfold zlen in LA. lia. Qed.
  Lemma vX_hi : forall q, 0 <= q < nA -> tn vX (nA + q) = ocj O (tn vA q).
  Proof.
    intros q Hq. unfold vX, nthZ. unfold zlen in LA. rewrite app_nth2 by lia. replace (Z.to_nat (nA + q) - length vA)%nat with (Z.to_nat q) by lia.
    rewrite (nth_indep _ z (ocj O z)) by (rewrite map_length; lia). apply map_nth.
  Qed.
  Lemma zlen_vX : zlen vX = nA + nA.
  Proof. unfold vX. rewrite zlen_app, zlen_map. lia. Qed.

  Definition G (V : Z -> list (Z * Z)) (i : Z) : list (Z * Z) :=
    map (fun k => (zn iA k - bA, k)) (zrange (nlo i) (nhi i)) ++ map (fun rk => (fst rk, nA + snd rk)) (V i).
  Definition tvisits (V : Z -> list (Z * Z)) : Prop := forall i, 0 <= i < m ->
    NoDup (V i) /\ forall r k, In (r, k) (V i) <-> 0 <= r < m /\ tlo r <= k < thi r /\ zn iA k - bA = i.
  Definition symab_as (V : Z -> list (Z * Z)) : Prop := forall (S : Type) bB pB (add : Z -> T -> Z -> Z -> S -> option S) (fin : Z -> S -> option S) s0,
    symab_rows O m m bA pA idg iA vA bB pB low add fin s0 =
    for_ 0 m (fun i s => let* s := foldM (fun rq s => let* v := rd vX (snd rq) in let* s1 := rd pB (fst rq) in let* e1 := rd pB (fst rq + 1) in add i v (s1 - bB) (e1 - bB) s) (G V i) s in fin i s) s0.

  Lemma row_rng : forall i k, 0 <= i < m -> in_row pA bA i k -> 0 <= k < nA /\ 0 <= zn iA k - bA < m.
  Proof. intros i k Hi Hk. pose proof (in_row_range _ _ _ _ (wf_ptr _ _ _ _ _ _ WA) i k Hi Hk) as Q. pose proof (wf_ind _ _ _ _ _ _ WA k Q). lia. Qed.

  Lemma symab_runs : exists V, tvisits V /\ symab_as V.
  Proof.
    pose proof (wf_m _ _ _ _ _ _ WA) as Hm. destruct (wf_len _ _ _ _ _ _ WA) as (Lp & Li). pose proof (tr_ld _ _ _ _ _ _ _ _ R) as Ld.
    assert (LS : m <= zlen irstart) by (destruct low; lia).
    assert (LE : m <= zlen irend) by (destruct low; [lia|]; destruct pA as [|p0 ptr']; unfold zlen in *; cbn [skipn length] in *; lia).
    assert (Wr : forall r q, 0 <= r < m -> zn irstart r - s_offT <= q < zn irend r - bA -> 0 <= q < zlen iA /\ 0 <= zn iA q - bA < m).
    { intros r q Hr Hq. fold (tlo r) in Hq. fold (thi r) in Hq. destruct (windows r Hr) as (_ & _ & _ & T1 & T2 & T3 & _). destruct (row_rng r q Hr ltac:(unfold in_row; lia)). lia. }
    assert (Ws : forall r q q', 0 <= r < m -> zn irstart r - s_offT <= q -> q < q' -> q' < zn irend r - bA -> zn iA q - bA < zn iA q' - bA).
    { intros r q q' Hr H1 H2 H3. fold (tlo r) in H1. fold (thi r) in H3. destruct (windows r Hr) as (_ & _ & _ & T1 & T2 & T3 & _).
      assert (K : in_row pA bA r q) by (unfold in_row; lia). assert (K' : in_row pA bA r q') by (unfold in_row; lia). pose proof (SO r q q' Hr K K' H2). pose proof (DI r q q' Hr K K' ltac:(lia)). lia. }
    destruct (init_ok m m irstart s_offT irend bA iA bA Hm Hm LS LE Wr Ws) as (o & EO & RO).
    destruct (columns_visit_all m m irstart s_offT irend bA iA bA Hm Hm LE Wr Ws o RO) as (V & HV & EV).
    exists V. split; [exact HV|]. intros S bB pB add fin s0. unfold symab_rows. rewrite EO.
    match goal with |- (let* _ := for_ 0 m (fun i os => let '(o, s) := os in let* s := @?pre i s in let* _ := oft_column _ _ _ _ _ (@?bd i) i _ in _) _ in _) = _ => specialize (EV S pre bd fin s0) end.
    cbv beta in EV.
    match type of EV with (let* os := ?X in _) = ?Y => match goal with |- (let* _ := ?Z in _) = _ => change Z with X end; transitivity Y end.
    { rewrite <- EV. match goal with |- match ?x with _ => _ end = _ => destruct x as [(o1, s1)|]; reflexivity end. }
    apply for_ext. intros i s Hi. unfold G. rewrite foldM_app, foldM_map. destruct (windows i Hi) as (N1 & N2 & N3 & T1 & T2 & T3 & _).
    rewrite (rd_nthZ _ 0 irstart) by lia. rewrite (rd_nthZ _ 0 irend) by lia. fold (nlo i) (nhi i). unfold for_.
    rewrite (foldM_ext _ _ (fun x s1 => let* v := rd vX (snd (zn iA x - bA, x)) in let* s2 := rd pB (fst (zn iA x - bA, x)) in let* e1 := rd pB (fst (zn iA x - bA, x) + 1) in add i v (s2 - bB) (e1 - bB) s1)
      (fun idx s1 => let* c := rd iA idx in let* v := rd vA idx in let* s2 := rd pB (c - bA) in let* e1 := rd pB (c - bA + 1) in add i v (s2 - bB) (e1 - bB) s1)).
    2:{ intros x s1 Hx. apply in_zrange in Hx. destruct (row_rng i x Hi ltac:(unfold in_row; lia)) as (X1 & X2). cbn [fst snd]. pose proof zlen_vX. rewrite (rd_nthZ _ 0 iA) by lia. rewrite (rd_nthZ _ z vA) by lia. rewrite (rd_nthZ _ z vX) by lia. rewrite vX_lo by lia. reflexivity. }
    match goal with |- match ?x with _ => _ end = match match ?x with _ => _ end with _ => _ end => destruct x as [s1|]; [|reflexivity] end.
    rewrite foldM_map.
    rewrite (foldM_ext _ _ (fun x s2 => let* v := rd vX (snd (fst x, nA + snd x)) in let* s3 := rd pB (fst (fst x, nA + snd x)) in let* e1 := rd pB (fst (fst x, nA + snd x) + 1) in add i v (s3 - bB) (e1 - bB) s2)
      (fun rk s2 => let* v := rd vA (snd rk) in let* s3 := rd pB (fst rk) in let* e1 := rd pB (fst rk + 1) in add i (ocj O v) (s3 - bB) (e1 - bB) s2)); [reflexivity|].
    intros (r, q) s2 Hx. apply (HV i Hi) in Hx. destruct Hx as (Hr & Hq & _). fold (tlo r) in Hq. fold (thi r) in Hq. destruct (windows r Hr) as (_ & _ & _ & U1 & U2 & U3 & _). destruct (row_rng r q Hr ltac:(unfold in_row; lia)) as (X1 & X2).
    cbn [fst snd]. pose proof zlen_vX. rewrite (rd_nthZ _ z vA) by lia. rewrite (rd_nthZ _ z vX) by lia. rewrite vX_hi by lia. reflexivity.
  Qed.

  Lemma G_vok : forall V, tvisits V -> vok m m vX (G V).
  Proof.
    intros V HV i r q Hi H. rewrite zlen_vX. unfold G in H. apply in_app_iff in H. destruct H as [H|H]; apply in_map_iff in H.
    - destruct H as (k & E & H). injection E as <- <-. apply in_zrange in H. destruct (windows i Hi) as (N1 & N2 & N3 & _). destruct (row_rng i k Hi ltac:(unfold in_row; lia)). lia.
    - destruct H as ((r', k) & E & H). cbn [fst snd] in E. injection E as <- <-. apply (HV i Hi) in H. destruct H as (Hr & Hk & _). destruct (windows r' Hr) as (_ & _ & _ & U1 & U2 & U3 & _). destruct (row_rng r' k Hr ltac:(unfold in_row; lia)). lia.
  Qed.

  (** What a row of the product is. *)
  Definition herm (M : Z -> Z -> T) (i j : Z) : T := if half i j then M i j else ocj O (M j i).
  Variables (cf : bool) (n bB nB : Z) (pB iB : list Z) (vB : list T).
  Hypothesis (WB : csr_wf m n nB bB pB iB) (LB : zlen vB = nB).
  Local Notation W := (csr_mat O bB pB iB vB).
  Local Notation M := (csr_mat O bA pA iA vA).
  Lemma symab_sum : forall V i j, tvisits V -> 0 <= i < m ->
    colsum O j (contribs O false false cf vX bB pB iB vB (G V) i) = sumz O 0 m (fun r => herm M i r *! cj_if O cf (W r j)).
  Proof.
    intros V i j HV Hi. unfold AtbProof.contribs. transitivity (suml O (fun rk : Z * Z => colsum O j (terms O false false cf vX bB pB iB vB i (fst rk) (snd rk))) (G V i)).
    { unfold colsum at 1. rewrite (suml_flat_map O L). reflexivity. }
    rewrite (suml_ext O _ _ (fun rk => tn vX (snd rk) *! cj_if O cf (W (fst rk) j))).
    2:{ intros (r, q) Hin. cbn [fst snd]. destruct (G_vok V HV i r q Hi Hin) as (Hr & _). rewrite (terms_sum O L false false cf m n vX bB nB pB iB vB WB LB i r q j Hr eq_refl). reflexivity. }
    unfold G. rewrite (suml_app O L), !(suml_map O). cbn [fst snd]. destruct (windows i Hi) as (N1 & N2 & N3 & _ & _ & _ & NW).
    set (F := fun r => cj_if O cf (W r j)).
    replace (suml O (fun x => tn vX x *! cj_if O cf (W (zn iA x - bA) j)) (zrange (nlo i) (nhi i))) with (sumz O 0 m (fun r => M i r *! (if half i r then F r else z))).
    2:{ rewrite <- (full_row_sum O L m m nA bA pA iA vA i (fun v => v) (fun r => if half i r then F r else z) WA LA Hi) by (intros x y; reflexivity).
        rewrite (sumz_split O L _ (nlo i)) by lia. rewrite (sumz_split O L (nlo i) (nhi i)) by lia.
        rewrite (sumz_zero O L (zn pA i - bA)). 2:{ intros k Hk. destruct (NW k ltac:(unfold in_row; lia)) as (Q & _). destruct (half i (zn iA k - bA)); [lia|ring]. }
        rewrite (sumz_zero O L (nhi i)). 2:{ intros k Hk. destruct (NW k ltac:(unfold in_row; lia)) as (Q & _). destruct (half i (zn iA k - bA)); [lia|ring]. }
        transitivity (sumz O (nlo i) (nhi i) (fun k => tn vA k *! (if half i (zn iA k - bA) then F (zn iA k - bA) else z))); [ring|]. apply sumz_ext. intros k Hk. destruct (NW k ltac:(unfold in_row; lia)) as (Q & _). destruct (half i (zn iA k - bA)); [|lia].
        destruct (row_rng i k Hi ltac:(unfold in_row; lia)) as (X1 & X2). rewrite vX_lo by lia. reflexivity. }
    replace (suml O (fun x => tn vX (nA + snd x) *! cj_if O cf (W (fst x) j)) (V i)) with (sumz O 0 m (fun r => (if strict r i then ocj O (M r i) else z) *! F r)).
    2:{ rewrite (suml_ext O _ _ (fun rk => (fun r k => ocj O (tn vA k) *! F r) (fst rk) (snd rk))).
        2:{ intros (r, k) Hx. apply (HV i Hi) in Hx. destruct Hx as (Hr & Hk & _). destruct (windows r Hr) as (_ & _ & _ & U1 & U2 & U3 & _). destruct (row_rng r k Hr ltac:(unfold in_row; lia)). cbn [fst snd]. rewrite vX_hi by lia. reflexivity. }
        rewrite (window_sum O L m bA tlo thi iA i (V i) (fun r k => ocj O (tn vA k) *! F r) (HV i Hi)). apply sumz_ext. intros r Hr.
        destruct (windows r Hr) as (_ & _ & _ & U1 & U2 & U3 & UW).
        assert (FS := full_row_sum O L m m nA bA pA iA vA r (ocj O) (fun c => if c =? i then (if strict r c then F r else z) else z) WA LA Hr (l_cj_add L)).
        rewrite (sumz_delta O L 0 m i) in FS by (auto; intros c Hc Nc; replace (c =? i) with false by lia; ring). rewrite Z.eqb_refl in FS.
        transitivity (ocj O (M r i) *! (if strict r i then F r else z)); [destruct (strict r i); ring|]. rewrite <- FS. symmetry.
        rewrite (sumz_split O L (zn pA r - bA) (tlo r) (zn pA (r + 1) - bA)) by lia. rewrite (sumz_split O L (tlo r) (thi r) (zn pA (r + 1) - bA)) by lia.
        rewrite (sumz_zero O L (zn pA r - bA)). 2:{ intros k Hk. destruct (UW k ltac:(unfold in_row; lia)) as (_ & Q). destruct (zn iA k - bA =? i); [|ring]. destruct (strict r (zn iA k - bA)); [lia|ring]. }
        rewrite (sumz_zero O L (thi r)). 2:{ intros k Hk. destruct (UW k ltac:(unfold in_row; lia)) as (_ & Q). destruct (zn iA k - bA =? i); [|ring]. destruct (strict r (zn iA k - bA)); [lia|ring]. }
        transitivity (sumz O (tlo r) (thi r) (fun k => ocj O (tn vA k) *! (if zn iA k - bA =? i then (if strict r (zn iA k - bA) then F r else z) else z))).
        2:{ ring. }
        apply sumz_ext. intros k Hk. destruct (UW k ltac:(unfold in_row; lia)) as (_ & Q). destruct (zn iA k - bA =? i); [|ring]. destruct (strict r (zn iA k - bA)); [reflexivity|lia]. }
    rewrite <- (sumz_add O L). apply sumz_ext. intros r Hr. unfold herm. fold (F r). unfold half, strict. destruct low.
    - destruct (Z.leb_spec r i), (Z.ltb_spec i r); try lia; ring.
    - destruct (Z.leb_spec i r), (Z.ltb_spec r i); try lia; ring.
  Qed.

  (** Both stages of the product. *)
  Lemma symab_ok : exists V, tvisits V /\
    let Rw := arow O false false cf vX bB pB iB vB 0 (G V) in
    forall ic, zlen ic = m + 1 -> exists pT, symab_count O m m n bA pA idg iA vA bB pB iB low ic = Some (pT, offs Rw m) /\ zlen pT = m + 1 /\
      forall jc vc, zlen jc = offs Rw m -> zlen vc = offs Rw m ->
      exists pT' iT vT, symab_fill O cf m m n bA pA idg iA vA bB pB iB vB low pT jc vc = Some (pT', iT, vT) /\
        csr_wf m n (offs Rw m) 0 pT' iT /\ zlen vT = offs Rw m /\
        (forall i j, 0 <= i < m -> (stored 0 pT' iT i j <-> In j (map fst (Rw i)))) /\
        forall i j, 0 <= i < m -> csr_mat O 0 pT' iT vT i j = sumz O 0 m (fun r => herm M i r *! cj_if O cf (W r j)).
  Proof.
    destruct symab_runs as (V & HV & RV). exists V. split; [exact HV|]. intros Rw ic Lc. pose proof (G_vok V HV) as VK. pose proof (wf_m _ _ _ _ _ _ WA) as Hm. pose proof (wf_n _ _ _ _ _ _ WB) as Hn.
    destruct (rows_counted O false false cf m m n vX bB nB pB iB vB Hm WB (G V) (upd ic 0 0) VK) as (nz & ic' & E & Lc' & Pc).
    { rewrite zlen_upd. exact Lc. } { rewrite nthZ_upd_same by lia. reflexivity. }
    fold Rw in E, Pc. exists ic'. split; [|split; [exact Lc'|]].
    { unfold symab_count. rewrite wr_upd by lia. rewrite RV.
      erewrite for_ext; [rewrite E; reflexivity|]. intros i st Hi. cbv beta. erewrite foldM_ext; [reflexivity|]. intros (r, q) ((nz1, t1), ic1) _. reflexivity. }
    intros jc vc Lj Lvc. destruct (rows_built O L false false cf m m n vX bB nB pB iB vB Hm WB LB (G V) (upd ic' 0 0) jc vc VK) as (nz2 & val2 & iT & pT' & vT & E2 & J1 & J2 & J3 & J4 & J5); auto.
    { rewrite zlen_upd. exact Lc'. } { fold Rw. lia. } { fold Rw. lia. } { rewrite nthZ_upd_same by lia. reflexivity. }
    fold Rw in E2, J4, J5. exists pT', iT, vT. split.
    { unfold symab_fill. rewrite wr_upd by lia. rewrite RV.
      erewrite for_ext; [rewrite E2; reflexivity|]. intros i st Hi. cbv beta. erewrite foldM_ext; [reflexivity|]. intros (r, q) ((((nz1, v1), j1), t1), o1) _. reflexivity. }
    assert (B : built O m 0 Rw pT' iT vT) by (unfold built; ands; auto; lia).
    assert (HC : forall i p, 0 <= i < m -> In p (Rw i) -> 0 <= fst p < 0 + n).
    { intros i p Hi Hp. destruct (arow_cols O false false cf m m n vX bB nB pB iB vB WB 0 (G V) i p VK Hi Hp). lia. }
    destruct (built_wf O m n 0 Rw Hm pT' iT vT B Hn HC) as (W1 & W2). pose proof (built_mat O L m n 0 Rw Hm pT' iT vT B Hn HC) as MT.
    assert (CI : cut (offs Rw m) iT = iT) by (unfold cut; apply firstn_all2; unfold zlen in J1, Lj; lia).
    assert (CV : cut (offs Rw m) vT = vT) by (unfold cut; apply firstn_all2; unfold zlen in J2, Lvc; lia).
    rewrite CI, CV in *. split; [exact W1|]. split; [exact W2|]. split.
    { intros i j Hi. rewrite <- (J5 i Hi). unfold rowl. rewrite map_map. cbn [fst]. rewrite in_map_iff. unfold stored, in_row. rewrite !J4 by lia. split; intros (k & K1 & K2).
      - exists k. split; [lia|]. apply in_zrange. lia.
      - apply in_zrange in K2. exists k. lia. }
    intros i j Hi. rewrite (MT i j Hi).
    unfold Rw. rewrite (arow_colsum O L false false cf m n vX bB nB pB iB vB WB LB). apply symab_sum; auto.
  Qed.

  (** The product is not empty if W has an element: its row is multiplied by the diagonal. *)
  Lemma diag_in : forall V i, tvisits V -> 0 <= i < m -> In (i, zn idg i - bA) (G V i).
  Proof.
    intros V i HV Hi. unfold G. apply in_app_iff. left. destruct (diag_one _ _ _ _ _ _ _ _ i R (Z.le_refl m) FD Hi) as (D1 & D2 & D3). destruct (windows i Hi) as (_ & _ & _ & _ & _ & _ & NW). destruct (NW _ D1) as (Q & _).
    apply in_map_iff. exists (zn idg i - bA). split; [f_equal; lia|]. apply in_zrange. apply Q. unfold half. destruct low; lia.
  Qed.
  Lemma row_in : forall V i q, tvisits V -> 0 <= i < m -> in_row pB bB i q -> In (zn iB q - bB) (map fst (arow O false false cf vX bB pB iB vB 0 (G V) i)).
  Proof.
    intros V i q HV Hi Hq. unfold AtbProof.arow. rewrite map_map. cbn [fst]. apply in_map_iff. exists (zn iB q - bB). split; [lia|]. apply firsts_in. unfold AtbProof.contribs. rewrite map_flat_map. apply in_flat_map.
    exists (i, zn idg i - bA). split; [apply diag_in; auto|]. cbn [fst snd]. unfold terms. rewrite map_flat_map. apply in_flat_map. exists q. split; [apply in_zrange; exact Hq|]. cbn [keep andb negb map fst]. left. reflexivity.
  Qed.
End Y.
