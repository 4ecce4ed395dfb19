From Coq Require Import ZArith List Bool Lia Ring ZifyBool.
From Verif Require Import Base BaseFacts Algebra CgModel CgSpec CgProof CgConj.
Import ListNotations.
Open Scope Z_scope.

Section LK.
  Context {T N : Type} (O : ops T) (L : laws O) (DL : div_law O) (one_neq : o1 O <> o0 O).
  Context (npos : N -> bool) (nle : N -> N -> bool) (nmul : N -> N -> N) (nnan : N -> bool) (n0 : N).
  Context (nrm : list T -> N) (negz : T -> bool) (rz1 : T).
  Context (A M : Z -> Z -> T) (n : Z) (b : list T).
  Context (Hn : 0 <= n) (Hb : zlen b = n) (SA : symmetric n A) (SM : symmetric n M) (NZ : negz (o0 O) = true).
  Let rth := l_ring L.
  Add Ring RingLK : rth.
  Notation "l .[ i ]" := (nthZ (o0 O) l i) (at level 2, format "l .[ i ]").
  Notation rci := (rci_solve O npos nle nmul nnan n0 nrm negz rz1 n b).
  Notation cgrci := (cg_rci O npos nle nmul nnan n0 nrm negz rz1 n b).
  (** The preconditioner is the matrix M *)
  Notation prec := (fun u w => product O M n w u).
  Notation reaches := (reaches O npos nle nmul nnan n0 nrm negz rz1 A n b prec).
  Notation inv := (inv O npos nle nmul nnan nrm A n b).
  Notation chain := (chain O n A M).
  Notation sp := (sp O n).
  Notation app := (app O n).

  Lemma fill_val : forall f out l, fill n f out = Some l -> forall (g : Z -> T), n <= zlen out ->
    (forall i, 0 <= i < n -> f i = Some (g i)) -> forall i, 0 <= i < n -> l.[i] = g i.
  Proof.
    intros f out l E g Hl Hf. destruct (fill_ok O n f g out Hn Hl Hf) as (l' & E' & _ & V). rewrite E' in E. injection E as <-. exact V.
  Qed.

  Lemma chain_ext : forall k P R rz P' R' rz',
    (forall j, 1 <= j <= k -> forall i, 0 <= i < n -> P' j i = P j i) ->
    (forall j, 0 <= j <= k -> forall i, 0 <= i < n -> R' j i = R j i) ->
    (forall j, 1 <= j <= k -> rz' j = rz j) -> chain k P R rz -> chain k P' R' rz'.
  Proof.
    intros k P R rz P' R' rz' HP HR Hz [c1 c2 c3 c4 c5 c6].
    assert (EA : forall j, 1 <= j <= k -> forall i, 0 <= i < n -> app A (P' j) i = app A (P j) i).
    { intros j Hj i Hi. apply app_ext. intros; apply HP; lia. }
    assert (EP : forall j, 1 <= j <= k -> sp (P' j) (app A (P' j)) = sp (P j) (app A (P j))).
    { intros j Hj. apply sp_ext; intros i Hi; [apply HP; lia|apply EA; lia]. }
    assert (EM : forall j, 0 <= j <= k -> forall i, 0 <= i < n -> app M (R' j) i = app M (R j) i).
    { intros j Hj i Hi. apply app_ext. intros; apply HR; lia. }
    constructor.
    - intros j Hj. rewrite EP by lia. apply c1; lia.
    - intros j Hj i Hi. rewrite EP, EA, !HR, Hz by lia. apply c2; lia.
    - intros j Hj. rewrite Hz by lia. rewrite c3 by lia. apply sp_ext; intros i Hi; symmetry; [apply HR; lia|apply EM; lia].
    - intros Hk i Hi. rewrite HP, EM by lia. apply c4; lia.
    - intros j Hj i Hi. rewrite !HP, EM, !Hz by lia. apply c5; lia.
    - intros j Hj. rewrite Hz by lia. apply c6; lia.
  Qed.

  Definition linkA (k : Z) (c : cg T N) : Prop :=
    exists P R rz, chain k P R rz /\ (forall i, 0 <= i < n -> R k i = (g_r c).[i]) /\
      (k = 0 -> forall i, 0 <= i < n -> (g_p c).[i] = o0 O) /\
      (1 <= k -> (forall i, 0 <= i < n -> P k i = (g_p c).[i]) /\ rz k = g_rz c).
  Definition linkB (k : Z) (c : cg T N) : Prop :=
    exists P R rz, chain k P R rz /\ (forall i, 0 <= i < n -> R k i = (g_r c).[i]) /\
      (forall i, 0 <= i < n -> P (k + 1) i = (g_p c).[i]) /\ rz (k + 1) = g_rz c /\
      rz (k + 1) = sp (R k) (app M (R k)) /\
      (k = 0 -> forall i, 0 <= i < n -> P 1 i = oopp O (app M (R 0) i)) /\
      (1 <= k -> rz k <> o0 O /\ forall i, 0 <= i < n -> P (k + 1) i = osub O (omul O (odiv O (rz (k + 1)) (rz k)) (P k i)) (app M (R k) i)).
  Definition link (c : cg T N) : Prop :=
    match g_task c with
    | t_start | t_init_res => True
    | t_check_conv | t_start_iter => linkA (g_niter c) c
    | t_compute_beta => linkA (g_niter c - 1) c
    | t_take_step => linkB (g_niter c - 1) c
    end.

  Lemma check_link : forall c o st jb c' o', do_check npos nle c o = (st, jb, c', o') ->
    g_task c = t_check_conv -> linkA (g_niter c) c -> linkA (g_niter c') c' /\ (g_task c' = t_check_conv \/ g_task c' = t_start_iter) /\ g_niter c' = g_niter c.
  Proof.
    intros c o st jb c' o' E TK H. unfold do_check in E.
    repeat match type of E with context [if ?x then _ else _] => destruct x end; injection E as <- <- <- <-; auto.
  Qed.

  Lemma beta_link : forall c o jb st jb' c' o', do_beta O negz n c o jb = Some (st, jb', c', o') -> forall k, 0 <= k -> g_niter c = k + 1 -> lens n c o ->
    linkA k c -> (forall i, 0 <= i < n -> (g_z c).[i] = app M (fun j => (g_r c).[j]) i) ->
    st = success -> g_task c' = t_take_step /\ g_niter c' = k + 1 /\ linkB k c'.
  Proof.
    intros c o jb st jb' c' o' E k Hk Hni (L1 & L2 & L3 & L4 & L5) (P & R & rz & C & HR & H0 & H1) Hz S.
    unfold do_beta in E. rewrite (dot_ok O L) in E by lia.
    destruct (negz (g_rz c)) eqn:NG; [injection E as <- <- <- <-; discriminate|].
    match type of E with context [fill n ?f ?out] => destruct (fill n f out) as [p|] eqn:Ep; [|discriminate] end.
    injection E as <- <- <- <-. cbn [g_task g_niter].
    split; [reflexivity|]. split; [exact Hni|].
    set (nrz := sumz O 0 n (fun i => omul O (g_r c).[i] (g_z c).[i])) in *.
    pose proof (fill_val _ _ _ Ep (fun i => osub O (omul O (odiv O nrz (g_rz c)) (g_p c).[i]) (g_z c).[i]) ltac:(lia)
      ltac:(intros i Hi; cbv beta; rewrite !(rd_nthZ _ (o0 O)) by lia; reflexivity)) as V.
    assert (EM : forall i, 0 <= i < n -> app M (R k) i = (g_z c).[i]).
    { intros i Hi. rewrite Hz by lia. apply app_ext. intros; apply HR; lia. }
    assert (ER : sp (R k) (app M (R k)) = nrz).
    { apply sumz_ext. intros i Hi. rewrite EM, HR by lia. reflexivity. }
    exists (fun j => if j =? k + 1 then (fun i => p.[i]) else P j), R, (fun j => if j =? k + 1 then nrz else rz j).
    cbn [g_r g_p g_rz].
    split; [|split; [exact HR|]].
    { apply (chain_ext k P R rz); try (intros j Hj; replace (j =? k + 1) with false by lia); auto. }
    rewrite Z.eqb_refl. split; [reflexivity|]. split; [reflexivity|]. split; [symmetry; exact ER|]. split.
    - intros ->. cbn. intros i Hi. rewrite V, H0, EM by lia. ring.
    - intros K1. destruct (H1 K1) as (HP & Hrz). replace (k =? k + 1) with false by lia. split.
      + rewrite Hrz. intros Q. rewrite Q in NG. congruence.
      + intros i Hi. rewrite V, HP, Hrz, EM by lia. reflexivity.
  Qed.

  Lemma step_chain : forall k P R rz, 0 <= k -> chain k P R rz ->
    rz (k + 1) = sp (R k) (app M (R k)) ->
    (k = 0 -> forall i, 0 <= i < n -> P 1 i = oopp O (app M (R 0) i)) ->
    (1 <= k -> rz k <> o0 O /\ forall i, 0 <= i < n -> P (k + 1) i = osub O (omul O (odiv O (rz (k + 1)) (rz k)) (P k i)) (app M (R k) i)) ->
    sp (P (k + 1)) (app A (P (k + 1))) <> o0 O ->
    (forall i, 0 <= i < n -> R (k + 1) i = oadd O (R k i) (omul O (odiv O (rz (k + 1)) (sp (P (k + 1)) (app A (P (k + 1))))) (app A (P (k + 1)) i))) ->
    chain (k + 1) P R rz.
  Proof.
    intros k P R rz Hk [c1 c2 c3 c4 c5 c6] Hrz H0 H1 Hpq HR. constructor.
    - intros j Hj. destruct (Z.eq_dec j (k + 1)) as [-> | N0]; [exact Hpq|apply c1; lia].
    - intros j Hj. destruct (Z.eq_dec j (k + 1)) as [-> | N0]; [replace (k + 1 - 1) with k by lia; exact HR|apply c2; lia].
    - intros j Hj. destruct (Z.eq_dec j (k + 1)) as [-> | N0]; [replace (k + 1 - 1) with k by lia; exact Hrz|apply c3; lia].
    - intros _. destruct (Z.eq_dec k 0) as [-> | N0]; [apply H0; reflexivity|apply c4; lia].
    - intros j Hj. destruct (Z.eq_dec j (k + 1)) as [-> | N0]; [replace (k + 1 - 1) with k by lia; apply H1; lia|apply c5; lia].
    - intros j Hj. destruct (Z.eq_dec j k) as [-> | N0]; [apply H1; lia|apply c6; lia].
  Qed.

  (** Without preconditioner M is the identity *)
  Definition id_if_none (c0 : cg T N) : Prop :=
    g_precond c0 = 0 -> forall i j, 0 <= i < n -> 0 <= j < n -> M i j = if i =? j then o1 O else o0 O.

  Lemma app_id : forall c0 v, id_if_none c0 -> g_precond c0 = 0 -> forall i, 0 <= i < n -> app M v i = v i.
  Proof.
    intros c0 v H E i Hi. unfold CgConj.app.
    rewrite (sumz_ext O 0 n _ (fun j => omul O (if j =? i then o1 O else o0 O) (v j))).
    2:{ intros j Hj. rewrite (H E) by lia. rewrite (Z.eqb_sym j i). reflexivity. }
    rewrite (sumz_split O L 0 i n), (sumz_first O i n), Z.eqb_refl by lia.
    rewrite (sumz_zero O L 0 i), (sumz_zero O L (i + 1) n) by (intros q Hq; replace (q =? i) with false by lia; ring).
    ring.
  Qed.

  Lemma rci_link : forall c0 jb jb1 c c1 o st jb' c' o', id_if_none c0 -> inv c0 jb c o -> link c ->
    served O A n prec o c jb c1 -> (jb1 = jb \/ jb1 = j_interrupt) -> rci c1 o jb1 = Some (st, jb', c', o') ->
    st = success \/ st = maxit -> link c' /\ g_task c' <> t_start /\ (g_task c' = t_check_conv -> o_iter o' = g_niter c').
  Proof.
    intros c0 jb jb1 c c1 o st jb' c' o' ID (Hl & So & H0 & I) LK Sv Hj E S. pose proof Hl as (L1 & L2 & L3 & L4 & L5).
    rewrite rci_wrap in E. destruct (cgrci c1 o jb1) as [[[[st0 jb0] c2] o2]|] eqn:E1; [|discriminate].
    cbn in E. injection E as <- _ <- <-.
    assert (Nu : st0 <> user_stop) by (destruct S as [-> | ->]; discriminate).
    unfold link in LK. unfold cg_rci in E1. destruct (g_task c) eqn:TK; try contradiction.
    - (* initial residual *)
      destruct I as (-> & Eu & Ev & I0 & Ii & Ir & Ip & Ib & Irh).
      inversion Sv as [u w Hu (Lw & Hw) X1 X2| |]; subst c1. rewrite Ev in *. cbn [set_buf g_task] in E1. rewrite TK in E1.
      destruct Hj as [-> | ->]; [|congruence]. unfold do_init_res in E1. cbn [g_r g_q g_p] in E1.
      match type of E1 with context [fill n ?f ?out] => destruct (fill n f out) as [r|] eqn:Er; [|discriminate] end.
      destruct (nnan (nrm r)); [injection E1 as <- <- <- <-; destruct S; discriminate|].
      match type of E1 with context [fill n ?f ?out] => destruct (fill n f out) as [p|] eqn:Ep; [|discriminate] end.
      pose proof (fill_val _ _ _ Ep (fun _ => o0 O) ltac:(lia) ltac:(reflexivity)) as Vp.
      injection E1 as E1.
      assert (O2 : o_iter o2 = 0).
      { unfold do_check in E1. repeat match type of E1 with context [if ?x then _ else _] => destruct x end; injection E1 as <- <- <- <-; exact Ii. }
      destruct (check_link _ _ _ _ _ _ E1 ltac:(reflexivity) ltac:(
        exists (fun _ _ => o0 O), (fun _ i => r.[i]), (fun _ => o0 O);
        cbn [g_niter g_r g_p]; rewrite I0; split; [constructor; intros; lia|];
        split; [reflexivity|]; split; [intros _; exact Vp|intros; lia])) as (K1 & K2 & K3). cbn [g_niter] in K3.
      unfold link. destruct K2 as [K2 | K2]; rewrite K2; (split; [exact K1|]); (split; [discriminate|]); congruence.
    - (* new iteration *)
      destruct I as (-> & Eu & Ev & G & NC & Im). pose proof G as (G1 & G2 & G3 & G4 & G5 & G6 & G7).
      inversion Sv; subst c1. rewrite TK in E1.
      destruct Hj as [-> | ->]; [|congruence].
      unfold do_start_iter in E1. cbn [g_precond g_r g_z] in E1. destruct (g_precond c =? 0) eqn:PC.
      + match type of E1 with context [fill n ?f ?out] => destruct (fill n f out) as [z|] eqn:Ez; [|discriminate] end.
        cbn [g_r] in Ez.
        pose proof (fill_val _ _ _ Ez (fun i => (g_r c).[i]) ltac:(lia) ltac:(intros i Hi; apply (rd_nthZ _ (o0 O)); lia)) as Vz.
        assert (Zz : zlen z = n).
        { destruct (fill_ok O n (fun i => rd (g_r c) i) (fun i => (g_r c).[i]) (g_z c) Hn ltac:(lia) ltac:(intros i Hi; apply (rd_nthZ _ (o0 O)); lia)) as (l' & E' & Z' & _).
          rewrite E' in Ez. injection Ez as <-. lia. }
        assert (st0 = success).
        { destruct S as [-> | ->]; [reflexivity|]. unfold do_beta in E1.
          repeat match type of E1 with context [match ?x with _ => _ end] => destruct x; try discriminate end. }
        destruct So as (S1 & S2 & S3 & S4).
        destruct (beta_link _ _ _ _ _ _ _ E1 (g_niter c) H0 ltac:(cbn; reflexivity) ltac:(repeat split; cbn; lia) LK
          ltac:(cbn [g_z g_r]; intros i Hi; rewrite Vz by lia; symmetry; apply (app_id c0 _ ID); [lia|lia]) H) as (K1 & K2 & K3).
        unfold link. rewrite K1. split; [|split; [discriminate|discriminate]].
        rewrite K2. replace (g_niter c + 1 - 1) with (g_niter c) by lia. exact K3.
      + injection E1 as <- <- <- <-. unfold link. cbn [g_task g_niter]. split; [|split; discriminate].
        replace (g_niter c + 1 - 1) with (g_niter c) by lia. exact LK.
    - (* direction *)
      destruct I as (-> & Eu & Ev & G & NP & I1 & Im). pose proof G as (G1 & G2 & G3 & G4 & G5 & G6 & G7).
      inversion Sv as [|u w Hu Lw Pw X1 X2|]; subst c1. rewrite Ev, Eu in *. cbn in Hu. injection Hu as <-.
      cbn [set_buf g_task] in E1. rewrite TK in E1.
      destruct Hj as [-> | ->]; [|congruence].
      assert (st0 = success).
      { destruct S as [-> | ->]; [reflexivity|]. unfold do_beta in E1.
        repeat match type of E1 with context [match ?x with _ => _ end] => destruct x; try discriminate end. }
      destruct (beta_link _ _ _ _ _ _ _ E1 (g_niter c - 1) ltac:(lia) ltac:(cbn [g_niter]; lia) ltac:(repeat split; cbn; lia) LK
        ltac:(cbn [g_z g_r]; intros i Hi; apply Pw; lia) H) as (K1 & K2 & K3).
      unfold link. rewrite K1. split; [|split; [discriminate|discriminate]].
      rewrite K2. replace (g_niter c - 1 + 1 - 1) with (g_niter c - 1) by lia. exact K3.
    - (* step *)
      destruct I as (-> & Eu & Ev & G & I1 & Im). pose proof G as (G1 & G2 & G3 & G4 & G5 & G6 & G7).
      inversion Sv as [u w Hu (Lw & Hw) X1 X2| |]; subst c1. rewrite Eu in Hu. cbn in Hu. injection Hu as <-.
      rewrite Ev in *. cbn [set_buf g_task] in E1. rewrite TK in E1.
      destruct Hj as [-> | ->]; [|congruence].
      unfold do_take_step in E1. cbn [g_r g_q g_p g_rz g_z g_task] in E1. rewrite (dot_ok O L) in E1 by lia.
      destruct LK as (P & R & rz & C & HR & HP & Hrz & Hrz2 & K0 & K1).
      set (k := g_niter c - 1) in *.
      assert (EA : forall i, 0 <= i < n -> app A (P (k + 1)) i = w.[i]).
      { intros i Hi. rewrite Hw by lia. apply app_ext. exact HP. }
      assert (Epq : sumz O 0 n (fun i => omul O (g_p c).[i] w.[i]) = sp (P (k + 1)) (app A (P (k + 1)))).
      { symmetry. apply sumz_ext. intros i Hi. rewrite EA, HP by lia. reflexivity. }
      rewrite Epq in E1. set (pq := sp (P (k + 1)) (app A (P (k + 1)))) in *.
      destruct (negz pq || oeqb O pq (o0 O)) eqn:NG; [injection E1 as <- <- <- <-; destruct S; discriminate|].
      assert (pqnz : pq <> o0 O).
      { intros Q. rewrite Q, NZ in NG. discriminate. }
      match type of E1 with context [fill n ?f (o_x o)] => destruct (fill n f (o_x o)) as [x|] eqn:Ex; [|discriminate] end.
      match type of E1 with context [fill n ?f (g_r c)] => destruct (fill n f (g_r c)) as [r|] eqn:Er; [|discriminate] end.
      pose proof (fill_val _ _ _ Er (fun i => oadd O (g_r c).[i] (omul O (odiv O (g_rz c) pq) w.[i])) ltac:(lia)
        ltac:(intros i Hi; cbv beta; rewrite !(rd_nthZ _ (o0 O)) by lia; reflexivity)) as Vr.
      destruct (nnan (nrm r)); [injection E1 as <- <- <- <-; destruct S; discriminate|].
      injection E1 as E1.
      assert (O2 : o_iter o2 = g_niter c).
      { unfold do_check in E1. repeat match type of E1 with context [if ?x then _ else _] => destruct x end; injection E1 as <- <- <- <-; exact G4. }
      set (R' := fun j => if j =? k + 1 then (fun i => r.[i]) else R j).
      assert (C' : chain (k + 1) P R' rz).
      { apply step_chain.
        - lia.
        - apply (chain_ext k P R rz); auto. intros j Hj i Hi. unfold R'. replace (j =? k + 1) with false by lia. reflexivity.
        - unfold R'. replace (k =? k + 1) with false by lia. exact Hrz2.
        - intros Z0. unfold R'. replace (0 =? k + 1) with false by lia. apply K0; exact Z0.
        - unfold R'. replace (k =? k + 1) with false by lia. exact K1.
        - exact pqnz.
        - intros i Hi. unfold R'. rewrite Z.eqb_refl. replace (k =? k + 1) with false by lia.
          rewrite Vr, HR, EA, Hrz by lia. reflexivity. }
      destruct (check_link _ _ _ _ _ _ E1 ltac:(reflexivity) ltac:(
        exists P, R', rz; cbn [g_niter g_r g_p g_rz]; replace (g_niter c) with (k + 1) by lia;
        split; [exact C'|]; split; [unfold R'; rewrite Z.eqb_refl; reflexivity|];
        split; [intros; lia|intros _; split; [exact HP|exact Hrz]])) as (Q1 & Q2 & Q3). cbn [g_niter] in Q3.
      unfold link. destruct Q2 as [Q2 | Q2]; rewrite Q2; (split; [exact Q1|]); (split; [discriminate|]); congruence.
  Qed.

  Lemma first_link : forall c o jb st jb' c' o', fresh n c o -> rci c o jb = Some (st, jb', c', o') ->
    st = success \/ st = maxit -> st = success /\ g_task c' = t_init_res.
  Proof.
    intros c o jb st jb' c' o' (TK & L1 & L2 & L3 & L4 & L5) E S. rewrite rci_wrap in E.
    destruct (cgrci c o jb) as [[[[st0 jb0] c2] o2]|] eqn:E1; [|discriminate]. cbn in E. injection E as <- _ <- <-.
    assert (E2 : do_start O nmul nnan n0 nrm n b c o jb = Some (st0, jb0, c2, o2)).
    { unfold cg_rci in E1. rewrite TK in E1. destruct jb; exact E1. }
    unfold do_start in E2.
    match type of E2 with context [fill n ?f ?out] => destruct (fill n f out) as [r|] eqn:Er; [|discriminate] end.
    match type of E2 with context [fill n ?f (g_p c)] => destruct (fill n f (g_p c)) as [p|] eqn:Ep; [|discriminate] end.
    destruct (nnan (nrm b)); injection E2 as <- <- <- <-; [destruct S; discriminate|]. auto.
  Qed.

  Lemma linkA_bound : forall k c, 0 <= k -> linkA k c -> k <= n.
  Proof.
    intros k c Hk (P & R & rz & C & _).
    apply (conj_bound O L DL one_neq n Hn A P k SA); [apply (ch_pq _ _ _ _ _ _ _ _ C)|].
    apply (conjugate O L DL n A M SA SM P R rz k Hk C).
  Qed.

  Lemma reach_link : forall c o k st jb c' o', fresh n c o -> id_if_none c ->
    reaches c o k st jb c' o' -> st = success \/ st = maxit ->
    link c' /\ g_task c' <> t_start /\ (g_task c' = t_check_conv -> o_iter o' = g_niter c').
  Proof.
    intros c o k st jb c' o' F ID R. induction R as [jb0 st jb c' o' E | k st jb c1 o1 c2 jb2 st' jb' c' o' R IH NS Sv E].
    - intros S. destruct (first_link _ _ _ _ _ _ _ F E S) as (_ & TK). unfold link. rewrite TK. repeat split; discriminate.
    - intros S. pose proof (reaches_post O L npos nle nmul nnan n0 nrm negz rz1 A n b prec Hn Hb _ _ _ _ _ _ _ F R) as P.
      destruct P as [(Q & _) | (-> & _ & I & _)]; [congruence|].
      destruct (IH (or_introl eq_refl)) as (LK & _).
      destruct Sv as [(-> & Sv) | (-> & Sv)].
      + exact (rci_link c jb jb c1 c2 o1 st' jb' c' o' ID I LK Sv (or_introl eq_refl) E S).
      + destruct (interrupt_ok O npos nle nmul nnan n0 nrm negz rz1 A n b prec c jb c1 c2 o1 I Sv) as (E' & _).
        rewrite E in E'. injection E' as -> _ _ _. destruct S; discriminate.
  Qed.

  (** A stop with success or at the limit comes from the convergence check *)
  Lemma stop_check : forall c o k st c' o', fresh n c o -> reaches c o k st j_stop c' o' -> st = success \/ st = maxit -> g_task c' = t_check_conv.
  Proof.
    intros c o k st c' o' F R S. clear Hb. inversion R as [jb0 st1 jb1 c1 o1 E | k1 st1 jb1 c1 o1 c2 jb2 st2 jb3 c3 o3 R1 NS Sv E]; subst.
    - exfalso. rewrite rci_wrap in E. destruct (cgrci c o jb0) as [[[[st0 jbx] c2] o2]|] eqn:E1; [|discriminate]. cbn in E. injection E as -> E0 <- <-.
      assert (E2 : do_start O nmul nnan n0 nrm n b c o jb0 = Some (st, jbx, c2, o2)).
      { unfold cg_rci in E1. destruct F as (TK0 & _). rewrite TK0 in E1. destruct jb0; exact E1. }
      unfold do_start in E2. repeat match type of E2 with context [match ?x with _ => _ end] => destruct x; try discriminate end;
      injection E2 as <- <- _ _; destruct S; discriminate.
    - rewrite rci_wrap in E. destruct (cgrci c2 o1 jb2) as [[[[st0 jbx] c4] o4]|] eqn:E1; [|discriminate]. cbn in E. injection E as -> E0 <- <-.
      assert (H : jbx = j_stop \/ st = maxit) by (destruct S as [-> | ->]; [left; exact E0|right; reflexivity]).
      unfold cg_rci, do_start, do_init_res, do_start_iter, do_beta, do_take_step, do_check in E1.
      repeat match type of E1 with
        | context [match ?x with _ => _ end] => destruct x eqn:?; try discriminate
        end; injection E1 as <- <- <- <-;
      try (destruct S; discriminate); try (destruct H; discriminate); try reflexivity; try assumption.
  Qed.

  (** The number of iterations completed never exceeds the size of the system *)
  Theorem finite : forall c o k st jb c' o', fresh n c o -> id_if_none c ->
    reaches c o k st jb c' o' -> jb = j_monitor \/ (jb = j_stop /\ (st = success \/ st = maxit)) -> o_iter o' <= n.
  Proof.
    intros c o k st jb c' o' F ID R HJ. pose proof (reach_link _ _ _ _ _ _ _ F ID R) as X.
    pose proof (reaches_post O L npos nle nmul nnan n0 nrm negz rz1 A n b prec Hn Hb _ _ _ _ _ _ _ F R) as P.
    destruct HJ as [-> | (-> & S)].
    - destruct P as [(Q & _) | (-> & _ & (Hl & So & H0 & I) & _)]; [discriminate|].
      destruct (X (or_introl eq_refl)) as (LK & N1 & N2). unfold link in LK.
      destruct (g_task c') eqn:TK; try (exfalso; destruct I as (Q & _); discriminate); try contradiction.
      destruct I as (_ & _ & _ & (_ & _ & _ & G4 & _) & _). rewrite G4. apply (linkA_bound _ c' H0 LK).
    - destruct P as [(_ & Q1 & Q2 & Q3 & Q) | (_ & Q & _)]; [|congruence].
      destruct (X S) as (LK & N1 & N2). pose proof (stop_check _ _ _ _ _ _ F R S) as ST.
      unfold link in LK. rewrite ST in LK. rewrite (N2 ST). apply (linkA_bound _ c'); [rewrite <- (N2 ST); exact Q3|exact LK].
  Qed.

  (** While it runs, so does the number of calls *)
  Theorem finite_calls : forall c o k st jb c' o', fresh n c o -> id_if_none c ->
    reaches c o k st jb c' o' -> jb <> j_stop -> Z.of_nat k <= 3 * n + 4.
  Proof.
    intros c o k st jb c' o' F ID R NJ. pose proof (reach_link _ _ _ _ _ _ _ F ID R) as X.
    pose proof (reaches_post O L npos nle nmul nnan n0 nrm negz rz1 A n b prec Hn Hb _ _ _ _ _ _ _ F R) as P.
    destruct P as [(Q & _) | (-> & _ & (Hl & So & H0 & I) & Rk)]; [congruence|].
    destruct (X (or_introl eq_refl)) as (LK & N1 & N2). unfold link in LK. unfold rank in Rk.
    destruct (g_task c') eqn:TK; try contradiction.
    - lia.
    - pose proof (linkA_bound _ c' H0 LK). lia.
    - pose proof (linkA_bound (g_niter c' - 1) c' ltac:(lia) LK). lia.
    - destruct LK as (P & R0 & rz & C & _). destruct I as (_ & _ & _ & _ & I1 & _).
      assert (g_niter c' - 1 <= n); [|lia].
      apply (conj_bound O L DL one_neq n Hn A P _ SA); [apply (ch_pq _ _ _ _ _ _ _ _ C)|].
      apply (conjugate O L DL n A M SA SM P R0 rz (g_niter c' - 1) ltac:(lia) C).
  Qed.
End LK.
