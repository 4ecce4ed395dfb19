From Coq Require Import ZArith List Bool Lia Ring ZifyBool.
From Verif Require Import Base BaseFacts Algebra CgModel CgSpec.
Import ListNotations.
Open Scope Z_scope.

Section Loops.
  Context {T : Type} (O : ops T) (L : laws O).
  Let rth := l_ring L.
  Add Ring RingL : rth.
  Notation "l .[ i ]" := (nthZ (o0 O) l i) (at level 2, format "l .[ i ]").

  Lemma fill_ok : forall n f (g : Z -> T) out, 0 <= n -> n <= zlen out ->
    (forall i, 0 <= i < n -> f i = Some (g i)) ->
    exists l, fill n f out = Some l /\ zlen l = zlen out /\ forall i, 0 <= i < n -> l.[i] = g i.
  Proof.
    intros n f g out Hn Hl Hf. unfold fill.
    match goal with |- context [for_ ?lo ?hi ?f ?s] =>
      destruct (for_inv _ (fun k l => zlen l = zlen out /\ forall i, 0 <= i < k -> l.[i] = g i) lo hi f s) as (l & E & R1 & R2) end.
    - lia.
    - split; [reflexivity|]. intros; lia.
    - intros i s Hi (Z1 & H). rewrite Hf by lia. eexists. split; [apply wr_upd; lia|].
      split; [rewrite zlen_upd; exact Z1|]. intros k Hk. rewrite nthZ_upd by lia.
      destruct (Z.eqb_spec k i); [subst; reflexivity|]. apply H; lia.
    - exists l. auto.
  Qed.

  Lemma dot_ok : forall n a b, 0 <= n -> n <= zlen a -> n <= zlen b ->
    dot O n a b = Some (sumz O 0 n (fun i => omul O a.[i] b.[i])).
  Proof.
    intros n a b Hn Ha Hb. unfold dot.
    match goal with |- context [for_ ?lo ?hi ?f ?s] =>
      destruct (for_inv _ (fun k v => v = sumz O 0 k (fun i => omul O a.[i] b.[i])) lo hi f s) as (l & E & R1) end.
    - lia.
    - rewrite sumz_nil by lia. reflexivity.
    - intros i s Hi ->. rewrite !(rd_nthZ _ (o0 O)) by lia. eexists. split; [reflexivity|].
      rewrite sumz_last by (try exact L; lia). reflexivity.
    - rewrite E, R1. reflexivity.
  Qed.
End Loops.

Section CG.
  Context {T N : Type} (O : ops T) (L : laws O).
  Context (npos : N -> bool) (nle : N -> N -> bool) (nmul : N -> N -> N) (nnan : N -> bool) (n0 : N).
  Context (nrm : list T -> N) (negz : T -> bool) (rz1 : T).
  Context (A : Z -> Z -> T) (n : Z) (b : list T) (prec : list T -> list T -> Prop).
  Context (Hn : 0 <= n) (Hb : zlen b = n).
  Let rth := l_ring L.
  Add Ring RingC : rth.
  Notation "l .[ i ]" := (nthZ (o0 O) l i) (at level 2, format "l .[ i ]").
  Notation times := (times O A n).
  Notation product := (product O A n).
  Notation residual := (residual O A n b).
  Notation rci := (rci_solve O npos nle nmul nnan n0 nrm negz rz1 n b).
  Notation cgrci := (cg_rci O npos nle nmul nnan n0 nrm negz rz1 n b).
  Notation reaches := (reaches O npos nle nmul nnan n0 nrm negz rz1 A n b prec).
  Notation converged := (converged npos nle nmul nrm b).

  Definition lens (c : cg T N) (o : io T N) : Prop :=
    zlen (g_r c) = n /\ zlen (g_z c) = n /\ zlen (g_p c) = n /\ zlen (g_q c) = n /\ zlen (o_x o) = n.
  Definition same_opts (c0 c : cg T N) : Prop :=
    g_rtol c = g_rtol c0 /\ g_atol c = g_atol c0 /\ g_maxit c = g_maxit c0 /\ g_precond c = g_precond c0.

  (** Position of a call in the sequence *)
  Definition rank (c : cg T N) : Z :=
    match g_task c with
    | t_start => 0 | t_init_res => 1 | t_check_conv => 0
    | t_start_iter => 2 + 3 * g_niter c
    | t_compute_beta => 3 * g_niter c
    | t_take_step => 3 * g_niter c + 1
    end.

  Definition good (c : cg T N) (o : io T N) : Prop :=
    residual (g_r c) (o_x o) /\ g_rnorm c = nrm (g_r c) /\ o_res o = nrm (g_r c) /\ o_iter o = g_niter c /\
    g_brtol c = nmul (g_rtol c) (nrm b) /\ nnan (nrm (g_r c)) = false /\ o_rhs o = nrm b.

  Definition inv (c0 : cg T N) (jb : job) (c : cg T N) (o : io T N) : Prop :=
    lens c o /\ same_opts c0 c /\ 0 <= g_niter c /\
    match g_task c with
    | t_init_res => jb = j_mv /\ o_u o = b_p /\ o_v o = b_q /\ g_niter c = 0 /\ o_iter o = 0 /\
        (forall i, 0 <= i < n -> (g_r c).[i] = oopp O b.[i]) /\
        (forall i, 0 <= i < n -> (g_p c).[i] = (o_x o).[i]) /\ g_brtol c = nmul (g_rtol c) (nrm b) /\ o_rhs o = nrm b
    | t_start_iter => jb = j_monitor /\ o_u o = b_r /\ o_v o = b_null /\ good c o /\ ~ converged c0 (g_r c) /\
        (0 < g_maxit c0 -> g_niter c <= g_maxit c0)
    | t_compute_beta => jb = j_precond /\ o_u o = b_r /\ o_v o = b_z /\ good c o /\ g_precond c0 <> 0 /\ 1 <= g_niter c /\
        (0 < g_maxit c0 -> g_niter c <= g_maxit c0 + 1)
    | t_take_step => jb = j_mv /\ o_u o = b_p /\ o_v o = b_q /\ good c o /\ 1 <= g_niter c /\
        (0 < g_maxit c0 -> g_niter c <= g_maxit c0 + 1)
    | t_start | t_check_conv => False
    end.

  (** After a stop *)
  Definition stopped (c0 : cg T N) (st : status) (c : cg T N) (o : io T N) : Prop :=
    zlen (o_x o) = n /\ (0 < g_maxit c0 -> o_iter o <= g_maxit c0 + 1) /\ 0 <= o_iter o /\
    match st with
    | success => good c o /\ o_u o = b_r /\ converged c0 (g_r c)
    | maxit => good c o /\ o_u o = b_r /\ ~ converged c0 (g_r c) /\ 0 < g_maxit c0 /\ o_iter o = g_maxit c0 + 1
    | user_stop => True
    | numerical_error | invalid_value => True
    | _ => False
    end.

  Definition post (c0 : cg T N) (rk : Z) (r : status * job * cg T N * io T N) : Prop :=
    let '(st, jb, c, o) := r in
    (jb = j_stop /\ stopped c0 st c o) \/ (st = success /\ jb <> j_stop /\ inv c0 jb c o /\ rk < rank c).

  Lemma check_post : forall c0 c o rk, lens c o -> same_opts c0 c -> 0 <= g_niter c -> good c o ->
    (0 < g_maxit c0 -> g_niter c <= g_maxit c0 + 1) -> rk < 2 + 3 * g_niter c ->
    post c0 rk (do_check npos nle c o).
  Proof.
    intros c0 c o rk Hl (S1 & S2 & S3 & S4) H0 G Hm Hr. pose proof G as (G1 & G2 & G3 & G4 & G5 & G6 & G7).
    unfold do_check. cbn [uv]. destruct Hl as (L1 & L2 & L3 & L4 & L5).
    assert (CV : converged c0 (g_r c) <->
      npos (g_atol c) && nle (g_rnorm c) (g_atol c) = true \/ npos (g_rtol c) && nle (g_rnorm c) (g_brtol c) = true).
    { unfold CgSpec.converged. rewrite G5, G2, S1, S2, !andb_true_iff. reflexivity. }
    destruct (npos (g_atol c) && nle (g_rnorm c) (g_atol c)) eqn:C1;
      [left; split; [reflexivity|]; repeat split; cbn; auto; try tauto; try lia; try apply G1|].
    destruct (npos (g_rtol c) && nle (g_rnorm c) (g_brtol c)) eqn:C2;
      [left; split; [reflexivity|]; repeat split; cbn; auto; try tauto; try lia; try apply G1|].
    assert (NC : ~ converged c0 (g_r c)) by (rewrite CV; intros [X | X]; discriminate).
    destruct ((0 <? g_maxit c) && (g_maxit c <? g_niter c)) eqn:C3.
    - left. split; [reflexivity|]. assert (g_niter c = g_maxit c0 + 1) by (clear - C3 S3 Hm; apply andb_true_iff in C3; destruct C3 as (X1 & X2); apply Z.ltb_lt in X1; apply Z.ltb_lt in X2; rewrite S3 in *; specialize (Hm X1); lia).
      repeat split; cbn; auto; try tauto; try lia; try apply G1.
    - right. split; [reflexivity|]. split; [discriminate|]. split; [|unfold rank, with_task; cbn [g_task g_niter]; lia].
      repeat split; cbn; auto; try tauto; try lia; try apply G1.
  Qed.

  Lemma times_ext : forall x y i, (forall j, 0 <= j < n -> x.[j] = y.[j]) -> times x i = times y i.
  Proof. intros x y i H. unfold CgSpec.times. apply sumz_ext. intros k Hk. rewrite H by lia. reflexivity. Qed.

  Lemma times_axpy : forall a x p x' i, (forall j, 0 <= j < n -> x'.[j] = oadd O x.[j] (omul O a p.[j])) ->
    times x' i = oadd O (times x i) (omul O a (times p i)).
  Proof.
    intros a x p x' i H. unfold CgSpec.times. rewrite <- (sumz_mul_l O L), <- (sumz_add O L). apply sumz_ext.
    intros k Hk. rewrite H by lia. ring.
  Qed.

  Lemma beta_post : forall c0 c o rk jb, lens c o -> same_opts c0 c -> good c o -> 1 <= g_niter c ->
    (0 < g_maxit c0 -> g_niter c <= g_maxit c0 + 1) -> rk < 3 * g_niter c + 1 ->
    exists r, do_beta O negz n c o jb = Some r /\
      match r with (st, jb', c', o') => (st <> success /\ c' = c /\ o' = o /\ st = numerical_error) \/ post c0 rk r end.
  Proof.
    intros c0 c o rk jb Hl So G H1 Hm Hr. pose proof Hl as (L1 & L2 & L3 & L4 & L5).
    unfold do_beta. rewrite (dot_ok O L) by lia.
    destruct (negz (g_rz c)); [eexists; split; [reflexivity|]; left; repeat split; discriminate|].
    match goal with |- context [fill n ?f ?out] =>
      destruct (fill_ok O n f (fun i => osub O (omul O (odiv O (sumz O 0 n (fun i => omul O (g_r c).[i] (g_z c).[i])) (g_rz c)) (g_p c).[i]) (g_z c).[i]) out Hn ltac:(lia)) as (p & E & Zp & Vp) end.
    { intros i Hi. rewrite !(rd_nthZ _ (o0 O)) by lia. reflexivity. }
    rewrite E. eexists. split; [reflexivity|]. right. right.
    split; [reflexivity|]. split; [discriminate|]. split; [|unfold rank, with_task; cbn [g_task g_niter]; lia].
    destruct G as (G1 & G2 & G3 & G4 & G5 & G6 & G7). destruct So as (S1 & S2 & S3 & S4).
    repeat split; cbn; auto; try lia; apply G1.
  Qed.

  Definition wrap (r : status * job * cg T N * io T N) : status * job * cg T N * io T N :=
    let '(st, jb, c, o) := r in (st, match st with success => jb | _ => j_stop end, c, o).
  Lemma rci_wrap : forall c o jb, rci c o jb = match cgrci c o jb with Some r => Some (wrap r) | None => None end.
  Proof. intros c o jb. unfold rci_solve. destruct (cgrci c o jb) as [[[[st jb'] c'] o']|]; [destruct st; reflexivity|reflexivity]. Qed.
  Lemma wrap_post : forall c0 rk r, post c0 rk r -> post c0 rk (wrap r).
  Proof.
    intros c0 rk [[[st jb] c] o] P. unfold post in P. destruct P as [(-> & P) | (-> & P)]; [left|right; exact (conj eq_refl P)].
    destruct st; exact (conj eq_refl P).
  Qed.

  Lemma rci_ok : forall c0 jb jb1 c c1 o, inv c0 jb c o -> served O A n prec o c jb c1 -> (jb1 = jb \/ jb1 = j_interrupt) ->
    exists r, rci c1 o jb1 = Some r /\ post c0 (rank c) r.
  Proof.
    intros c0 jb jb1 c c1 o (Hl & So & H0 & I) Sv Hj. pose proof Hl as (L1 & L2 & L3 & L4 & L5).
    assert (US : forall t, g_task c1 = t -> t <> t_start -> jb1 = j_interrupt -> 0 <= o_iter o -> (0 < g_maxit c0 -> o_iter o <= g_maxit c0 + 1) ->
      exists r, rci c1 o jb1 = Some r /\ post c0 (rank c) r).
    { intros t Ht Nt -> Q1 Q2. unfold rci_solve, cg_rci. rewrite Ht.
      destruct t; try congruence; (eexists; split; [reflexivity|]; left; split; [reflexivity|]; repeat split; auto). }
    unfold rank. destruct (g_task c) eqn:TK; try contradiction.
    - (* initial residual *)
      destruct I as (-> & Eu & Ev & I0 & Ii & Ir & Ip & Ib & Irh).
      inversion Sv as [u w Hu (Lw & Hw) E1 E2| |]; subst c1. rewrite Eu in Hu. cbn in Hu. injection Hu as <-.
      rewrite Ev in *. destruct Hj as [-> | ->]; [|unfold rank in US; rewrite TK in US; apply (US t_init_res); cbn; auto; try discriminate; lia].
      rewrite rci_wrap. unfold cg_rci. cbn [set_buf g_task]. rewrite TK. unfold do_init_res. cbn [g_r g_q g_p].
      match goal with |- context [fill n ?f ?out] =>
        destruct (fill_ok O n f (fun i => oadd O (g_r c).[i] w.[i]) out Hn ltac:(lia)) as (r & Er & Zr & Vr) end.
      { intros i Hi. rewrite !(rd_nthZ _ (o0 O)) by lia. reflexivity. }
      rewrite Er.
      assert (RS : residual r (o_x o)).
      { split; [lia|]. intros i Hi. rewrite Vr, Hw, Ir by lia. rewrite (times_ext (g_p c) (o_x o)) by auto. ring. }
      destruct (nnan (nrm r)) eqn:Na.
      { eexists. split; [reflexivity|]. left. split; [reflexivity|]. repeat split; cbn; auto; lia. }
      match goal with |- context [fill n ?f ?out] =>
        destruct (fill_ok O n f (fun i => o0 O) out Hn ltac:(lia)) as (p & Ep & Zp & Vp) end; [reflexivity|].
      rewrite Ep.
      eexists. split; [reflexivity|]. apply wrap_post. destruct So as (S1 & S2 & S3 & S4).
      apply check_post; [repeat split; cbn; lia|repeat split; cbn; assumption|exact H0| |cbn [g_niter]; lia|cbn [g_niter]; lia].
      split; [exact RS|]. repeat split; cbn; auto. congruence.
    - (* new iteration *)
      destruct I as (-> & Eu & Ev & G & NC & Im). pose proof G as (G1 & G2 & G3 & G4 & G5 & G6 & G7).
      inversion Sv; subst c1.
      destruct Hj as [-> | ->]; [|unfold rank in US; rewrite TK in US; apply (US t_start_iter); auto; try discriminate; try lia].
      rewrite rci_wrap. unfold cg_rci. rewrite TK. unfold do_start_iter. cbn [g_precond g_r g_z]. destruct (g_precond c =? 0) eqn:PC.
      + match goal with |- context [fill n ?f ?out] =>
          destruct (fill_ok O n f (fun i => (g_r c).[i]) out Hn ltac:(lia)) as (z & Ez & Zz & Vz) end.
        { intros i Hi. apply (rd_nthZ _ (o0 O)); lia. }
        cbn [g_r] in Ez. rewrite Ez.
        match goal with |- context [do_beta O negz n ?c' ?o' ?j] =>
          destruct (beta_post c0 c' o' (2 + 3 * g_niter c) j) as ((((st, jb'), c''), o'') & E & P) end.
        { repeat split; cbn; auto; lia. }
        { exact So. }
        { repeat split; cbn; auto; apply G1. }
        { cbn [g_niter g_maxit set_buf]; lia. }
        { cbn [g_niter g_maxit set_buf]; lia. }
        { cbn [g_niter g_maxit set_buf]; lia. }
        cbn [g_precond g_r g_z g_p g_q g_alpha g_rz g_beta g_rnorm g_bnorm g_brtol g_rtol g_atol g_maxit] in E |- *. rewrite E.
        eexists. split; [reflexivity|].
        destruct P as [(Ns & -> & -> & ->) | P].
        * left. split; [reflexivity|]. repeat split; cbn; auto; lia.
        * apply wrap_post. exact P.
      + eexists. split; [reflexivity|]. right. split; [reflexivity|]. split; [discriminate|].
        destruct So as (S1 & S2 & S3 & S4).
        split; [|unfold rank, with_task; cbn [g_task g_niter]; lia]. repeat split; cbn; auto; try lia; apply G1.
    - (* direction *)
      destruct I as (-> & Eu & Ev & G & NP & I1 & Im). pose proof G as (G1 & G2 & G3 & G4 & G5 & G6 & G7).
      inversion Sv as [|u w Hu Lw Pw E1 E2|]; subst c1. rewrite Ev in *.
      destruct Hj as [-> | ->]; [|unfold rank in US; rewrite TK in US; apply (US t_compute_beta); cbn; auto; try discriminate; try lia].
      rewrite rci_wrap. unfold cg_rci. cbn [set_buf g_task]. rewrite TK.
      match goal with |- context [do_beta O negz n ?c' ?o' ?j] =>
        destruct (beta_post c0 c' o' (3 * g_niter c) j) as ((((st, jb'), c''), o'') & E & P) end.
      { repeat split; cbn; auto; lia. }
      { exact So. }
      { exact G. }
      { cbn [g_niter g_maxit set_buf]; lia. }
      { cbn [g_niter g_maxit set_buf]; lia. }
      { cbn [g_niter g_maxit set_buf]; lia. }
      rewrite E. eexists. split; [reflexivity|].
      destruct P as [(Ns & -> & -> & ->) | P].
      + left. split; [reflexivity|]. repeat split; cbn; auto; lia.
      + apply wrap_post. exact P.
    - (* step *)
      destruct I as (-> & Eu & Ev & G & I1 & Im). pose proof G as (G1 & G2 & G3 & G4 & G5 & G6 & G7).
      inversion Sv as [u w Hu (Lw & Hw) E1 E2| |]; subst c1. rewrite Eu in Hu. cbn in Hu. injection Hu as <-.
      rewrite Ev in *.
      destruct Hj as [-> | ->]; [|unfold rank in US; rewrite TK in US; apply (US t_take_step); cbn; auto; try discriminate; try lia].
      rewrite rci_wrap. unfold cg_rci. cbn [set_buf g_task]. rewrite TK. unfold do_take_step. cbn [g_r g_q g_p g_rz g_z g_task].
      rewrite (dot_ok O L) by lia.
      set (pq := sumz O 0 n _).
      destruct (negz pq || oeqb O pq (o0 O)).
      { eexists. split; [reflexivity|]. left. split; [reflexivity|]. repeat split; cbn; auto; lia. }
      set (alpha := odiv O (g_rz c) pq).
      match goal with |- context [fill n ?f (o_x o)] =>
        destruct (fill_ok O n f (fun i => oadd O (o_x o).[i] (omul O alpha (g_p c).[i])) (o_x o) Hn ltac:(lia)) as (x & Ex & Zx & Vx) end.
      { intros i Hi. rewrite !(rd_nthZ _ (o0 O)) by lia. reflexivity. }
      rewrite Ex.
      match goal with |- context [fill n ?f (g_r c)] =>
        destruct (fill_ok O n f (fun i => oadd O (g_r c).[i] (omul O alpha w.[i])) (g_r c) Hn ltac:(lia)) as (r & Er & Zr & Vr) end.
      { intros i Hi. rewrite !(rd_nthZ _ (o0 O)) by lia. reflexivity. }
      rewrite Er.
      assert (RS : residual r x).
      { split; [lia|]. intros i Hi. rewrite Vr, Hw by lia. destruct G1 as (_ & G1). rewrite G1 by lia.
        rewrite (times_axpy alpha (o_x o) (g_p c) x) by exact Vx. ring. }
      destruct (nnan (nrm r)) eqn:Na.
      { eexists. split; [reflexivity|]. left. split; [reflexivity|]. repeat split; cbn; auto; lia. }
      eexists. split; [reflexivity|]. apply wrap_post. destruct So as (S1 & S2 & S3 & S4).
      apply check_post; [repeat split; cbn; lia|repeat split; cbn; assumption|exact H0| |cbn [g_niter]; lia|cbn [g_niter]; lia].
      split; [exact RS|]. repeat split; cbn; auto.
  Qed.

  Lemma interrupt_ok : forall c0 jb c c1 o, inv c0 jb c o -> interrupted n o c c1 ->
    rci c1 o j_interrupt = Some (user_stop, j_stop, c1, o) /\ stopped c0 user_stop c1 o.
  Proof.
    intros c0 jb c c1 o (Hl & So & H0 & I) Sv. pose proof Hl as (L1 & L2 & L3 & L4 & L5).
    assert (TK1 : g_task c1 = g_task c) by (destruct Sv as [-> | (w & _ & ->)]; [reflexivity|destruct (o_v o); reflexivity]).
    assert (IT : 0 <= o_iter o /\ (0 < g_maxit c0 -> o_iter o <= g_maxit c0 + 1)).
    { destruct (g_task c); try contradiction.
      - destruct I as (_ & _ & _ & _ & -> & _). lia.
      - destruct I as (_ & _ & _ & (_ & _ & _ & -> & _) & _ & Im). lia.
      - destruct I as (_ & _ & _ & (_ & _ & _ & -> & _) & _ & _ & Im). lia.
      - destruct I as (_ & _ & _ & (_ & _ & _ & -> & _) & _ & Im). lia. }
    split.
    - unfold rci_solve, cg_rci. rewrite TK1. destruct (g_task c); try contradiction; reflexivity.
    - repeat split; try apply IT. lia.
  Qed.

  (** One more call, whatever the user answers *)
  Lemma next_ok : forall c0 jb c o c1 jb1, inv c0 jb c o -> answered O A n prec o c jb c1 jb1 ->
    exists r, rci c1 o jb1 = Some r /\ post c0 (rank c) r.
  Proof.
    intros c0 jb c o c1 jb1 I [(-> & Sv) | (-> & Sv)]; [apply (rci_ok c0 jb jb c c1 o I Sv); auto|].
    destruct (interrupt_ok _ _ _ _ _ I Sv) as (E & S). rewrite E. eexists. split; [reflexivity|]. left. auto.
  Qed.

  Lemma first_ok : forall c o jb, fresh n c o -> exists r, rci c o jb = Some r /\ post c 0 r.
  Proof.
    intros c o jb (TK & L1 & L2 & L3 & L4 & L5).
    assert (E0 : rci c o jb = (let* (st, jb, c, o) := do_start O nmul nnan n0 nrm n b c o jb in Some (match st with success => (st, jb, c, o) | _ => (st, j_stop, c, o) end))).
    { unfold rci_solve, cg_rci. rewrite TK. destruct jb; reflexivity. }
    rewrite E0. unfold do_start.
    match goal with |- context [fill n ?f (g_r c)] =>
      destruct (fill_ok O n f (fun i => oopp O b.[i]) (g_r c) Hn ltac:(lia)) as (r & Er & Zr & Vr) end.
    { intros i Hi. rewrite !(rd_nthZ _ (o0 O)) by lia. reflexivity. }
    rewrite Er.
    match goal with |- context [fill n ?f (g_p c)] =>
      destruct (fill_ok O n f (fun i => (o_x o).[i]) (g_p c) Hn ltac:(lia)) as (p & Ep & Zp & Vp) end.
    { intros i Hi. rewrite !(rd_nthZ _ (o0 O)) by lia. reflexivity. }
    rewrite Ep. destruct (nnan (nrm b)).
    - eexists. split; [reflexivity|]. left. split; [reflexivity|]. repeat split; cbn; auto; lia.
    - eexists. split; [reflexivity|]. right. split; [reflexivity|]. split; [discriminate|].
      split; [|unfold rank, with_task; cbn [g_task g_niter]; lia]. repeat split; cbn; auto; lia.
  Qed.

  Theorem reaches_post : forall c o k st jb c' o', fresh n c o -> reaches c o k st jb c' o' -> post c (Z.of_nat k - 1) (st, jb, c', o').
  Proof.
    intros c o k st jb c' o' F R. induction R as [jb0 st jb c' o' E | k st jb c1 o1 c2 jb2 st' jb' c' o' R IH NS Sv E].
    - destruct (first_ok c o jb0 F) as (r & E' & P). rewrite E in E'. injection E' as <-. exact P.
    - destruct IH as [(X & _) | (_ & _ & I & Rk)]; [congruence|].
      destruct (next_ok c jb c1 o1 c2 jb2 I Sv) as (r & E' & P). rewrite E in E'. injection E' as <-.
      destruct P as [P | (P1 & P2 & P3 & P4)]; [left; exact P|right]. repeat (split; [assumption|]). lia.
  Qed.
End CG.
