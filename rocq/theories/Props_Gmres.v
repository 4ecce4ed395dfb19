(** C54: the GMRES solver *)
From Coq Require Import ZArith List Bool Lia Reals Lra Floats.SpecFloat QArith Qcanon.
From Coq Require Import ZifyBool ZifyNat.
From Verif Require Import Base BaseFacts Algebra Float64 CgModel CgSpec GmresModel GmresSpec GmresAlg GmresLoops GmresCycle GmresProof GmresRun GmresReal.
Import ListNotations.
Open Scope Z_scope.

(** ** Any arithmetic, rounded or not *)

(** Every call of a run whose requests are answered is defined: no array is accessed outside
    its bounds, whatever the matrix, the preconditioner and the numbers are; x keeps its size *)
Theorem C54_defined : forall T (O : ops T) e p A n b w o, 0 <= n -> zlen b = n -> 0 < p_restart p -> gfresh p n w o ->
  (forall jb, exists w' o', grci_solve O e p n b w o jb = Some (success, j_mv, w', o')) /\
  (forall k st jb w1 o1, greaches O e p A n b w o k st jb w1 o1 -> zlen (i_x o1) = n /\
     (jb <> j_stop -> st = success /\ forall w2 jb2, ganswer O A n w1 o1 jb w2 jb2 -> exists r, grci_solve O e p n b w2 o1 jb2 = Some r)).
Proof.
  intros T O e p A n b w o Hn Hb Hm F. split.
  - intros jb. destruct (first_ok O e p A n b (i_x o) w o jb F eq_refl) as (w' & o' & E & _). exists w', o'. exact E.
  - intros k st jb w1 o1 R. destruct (greaches_ok O e p A n b (i_x o) Hn Hb Hm w o k st jb w1 o1 F eq_refl R) as (Zx & I & _). split; [exact Zx|].
    intros NS. destruct (I NS) as (-> & I1). split; [reflexivity|]. intros w2 jb2 An. destruct (step_ok O e p A n b (i_x o) Hn Hb Hm _ _ _ _ _ _ I1 An) as (st & jb' & w' & o' & E & _).
    eexists. exact E.
Qed.
Print Assumptions C54_defined.

(** The iteration limit bounds every run, also one that never converges: at most
    (2 restart + 2) limit + 1 calls, and the counter reported when the solver stops or asks to
    be monitored exceeds the limit by less than the length of a restart cycle.
    Missing (refuted below): the counter does not exceed the limit. *)
Theorem C54_limit_partial : forall T (O : ops T) e p A n b w o, 0 <= n -> zlen b = n -> 0 < p_restart p -> gfresh p n w o -> 0 < p_maxit p ->
  forall k st jb w1 o1, greaches O e p A n b w o k st jb w1 o1 ->
  Z.of_nat k <= (2 * p_restart p + 2) * p_maxit p + 1 /\
  (jb = j_monitor \/ st = maxit \/ jb = j_stop /\ st = success -> i_iter o1 <= p_maxit p + p_restart p - 1).
Proof.
  intros T O e p A n b w o Hn Hb Hm F Hl k st jb w1 o1 R.
  assert (B : forall k jb w1 o1, ginv O e p A n b (i_x o) k jb w1 o1 -> k <= (2 * p_restart p + 2) * p_maxit p /\ (jb = j_monitor -> i_iter o1 <= p_maxit p + p_restart p - 1)).
  { clear - Hm Hl. intros k jb w1 o1 (_ & c & Hc & En & I). destruct jb; try contradiction.
    - destruct I as (G & D). unfold going in G. assert (c < p_maxit p) by (destruct (Z.le_gt_cases (p_maxit p) c); [exfalso; nia|assumption]). split; [|discriminate].
      destruct D as [(_ & _ & _ & _ & K & _) | (_ & J & _ & _ & _ & _ & K & _)]; nia.
    - destruct I as (G & _ & _ & J & _ & _ & _ & _ & K & _). unfold going in G. assert (c < p_maxit p) by (destruct (Z.le_gt_cases (p_maxit p) c); [exfalso; nia|assumption]). split; [nia|discriminate].
    - destruct I as (_ & _ & _ & K & Ei & _ & _ & G & _). assert (c <= p_maxit p) by (destruct (Z.le_gt_cases c (p_maxit p)); [assumption|exfalso; nia]). split; [nia|]. intros _. rewrite Ei. apply G. exact Hl. }
  destruct (greaches_ok O e p A n b (i_x o) Hn Hb Hm w o k st jb w1 o1 F eq_refl R) as (_ & I & St).
  assert (D : jb = j_stop \/ jb <> j_stop) by (destruct jb; auto; right; discriminate). destruct D as [D|D].
  - destruct (St D) as (k1 & st1 & jb1 & w0 & o0 & w2 & jb2 & -> & R1 & N1 & _ & Q). destruct (greaches_ok O e p A n b (i_x o) Hn Hb Hm w o k1 st1 jb1 w0 o0 F eq_refl R1) as (_ & I1 & _).
    destruct (I1 N1) as (_ & I2). destruct (B _ _ _ _ I2) as (K & _). split; [lia|]. subst jb. intros [C|[C|(_ & C)]]; [discriminate| |]; subst st; cbn in Q; [|apply Q; exact Hl]. tauto.
  - destruct (I D) as (-> & I2). destruct (B _ _ _ _ I2) as (K & M). split; [lia|]. intros [C|[C|(C & _)]]; [apply M; exact C|discriminate|contradiction].
Qed.
Print Assumptions C54_limit_partial.

(** The ways a solve ends: the request answered last, and whether x changed since.  A request
    to stop is obeyed at once and changes nothing; it is the only cause of user_stop. *)
Theorem C54_statuses : forall T (O : ops T) e p A n b w o, 0 <= n -> zlen b = n -> 0 < p_restart p -> gfresh p n w o ->
  forall k st1 jb1 w1 o1 w2 jb2 st jb w' o', greaches O e p A n b w o k st1 jb1 w1 o1 -> jb1 <> j_stop -> ganswer O A n w1 o1 jb1 w2 jb2 ->
  grci_solve O e p n b w2 o1 jb2 = Some (st, jb, w', o') ->
  (jb2 = j_interrupt -> st = user_stop /\ jb = j_stop /\ o' = o1) /\
  (jb <> j_stop -> st = success /\ (jb <> j_monitor -> i_x o' = i_x o1)) /\
  (jb = j_stop -> i_x o' = i_x o1 /\
     ((st = success /\ (jb1 = j_monitor \/ jb1 = j_mv)) \/ (st = maxit /\ jb1 = j_monitor /\ 0 < p_maxit p <= i_iter o') \/
      (st = user_stop /\ jb2 = j_interrupt) \/ (st = numerical_error /\ jb1 = j_mv) \/ (st = invalid_value /\ jb1 = j_mv /\ i_u o1 = p_x))).
Proof.
  intros T O e p A n b w o Hn Hb Hm F k st1 jb1 w1 o1 w2 jb2 st jb w' o' R NS An E.
  destruct (greaches_ok O e p A n b (i_x o) Hn Hb Hm w o k st1 jb1 w1 o1 F eq_refl R) as (_ & I & _). destruct (I NS) as (_ & I1).
  pose proof (stop_now O e p A n b (i_x o) _ _ _ _ _ _ I1 An) as SN.
  destruct (step_ok O e p A n b (i_x o) Hn Hb Hm _ _ _ _ _ _ I1 An) as (st2 & jb3 & w3 & o3 & E' & P). rewrite E in E'. injection E' as <- <- <- <-.
  split; [intros Q; specialize (SN Q); rewrite E in SN; injection SN as -> -> _ ->; auto|].
  destruct P as [(-> & _ & S) | (N & -> & _ & _ & X & _)].
  - split; [congruence|]. intros _. destruct st; try contradiction; cbn in S.
    + destruct S as (_ & _ & X & D & _). split; [exact X|]. left. auto.
    + destruct S as (-> & D & X). auto 10.
    + destruct S as (-> & -> & D & _). auto 10.
    + destruct S as (-> & ->). auto 10.
    + destruct S as (-> & X). auto 10.
  - split; [auto|]. intros Q. contradiction.
Qed.
Print Assumptions C54_statuses.

(** Without a tolerance the first residual ends the solve with invalid_value, x untouched *)
Theorem C54_no_tolerance : forall T (O : ops T) e p A n b w o, gfresh p n w o -> e_nz e (p_atol p) = true -> e_nz e (omul O (p_rtol p) (e_nrm e b)) = true ->
  forall jb w1 o1 w2, grci_solve O e p n b w o jb = Some (success, j_mv, w1, o1) -> gserved O A n w1 o1 j_mv w2 ->
  exists w' o', grci_solve O e p n b w2 o1 j_mv = Some (invalid_value, j_stop, w', o') /\ i_x o' = i_x o.
Proof.
  intros T O e p A n b w o (E1 & _) Ha Hr jb w1 o1 w2 E Sv. unfold grci_solve, gmres_rci in E. rewrite E1 in E. injection E as <- <-.
  inversion Sv as [u a Eu Pr| |]; subst. unfold grci_solve, gmres_rci, do_init_res. cbn -[e_nrm put_row]. rewrite Ha, Hr. cbn [andb].
  destruct (e_nan e (e_nrm e b)); eexists _, _; split; reflexivity.
Qed.
Print Assumptions C54_no_tolerance.

(** ** Real arithmetic *)

Definition Rres A n b x := Rnorm2 (resid Rops A n b x).
Lemma real_EX : forall e p A n b x, real_env e -> (0 < p_atol p \/ 0 < p_rtol p * Rnorm2 b)%R -> Rres A n b x <> 0%R -> EX Rops e p A n b x.
Proof.
  intros e p A n b x He Ha NZ. split; [apply real_exact; exact He|]. split; [|unfold nonzero; rewrite (re_nrm e He); exact NZ].
  destruct Ha as [Ha|Ha]; [left|right]; apply (re_lt e He); [exact Ha|]. unfold brt. cbn. rewrite (re_nrm e He). exact Ha.
Qed.

(** Whenever the solver asks to be monitored, the norm in rinfo[0] is that of the residual
    b - A x of the x it shows; any matrix, any preconditioner, any number of restarts.
    One of the two tolerances is positive (C54_no_tolerance).
    Missing (refuted below): an exact start vector, complex types. *)
Theorem C54_residual_partial : forall e p A n b w o, real_env e -> 0 <= n -> zlen b = n -> 0 < p_restart p -> (0 < p_atol p \/ 0 < p_rtol p * Rnorm2 b)%R -> gfresh p n w o ->
  Rres A n b (i_x o) <> 0%R ->
  forall k st w' o', greaches Rops e p A n b w o k st j_monitor w' o' -> i_res o' = Rres A n b (i_x o').
Proof.
  intros e p A n b w o He Hn Hb Hm Ha F NZ k st w' o' R.
  destruct (greaches_ok Rops e p A n b (i_x o) Hn Hb Hm w o k st j_monitor w' o' F eq_refl R) as (_ & I & _). destruct I as (_ & (_ & c & _ & _ & _ & _ & _ & _ & _ & _ & _ & _ & X)); [discriminate|].
  unfold Rres. rewrite <- (re_nrm e He). apply X. apply real_EX; assumption.
Qed.
Print Assumptions C54_residual_partial.

(** Success after a monitoring step or after the residual of the start of a cycle: rinfo[0]
    is the norm of b - A x and meets a tolerance.
    Missing (refuted below): success when a new direction has a small norm. *)
Theorem C54_converged_partial : forall e p A n b w o, real_env e -> 0 <= n -> zlen b = n -> 0 < p_restart p -> (0 < p_atol p \/ 0 < p_rtol p * Rnorm2 b)%R -> gfresh p n w o ->
  Rres A n b (i_x o) <> 0%R ->
  forall k st1 jb1 w1 o1 w2 jb2 w' o', greaches Rops e p A n b w o k st1 jb1 w1 o1 -> jb1 <> j_stop -> ganswer Rops A n w1 o1 jb1 w2 jb2 ->
  grci_solve Rops e p n b w2 o1 jb2 = Some (success, j_stop, w', o') -> jb1 = j_monitor \/ i_u o1 = p_x ->
  i_res o' = Rres A n b (i_x o') /\ (Rres A n b (i_x o') <= p_atol p \/ Rres A n b (i_x o') <= p_rtol p * Rnorm2 b)%R.
Proof.
  intros e p A n b w o He Hn Hb Hm Ha F NZ k st1 jb1 w1 o1 w2 jb2 w' o' R NS An E D.
  destruct (greaches_ok Rops e p A n b (i_x o) Hn Hb Hm w o k st1 jb1 w1 o1 F eq_refl R) as (_ & I & _). destruct (I NS) as (_ & I1).
  destruct (step_ok Rops e p A n b (i_x o) Hn Hb Hm _ _ _ _ _ _ I1 An) as (st2 & jb3 & w3 & o3 & E' & P). rewrite E in E'. injection E' as <- <- <- <-.
  destruct P as [(_ & _ & (_ & _ & _ & _ & S)) | (N & _)]; [|contradiction].
  assert (X : EX Rops e p A n b (i_x o)) by (apply real_EX; assumption).
  destruct (S X D) as (S1 & S2). rewrite (re_nrm e He) in S1. fold (Rres A n b (i_x o')) in S1. split; [exact S1|]. rewrite <- S1.
  destruct S2 as [S2|S2]; apply (re_le e He) in S2; [left; exact S2|right]. cbn in S2. rewrite (re_nrm e He) in S2. exact S2.
Qed.
Print Assumptions C54_converged_partial.

(** maxit: the norm reported is that of the returned x, and meets no tolerance *)
Theorem C54_maxit_partial : forall e p A n b w o, real_env e -> 0 <= n -> zlen b = n -> 0 < p_restart p -> (0 < p_atol p \/ 0 < p_rtol p * Rnorm2 b)%R -> gfresh p n w o ->
  Rres A n b (i_x o) <> 0%R ->
  forall k jb w' o', greaches Rops e p A n b w o k maxit jb w' o' ->
  i_res o' = Rres A n b (i_x o') /\ (p_atol p < Rres A n b (i_x o') /\ p_rtol p * Rnorm2 b < Rres A n b (i_x o'))%R /\ p_maxit p <= i_iter o'.
Proof.
  intros e p A n b w o He Hn Hb Hm Ha F NZ k jb w' o' R.
  destruct (greaches_ok Rops e p A n b (i_x o) Hn Hb Hm w o k maxit jb w' o' F eq_refl R) as (_ & I & St).
  assert (D : jb = j_stop) by (destruct jb; auto; destruct I; discriminate).
  destruct (St D) as (k1 & st1 & jb1 & w0 & oa & w2 & jb2 & _ & _ & _ & _ & (_ & _ & L & _ & Q)).
  assert (X : EX Rops e p A n b (i_x o)) by (apply real_EX; assumption).
  destruct (Q X) as (Q1 & Q0 & Q2 & Q3). rewrite (re_nrm e He) in Q1. fold (Rres A n b (i_x o')) in Q1. split; [exact Q1|]. split; [|lia].
  assert (P0 : (0 < i_res o')%R) by (assert (i_res o' <> 0%R) by exact Q0; pose proof (Rnorm2_pos (resid Rops A n b (i_x o'))); unfold Rres in Q1; lra).
  rewrite <- Q1. split.
  - destruct (Rle_lt_dec (i_res o') (p_atol p)) as [C|C]; [exfalso|exact C]. apply andb_false_iff in Q2. destruct Q2 as [Q2|Q2].
    + assert (H : e_lt e (o0 Rops) (p_atol p) = true) by (apply (re_lt e He); cbn; lra). congruence.
    + apply (re_le e He) in C. congruence.
  - destruct (Rle_lt_dec (i_res o') (p_rtol p * Rnorm2 b)) as [C|C]; [exfalso|exact C]. apply andb_false_iff in Q3. destruct Q3 as [Q3|Q3].
    + assert (H : e_lt e (o0 Rops) (i_res o') = true) by (apply (re_lt e He); cbn; exact P0). congruence.
    + assert (H : e_le e (i_res o') (brt Rops e p b) = true) by (apply (re_le e He); unfold brt; cbn; rewrite (re_nrm e He); exact C). congruence.
Qed.
Print Assumptions C54_maxit_partial.

(** x + sum_k y_k d_k, where d_k is the vector multiplied by A in iteration k of the cycle *)
Definition gcombined (p : gopt R) n (w : gwork R) (x : list R) (y : Z -> R) : list R :=
  map (fun i => (nthZ 0%R x i + sumz Rops 0 (p_restart p) (fun k => nthZ 0%R (if p_precond p =? 0 then w_v w else w_z w) (k * n + i) * y k))%R) (zrange 0 n).

(** The x shown at a monitoring step is the best in the cycle: no combination of the
    directions of the cycle, added to the x of its start, has a smaller residual; in
    particular no cycle makes the residual larger. *)
Theorem C54_minimal_partial : forall e p A n b w o, real_env e -> 0 <= n -> zlen b = n -> 0 < p_restart p -> (0 < p_atol p \/ 0 < p_rtol p * Rnorm2 b)%R -> gfresh p n w o ->
  Rres A n b (i_x o) <> 0%R ->
  forall k st1 jb1 w1 o1 w2 jb2 st w' o', greaches Rops e p A n b w o k st1 jb1 w1 o1 -> jb1 <> j_stop -> ganswer Rops A n w1 o1 jb1 w2 jb2 ->
  grci_solve Rops e p n b w2 o1 jb2 = Some (st, j_monitor, w', o') ->
  (forall y, Rres A n b (i_x o') <= Rres A n b (gcombined p n w2 (i_x o1) y))%R /\ (Rres A n b (i_x o') <= Rres A n b (i_x o1))%R.
Proof.
  intros e p A n b w o He Hn Hb Hm Ha F NZ k st1 jb1 w1 o1 w2 jb2 st w' o' R NS An E.
  destruct (greaches_ok Rops e p A n b (i_x o) Hn Hb Hm w o k st1 jb1 w1 o1 F eq_refl R) as (Zx & I & _). destruct (I NS) as (_ & I1).
  destruct (step_ok Rops e p A n b (i_x o) Hn Hb Hm _ _ _ _ _ _ I1 An) as (st2 & jb3 & w3 & o3 & E' & P). rewrite E in E'. injection E' as <- <- <- <-.
  destruct P as [(D & _) | (_ & _ & _ & (_ & c & _ & _ & _ & _ & _ & _ & _ & _ & _ & _ & X) & _ & Mi)]; [discriminate|].
  assert (X0 : EX Rops e p A n b (i_x o)) by (apply real_EX; assumption).
  assert (B : forall y, (Rres A n b (i_x o') <= Rres A n b (gcombined p n w2 (i_x o1) y))%R).
  { intros y. destruct (Mi eq_refl X0 y) as (d & Ed). rewrite !(re_nrm e He) in Ed. rewrite (proj1 (X X0)), (re_nrm e He) in Ed. cbn in Ed.
    apply Rsqr_incr_0_var; [|apply Rnorm2_pos]. unfold Rsqr, Rres. change (gcombined p n w2 (i_x o1) y) with (moved Rops p n (i_x o1) w2 y). rewrite Ed. pose proof (sumz_sq 0 (p_restart p) d). cbn in H. lra. }
  split; [exact B|]. eapply Rle_trans; [apply (B (fun _ => 0%R))|]. apply Req_le. f_equal.
  apply (nthZ_ext _ 0%R); unfold gcombined; [rewrite zlen_map, zlen_zrange; lia|].
  intros i Hi. rewrite zlen_map, zlen_zrange in Hi by lia. rewrite (nthZ_map _ _ _ 0 0%R) by (rewrite zlen_zrange; lia). rewrite nthZ_zrange by lia. rewrite Z.add_0_l.
  rewrite (sumz_zero Rops Rlaws) by (intros; cbn; ring). cbn. ring.
Qed.
Print Assumptions C54_minimal_partial.
Definition x_p : gopt R := mkGopt 1 0%R (/1000)%R 5 0.
Definition x_A (i j : Z) : R := match i, j with 0, 0 => 3%R | 1, 0 => 4%R | 1, 1 => 1%R | _, _ => 0%R end.
Definition x_w : gwork R := mkGw [0;0;0;0]%R [0;0;0;0]%R [0]%R [0;0]%R [0]%R [0]%R 0%R 0%R 0%R q_start 0 0.
Definition x_o : gio R := mkGio [0;0]%R 0%R 0%R 0 p_null p_null.
Definition x_b : list R := [1;0]%R.
Definition x_w2 : gwork R := mkGw [1;0;3;4]%R [0;0;0;0]%R [0]%R [1;0]%R [0]%R [0]%R 1%R 1%R 0%R q_start_iter 0 0.
(** ** A case: 3 x0 = 1, 4 x0 + x1 = 0 with cycles of one iteration *)
Ltac nrm l r := replace (Rnorm2 l) with r by (unfold Rnorm2; cbn [fold_right]; symmetry; apply sqrt_lem_1; [..|lra|]; lra).
Lemma x_1 : exists w1 o1, grci_solve Rops Renv x_p 2 x_b x_w x_o j_start = Some (success, j_mv, w1, o1) /\ i_x o1 = [0;0]%R /\ i_u o1 = p_x /\
  exists w2 o2, grci_solve Rops Renv x_p 2 x_b (gput Rops 2 (i_v o1) [0;0]%R w1) o1 j_mv = Some (success, j_mv, w2, o2) /\
    i_x o2 = [0;0]%R /\ gget 2 (i_u o2) w2 o2 = Some [1;0]%R /\ gput Rops 2 (i_v o2) [3;4]%R w2 = x_w2 /\ o2 = mkGio [0;0]%R 1%R 0%R 0 (p_v 0) (p_v 1).
Proof.
  eexists _, _. split; [reflexivity|]. split; [reflexivity|]. split; [reflexivity|].
  cbv -[Rnorm2 lartg_R Rlt_dec Rle_dec Req_EM_T Rplus Rmult Rminus Ropp Rdiv Rabs IZR Rinv x_w2].
  nrm [1;0]%R 1%R. nrm [1-0;0-0]%R 1%R.
  destruct (Req_EM_T (/ 1000) 0) as [H|H]; [exfalso; lra|]. destruct (Rlt_dec 0 1) as [H1|H1]; [|exfalso; lra].
  destruct (Rle_dec 1 (/ 1000)) as [H2|H2]; [exfalso; lra|]. destruct (Rle_dec 1 (0 * 1)) as [H3|H3]; [exfalso; lra|].
  eexists _, _. split; [reflexivity|]. cbv -[Rnorm2 lartg_R Rlt_dec Rle_dec Req_EM_T Rplus Rmult Rminus Ropp Rdiv Rabs IZR Rinv x_w2].
  split; [reflexivity|]. split; [repeat f_equal; field|]. unfold x_w2. split; repeat f_equal; field.
Qed.
Lemma x_2 : exists w3 o3, grci_solve Rops Renv x_p 2 x_b x_w2 (mkGio [0;0] 1 0 0 (p_v 0) (p_v 1))%R j_mv = Some (success, j_monitor, w3, o3) /\ i_x o3 = [3/25;0]%R /\ i_res o3 = (4/5)%R.
Proof.
  cbv -[Rnorm2 lartg_R Rlt_dec Rle_dec Req_EM_T Rplus Rmult Rminus Ropp Rdiv Rabs IZR Rinv].
  nrm [(3 - (0 + (0 + 3 * 1 + 4 * 0) * 1))%R; (4 - (0 + (0 + 3 * 1 + 4 * 0) * 0))%R] 4%R.
  destruct (Rlt_dec 4 (/ 1000)) as [H|H]; [exfalso; lra|]. destruct (Rlt_dec 4 0) as [H1|H1]; [exfalso; lra|].
  replace (lartg_R (0 + 3 * 1 + 4 * 0) (Ropp 4)) with ((3/5)%R, (-4/5)%R, 5%R).
  2:{ unfold lartg_R. replace (sqrt _) with 5%R by (symmetry; apply sqrt_lem_1; lra). destruct (Req_EM_T 5 0); [exfalso; lra|]. repeat f_equal; field. }
  cbv -[Rnorm2 lartg_R Rlt_dec Rle_dec Req_EM_T Rplus Rmult Rminus Ropp Rdiv Rabs IZR Rinv].
  destruct (Req_EM_T 5 0) as [H2|H2]; [exfalso; lra|]. cbv -[Rnorm2 lartg_R Rlt_dec Rle_dec Req_EM_T Rplus Rmult Rminus Ropp Rdiv Rabs IZR Rinv].
  eexists _, _. split; [reflexivity|]. split; [cbv -[Rplus Rmult Rdiv IZR]; apply f_equal2; [field|apply f_equal2; [field|reflexivity]]|].
  cbv -[Rplus Rmult Rdiv IZR Rabs Ropp]. replace (-4 / 5 * 1)%R with (- (4 / 5))%R by field. rewrite Rabs_Ropp, Rabs_pos_eq; lra.
Qed.
Example C54_case : real_env Renv /\ gfresh x_p 2 x_w x_o /\ Rnorm2 (resid Rops x_A 2 x_b (i_x x_o)) <> 0%R /\
  exists w' o', greaches Rops Renv x_p x_A 2 x_b x_w x_o 3 success j_monitor w' o' /\ i_x o' = [3/25;0]%R /\ i_res o' = (4/5)%R.
Proof.
  split; [exact Renv_real|]. split; [repeat split|]. split.
  { cbv -[Rnorm2 Rplus Rmult Rminus IZR]. nrm [1 - (3 * 0 + (0 * 0 + 0)); 0 - (4 * 0 + (1 * 0 + 0))]%R 1%R. lra. }
  destruct x_1 as (w1 & o1 & E1 & X1 & U1 & w2 & o2 & E2 & X2 & U2 & V2 & O2). destruct x_2 as (w3 & o3 & E3 & X3 & R3).
  exists w3, o3. split; [|auto]. eapply gr_next; [eapply gr_next; [eapply gr_first; exact E1|discriminate| |exact E2]|discriminate| |].
  - left. split; [reflexivity|]. apply gs_mv with (u := [0;0]%R); [rewrite U1; cbn; congruence|]. split; [reflexivity|].
    intros i Hi. assert (i = 0 \/ i = 1) as [-> | ->] by lia; cbv -[Rplus Rmult IZR]; lra.
  - left. split; [reflexivity|]. apply gs_mv with (u := [1;0]%R) (a := [3;4]%R); [exact U2|]. split; [reflexivity|].
    intros i Hi. assert (i = 0 \/ i = 1) as [-> | ->] by lia; cbv -[Rplus Rmult IZR]; lra.
  - rewrite V2, O2. exact E3.
Qed.

(** ** Refuted parts *)

(** Double precision.  The rotation is computed without scaling. *)
Definition f_sqrt := SFsqrt 53 1024.
Definition f_nrm (l : list spec_float) := f_sqrt (fold_left (fun s a => SFadd 53 1024 s (SFmul 53 1024 a a)) l (S754_zero false)).
Definition f_env : genv spec_float := mkGenv spec_float (fun a => match a with S754_nan => true | _ => false end) SFltb SFleb (fun a => SFleb (SFabs a) (two_to (-58))) SFabs f_nrm
  (fun f g => let r := f_sqrt (SFadd 53 1024 (SFmul 53 1024 f f) (SFmul 53 1024 g g)) in (SFdiv 53 1024 f r, SFdiv 53 1024 g r, r)).
Definition f_w (m n : Z) : gwork spec_float := let z k := repeat (S754_zero false) (Z.to_nat k) in
  mkGw (z ((m + 1) * n)) (z ((m + 1) * n)) (z (m * m)) (z (m + 1)) (z m) (z m) (S754_zero false) (S754_zero false) (S754_zero false) q_start 0 0.
Definition f_io (x : list Z) : gio spec_float := mkGio (map f_of x) (S754_zero false) (S754_zero false) 0 p_null p_null.
(** limit 150, restart 20 (the defaults), tolerances 2^-25 and 2^-24 *)
Definition f_p := mkGopt 20 (two_to (-24)) (two_to (-25)) 150 0.
Definition f_res A n b x := f_nrm (resid F64ops A n b x).

(** 2 x = 1 from x = 0 with default options: success, reported residual 0, x = 0 *)
Theorem C54_breakdown_refuted : exists A n b w o k w' o',
  gfresh f_p n w o /\ zlen b = n /\ greaches F64ops f_env f_p A n b w o k success j_stop w' o' /\ i_x o' = i_x o /\ i_res o' = f_of 0 /\ f_res A n b (i_x o') = f_of 1.
Proof.
  exists (fun _ _ => f_of 2), 1, [f_of 1], (f_w 20 1), (f_io [0]), 3%nat. eexists _, _.
  split; [repeat split|]. split; [reflexivity|]. split; [apply gsolve_reaches with (fuel := 9%nat); [lia|vm_compute; reflexivity]|]. split; [reflexivity|]. split; reflexivity.
Qed.
Print Assumptions C54_breakdown_refuted.

(** A start vector that solves the system, here 1 x = 0 from x = 0: x is NaN in the end *)
Theorem C54_exact_start_refuted : exists A n b w o k w' o', let p := mkGopt 1 (two_to (-24)) (two_to (-25)) 1 0 in
  gfresh p n w o /\ zlen b = n /\ f_res A n b (i_x o) = f_of 0 /\ greaches F64ops f_env p A n b w o k maxit j_stop w' o' /\ i_x o' = [S754_nan].
Proof.
  exists (fun _ _ => f_of 1), 1, [f_of 0], (f_w 1 1), (f_io [0]), 4%nat. eexists _, _.
  split; [repeat split|]. split; [reflexivity|]. split; [reflexivity|]. split; [apply gsolve_reaches with (fuel := 9%nat); [lia|vm_compute; reflexivity]|]. reflexivity.
Qed.
Print Assumptions C54_exact_start_refuted.

(** The limit: 1 iteration allowed, 2 made *)
Definition f_cycle (i j : Z) : spec_float := if (i - j) mod 3 =? 1 then f_of 1 else f_of 0.
Theorem C54_limit_refuted : exists A n b w o k w' o', let p := mkGopt 2 (two_to (-24)) (two_to (-25)) 1 0 in
  gfresh p n w o /\ zlen b = n /\ greaches F64ops f_env p A n b w o k maxit j_stop w' o' /\ i_iter o' = 2.
Proof.
  exists f_cycle, 3, (map f_of [1;0;0]), (f_w 2 3), (f_io [0;0;0]), 5%nat. eexists _, _.
  split; [repeat split|]. split; [reflexivity|]. split; [apply gsolve_reaches with (fuel := 9%nat); [lia|vm_compute; reflexivity]|]. reflexivity.
Qed.
Print Assumptions C54_limit_refuted.

(** rinfo[1] is documented as the norm of b; it is the norm times the relative tolerance *)
Theorem C54_rhs_norm_refuted : exists A n b w o k w' o', let p := mkGopt 2 (two_to (-24)) (two_to (-25)) 1 0 in
  gfresh p n w o /\ zlen b = n /\ greaches F64ops f_env p A n b w o k success j_monitor w' o' /\ f_nrm b = f_of 1 /\ i_rhs o' = two_to (-24).
Proof.
  exists f_cycle, 3, (map f_of [1;0;0]), (f_w 2 3), (f_io [0;0;0]), 4%nat. eexists _, _.
  split; [repeat split|]. split; [reflexivity|]. split; [apply gsolve_reaches with (fuel := 3%nat); [lia|vm_compute; reflexivity]|]. split; reflexivity.
Qed.
Print Assumptions C54_rhs_norm_refuted.

(** A second solve with the same handle after one that was stopped inside a cycle: only the
    task is reset (363-376), not the position in the cycle.  The user stops the run above in
    its second iteration and solves again: at the next monitoring step the norm 1 is
    reported, that of x = (1, 0, 0) is the square root of 2. *)
Definition f_p2 := mkGopt 2 (two_to (-24)) (two_to (-25)) 6 0.
Theorem C54_again_refuted : exists A n b w o k w1 o1 w2 k' w' o',
  gfresh f_p2 n w o /\ zlen b = n /\ greaches F64ops f_env f_p2 A n b w o k user_stop j_stop w1 o1 /\ i_x o1 = i_x o /\ w2 = at_task w1 q_start /\
  greaches F64ops f_env f_p2 A n b w2 o1 k' success j_monitor w' o' /\ i_res o' = f_of 1 /\ f_res A n b (i_x o') = f_sqrt (f_of 2).
Proof.
  exists f_cycle, 3, (map f_of [1;0;0]), (f_w 2 3), (f_io [0;0;0]), 4%nat. do 3 eexists. exists 3%nat. do 2 eexists.
  split; [repeat split|]. split; [reflexivity|]. split; [|split; [|split; [reflexivity|split; [|split]]]].
  - eapply gr_next; [apply gsolve_reaches with (fuel := 2%nat); [lia|vm_compute; reflexivity]|discriminate|right; split; [reflexivity|left; reflexivity]|vm_compute; reflexivity].
  - reflexivity.
  - apply gsolve_reaches with (fuel := 2%nat); [lia|vm_compute; reflexivity].
  - reflexivity.
  - vm_compute. reflexivity.
Qed.
Print Assumptions C54_again_refuted.

(** Complex types: the scalar products conjugate the wrong factor.  Gaussian rationals; norms
    and the rotation of lartg are exact on the numbers below.
    3i x0 = 1, 4 x0 + x1 = 0 from 0, cycles of one iteration: 4/5 is reported for
    x = (3i/25, 0), whose residual has the squared norm 52/25. *)
Definition CQ := (Qc * Qc)%type.
Definition cq (a b : Q) : CQ := (Q2Qc a, Q2Qc b).
Definition CQops : ops CQ := mkOps CQ (cq 0 0) (cq 1 0)
  (fun a b => (fst a + fst b, snd a + snd b)%Qc) (fun a b => (fst a * fst b - snd a * snd b, fst a * snd b + snd a * fst b)%Qc)
  (fun a b => (fst a - fst b, snd a - snd b)%Qc) (fun a => (- fst a, - snd a)%Qc) (fun a => (fst a, - snd a)%Qc)
  (fun a b => Qc_eq_bool (fst a) (fst b) && Qc_eq_bool (snd a) (snd b))
  (fun a b => let d := (fst b * fst b + snd b * snd b)%Qc in ((fst a * fst b + snd a * snd b) / d, (snd a * fst b - fst a * snd b) / d)%Qc).
Definition cq_sq (a : CQ) : Qc := (fst a * fst a + snd a * snd a)%Qc.
Definition q_root (q : Qc) : Qc := Q2Qc (Qmake (Z.sqrt (Qnum (this q))) (Pos.sqrt (Qden (this q)))).
Definition cq_re (q : Qc) : CQ := (q, Q2Qc 0).
Definition cq_lt (a b : CQ) := negb (Qle_bool (this (fst b)) (this (fst a))).
Definition cq_le (a b : CQ) := Qle_bool (this (fst a)) (this (fst b)).
(** r = (f/|f|) sqrt(|f|^2 + |g|^2), c = |f|/|r|, s = (f/|f|) conj(g) / |r| *)
Definition cq_lartg (f g : CQ) : CQ * CQ * CQ :=
  let af := cq_re (q_root (cq_sq f)) in let ar := cq_re (q_root (cq_sq f + cq_sq g)%Qc) in let u := odiv CQops f af in
  (odiv CQops af ar, odiv CQops (omul CQops u (ocj CQops g)) ar, omul CQops u ar).
Definition cq_nrm2 (l : list CQ) : Qc := fold_right (fun a s => (cq_sq a + s)%Qc) (Q2Qc 0) l.
Definition cq_env : genv CQ := mkGenv CQ (fun _ => false) cq_lt cq_le (fun a => oeqb CQops a (o0 CQops)) (fun a => cq_re (q_root (cq_sq a))) (fun l => cq_re (q_root (cq_nrm2 l))) cq_lartg.
Definition cq_A (i j : Z) : CQ := match i, j with 0, 0 => cq 0 3 | 1, 0 => cq 4 0 | 1, 1 => cq 1 0 | _, _ => cq 0 0 end.
Definition cq_p : gopt CQ := mkGopt 1 (cq 0 0) (cq (1 # 1000) 0) 5 0.
Definition cq_w : gwork CQ := let z k := repeat (cq 0 0) k in mkGw (z 4%nat) (z 4%nat) (z 1%nat) (z 2%nat) (z 1%nat) (z 1%nat) (cq 0 0) (cq 0 0) (cq 0 0) q_start 0 0.
Definition cq_o : gio CQ := mkGio [cq 0 0; cq 0 0] (cq 0 0) (cq 0 0) 0 p_null p_null.
Definition cq_show (a : CQ) : Q * Q := (this (fst a), this (snd a)).
Theorem C54_complex_refuted : exists A n b w o k w' o',
  gfresh cq_p n w o /\ zlen b = n /\ greaches CQops cq_env cq_p A n b w o k success j_monitor w' o' /\
  map cq_show (i_x o') = [(0, 3 # 25); (0, 0)]%Q /\ cq_show (i_res o') = (4 # 5, 0)%Q /\ this (cq_nrm2 (resid CQops A n b (i_x o'))) = 52 # 25.
Proof.
  exists cq_A, 2, [cq 1 0; cq 0 0], cq_w, cq_o, 3%nat. do 2 eexists. split; [repeat split|]. split; [reflexivity|].
  split; [apply gsolve_reaches with (fuel := 2%nat); [lia|vm_compute; reflexivity]|]. split; [vm_compute; reflexivity|]. split; vm_compute; reflexivity.
Qed.
Print Assumptions C54_complex_refuted.
