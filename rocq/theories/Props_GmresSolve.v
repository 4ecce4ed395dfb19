(** C55: the forward interface of GMRES *)
From Coq Require Import ZArith List Bool Lia Reals Lra QArith Qabs Qcanon Permutation.
From Verif Require Import Base BaseFacts Algebra Csr CheckModel Decide SortSpec SortInst DoidModel DoidSpec MvModel MvSpec CsrmvModel HandleModel HandleSpec OptProof TrsvSpec
  IluModel IluSpec CgModel CgSpec GmresModel GmresSpec GmresReal GmresSolveModel GmresSolveSpec GmresSolve Props_Mv Props_Trsv Props_Ilu Props_Cg Props_Gmres.
Import ListNotations.
Open Scope Z_scope.

(** The preconditioner chosen can be applied: none; a user's function, [prec] being what it
    guarantees when it answers zero; ILU(0) of a matrix that has it, [prec] being implied by
    L U z = r. *)
Definition pc_ready {T U} (O : ops T) (e : genv T) (p : gopt T) (pc : option (U -> list T -> list T -> Z * list T * U)) h u d il n (prec : list T -> list T -> Prop) : Prop :=
  p_precond p = 0 \/
  p_precond p = 1 /\ (exists f, pc = Some f /\ forall ud u v, zlen u = n -> zlen v = n ->
    exists fl a ud', f ud u v = (fl, a, ud') /\ zlen a = n /\ (fl = 0 -> prec u a)) \/
  p_precond p = 2 /\ ilu_good O (e_nz e) h u d il /\ (forall r z, ilu_applied O (e_nz e) u r z -> prec r z).

(** The call returns (at most (2 restart + 2) limit + 1 rounds of its loop), the handle keeps the
    user's data, and the result is one the reverse communication interface can end in when every
    request is served with the true product and preconditioner.  Any matrix type the product
    supports.
    Missing (refuted below): an ILU preconditioner that cannot be applied; what the monitor is given. *)
Theorem C55_solve_partial : forall T (O : ops T) srt fz ft sup dt mvc nthreads team, solve_env O srt fz ft dt ->
  sup 1 = true -> nthreads <= 1 \/ Permutation team (zrange 0 nthreads) -> (forall k, mvc k <> None) ->
  forall e p U (pc : option (U -> list T -> list T -> Z * list T * U)) monit h u il d n b ud w o prec fuel,
  let A := described O (d_type d) (d_fill d) (d_diag d) (hnd_mat O u) in
  e_nz e (o0 O) = true -> hnd_ok (o0 O) h u -> sortable u -> mv_pre O dt h u d op_none -> H_m h = n -> H_n h = n -> zlen b = n ->
  0 < p_restart p -> gfresh p n w o -> pc_ready O e p pc h u d il n prec ->
  0 < p_maxit p -> (2 * p_restart p + 2) * p_maxit p + 1 < Z.of_nat fuel ->
  exists k st h' u' il' ud' w' o',
    gmres_solve O e p srt fz ft sup dt mvc nthreads team pc monit fuel n b h il d ud w o = Some (st, (h', il', ud'), w', o') /\
    hnd_ok (o0 O) h' u' /\ same_data u u' /\
    freaches O e p A n b prec w o k st j_stop w' o'.
Proof.
  intros T O srt fz ft sup dt mvc nthreads team [L HD S1 S2 S3 S4] Hsup Ht Hk e p U pc monit h u il d n b ud w o prec fuel A N0 HOK HS MP Hm Hn Hb Hr F HP Hl HF.
  apply (gmres_solve_ok O L HD srt fz ft S1 S2 S3 sup dt mvc nthreads team Hsup Ht S4 Hk e p N0 pc monit h u il d n b ud w o prec ((2 * p_restart p + 2) * p_maxit p + 1) fuel); auto; [nia|].
  intros k st jb w' o' R _. apply freaches_greaches in R.
  exact (proj1 (C54_limit_partial _ O e p A n b w o ltac:(rewrite <- Hb; apply zlen_nonneg) Hb Hr F Hl k st jb w' o' R)).
Qed.
Print Assumptions C55_solve_partial.

Lemma freaches_stop : forall T (O : ops T) e p A n b prec w o k st w' o', freaches O e p A n b prec w o k st j_stop w' o' ->
  grci_solve O e p n b w o j_start = Some (st, j_stop, w', o') \/
  exists k1 st1 jb1 w1 o1 w2 jb2, freaches O e p A n b prec w o k1 st1 jb1 w1 o1 /\ jb1 <> j_stop /\ fserved O A n prec w1 o1 jb1 w2 jb2 /\ grci_solve O e p n b w2 o1 jb2 = Some (st, j_stop, w', o').
Proof. intros. inversion H; subst; eauto 20. Qed.
Lemma fserved_mv : forall T (O : ops T) A n prec w1 o1 w2 jb2, fserved O A n prec w1 o1 j_mv w2 jb2 -> jb2 = j_mv.
Proof. intros. inversion H. reflexivity. Qed.

(** In real arithmetic: what the status says about x.  The start vector is not exact. *)
Theorem C55_result_partial : forall srt fz ft sup dt mvc nthreads team, solve_env Rops srt fz ft dt ->
  sup 1 = true -> nthreads <= 1 \/ Permutation team (zrange 0 nthreads) -> (forall k, mvc k <> None) ->
  forall e p U (pc : option (U -> list R -> list R -> Z * list R * U)) monit h u il d n b ud w o prec fuel,
  let A := described Rops (d_type d) (d_fill d) (d_diag d) (hnd_mat Rops u) in
  real_env e -> hnd_ok 0%R h u -> sortable u -> mv_pre Rops dt h u d op_none -> H_m h = n -> H_n h = n -> zlen b = n ->
  0 < p_restart p -> gfresh p n w o -> pc_ready Rops e p pc h u d il n prec ->
  0 < p_maxit p -> (2 * p_restart p + 2) * p_maxit p + 1 < Z.of_nat fuel ->
  (0 < p_atol p \/ 0 < p_rtol p * Rnorm2 b)%R -> Rres A n b (i_x o) <> 0%R ->
  exists st s' w' o',
    gmres_solve Rops e p srt fz ft sup dt mvc nthreads team pc monit fuel n b h il d ud w o = Some (st, s', w', o') /\ zlen (i_x o') = n /\
    (st = maxit -> i_res o' = Rres A n b (i_x o') /\ (p_atol p < Rres A n b (i_x o') /\ p_rtol p * Rnorm2 b < Rres A n b (i_x o'))%R) /\
    (st = success -> i_res o' = Rres A n b (i_x o') /\ (Rres A n b (i_x o') <= p_atol p \/ Rres A n b (i_x o') <= p_rtol p * Rnorm2 b)%R \/
      (** the last request was a product with a new direction *)
      exists k st1 w1 o1 w2, freaches Rops e p A n b prec w o k st1 j_mv w1 o1 /\ i_u o1 <> p_x /\ fserved Rops A n prec w1 o1 j_mv w2 j_mv /\
        grci_solve Rops e p n b w2 o1 j_mv = Some (success, j_stop, w', o')).
Proof.
  intros srt fz ft sup dt mvc nthreads team SE Hsup Ht Hk e p U pc monit h u il d n b ud w o prec fuel A He HOK HS MP Hm Hn Hb Hr F HP Hl HF Ha NZ.
  assert (Nn : 0 <= n) by (rewrite <- Hb; apply zlen_nonneg).
  destruct (C55_solve_partial R Rops srt fz ft sup dt mvc nthreads team SE Hsup Ht Hk e p U pc monit h u il d n b ud w o prec fuel) as (k & st & h' & u' & il' & ud' & w' & o' & E & _ & _ & R); auto.
  { exact (gx_nz _ _ (real_exact e He)). }
  fold A in R. exists st, (h', il', ud'), w', o'. split; [exact E|].
  pose proof (freaches_greaches _ _ _ _ _ _ _ _ _ _ _ _ _ _ R) as G.
  split; [exact (proj1 (proj2 (C54_defined _ Rops e p A n b w o Nn Hb Hr F) _ _ _ _ _ G))|]. split.
  - intros ->. destruct (C54_maxit_partial e p A n b w o He Nn Hb Hr Ha F NZ _ _ _ _ G) as (Q1 & Q2 & _). auto.
  - intros ->. destruct (freaches_stop _ _ _ _ _ _ _ _ _ _ _ _ _ _ R) as [E1 | (k1 & st1 & jb1 & w1 & o1 & w2 & jb2 & R1 & NS & Sv & E1)].
    + destruct (proj1 (C54_defined _ Rops e p A n b w o Nn Hb Hr F) j_start) as (w3 & o3 & E3). rewrite E1 in E3. discriminate E3.
    + pose proof (freaches_greaches _ _ _ _ _ _ _ _ _ _ _ _ _ _ R1) as G1. pose proof (fserved_answer _ _ _ _ _ _ _ _ _ Sv) as An.
      destruct (C54_statuses _ Rops e p A n b w o Nn Hb Hr F _ _ _ _ _ _ _ _ _ _ _ G1 NS An E1) as (_ & _ & S). specialize (S eq_refl).
      destruct S as (_ & [(_ & D) | [(Q & _) | [(Q & _) | [(Q & _) | (Q & _)]]]]); try discriminate Q.
      assert (D2 : i_u o1 = p_x \/ i_u o1 <> p_x) by (destruct (i_u o1); auto; right; discriminate).
      destruct D as [-> | ->].
      * left. eapply C54_converged_partial with (w := w) (o := o); eauto.
      * destruct D2 as [D2 | D2].
        -- left. eapply C54_converged_partial with (w := w) (o := o); eauto.
        -- right. pose proof (fserved_mv _ _ _ _ _ _ _ _ _ Sv) as ->. exists k1, st1, w1, o1, w2. split; [exact R1|]. split; [exact D2|]. split; [exact Sv|exact E1].
Qed.
Print Assumptions C55_result_partial.

(** A matrix of another size is refused, and so is the choice of a user's preconditioner without
    one; x is not touched and the handle keeps the user's data.  Any arithmetic. *)
Theorem C55_checks : forall T (O : ops T) srt fz ft sup dt mvc nthreads team, sort_contract srt -> (forall z, 0 <= z -> zlen (fz z) = z) -> (forall z, 0 <= z -> zlen (ft z) = z) ->
  forall e p U (pc : option (U -> list T -> list T -> Z * list T * U)) monit h u il d n b ud w o fuel,
  hnd_ok (o0 O) h u -> sortable u ->
  let bad_size := H_m h <> n \/ H_n h <> n in
  bad_size \/ p_precond p = 1 /\ pc = None ->
  exists st h' u', gmres_solve O e p srt fz ft sup dt mvc nthreads team pc monit fuel n b h il d ud w o = Some (st, (h', il, ud), w, o) /\
    (bad_size -> st = invalid_size) /\ (~ bad_size -> st = invalid_pointer) /\ hnd_ok (o0 O) h' u' /\ same_data u u'.
Proof.
  intros T O srt fz ft sup dt mvc nthreads team S1 S2 S3 e p U pc monit h u il d n b ud w o fuel HOK HS bad_size H.
  destruct (optimize_ok O srt fz ft S1 S2 S3 h u HOK HS) as (h1 & i1 & c1 & u1 & E & HOK1 & SD & D1 & D2 & _).
  unfold gmres_solve. rewrite E, D1, D2.
  destruct (negb (H_m h =? n) || negb (H_n h =? n)) eqn:C.
  - exists invalid_size, h1, u1. split; [reflexivity|]. assert (B : bad_size) by (unfold bad_size; lia). split; [auto|]. split; [contradiction|auto].
  - assert (B : ~ bad_size) by (unfold bad_size; lia). destruct H as [H | (-> & ->)]; [contradiction|]. cbn.
    exists invalid_pointer, h1, u1. split; [reflexivity|]. split; [contradiction|auto].
Qed.
Print Assumptions C55_checks.

(** ** Concrete cases.  Rationals; roots are rounded down, exact where 2-norms are rational. *)
Definition g_lartg (f g : Qc) : Qc * Qc * Qc :=
  let r := q_root (f * f + g * g)%Qc in if oeqb Qops r (o0 Qops) then (o1 Qops, o0 Qops, o0 Qops) else ((f / r)%Qc, (g / r)%Qc, r).
Definition g_env : genv Qc := mkGenv Qc (fun _ => false) (fun a b => negb (q_le b a)) q_le qz q_abs (fun l => q_root (fold_right (fun a s => (a * a + s)%Qc) (Q2Qc 0) l)) g_lartg.
(** restart, limit, preconditioner; absolute tolerance 1/1000 *)
Definition g_p (m l c : Z) : gopt Qc := mkGopt m (Q2Qc 0) (Q2Qc (1 # 1000)) l c.
Definition g_w (m n : Z) : gwork Qc := let z k := zrep k (Q2Qc 0) in
  mkGw (z ((m + 1) * n)) (z ((m + 1) * n)) (z (m * m)) (z (m + 1)) (z m) (z m) (Q2Qc 0) (Q2Qc 0) (Q2Qc 0) q_start 0 0.
Definition g_io (n : Z) : gio Qc := mkGio (zrep n (Q2Qc 0)) (Q2Qc 0) (Q2Qc 0) 0 p_null p_null.
Definition g_run p fuel n b h d :=
  gmres_solve Qops g_env p isort tjunk tjunkq all_isa dt_d pick2 1 [] (Some q_half) q_monit fuel n (qv b) h None d [] (g_w (p_restart p) n) (g_io n).
(** Status, x, iterations, reported norm *)
Definition g_out {E} (r : option (status * E * gwork Qc * gio Qc)) : option (status * list Q * Z * Q) :=
  match r with Some (st, _, _, o) => Some (st, map this (i_x o), i_iter o, this (i_res o)) | None => None end.

(** 3 x0 = 1, 4 x0 + x1 = 0: a general matrix, cycles of one iteration, each preconditioner *)
Definition g_u := q_hnd 2 3 0 [0;1;3] [0;0;1] [3;4;1]%Q.
Lemma g_u_ok : hnd_ok (o0 Qops) (q_h g_u) g_u /\ sortable g_u.
Proof.
  split.
  - split; [um; left; repeat split|]. exists []. repeat split; auto; discriminate.
  - left. apply rows_groupedb_ok. reflexivity.
Qed.
Lemma LU_00 : forall F, LU Qops 2 F 0 0 = F 0 0.
Proof. intros F. transitivity (Q2Qc 1 * F 0%Z 0%Z + (Q2Qc 0 * Q2Qc 0 + Q2Qc 0))%Qc; [reflexivity|]. change (Q2Qc 1) with 1%Qc. change (Q2Qc 0) with 0%Qc. ring. Qed.
Lemma LU_11 : forall F, F 0 1 = Q2Qc 0 -> LU Qops 2 F 1 1 = F 1 1.
Proof. intros F E. transitivity (F 1%Z 0%Z * F 0%Z 1%Z + (Q2Qc 1 * F 1%Z 1%Z + Q2Qc 0))%Qc; [reflexivity|]. rewrite E. change (Q2Qc 1) with 1%Qc. change (Q2Qc 0) with 0%Qc. ring. Qed.
Lemma g_u_ilu : ilu_good Qops (e_nz g_env) (q_h g_u) g_u (il_descr 0) None.
Proof.
  split.
  - constructor; try reflexivity; try (cbn; lia); [um|exists []; reflexivity|apply rows_sortedb_ok; reflexivity|apply full_diagb_ok; reflexivity].
  - left. split; [reflexivity|]. intros v i Lv Hi F IR _.
    assert (i = 0 \/ i = 1) as [-> | ->] by (cbn in Hi; lia).
    + specialize (IR 0 0 ltac:(lia) ltac:(cbn; lia)). change (c_m g_u) with 2 in IR. rewrite LU_00 in IR. fold F in IR. rewrite IR; [reflexivity|]. exists 0. vm_compute. repeat split; try discriminate; reflexivity.
    + specialize (IR 1 1 ltac:(lia) ltac:(cbn; lia)). change (c_m g_u) with 2 in IR. rewrite LU_11 in IR by reflexivity. fold F in IR. rewrite IR; [reflexivity|]. exists 2. vm_compute. repeat split; try discriminate; reflexivity.
Qed.
Lemma g_u_pre : mv_pre Qops dt_d (q_h g_u) g_u (il_descr 0) op_none.
Proof. constructor; try reflexivity; try discriminate. intros Q. contradiction Q. reflexivity. Qed.
Lemma pick2_some : forall k, pick2 k <> None.
Proof. intros k. unfold pick2. destruct (_ || _); discriminate. Qed.
(** Each preconditioner meets the hypotheses: none, one that halves, ILU(0) *)
Definition g_prec (c : Z) : list Qc -> list Qc -> Prop := if c =? 1 then fun r z => z = map (fun a => (a / Q2Qc 2)%Qc) r else ilu_applied Qops qz g_u.
Example C55_solve_hyps : forall c, In c [0; 1; 2] -> exists k st h' u' il' ud' w' o',
  g_run (g_p 1 5 c) 30 2 [1;0]%Q (q_h g_u) (il_descr 0) = Some (st, (h', il', ud'), w', o') /\ hnd_ok (o0 Qops) h' u' /\ same_data g_u u' /\
  freaches Qops g_env (g_p 1 5 c) (described Qops mt_general fm_lower dg_non_unit (hnd_mat Qops g_u)) 2 (qv [1;0]%Q) (g_prec c) (g_w 1 2) (g_io 2) k st j_stop w' o'.
Proof.
  intros c Hc.
  apply C55_solve_partial with (d := il_descr 0) (ft := tjunkq) (srt := isort) (prec := g_prec c);
    try reflexivity; try (cbn; lia); try (apply g_u_ok); try apply g_u_pre; try apply qenv; try apply pick2_some.
  - repeat split.
  - destruct Hc as [<- | [<- | [<- | []]]]; [left; reflexivity|right; left|right; right].
    + split; [reflexivity|]. exists q_half. split; [reflexivity|]. intros ud r v Lr Lv. exists 0. do 2 eexists. split; [reflexivity|]. rewrite zlen_map. split; [exact Lr|reflexivity].
    + split; [reflexivity|]. split; [exact g_u_ilu|auto].
Qed.
(** 3/25 and 4/5 as for the reverse communication interface *)
Example C55_case : forall c, In c [0; 1] -> g_out (g_run (g_p 1 1 c) 9 2 [1;0]%Q (q_h g_u) (il_descr 0)) = Some (maxit, [3#25;0]%Q, 1, 4#5).
Proof. intros c [<- | [<- | []]]; vm_compute; reflexivity. Qed.
Example C55_checks_hyps : hnd_ok (o0 Qops) (q_h g_u) g_u /\ sortable g_u /\ g_out (g_run (g_p 1 1 0) 9 3 [1;0;0]%Q (q_h g_u) (il_descr 0)) = Some (invalid_size, [0;0;0]%Q, 0, 0%Q).
Proof. split; [apply g_u_ok|]. split; [apply g_u_ok|]. vm_compute. reflexivity. Qed.
(** The same system over the reals *)
Definition x_u : cmat R := mkCmat 2 2 3 gn 0 [0;1;3] [0;0;1] [3;4;1]%R None None false dg_non_unit None.
Definition x_h : hnd R := mkHnd 2 2 3 [Some x_u] fully_sorted true false false [].
Definition x_junk (z : Z) : list R := zrep z 77%R.
Lemma x_senv : solve_env Rops isort tjunk x_junk dt_d.
Proof.
  constructor.
  - exact Rlaws.
  - exact Rdiv_law.
  - exact isort_contract.
  - intros z Hz. apply zlen_zrep. exact Hz.
  - intros z Hz. apply zlen_zrep. exact Hz.
  - reflexivity.
Qed.
Example C55_result_hyps : exists st s' w' o',
  gmres_solve Rops Renv x_p isort tjunk x_junk all_isa dt_d pick2 1 [] (U := unit) None (fun _ _ _ => (0, tt)) 30 2 x_b x_h None (il_descr 0) tt x_w x_o = Some (st, s', w', o') /\ zlen (i_x o') = 2.
Proof.
  destruct (C55_result_partial isort tjunk x_junk all_isa dt_d pick2 1 [] x_senv eq_refl (or_introl (Z.le_refl 1)) pick2_some Renv x_p unit None (fun _ _ _ => (0, tt)) x_h x_u None (il_descr 0) 2 x_b tt x_w x_o (fun _ _ => True) 30)
    as (st & s' & w' & o' & E & Lx & _); try reflexivity; try (cbn; lia).
  - exact Renv_real.
  - split; [um; left; repeat split|]. exists []. repeat split; auto; discriminate.
  - left. apply rows_groupedb_ok. reflexivity.
  - constructor; try reflexivity; try discriminate. intros Q. contradiction Q. reflexivity.
  - repeat split.
  - left. reflexivity.
  - left. cbn. lra.
  - cbv -[Rnorm2 Rplus Rmult Rminus IZR]. nrm [1 - ((3 + 0) * 0 + (0 * 0 + 0)); 0 - ((4 + 0) * 0 + ((1 + 0) * 0 + 0))]%R 1%R. lra.
  - exists st, s', w', o'. auto.
Qed.

(** ** Refuted parts *)

(** The built-in ILU preconditioner is accepted for every matrix, and its failure is not noticed.
    It cannot be applied to a symmetric matrix given by a triangle (not_implemented): the solver
    takes the zero vector for the preconditioned one, stops with success, reports the norm 0 and
    leaves x as it was; the norm of the residual is 5. *)
Theorem C55_ilu_refuted : exists h u d n b o', hnd_ok (o0 Qops) h u /\ mv_pre Qops dt_d h u d op_none /\
  let A := described Qops (d_type d) (d_fill d) (d_diag d) (hnd_mat Qops u) in
  (exists s w', g_run (g_p 2 4 2) 39 n b h d = Some (success, s, w', o')) /\ i_x o' = i_x (g_io n) /\ this (i_res o') = 0%Q /\ this (e_nrm g_env (resid Qops A n (qv b) (i_x o'))) = 5%Q.
Proof.
  exists (q_h q_u2), q_u2, (q_d 0), 2, [3;4]%Q. eexists. split; [apply q_u2_ok|]. split.
  { constructor; try reflexivity; try discriminate. intros _. apply q_u2_ok. }
  split; [do 2 eexists; vm_compute; reflexivity|]. split; [reflexivity|]. split; vm_compute; reflexivity.
Qed.
Print Assumptions C55_ilu_refuted.

(** Where the factorisation is exact, as for every triangular matrix, the first new direction
    vanishes: success, norm 0, x as it was, though the residual is 1. *)
Theorem C55_ilu_exact_refuted : exists h u d n b o', hnd_ok (o0 Qops) h u /\ mv_pre Qops dt_d h u d op_none /\ ilu_good Qops (e_nz g_env) h u d None /\
  let A := described Qops (d_type d) (d_fill d) (d_diag d) (hnd_mat Qops u) in
  (exists s w', g_run (g_p 2 4 2) 39 n b h d = Some (success, s, w', o')) /\ i_x o' = i_x (g_io n) /\ this (i_res o') = 0%Q /\ this (e_nrm g_env (resid Qops A n (qv b) (i_x o'))) = 1%Q.
Proof.
  exists (q_h g_u), g_u, (il_descr 0), 2, [1;0]%Q. eexists. split; [apply g_u_ok|]. split; [apply g_u_pre|]. split; [apply g_u_ilu|].
  split; [do 2 eexists; vm_compute; reflexivity|]. split; [reflexivity|]. split; vm_compute; reflexivity.
Qed.
Print Assumptions C55_ilu_exact_refuted.

(** The monitor is promised x and the residual; it is given two vectors of the basis.
    x = (3/25, 0), b - A x = (16/25, -12/25) at the only call. *)
Theorem C55_monitor_refuted : exists h d n b, match g_run (g_p 1 1 0) 9 n b h d with
  | Some (maxit, (_, _, [(Some x, Some r)]), _, o) => map this x = [1;0]%Q /\ map this r = [0;1]%Q /\ map this (i_x o) = [3#25;0]%Q
  | _ => False
  end.
Proof. exists (q_h g_u), (il_descr 0), 2, [1;0]%Q. vm_compute. auto. Qed.
Print Assumptions C55_monitor_refuted.
