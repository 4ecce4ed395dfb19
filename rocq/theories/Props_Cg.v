(** C43: the conjugate gradient solver, reverse communication and forward interface. *)
From Coq Require Import ZArith List Bool Lia QArith Qabs Qcanon Permutation.
From Verif Require Import Base BaseFacts Algebra Csr CheckModel Decide SortSpec SortInst DoidModel DoidSpec MvModel MvSpec CsrmvModel HandleModel HandleSpec TrsvSpec
  CgModel CgSpec CgProof CgConj CgLink CgLoop CgSolveModel CgSolve Props_Mv Props_Trsv Props_Ilu.
Import ListNotations.
Open Scope Z_scope.

Section RCI.
  (** Any ring, any type of norms; [npos]: 0 < a, [nle]: a <= b, [nmul]: product, [nnan]:
      isnan, [nrm]: the 2-norm, [negz]: the test for a value that is negative or nearly
      zero, [rz1]: the start value of the scalar r.z. *)
  Context {T N : Type} (O : ops T) (npos : N -> bool) (nle : N -> N -> bool) (nmul : N -> N -> N) (nnan : N -> bool) (n0 : N).
  Context (nrm : list T -> N) (negz : T -> bool) (rz1 : T).
  Context (A : Z -> Z -> T) (n : Z) (b : list T) (prec : list T -> list T -> Prop).
  Notation reaches := (reaches O npos nle nmul nnan n0 nrm negz rz1 A n b prec).

  (** At every monitoring step and at every stop that is not an error, *u is A x - b for
      the current x, and rinfo holds its norm and the norm of b. *)
  Theorem C43_residual : laws O -> 0 <= n -> zlen b = n -> forall c o k st jb c' o', fresh n c o -> reaches c o k st jb c' o' ->
    jb = j_monitor \/ jb = j_stop /\ (st = success \/ st = maxit) ->
    zlen (o_x o') = n /\ exists r, get_buf (o_u o') c' = Some r /\ residual O A n b r (o_x o') /\ o_res o' = nrm r /\ o_rhs o' = nrm b.
  Proof.
    intros L Hn Hb c o k st jb c' o' F R HJ.
    pose proof (reaches_post O L npos nle nmul nnan n0 nrm negz rz1 A n b prec Hn Hb _ _ _ _ _ _ _ F R) as P.
    assert (X : zlen (o_x o') = n /\ o_u o' = b_r /\ good O nmul nnan nrm A n b c' o').
    { destruct HJ as [-> | (-> & S)].
      - destruct P as [(Q & _) | (-> & _ & (Hl & So & H0 & I) & _)]; [discriminate|]. destruct Hl as (_ & _ & _ & _ & Lx). split; [exact Lx|].
        destruct (g_task c'); try contradiction; try (exfalso; destruct I as (Q & _); discriminate). tauto.
      - destruct P as [(_ & Lx & _ & _ & Q) | (_ & Q & _)]; [|congruence]. split; [exact Lx|]. destruct S as [-> | ->]; tauto. }
    destruct X as (Lx & Eu & G1 & G2 & G3 & G4 & G5 & G6 & G7). split; [exact Lx|]. rewrite Eu. exists (g_r c'). auto.
  Qed.

  (** Success means that the residual of the returned x meets a tolerance; the limit
      status means that it does not. *)
  Theorem C43_converged : laws O -> 0 <= n -> zlen b = n -> forall c o k st c' o', fresh n c o -> reaches c o k st j_stop c' o' ->
    (st = success -> exists r, residual O A n b r (o_x o') /\ converged npos nle nmul nrm b c r) /\
    (st = maxit -> 0 < g_maxit c /\ g_maxit c < o_iter o' /\ exists r, residual O A n b r (o_x o') /\ ~ converged npos nle nmul nrm b c r).
  Proof.
    intros L Hn Hb c o k st c' o' F R.
    pose proof (reaches_post O L npos nle nmul nnan n0 nrm negz rz1 A n b prec Hn Hb _ _ _ _ _ _ _ F R) as P.
    destruct P as [(_ & _ & _ & _ & Q) | (_ & Q & _)]; [|congruence].
    split; intros ->; destruct Q as ((G1 & _) & _ & Q); [eauto|]. destruct Q as (Q1 & Q2 & Q3). repeat split; try lia. eauto.
  Qed.

  (** The iteration limit, one too large (refuted below with the limit itself), and with
      it the number of calls; the status is one of five. *)
  Theorem C43_limit_partial : laws O -> 0 <= n -> zlen b = n -> forall c o k st jb c' o', fresh n c o -> 0 < g_maxit c -> reaches c o k st jb c' o' ->
    Z.of_nat k <= 3 * g_maxit c + 5 /\ (jb = j_stop -> o_iter o' <= g_maxit c + 1) /\
    (st = success \/ jb = j_stop /\ (st = maxit \/ st = user_stop \/ st = numerical_error \/ st = invalid_value)).
  Proof.
    intros L Hn Hb c o k st jb c' o' F HM R.
    pose proof (reaches_post O L npos nle nmul nnan n0 nrm negz rz1 A n b prec Hn Hb _ _ _ _ _ _ _ F R) as P.
    split; [|split].
    - clear P. destruct R as [jb0 st1 jb1 c1 o1 E | k1 st1 jb1 c1 o1 c2 jb2 st2 jb3 c3 o3 R1 NS Sv E]; [change (Z.of_nat 1) with 1; lia|].
      pose proof (limit_calls O L npos nle nmul nnan n0 nrm negz rz1 A n b prec Hn Hb _ _ _ _ _ _ _ F HM R1 NS). lia.
    - intros ->. destruct P as [(_ & _ & Q & _) | (_ & Q & _)]; [auto|congruence].
    - destruct P as [(-> & _ & _ & _ & Q) | (-> & _)]; [|auto]. destruct st; try contradiction; auto 8.
  Qed.

  (** Whatever the user answers, the next call has defined behaviour: every access is
      within the work vectors, b and x. *)
  Theorem C43_defined : laws O -> 0 <= n -> zlen b = n -> forall c o, fresh n c o ->
    (forall jb, exists r, rci_solve O npos nle nmul nnan n0 nrm negz rz1 n b c o jb = Some r) /\
    forall k st jb c1 o1 c2 jb2, reaches c o k st jb c1 o1 -> jb <> j_stop -> answered O A n prec o1 c1 jb c2 jb2 ->
      exists r, rci_solve O npos nle nmul nnan n0 nrm negz rz1 n b c2 o1 jb2 = Some r.
  Proof.
    intros L Hn Hb c o F. split.
    - intros jb. destruct (first_ok O npos nle nmul nnan n0 nrm negz rz1 A n b prec Hn Hb c o jb F) as (r & E & _). eauto.
    - intros k st jb c1 o1 c2 jb2 R NS Sv.
      pose proof (reaches_post O L npos nle nmul nnan n0 nrm negz rz1 A n b prec Hn Hb _ _ _ _ _ _ _ F R) as P.
      destruct P as [(Q & _) | (-> & _ & I & _)]; [congruence|].
      destruct (next_ok O L npos nle nmul nnan n0 nrm negz rz1 A n b prec Hn c jb c1 o1 c2 jb2 I Sv) as (r & E & _). eauto.
  Qed.

  (** A request to stop is obeyed at the next call, with x and rinfo untouched. *)
  Theorem C43_interrupt : laws O -> 0 <= n -> zlen b = n -> forall c o k st jb c1 o1 c2, fresh n c o -> reaches c o k st jb c1 o1 -> jb <> j_stop ->
    interrupted n o1 c1 c2 -> rci_solve O npos nle nmul nnan n0 nrm negz rz1 n b c2 o1 j_interrupt = Some (user_stop, j_stop, c2, o1).
  Proof.
    intros L Hn Hb c o k st jb c1 o1 c2 F R NS Sv.
    pose proof (reaches_post O L npos nle nmul nnan n0 nrm negz rz1 A n b prec Hn Hb _ _ _ _ _ _ _ F R) as P.
    destruct P as [(Q & _) | (-> & _ & I & _)]; [congruence|].
    exact (proj1 (interrupt_ok O npos nle nmul nnan n0 nrm negz rz1 A n b prec c jb c1 c2 o1 I Sv)).
  Qed.
End RCI.
Print Assumptions C43_residual.
Print Assumptions C43_converged.
Print Assumptions C43_limit_partial.
Print Assumptions C43_defined.
Print Assumptions C43_interrupt.

(** In exact arithmetic, for a symmetric matrix of order n and a symmetric
    preconditioner M (the identity without preconditioner), no more than n iterations are
    completed, and the solver stops within 3n + 5 calls even without a limit: in
    particular a limit of at least n is never reached. *)
Theorem C43_finite : forall T N (O : ops T) npos nle nmul nnan (n0 : N) nrm negz rz1 A M n b,
  laws O -> div_law O -> o1 O <> o0 O -> negz (o0 O) = true -> 0 <= n -> zlen b = n ->
  (forall i j, 0 <= i < n -> 0 <= j < n -> A i j = A j i) -> (forall i j, 0 <= i < n -> 0 <= j < n -> M i j = M j i) ->
  forall c o k st jb c' o', fresh n c o ->
  (g_precond c = 0 -> forall i j, 0 <= i < n -> 0 <= j < n -> M i j = if i =? j then o1 O else o0 O) ->
  reaches O npos nle nmul nnan n0 nrm negz rz1 A n b (fun u w => product O M n w u) c o k st jb c' o' ->
  Z.of_nat k <= 3 * n + 5 /\ (jb = j_monitor \/ jb = j_stop /\ st = success -> o_iter o' <= n) /\ (st = maxit -> g_maxit c < n).
Proof.
  intros T N O npos nle nmul nnan n0 nrm negz rz1 A M n b L DL NE NZ Hn Hb SA SM c o k st jb c' o' F ID R.
  pose proof (CgLink.finite O L DL NE npos nle nmul nnan n0 nrm negz rz1 A M n b Hn Hb SA SM NZ c o k st jb c' o' F ID R) as FN.
  split; [|split].
  - clear FN. destruct R as [jb0 st1 jb1 c1 o1 E | k1 st1 jb1 c1 o1 c2 jb2 st2 jb3 c3 o3 R1 NS Sv E]; [change (Z.of_nat 1) with 1; lia|].
    pose proof (finite_calls O L DL NE npos nle nmul nnan n0 nrm negz rz1 A M n b Hn Hb SA SM NZ _ _ _ _ _ _ _ F ID R1 NS). lia.
  - intros H. apply FN. tauto.
  - intros ->. pose proof (reaches_post O L npos nle nmul nnan n0 nrm negz rz1 A n b _ Hn Hb _ _ _ _ _ _ _ F R) as P.
    destruct P as [(-> & _ & _ & _ & Q) | (Q & _)]; [|discriminate]. specialize (FN (or_intror (conj eq_refl (or_intror eq_refl)))). lia.
Qed.
Print Assumptions C43_finite.

(** The forward interface on a handle of a symmetric matrix given by its lower triangle:
    the call returns (the loop runs at most 3 maxit + 5 rounds), the handle keeps the
    user's data, and the result is one the reverse communication interface can end in when
    every request is served with the true product and preconditioner.  [prec]: what the
    user's preconditioner guarantees, implied by the Gauss-Seidel equations if the built-in
    one is chosen. *)
Theorem C43_solve : forall T N (O : ops T) srt fz ft sup dt mvc nthreads team tsc w, solve_env O srt fz ft dt ->
  sup 1 = true -> nthreads <= 1 \/ Permutation team (zrange 0 nthreads) -> (forall k, mvc k <> None) ->
  forall npos nle nmul nnan (n0 : N) nrm negz rz1 U (pc : option (U -> list T -> list T -> Z * list T * U)) monit,
  forall h u d n b ud (c : cg T N) o (prec : list T -> list T -> Prop) fuel,
  let A := described O mt_symmetric fm_lower (d_diag d) (hnd_mat O u) in
  hnd_ok (o0 O) h u -> sortable u -> H_m h = n -> H_n h = n -> zlen b = n ->
  d_type d = mt_symmetric -> d_fill d = fm_lower -> d_base d = c_b u -> fresh n c o ->
  g_precond c = 0 \/
  g_precond c = 1 /\ (exists f, pc = Some f /\ forall ud u v, zlen u = n -> zlen v = n ->
    exists fl w' ud', f ud u v = (fl, w', ud') /\ zlen w' = n /\ (fl = 0 -> prec u w')) \/
  g_precond c = 3 /\ gs_ready O tsc w h u d /\ (forall r z, gauss_seidel O A n r z -> prec r z) ->
  0 < g_maxit c -> 3 * g_maxit c + 5 <= Z.of_nat fuel ->
  exists k st h' u' ud' c' o',
    cg_solve O srt fz ft sup dt mvc nthreads team tsc w npos nle nmul nnan n0 nrm negz rz1 pc monit fuel n b h d ud c o = Some (st, (h', ud'), c', o') /\
    hnd_ok (o0 O) h' u' /\ same_data u u' /\
    reaches O npos nle nmul nnan n0 nrm negz rz1 A n b prec c o k st j_stop c' o'.
Proof.
  intros T N O srt fz ft sup dt mvc nthreads team tsc w [L HD S1 S2 S3 S4] Hsup Ht Hk npos nle nmul nnan n0 nrm negz rz1 U pc monit h u d n b ud c o prec fuel A HOK HS Hm Hn Hb Ty Fl Bs F HP HM HF.
  apply (cg_solve_ok O L HD srt fz ft S1 S2 S3 sup dt mvc nthreads team tsc w Hsup Ht S4 Hk npos nle nmul nnan n0 nrm negz rz1 pc monit h u d n b ud c o prec (3 * g_maxit c + 4) fuel); auto; try lia.
  intros k st jb c' o' R NS.
  exact (limit_calls O L npos nle nmul nnan n0 nrm negz rz1 A n b prec ltac:(rewrite <- Hb; apply zlen_nonneg) Hb c o k st jb c' o' F HM R NS).
Qed.
Print Assumptions C43_solve.

(** ** Concrete cases, over the rationals; norm: sum of absolute values *)
Definition q_abs (a : Qc) : Qc := Q2Qc (Qabs (this a)).
Definition q_nrm (l : list Qc) : Qc := fold_right (fun a s => Qcplus (q_abs a) s) (Q2Qc 0) l.
Definition q_le (a b : Qc) : bool := Qle_bool (this a) (this b).
Definition q_pos (a : Qc) : bool := negb (Qle_bool (this a) 0).
(** value <= 0.01 * 2 * epsilon for double *)
Definition q_negz (a : Qc) : bool := Qle_bool (this a) (1 # (50 * 2 ^ 52)).
Definition q_cg (n : Z) (rtol : Q) (maxit precond : Z) : cg Qc Qc :=
  let j := zrep n (Q2Qc 77) in
  mkCg j j j j (Q2Qc 0) (Q2Qc 0) (Q2Qc 0) (Q2Qc 0) (Q2Qc 0) (Q2Qc 0) t_start 0 (Q2Qc rtol) (Q2Qc 0) maxit precond.
Definition q_io (n : Z) : io Qc Qc := mkIo (zrep n (Q2Qc 0)) (Q2Qc 0) (Q2Qc 0) 0 b_null b_null.
(** A monitor that writes down what it is given, a preconditioner that halves *)
Definition q_log := list (option (list Qc) * option (list Qc)).
Definition q_monit (l : q_log) (x r : option (list Qc)) : Z * q_log := (0, l ++ [(x, r)]).
Definition q_half (l : q_log) (u v : list Qc) : Z * list Qc * q_log := (0, map (fun a => Qcdiv a (Q2Qc 2)) u, l).
Definition q_solve fuel n b h d c :=
  cg_solve Qops isort tjunk tjunkq all_isa dt_d pick2 1 [] tpick 31 q_pos q_le Qcmult (fun _ => false) (Q2Qc 0) q_nrm q_negz (Q2Qc 1)
    (Some q_half) q_monit fuel n (qv b) h d [] c (q_io n).
Definition q_hnd (n nnz b : Z) ptr ind (val : list Q) : cmat Qc := mkCmat n n nnz gn b ptr ind (qv val) None None false dg_non_unit None.
Definition q_h (u : cmat Qc) : hnd Qc := mkHnd (c_m u) (c_n u) (c_nnz u) [Some u] fully_sorted true false false [].
Definition q_d (b : Z) : descr := mkDescr mt_symmetric fm_lower dg_non_unit b.
(** Status, x, iterations, reported norm *)
Definition q_out {E} (r : option (status * E * cg Qc Qc * io Qc Qc)) : option (status * list Q * Z * Q) :=
  match r with Some (st, _, _, o) => Some (st, map this (o_x o), o_iter o, this (o_res o)) | None => None end.

(** [2 1; 1 3] x = [3; 4], each preconditioner *)
Definition q_u2 := q_hnd 2 3 0 [0;1;3] [0;0;1] [2;1;3]%Q.
Lemma q_u2_ok : hnd_ok (o0 Qops) (q_h q_u2) q_u2 /\ sortable q_u2.
Proof.
  split.
  - split; [um; left; repeat split|]. exists []. repeat split; auto; discriminate.
  - left. apply rows_groupedb_ok. reflexivity.
Qed.
Example C43_case : forall p, In p [0; 1; 3] -> q_out (q_solve 40 2 [3;4]%Q (q_h q_u2) (q_d 0) (q_cg 2 (1 # 1000) 5 p)) = Some (success, [1;1]%Q, 2, 0%Q).
Proof. intros p [<- | [<- | [<- | []]]]; vm_compute; reflexivity. Qed.
Example C43_solve_hyps : exists k st h' u' ud' c' o',
  q_solve 40 2 [3;4]%Q (q_h q_u2) (q_d 0) (q_cg 2 (1 # 1000) 5 3) = Some (st, (h', ud'), c', o') /\ hnd_ok (o0 Qops) h' u' /\ same_data q_u2 u' /\
  reaches Qops q_pos q_le Qcmult (fun _ => false) (Q2Qc 0) q_nrm q_negz (Q2Qc 1) (described Qops mt_symmetric fm_lower dg_non_unit (hnd_mat Qops q_u2)) 2 (qv [3;4]%Q)
    (gauss_seidel Qops (described Qops mt_symmetric fm_lower dg_non_unit (hnd_mat Qops q_u2)) 2)
    (q_cg 2 (1 # 1000) 5 3) (q_io 2) k st j_stop c' o'.
Proof.
  apply C43_solve with (d := q_d 0); try reflexivity; try (cbn; lia); try (apply q_u2_ok).
  - apply qenv.
  - intros k. unfold pick2. destruct (_ || _); discriminate.
  - repeat split.
  - right. right. split; [reflexivity|]. split; [|auto]. constructor; try (cbn; lia).
    + intros (c & [E | []] & Q). injection E as <-. discriminate Q.
    + intros c [E | []]. injection E as <-. reflexivity.
    + discriminate.
    + right. apply rows_distinctb_ok. reflexivity.
    + apply full_diagb_ok. reflexivity.
    + intros i Hi. assert (i = 0 \/ i = 1) as [-> | ->] by (cbn in Hi; lia); intros E; apply (f_equal this) in E; vm_compute in E; discriminate.
    + reflexivity.
Qed.

(** The same system without preconditioner and without limit: at most 11 calls *)
Example C43_finite_hyps : forall k st jb c' o',
  reaches Qops q_pos q_le Qcmult (fun _ => false) (Q2Qc 0) q_nrm q_negz (Q2Qc 1) (described Qops mt_symmetric fm_lower dg_non_unit (hnd_mat Qops q_u2)) 2 (qv [3;4]%Q)
    (fun u w => product Qops (fun i j => if i =? j then o1 Qops else o0 Qops) 2 w u) (q_cg 2 (1 # 1000) 0 0) (q_io 2) k st jb c' o' -> Z.of_nat k <= 11.
Proof.
  intros k st jb c' o' R. change 11 with (3 * 2 + 5).
  refine (proj1 (C43_finite _ _ Qops _ _ _ _ _ _ _ _ _ _ 2 _ Qlaws Qdiv_law _ _ _ _ _ _ _ _ _ _ _ _ _ _ _ R)); try lia; try reflexivity.
  - discriminate.
  - intros i j Hi Hj. assert (i = 0 \/ i = 1) as [-> | ->] by lia; assert (j = 0 \/ j = 1) as [-> | ->] by lia; vm_compute; reflexivity.
  - intros i j Hi Hj. rewrite Z.eqb_sym. reflexivity.
  - repeat split.
Qed.

(** ** Refuted parts *)

(** The iteration limit: one iteration too many is made.  diag(1, 2, 3) x = (1, 1, 1),
    limit 1, two iterations. *)
Definition q_u3 := q_hnd 3 3 0 [0;1;2;3] [0;1;2] [1;2;3]%Q.
Theorem C43_limit_refuted : exists h d n b c, g_maxit c = 1 /\ exists st x res,
  q_out (q_solve 40 n b h d c) = Some (st, x, 2, res) /\ st = maxit.
Proof. exists (q_h q_u3), (q_d 0), 3, [1;1;1]%Q, (q_cg 3 (1 # 1000) 1 0). split; [reflexivity|]. do 3 eexists. split; [vm_compute; reflexivity|reflexivity]. Qed.
Print Assumptions C43_limit_refuted.

(** The monitor of the forward interface is promised x and A x - b; it is given A x - b
    and a null pointer.  First call, x = (0, 0). *)
Theorem C43_monitor_refuted : exists h d n b c, match q_solve 40 n b h d c with
  | Some (success, (_, (Some x, r) :: _), _, _) => map this x = [-3; -4]%Q /\ r = None
  | _ => False
  end.
Proof. exists (q_h q_u2), (q_d 0), 2, [3;4]%Q, (q_cg 2 (1 # 1000) 5 0). vm_compute. auto. Qed.
Print Assumptions C43_monitor_refuted.

(** A well-conditioned positive definite system is given up with numerical_error when its
    right-hand side is small: 1 x = 10^-9, relative tolerance 10^-3. *)
Definition q_u1 := q_hnd 1 1 0 [0;1] [0] [1]%Q.
Theorem C43_small_refuted : exists h d n b c,
  q_out (q_solve 40 n b h d c) = Some (numerical_error, [0]%Q, 1, 1 # 1000000000).
Proof. exists (q_h q_u1), (q_d 0), 1, [1 # 1000000000]%Q, (q_cg 1 (1 # 1000) 5 0). vm_compute. reflexivity. Qed.
Print Assumptions C43_small_refuted.

(** The built-in preconditioner on one-based matrices: the position of the diagonal is
    not rebased and the value array is read past its end (same matrix as above). *)
Definition q_u2b := q_hnd 2 3 1 [1;2;4] [1;1;2] [2;1;3]%Q.
Theorem C43_gauss_seidel_base_refuted :
  match csr_csc_optimize Qops isort tjunk tjunkq (q_h q_u2b) with
  | Some (success, h, Some _) => itsol_symgs Qops isort tjunk tjunkq dt_d tpick 31 h (q_d 1) (qv [3;4]%Q) (qv [0;0]%Q) (qv [0;0]%Q) = None
  | _ => False
  end /\
  match csr_csc_optimize Qops isort tjunk tjunkq (q_h q_u2) with
  | Some (success, h, Some _) => itsol_symgs Qops isort tjunk tjunkq dt_d tpick 31 h (q_d 0) (qv [3;4]%Q) (qv [0;0]%Q) (qv [0;0]%Q) <> None
  | _ => False
  end.
Proof. vm_compute. split; [reflexivity|discriminate]. Qed.
Print Assumptions C43_gauss_seidel_base_refuted.
