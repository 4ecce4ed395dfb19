(** Real numbers as exact arithmetic for GMRES, and runs computed for examples. *)
From Coq Require Import ZArith List Bool Lia Reals Lra.
From Verif Require Import Base BaseFacts Algebra CgModel CgSpec GmresModel GmresSpec GmresAlg GmresLoops GmresCycle GmresProof GmresRun.
Import ListNotations.
Open Scope Z_scope.

(** Real arithmetic *)
Definition Rops : ops R := mkOps R 0%R 1%R Rplus Rmult Rminus Ropp (fun a => a) (fun a b => if Req_EM_T a b then true else false) Rdiv.
Definition Rnorm2 (l : list R) : R := sqrt (fold_right (fun a s => (a * a + s)%R) 0%R l).
(** What the solver calls from outside, in real arithmetic: exact 2-norm, absolute value,
    comparisons and plane rotation.  The near-zero test may be true for more than 0. *)
Record real_env (e : genv R) : Prop := mk_real_env {
  re_lt : forall a b, e_lt e a b = true <-> (a < b)%R;
  re_le : forall a b, e_le e a b = true <-> (a <= b)%R;
  re_abs : forall a, e_abs e a = Rabs a;
  re_nrm : forall l, e_nrm e l = Rnorm2 l;
  re_nz : e_nz e 0%R = true;
  re_lartg : forall f g c s r, e_lartg e f g = (c, s, r) -> (c * f + s * g = r /\ c * g - s * f = 0 /\ c * c + s * s = 1)%R }.

Lemma Rlaws : laws Rops.
Proof.
  constructor; cbn; auto.
  - constructor; intros; cbn; ring.
  - intros a b. destruct (Req_EM_T a b); split; auto; discriminate.
Qed.
Lemma Rdiv_law : div_law Rops.
Proof. intros a b H. cbn in *. field. exact H. Qed.
Lemma sumsq_nonneg : forall l, (0 <= fold_right (fun a s => (a * a + s)%R) 0%R l)%R.
Proof. induction l as [|a l IH]; cbn; [lra|]. pose proof (Rle_0_sqr a). unfold Rsqr in *. lra. Qed.
Lemma Rnorm2_pos : forall l, (0 <= Rnorm2 l)%R.
Proof. intros. apply sqrt_pos. Qed.
Lemma real_exact : forall e, real_env e -> gexact Rops e.
Proof.
  intros e H. constructor.
  - exact Rlaws.
  - exact Rdiv_law.
  - reflexivity.
  - intros l. rewrite (re_nrm e H). cbn. unfold Rnorm2. rewrite sqrt_sqrt by apply sumsq_nonneg. reflexivity.
  - intros a. rewrite (re_abs e H). cbn. fold (Rsqr (Rabs a)). rewrite <- Rsqr_abs. reflexivity.
  - intros l a. rewrite (re_nrm e H), (re_abs e H). cbn. intros E. apply Rsqr_inj; [apply Rnorm2_pos|apply Rabs_pos|exact E].
  - intros a b Q. apply (re_le e H). apply (re_lt e H) in Q. lra.
  - exact (re_nz e H).
  - exact (re_lartg e H).
Qed.

Lemma sumz_sq : forall lo hi d, (0 <= sumz Rops lo hi (fun i => d i * d i)%R)%R.
Proof.
  intros lo hi d. unfold sumz. generalize (zrange lo hi). induction l as [|i l IH]; [apply Rle_refl|]. apply Rplus_le_le_0_compat; [apply Rle_0_sqr|exact IH].
Qed.

(** One such environment *)
Definition lartg_R (f g : R) : R * R * R :=
  let r := sqrt (f * f + g * g) in if Req_EM_T r 0 then (1, 0, 0)%R else ((f / r)%R, (g / r)%R, r).
Definition Renv : genv R := mkGenv R (fun _ => false) (fun a b => if Rlt_dec a b then true else false) (fun a b => if Rle_dec a b then true else false)
  (fun a => if Req_EM_T a 0 then true else false) Rabs Rnorm2 lartg_R.
Lemma Renv_real : real_env Renv.
Proof.
  constructor; cbn.
  - intros a b. destruct (Rlt_dec a b); split; auto; try discriminate; contradiction.
  - intros a b. destruct (Rle_dec a b); split; auto; try discriminate; contradiction.
  - reflexivity.
  - reflexivity.
  - destruct (Req_EM_T 0 0); [reflexivity|contradiction].
  - intros f g c s r E. unfold lartg_R in E. set (q := sqrt (f * f + g * g)) in *.
    pose proof (Rle_0_sqr f) as F. pose proof (Rle_0_sqr g) as G. unfold Rsqr in F, G.
    assert (Q : (q * q = f * f + g * g)%R) by (apply sqrt_sqrt; lra).
    destruct (Req_EM_T q 0) as [Z|Z].
    + rewrite Z in Q. assert (f = 0)%R by (apply Rsqr_0_uniq; unfold Rsqr; lra). assert (g = 0)%R by (apply Rsqr_0_uniq; unfold Rsqr; lra).
      injection E as <- <- <-. subst f g. repeat split; lra.
    + injection E as <- <- <-. split; [|split].
      * replace (f / q * f + g / q * g)%R with ((f * f + g * g) / q)%R by (field; exact Z). rewrite <- Q. field. exact Z.
      * field. exact Z.
      * replace (f / q * (f / q) + g / q * (g / q))%R with ((f * f + g * g) / (q * q))%R by (field; exact Z). rewrite <- Q. field. exact Z.
Qed.

(** ** Runs in which every request is served; the preconditioner copies *)
Section Run.
  Context {T : Type} (O : ops T) (e : genv T) (p : gopt T) (A : Z -> Z -> T) (n : Z) (b : list T).
  Fixpoint grun (fuel : nat) (k : nat) (r : gresult (T := T)) : option (nat * gresult (T := T)) :=
    let '(st, jb, w, o) := r in
    match fuel, jb with
    | 0%nat, _ | _, j_stop => Some (k, r)
    | Datatypes.S fuel, j_mv =>
        let* u := gget n (i_u o) w o in
        let* r' := grci_solve O e p n b (gput O n (i_v o) (map (times O A n u) (zrange 0 n)) w) o j_mv in grun fuel (Datatypes.S k) r'
    | Datatypes.S fuel, j_precond =>
        let* u := gget n (i_u o) w o in
        if zlen u =? n then let* r' := grci_solve O e p n b (gput O n (i_v o) u w) o j_precond in grun fuel (Datatypes.S k) r' else None
    | Datatypes.S fuel, j_monitor => let* r' := grci_solve O e p n b w o j_monitor in grun fuel (Datatypes.S k) r'
    | _, _ => None
    end.
  Definition gsolve (fuel : nat) (w : gwork T) (o : gio T) : option (nat * gresult (T := T)) :=
    let* r := grci_solve O e p n b w o j_start in grun fuel 1 r.

  Lemma product_map : forall u, 0 <= n -> product O A n (map (times O A n u) (zrange 0 n)) u.
  Proof.
    intros u Hn. split; [rewrite zlen_map, zlen_zrange; lia|]. intros i Hi. rewrite (nthZ_map _ _ _ 0 (o0 O)) by (rewrite zlen_zrange; lia). rewrite nthZ_zrange by lia. reflexivity.
  Qed.
  Lemma grun_reaches : forall w o, 0 <= n -> forall fuel k r, greaches O e p A n b w o k (fst (fst (fst r))) (snd (fst (fst r))) (snd (fst r)) (snd r) ->
    forall k' r', grun fuel k r = Some (k', r') -> greaches O e p A n b w o k' (fst (fst (fst r'))) (snd (fst (fst r'))) (snd (fst r')) (snd r').
  Proof.
    intros w o Hn. induction fuel as [|f IH]; intros k (((st, jb), w1), o1) R k' r' E; cbn in E, R.
    - injection E as <- <-. exact R.
    - destruct jb; try discriminate.
      + injection E as <- <-. exact R.
      + destruct (gget n (i_u o1) w1 o1) as [u|] eqn:Eu; [|discriminate]. destruct (grci_solve _ _ _ _ _ _ _ j_mv) as [r2|] eqn:Er; [|discriminate].
        destruct r2 as (((st2, jb2), w2), o2).
        eapply IH; [|exact E]. eapply gr_next; [exact R|discriminate| |exact Er]. left. split; [reflexivity|]. eapply gs_mv; [exact Eu|apply product_map; exact Hn].
      + destruct (gget n (i_u o1) w1 o1) as [u|] eqn:Eu; [|discriminate]. destruct (Z.eqb_spec (zlen u) n) as [Zu|]; [|discriminate].
        destruct (grci_solve _ _ _ _ _ _ _ j_precond) as [r2|] eqn:Er; [|discriminate]. destruct r2 as (((st2, jb2), w2), o2).
        eapply IH; [|exact E]. eapply gr_next; [exact R|discriminate| |exact Er]. left. split; [reflexivity|]. apply gs_precond. exact Zu.
      + destruct (grci_solve _ _ _ _ _ _ _ j_monitor) as [r2|] eqn:Er; [|discriminate]. destruct r2 as (((st2, jb2), w2), o2).
        eapply IH; [|exact E]. eapply gr_next; [exact R|discriminate| |exact Er]. left. split; [reflexivity|]. apply gs_monitor.
  Qed.
  Lemma gsolve_reaches : forall fuel w o k st jb w' o', 0 <= n -> gsolve fuel w o = Some (k, (st, jb, w', o')) -> greaches O e p A n b w o k st jb w' o'.
  Proof.
    intros fuel w o k st jb w' o' Hn E. unfold gsolve in E. destruct (grci_solve _ _ _ _ _ _ _ j_start) as [r|] eqn:Er; [|discriminate].
    destruct r as (((st1, jb1), w1), o1). exact (grun_reaches w o Hn fuel 1 (st1, jb1, w1, o1) (gr_first O e p A n b w o _ _ _ _ _ Er) k _ E).
  Qed.
End Run.
