(** GMRES over whole runs: what every request and every stop guarantees. *)
From Coq Require Import ZArith List Bool Lia.
From Coq Require Import ZifyBool ZifyNat.
From Verif Require Import Base BaseFacts Algebra CgModel CgSpec GmresModel GmresSpec GmresAlg GmresLoops GmresCycle GmresProof.
Import ListNotations.
Open Scope Z_scope.

Section P.
  Context {T : Type} (O : ops T) (e : genv T) (p : gopt T) (A : Z -> Z -> T) (n : Z) (b : list T) (x0 : list T).
  Hypothesis Hn : 0 <= n.
  Hypothesis Hb : zlen b = n.
  Notation m := (p_restart p).
  Hypothesis Hm : 0 < m.
  Notation nt := (nthZ (o0 O)).
  Notation sizes := (gsizes p n).
  Notation EX := (EX O e p A n b x0).
  Notation cyc := (cyc O p A n b).
  Notation res x := (e_nrm e (resid O A n b x)).
  Notation brt := (brt O e p b).
  Notation stopc := (stopc O e p b).
  Notation nonzero := (nonzero O e A n b).
  Notation dirp := (dirp p).

  Definition going (w : gwork T) : Prop := 0 < p_maxit p -> w_niter w < p_maxit p.
  (** [k] calls made, [c] cycles completed *)
  Definition ginv (k : Z) (jb : job) (w : gwork T) (o : gio T) : Prop :=
    sizes w o /\ exists c, 0 <= c /\ w_niter w = c * m /\
    match jb with
    | j_mv =>
        going w /\
        ((w_task w = q_init_res /\ w_j w = 0 /\ i_u o = p_x /\ i_v o = p_v 0 /\ k <= c * (2 * m + 2) + 1 /\ (EX -> nonzero (i_x o))) \/
         (w_task w = q_start_iter /\ 0 <= w_j w < m /\ i_u o = dirp (w_j w) /\ i_v o = p_v (w_j w + 1) /\ w_brtol w = brt /\ i_rhs o = brt /\
          k <= c * (2 * m + 2) + 3 + 2 * w_j w /\ (EX -> cyc (w_j w) w (i_x o))))
    | j_precond =>
        going w /\ (w_task w = q_init_precond \/ w_task w = q_end_iter) /\ p_precond p <> 0 /\ 0 <= w_j w < m /\ i_u o = p_v (w_j w) /\ i_v o = p_z (w_j w) /\
        w_brtol w = brt /\ i_rhs o = brt /\ k <= c * (2 * m + 2) + 2 + 2 * w_j w /\ (EX -> cyc (w_j w) w (i_x o))
    | j_monitor =>
        w_j w = 0 /\ w_brtol w = brt /\ i_rhs o = brt /\ k <= c * (2 * m + 2) /\ i_iter o = w_niter w /\ i_res o = w_rnorm w /\
        w_task w = (if stopc (w_rnorm w) (w_niter w) then q_check else q_restart) /\ (0 < p_maxit p -> w_niter w <= p_maxit p + m - 1) /\
        (EX -> i_res o = res (i_x o) /\ i_res o <> o0 O)
    | _ => False
    end.

  (** A stop: [jb], [o] are the request that was answered and what the caller saw then *)
  Definition gstop (jb : job) (o : gio T) (jb2 : job) (st : status) (o' : gio T) : Prop :=
    match st with
    | success =>
        (0 < p_maxit p -> i_iter o' <= p_maxit p + m - 1) /\ i_rhs o' = brt /\ i_x o' = i_x o /\
        (jb = j_monitor \/ jb = j_mv) /\
        (EX -> jb = j_monitor \/ i_u o = p_x -> i_res o' = res (i_x o') /\ gconverged O e p b (i_res o'))
    | maxit =>
        jb = j_monitor /\ o' = o /\ 0 < p_maxit p <= i_iter o' /\ i_iter o' <= p_maxit p + m - 1 /\
        (EX -> i_res o' = res (i_x o') /\ i_res o' <> o0 O /\ e_lt e (o0 O) (p_atol p) && e_le e (i_res o') (p_atol p) = false /\ e_lt e (o0 O) (i_res o') && e_le e (i_res o') brt = false)
    | user_stop => jb2 = j_interrupt /\ o' = o
    | numerical_error => jb = j_mv /\ i_x o' = i_x o
    | invalid_value => jb = j_mv /\ i_u o = p_x /\ i_x o' = i_x o
    | _ => False
    end.

  Lemma gput_sizes : forall v a w o, sizes w o -> sizes (gput O n v a w) o.
  Proof. intros v a w o S. destruct v; cbn [gput]; auto; unfold gsizes in *; cbn [w_v w_z w_h w_g w_c w_s]; rewrite (put_row_len O A n); exact S. Qed.
  Lemma gput_same : forall v a w, w_task (gput O n v a w) = w_task w /\ w_j (gput O n v a w) = w_j w /\ w_niter (gput O n v a w) = w_niter w /\ w_brtol (gput O n v a w) = w_brtol w.
  Proof. intros v a w. destruct v; cbn; auto. Qed.

  Lemma cyc_put_v : forall w o j a, sizes w o -> 0 <= j < m -> cyc j w (i_x o) -> cyc j (gput O n (p_v (j + 1)) a w) (i_x o).
  Proof.
    intros w o j a (S1 & _) Hj (C & CN). split; [|exact CN].
    assert (Q : forall k q, 0 <= k <= j -> 0 <= q < n -> nt (put_row O n (j + 1) a (w_v w)) (k * n + q) = nt (w_v w) (k * n + q)).
    { intros k q Hk Hq. pose proof (idx_lt n k q (m + 1) ltac:(lia) ltac:(lia)). rewrite (put_row_nth O A n Hn) by lia. destruct (Z.eqb_spec k (j + 1)); [lia|reflexivity]. }
    eapply cyc_ext; [| |lia|exact C].
    - intros k q Hk Hq. unfold Vf. cbn [gput w_v]. apply Q; auto.
    - intros k q Hk Hq. unfold AZf, bas. cbn [gput w_v w_z]. destruct (p_precond p =? 0); [|reflexivity]. apply sumz_ext. intros r Hr. rewrite Q by lia. reflexivity.
  Qed.
  Lemma cyc_put_z : forall w o j a, sizes w o -> 0 <= j < m -> p_precond p <> 0 -> cyc j w (i_x o) -> cyc j (gput O n (p_z j) a w) (i_x o).
  Proof.
    intros w o j a (_ & S2 & _) Hj NP (C & CN). split; [|exact CN].
    eapply cyc_ext; [| |lia|exact C].
    - intros k q Hk Hq. reflexivity.
    - intros k q Hk Hq. unfold AZf, bas. cbn [gput w_v w_z]. destruct (Z.eqb_spec (p_precond p) 0); [contradiction|]. apply sumz_ext. intros r Hr.
      pose proof (idx_lt n k r (m + 1) ltac:(lia) ltac:(lia)). rewrite (put_row_nth O A n Hn) by lia. destruct (Z.eqb_spec k j); [lia|reflexivity].
  Qed.

  Lemma first_ok : forall w o jb, gfresh p n w o -> i_x o = x0 ->
    exists w' o', grci_solve O e p n b w o jb = Some (success, j_mv, w', o') /\ ginv 1 j_mv w' o'.
  Proof.
    intros w o jb (E1 & E2 & E3 & S) Ex. unfold grci_solve, gmres_rci. rewrite E1. eexists _, _. split; [reflexivity|].
    split; [exact S|]. exists 0. cbn. split; [lia|]. split; [lia|]. split; [unfold going; cbn; lia|]. left. repeat (split; [auto; try lia|]). rewrite Ex. intros (_ & _ & H). exact H.
  Qed.

  Definition gpost (k : Z) (jb : job) (w2 : gwork T) (o : gio T) (jb2 : job) (st : status) (jb' : job) (w' : gwork T) (o' : gio T) : Prop :=
    (jb' = j_stop /\ zlen (i_x o') = n /\ gstop jb o jb2 st o') \/
    (jb' <> j_stop /\ st = success /\ jb2 = jb /\ ginv k jb' w' o' /\ (jb' <> j_monitor -> i_x o' = i_x o) /\
     (jb' = j_monitor -> EX -> minimal O e p A n b (i_x o) w2 (i_res o'))).

  Lemma asked_inv : forall k c w1 o1 st jb w' o', asked O e p A n b x0 w1 o1 (st, jb, w', o') -> 0 <= c -> w_niter w1 = c * m -> going w1 -> 0 <= w_j w1 < m ->
    w_brtol w1 = brt -> i_rhs o1 = brt -> (EX -> cyc (w_j w1) w1 (i_x o1)) -> k <= c * (2 * m + 2) + 2 + 2 * w_j w1 ->
    jb <> j_stop /\ jb <> j_monitor /\ st = success /\ ginv k jb w' o' /\ i_x o' = i_x o1.
  Proof.
    intros k c w1 o1 st jb w' o' (A1 & A2 & A3 & A4 & A5 & A6 & A7 & A8 & A9) Hc En Hg Hj Eb Er HC Hk.
    assert (G' : going w') by (unfold going in *; rewrite A4; exact Hg).
    assert (HC' : EX -> cyc (w_j w1) w' (i_x o1)) by (intros Q; apply A8; auto).
    destruct A9 as [(-> & B1 & B2 & B3) | (-> & B1 & B2 & B3 & B4)].
    - split; [discriminate|]. split; [discriminate|]. split; [exact A1|]. split; [|exact A6]. split; [exact A2|]. exists c. split; [exact Hc|]. split; [lia|]. split; [exact G'|].
      right. rewrite A3, A5, A6, A7. repeat (split; [first [assumption|lia]|]). exact HC'.
    - split; [discriminate|]. split; [discriminate|]. split; [exact A1|]. split; [|exact A6]. split; [exact A2|]. exists c. split; [exact Hc|]. split; [lia|]. split; [exact G'|].
      rewrite A3, A5, A6, A7. repeat (split; [first [assumption|lia]|]). exact HC'.
  Qed.

  Lemma step_ok : forall k jb w o w2 jb2, ginv k jb w o -> ganswer O A n w o jb w2 jb2 ->
    exists st jb' w' o', grci_solve O e p n b w2 o jb2 = Some (st, jb', w', o') /\ gpost (k + 1) jb w2 o jb2 st jb' w' o'.
  Proof.
    intros k jb w o w2 jb2 (S & c & Hc & En & I) Ans.
    destruct Ans as [(-> & Sv) | (-> & St)].
    2:{ (* the user asks to stop *)
        assert (E : w_task w2 = w_task w) by (destruct St as [-> | (a & _ & ->)]; [reflexivity|apply gput_same]).
        assert (NS : w_task w <> q_start).
        { destruct jb; try contradiction.
          - destruct I as (_ & [(E1 & _) | (E1 & _)]); rewrite E1; discriminate.
          - destruct I as (_ & [E1|E1] & _); rewrite E1; discriminate.
          - destruct I as (_ & _ & _ & _ & _ & _ & E1 & _). rewrite E1. destruct (stopc _ _); discriminate. }
        exists user_stop, j_stop, w2, o. split.
        - unfold grci_solve, gmres_rci. rewrite E. destruct (w_task w); try reflexivity. contradiction.
        - left. split; [reflexivity|]. split; [apply S|]. cbn. auto. }
    destruct Sv as [u a Eu Pr | a Za | ].
    - (* a product *)
      destruct I as (G & [(E1 & E2 & E3 & E4 & Hk & NZ) | (E1 & Hj & E3 & E4 & Eb & Er & Hk & HC)]).
      + rewrite E4. set (w2 := gput O n (p_v 0) a w). assert (S2 : sizes w2 o) by (apply gput_sizes; exact S).
        destruct (gput_same (p_v 0) a w) as (T1 & T2 & T3 & T4). fold w2 in T1, T2, T3, T4.
        rewrite E3 in Eu. cbn [gget] in Eu. injection Eu as <-.
        destruct (init_res_ok O e p A n b x0 Hn Hb Hm w2 o j_mv a S2 ltac:(congruence) ltac:(nia)) as (r & E & P).
        { intros q Hq. destruct S as (S1 & _). pose proof (idx_lt n 0 q (m + 1) ltac:(lia) ltac:(lia)). unfold w2. cbn [gput w_v]. rewrite (put_row_nth O A n Hn) by lia. rewrite Z.eqb_refl. reflexivity. }
        { intros Q. split; [exact Pr|apply NZ; exact Q]. }
        destruct r as (((st, jb'), w'), o').
        unfold grci_solve, gmres_rci. rewrite T1, E1, E. destruct P as [(-> & Ex) | [(-> & -> & Ex & Ei & Er & Hx) | (w1 & o1 & AK & B1 & B2 & B3 & B4 & B5 & B6)]].
        * eexists _, _, _, _. split; [reflexivity|]. left. split; [reflexivity|]. split; [rewrite Ex; apply S|]. cbn. auto.
        * eexists _, _, _, _. split; [reflexivity|]. left. split; [reflexivity|]. split; [rewrite Ex; apply S|]. cbn. split; [unfold going in G; lia|]. split; [exact Er|]. split; [auto|]. split; [auto|]. rewrite Ex. intros Q _. apply Hx. exact Q.
        * destruct (asked_inv (k + 1) c w1 o1 st jb' w' o' AK) as (C1 & C2 & C3 & C4 & C5); auto; try lia.
          { unfold going in *. rewrite B2, T3. exact G. }
          { rewrite B4, B1. exact B6. }
          subst st. eexists _, _, _, _. split; [reflexivity|]. right. split; [exact C1|]. split; [reflexivity|]. split; [reflexivity|]. split; [exact C4|]. split; [intros _; congruence|]. intros Q. contradiction.
      + rewrite E4. set (j := w_j w) in *. set (w2 := gput O n (p_v (j + 1)) a w). assert (S2 : sizes w2 o) by (apply gput_sizes; exact S).
        destruct (gput_same (p_v (j + 1)) a w) as (T1 & T2 & T3 & T4). fold w2 in T1, T2, T3, T4. fold j in T2.
        destruct (start_iter_ok O e p A n b x0 Hn Hm w2 o j_mv S2 ltac:(lia) ltac:(congruence)) as (r & E & P).
        { rewrite T2. intros Q. split; [apply cyc_put_v; auto|]. intros q Hq. pose proof S as (S1 & Sz & _).
          unfold Vf, w2. cbn [gput w_v]. pose proof (idx_lt n (j + 1) q (m + 1) ltac:(lia) ltac:(lia)). rewrite (put_row_nth O A n Hn) by lia. rewrite Z.eqb_refl.
          destruct Pr as (_ & Pr). rewrite Pr by exact Hq. unfold times, AZf. apply sumz_ext. intros r Hr. f_equal.
          pose proof (idx_lt n j r (m + 1) ltac:(lia) ltac:(lia)). assert (Bj : 0 <= j * n /\ j * n + n <= (m + 1) * n) by nia.
          rewrite E3 in Eu. unfold GmresProof.dirp, bas in *. cbn [gput w_v w_z]. destruct (p_precond p =? 0); cbn [gget] in Eu; rewrite (get_row_ok O) in Eu by lia; injection Eu as <-;
            rewrite (nthZ_map _ _ _ 0 (o0 O)) by (rewrite zlen_zrange; lia); rewrite nthZ_zrange by lia; rewrite Z.add_0_l; [|reflexivity].
          rewrite (put_row_nth O A n Hn) by lia. destruct (Z.eqb_spec j (j + 1)); [lia|reflexivity]. }
        rewrite T2, T3 in P. destruct r as (((st, jb'), w'), o').
        unfold grci_solve, gmres_rci. rewrite T1, E1, E.
        destruct P as [(-> & -> & Ex & Ei & Er') | [(-> & Ex) | [(w1 & o1 & AK & B1 & B2 & B3 & B4 & B5 & B6 & B7) | (-> & -> & D1 & D2 & D3 & D4 & D5 & D6 & D7 & D8 & D9 & D10)]]].
        * eexists _, _, _, _. split; [reflexivity|]. left. split; [reflexivity|]. split; [rewrite Ex; apply S|]. cbn. split; [unfold going in G; lia|]. split; [congruence|]. split; [auto|]. split; [auto|].
          intros _ [Q|Q]; [discriminate|]. exfalso. rewrite E3 in Q. unfold GmresProof.dirp in Q. destruct (p_precond p =? 0); discriminate.
        * eexists _, _, _, _. split; [reflexivity|]. left. split; [reflexivity|]. split; [rewrite Ex; apply S|]. cbn. auto.
        * destruct (asked_inv (k + 1) c w1 o1 st jb' w' o' AK) as (C1 & C2 & C3 & C4 & C5); auto; try lia; try congruence.
          { unfold going in *. rewrite B3. exact G. }
          { rewrite B5. exact B7. }
          subst st. eexists _, _, _, _. split; [reflexivity|]. right. split; [exact C1|]. split; [reflexivity|]. split; [reflexivity|]. split; [exact C4|]. split; [intros _; congruence|]. intros Q. contradiction.
        * eexists _, _, _, _. split; [reflexivity|]. right. split; [discriminate|]. split; [reflexivity|]. split; [reflexivity|]. split; [|split; [congruence|intros _ Q; apply (D10 Q)]].
          split; [exact D2|]. exists (c + 1). split; [lia|]. split; [lia|].
          split; [exact D3|]. split; [exact D6|]. split; [congruence|]. split; [lia|]. split; [exact D5|]. split; [exact D7|]. split; [exact D9|]. split; [unfold going in G; lia|]. intros Q. destruct (D10 Q) as (Y1 & _ & Y2). auto.
    - (* a preconditioner step *)
      destruct I as (G & E1 & NP & Hj & E3 & E4 & Eb & Er & Hk & HC). rewrite E4. set (j := w_j w) in *. set (w2 := gput O n (p_z j) a w).
      assert (S2 : sizes w2 o) by (apply gput_sizes; exact S). destruct (gput_same (p_z j) a w) as (T1 & T2 & T3 & T4). fold w2 in T1, T2, T3, T4. fold j in T2.
      assert (E : grci_solve O e p n b w2 o j_precond = Some (success, j_mv, at_task w2 q_start_iter, giv o (dirp j) (p_v (j + 1)))).
      { unfold grci_solve, gmres_rci, ask_mv. rewrite T1. destruct E1 as [-> | ->]; rewrite T2; reflexivity. }
      eexists _, _, _, _. split; [exact E|]. right. split; [discriminate|]. split; [reflexivity|]. split; [reflexivity|]. split; [|split; [reflexivity|discriminate]].
      split; [exact S2|]. exists c. split; [exact Hc|]. split; [exact En|]. split; [exact G|]. right. cbn [at_task giv w_task w_j w_brtol i_u i_v i_rhs i_x]. rewrite T2.
      repeat (split; [first [assumption|reflexivity|lia]|]). intros Q. apply (cyc_put_z w o j a S Hj NP (HC Q)).
    - (* a monitoring step *)
      destruct I as (E2 & Eb & Er & Hk & Ei & Es & Et & Hl & HX).
      destruct (stopc (w_rnorm w) (w_niter w)) eqn:ES; unfold grci_solve, gmres_rci; rewrite Et.
      + unfold do_check_conv. rewrite Eb. unfold GmresProof.stopc in ES.
        destruct (e_lt e (o0 O) (p_atol p) && e_le e (w_rnorm w) (p_atol p) || e_lt e (o0 O) (w_rnorm w) && e_le e (w_rnorm w) brt) eqn:EC.
        * eexists _, _, _, _. split; [reflexivity|]. left. split; [reflexivity|]. split; [apply S|]. cbn. split; [lia|]. split; [exact Er|]. split; [auto|]. split; [auto|]. intros Q _. split; [apply HX; exact Q|].
          rewrite Es. unfold gconverged. apply orb_true_iff in EC. destruct EC as [EC|EC]; apply andb_true_iff in EC; [left|right]; tauto.
        * cbn [orb] in ES. rewrite ES. eexists _, _, _, _. split; [reflexivity|]. left. split; [reflexivity|]. split; [apply S|]. cbn. apply orb_false_iff in EC. destruct EC as (EC1 & EC2).
          apply andb_true_iff in ES. destruct ES as (F1 & F2). apply Z.ltb_lt in F1. apply Z.leb_le in F2.
          split; [reflexivity|]. split; [reflexivity|]. split; [lia|]. split; [apply (Z.le_trans _ (w_niter w)); [lia|apply Hl; lia]|]. intros Q. destruct (HX Q) as (Y1 & Y2). rewrite <- Es in EC1, EC2. auto.
      + eexists _, _, _, _. split; [reflexivity|]. right. split; [discriminate|]. split; [reflexivity|]. split; [reflexivity|]. split; [|split; [reflexivity|discriminate]].
        split; [exact S|]. exists c. cbn [at_task giv w_task w_j w_niter i_u i_v i_x]. split; [exact Hc|]. split; [exact En|].
        unfold GmresProof.stopc in ES. apply orb_false_iff in ES. destruct ES as (ES & ES3). apply orb_false_iff in ES. destruct ES as (ES1 & ES2).
        split; [unfold going; cbn [at_task w_niter]; intros Q; apply andb_false_iff in ES3; destruct ES3 as [F|F]; [apply Z.ltb_ge in F|apply Z.leb_gt in F]; lia|].
        left. do 4 (split; [first [reflexivity|assumption]|]). split; [lia|]. intros Q N. destruct (HX Q) as (HR & HZ). congruence.
  Qed.

  Lemma stop_now : forall k jb w o w2 jb2, ginv k jb w o -> ganswer O A n w o jb w2 jb2 -> jb2 = j_interrupt -> grci_solve O e p n b w2 o jb2 = Some (user_stop, j_stop, w2, o).
  Proof.
    intros k jb w o w2 jb2 (S & c & Hc & En & I) Ans ->.
    destruct Ans as [(<- & Sv) | (_ & St)]; [contradiction|].
    assert (E : w_task w2 = w_task w) by (destruct St as [-> | (a & _ & ->)]; [reflexivity|apply gput_same]).
    assert (NS : w_task w <> q_start).
    { destruct jb; try contradiction.
      - destruct I as (_ & [(E1 & _) | (E1 & _)]); rewrite E1; discriminate.
      - destruct I as (_ & [E1|E1] & _); rewrite E1; discriminate.
      - destruct I as (_ & _ & _ & _ & _ & _ & E1 & _). rewrite E1. destruct (stopc _ _); discriminate. }
    unfold grci_solve, gmres_rci. rewrite E. destruct (w_task w); try reflexivity. contradiction.
  Qed.

  Lemma greaches_ok : forall w o k st jb w' o', gfresh p n w o -> i_x o = x0 -> greaches O e p A n b w o k st jb w' o' ->
    zlen (i_x o') = n /\
    (jb <> j_stop -> st = success /\ ginv (Z.of_nat k) jb w' o') /\
    (jb = j_stop -> exists k1 st1 jb1 w1 o1 w2 jb2, k = Datatypes.S k1 /\ greaches O e p A n b w o k1 st1 jb1 w1 o1 /\ jb1 <> j_stop /\ ganswer O A n w1 o1 jb1 w2 jb2 /\ gstop jb1 o1 jb2 st o').
  Proof.
    intros w o k st jb w' o' F Ex R. induction R as [jb st jb' w' o' E | k st jb w1 o1 w2 jb2 st' jb' w' o' R IH NS An E].
    - destruct (first_ok w o jb F Ex) as (w1 & o1 & E' & I). rewrite E' in E. injection E as <- <- <- <-. split; [apply I|]. split; [auto|discriminate].
    - destruct IH as (_ & IH & _). destruct (IH NS) as (_ & I).
      destruct (step_ok _ _ _ _ _ _ I An) as (st2 & jb3 & w3 & o3 & E' & P). rewrite E' in E. injection E as <- <- <- <-.
      destruct P as [(-> & Zx & St) | (N & -> & _ & I' & _)].
      + split; [exact Zx|]. split; [congruence|]. intros _. exists k, st, jb, w1, o1, w2, jb2. auto.
      + split; [apply I'|]. split; [|congruence]. intros _. split; [reflexivity|]. replace (Z.of_nat (Datatypes.S k)) with (Z.of_nat k + 1) by lia. exact I'.
  Qed.
End P.
