From Coq Require Import ZArith List Bool Lia ZifyBool ZifyNat Permutation.
From Verif Require Import Base BaseFacts Algebra DoidModel DoidSpec Csr CsrFacts CheckModel CheckSpec SortSpec MvModel MvSpec MvFacts CsrmvModel
  HandleModel HandleSpec HandleFacts OptProof MvHandleProof TrsvModel TrsvSpec SymgsModel SymgsSpec SymgsProof IluModel IluSpec IluHandleProof
  CgModel CgSpec GmresModel GmresSpec GmresAlg GmresLoops GmresCycle GmresProof GmresRun GmresSolveModel GmresSolveSpec.
Import ListNotations.
Open Scope Z_scope.

Section LP.
  Context {T : Type} (O : ops T) (e : genv T) (p : gopt T) (A : Z -> Z -> T) (n : Z) (b : list T) (prec : list T -> list T -> Prop).
  Hypothesis Hn : 0 <= n.
  Hypothesis Hb : zlen b = n.
  Notation m := (p_restart p).
  Hypothesis Hm : 0 < m.
  Notation rci := (grci_solve O e p n b).
  Notation freaches := (freaches O e p A n b prec).
  Notation greaches := (greaches O e p A n b).

  Lemma fserved_answer : forall w o jb w2 jb2, fserved O A n prec w o jb w2 jb2 -> ganswer O A n w o jb w2 jb2.
  Proof.
    intros w o jb w2 jb2 [u a Eu Pr | u a Eu Za Pc | a Za | | ].
    - left. split; [reflexivity|]. eapply gs_mv; eauto.
    - left. split; [reflexivity|]. apply gs_precond. exact Za.
    - right. split; [reflexivity|]. right. eauto.
    - left. split; [reflexivity|]. apply gs_monitor.
    - right. split; [reflexivity|]. left. reflexivity.
  Qed.
  Lemma freaches_greaches : forall w o k st jb w' o', freaches w o k st jb w' o' -> greaches w o k st jb w' o'.
  Proof.
    intros w o k st jb w' o' R. induction R as [st jb' w' o' E | k st jb w1 o1 w2 jb2 st' jb' w' o' R IH NS Sv E].
    - eapply gr_first. exact E.
    - eapply gr_next; [exact IH|exact NS|apply fserved_answer; exact Sv|exact E].
  Qed.

  (** The buffers of a request exist *)
  Lemma gget_ok : forall w o u, gsizes p n w o -> u = p_x \/ (exists k, 0 <= k <= m /\ (u = p_v k \/ u = p_z k)) -> exists l, gget n u w o = Some l /\ zlen l = n.
  Proof.
    intros w o u (S1 & S2 & _ & _ & _ & _ & S7) [-> | (k & Hk & [-> | ->])]; cbn [gget].
    - eauto.
    - assert (0 <= k * n /\ k * n + n <= (m + 1) * n) by nia. rewrite (get_row_ok O) by lia. eexists. split; [reflexivity|]. rewrite zlen_map, zlen_zrange; lia.
    - assert (0 <= k * n /\ k * n + n <= (m + 1) * n) by nia. rewrite (get_row_ok O) by lia. eexists. split; [reflexivity|]. rewrite zlen_map, zlen_zrange; lia.
  Qed.
  Lemma request_ok : forall x0 k jb w o, ginv O e p A n b x0 k jb w o -> jb = j_mv \/ jb = j_precond ->
    exists u v, gget n (i_u o) w o = Some u /\ zlen u = n /\ gget n (i_v o) w o = Some v /\ zlen v = n.
  Proof.
    intros x0 k jb w o (S & c & Hc & En & I) D.
    assert (Y : (i_u o = p_x \/ exists k, 0 <= k <= m /\ (i_u o = p_v k \/ i_u o = p_z k)) /\ (i_v o = p_x \/ exists k, 0 <= k <= m /\ (i_v o = p_v k \/ i_v o = p_z k))).
    { destruct D as [-> | ->].
      - destruct I as (_ & [(_ & _ & E3 & E4 & _) | (_ & Hj & E3 & E4 & _)]).
        + split; [left; exact E3|right; exists 0; split; [lia|auto]].
        + split; right; [exists (w_j w); split; [lia|]|exists (w_j w + 1); split; [lia|auto]]. rewrite E3. unfold dirp. destruct (p_precond p =? 0); auto.
      - destruct I as (_ & _ & _ & Hj & E3 & E4 & _). split; right; exists (w_j w); (split; [lia|auto]). }
    destruct Y as (Y1 & Y2). destruct (gget_ok w o _ S Y1) as (u & E1 & L1). destruct (gget_ok w o _ S Y2) as (v & E2 & L2). exists u, v. auto.
  Qed.

  Context {E : Type} (mv : E -> list T -> list T -> option (status * list T * E)) (ilu : E -> list T -> list T -> option (list T * E)).
  Context (pc : E -> list T -> list T -> Z * list T * E) (monit : E -> option (list T) -> option (list T) -> Z * E).
  Context (EI : E -> Prop).
  Notation loop := (gmres_loop O e p mv ilu pc monit).
  Context (Hmv : forall s u v, EI s -> zlen u = n -> zlen v = n -> exists a s', mv s u v = Some (success, a, s') /\ EI s' /\ product O A n a u).
  Context (Hpc : p_precond p = 1 -> forall s u v, EI s -> zlen u = n -> zlen v = n ->
    exists f a s', pc s u v = (f, a, s') /\ EI s' /\ zlen a = n /\ (f = 0 -> prec u a)).
  Context (Hilu : p_precond p = 2 -> forall s u v, EI s -> zlen u = n -> zlen v = n ->
    exists a s', ilu s u v = Some (a, s') /\ EI s' /\ zlen a = n /\ prec u a).
  Context (Hmon : forall s x r, EI s -> EI (snd (monit s x r))).
  Context (Hp0 : p_precond p = 0 \/ p_precond p = 1 \/ p_precond p = 2).

  (** [K]: a bound on the number of calls while the solver runs *)
  Theorem gloop_ok : forall w o (K : Z), 0 <= K -> gfresh p n w o ->
    (forall k st jb w' o', freaches w o k st jb w' o' -> jb <> j_stop -> Z.of_nat k <= K) ->
    forall fuel s, EI s -> K < Z.of_nat fuel ->
    exists k st s' w' o', loop fuel n b s w o j_start = Some (st, s', w', o') /\ EI s' /\ freaches w o k st j_stop w' o'.
  Proof.
    intros w o K K0 F HK.
    (* what a round does after its call of the solver *)
    assert (X : forall fuel k st jb w1 o1 s, freaches w o k st jb w1 o1 -> EI s -> K - Z.of_nat k < Z.of_nat fuel ->
      exists k st' s' w' o', match jb with
        | j_stop => Some (st, s, w1, o1)
        | j_mv =>
            let* u := gget n (i_u o1) w1 o1 in
            let* v := gget n (i_v o1) w1 o1 in
            let* (ms, a, s) := mv s u v in
            match ms with
            | success => loop fuel n b s (gput O n (i_v o1) a w1) o1 jb
            | _ => Some (internal_error, s, w1, o1)
            end
        | j_precond =>
            let* u := gget n (i_u o1) w1 o1 in
            let* v := gget n (i_v o1) w1 o1 in
            if p_precond p =? 1 then
              let '(flag, a, s) := pc s u v in
              loop fuel n b s (gput O n (i_v o1) a w1) o1 (if flag =? 0 then jb else j_interrupt)
            else if p_precond p =? 2 then
              let* (a, s) := ilu s u v in
              loop fuel n b s (gput O n (i_v o1) a w1) o1 jb
            else loop fuel n b s (gput O n (i_v o1) u w1) o1 jb
        | j_monitor =>
            let '(flag, s) := monit s (gget n (i_u o1) w1 o1) (gget n (i_v o1) w1 o1) in
            loop fuel n b s w1 o1 (if flag =? 0 then jb else j_interrupt)
        | j_interrupt | j_start => loop fuel n b s w1 o1 jb
        end = Some (st', s', w', o') /\ EI s' /\ freaches w o k st' j_stop w' o').
    { induction fuel as [|fuel IH]; intros k st jb w1 o1 s R Hs HF.
      { assert (D : jb = j_stop \/ jb <> j_stop) by (destruct jb; auto; right; discriminate). destruct D as [-> | D]; [exists k, st, s, w1, o1; auto|]. pose proof (HK _ _ _ _ _ R D). lia. }
      assert (D : jb = j_stop \/ jb <> j_stop) by (destruct jb; auto; right; discriminate). destruct D as [-> | NS]; [exists k, st, s, w1, o1; auto|].
      pose proof (HK _ _ _ _ _ R NS) as KB.
      destruct (greaches_ok O e p A n b (i_x o) Hn Hb Hm w o k st jb w1 o1 F eq_refl (freaches_greaches _ _ _ _ _ _ _ R)) as (_ & I & _). destruct (I NS) as (-> & I1).
      (* the next call, once the request is served *)
      assert (Y : forall w2 jb2 s2, fserved O A n prec w1 o1 jb w2 jb2 -> EI s2 ->
        exists k st' s' w' o', loop (Datatypes.S fuel) n b s2 w2 o1 jb2 = Some (st', s', w', o') /\ EI s' /\ freaches w o k st' j_stop w' o').
      { intros w2 jb2 s2 Sv Hs2. destruct (step_ok O e p A n b (i_x o) Hn Hb Hm _ _ _ _ _ _ I1 (fserved_answer _ _ _ _ _ Sv)) as (st3 & jb3 & w3 & o3 & E3 & _).
        cbn [gmres_loop]. rewrite E3. apply (IH (Datatypes.S k)); [|exact Hs2|lia]. eapply fr_next; [exact R|exact NS|exact Sv|exact E3]. }
      assert (JB : jb = j_mv \/ jb = j_precond \/ jb = j_monitor) by (destruct I1 as (_ & c & _ & _ & I1); destruct jb; try contradiction; auto).
      destruct JB as [-> | [-> | ->]].
      - destruct (request_ok _ _ _ _ _ I1 (or_introl eq_refl)) as (u & v & Eu & Lu & Ev & Lv). rewrite Eu, Ev.
        destruct (Hmv s u v Hs Lu Lv) as (a & s' & Em & Hs' & Pa). rewrite Em. apply Y; [|exact Hs']. eapply fs_mv; eauto.
      - destruct (request_ok _ _ _ _ _ I1 (or_intror eq_refl)) as (u & v & Eu & Lu & Ev & Lv). rewrite Eu, Ev.
        assert (NP : p_precond p <> 0) by (destruct I1 as (_ & c & _ & _ & _ & _ & NP & _); exact NP).
        destruct Hp0 as [Q | [Q | Q]]; [contradiction| |].
        + replace (p_precond p =? 1) with true by lia. destruct (Hpc Q s u v Hs Lu Lv) as (f & a & s' & Em & Hs' & La & Pa). rewrite Em.
          apply Y; [|exact Hs']. destruct (Z.eqb_spec f 0) as [Q0|Q0]; [eapply fs_precond; eauto|apply fs_precond_stop; exact La].
        + replace (p_precond p =? 1) with false by lia. replace (p_precond p =? 2) with true by lia.
          destruct (Hilu Q s u v Hs Lu Lv) as (a & s' & Em & Hs' & La & Pa). rewrite Em. apply Y; [|exact Hs']. eapply fs_precond; eauto.
      - pose proof (Hmon s (gget n (i_u o1) w1 o1) (gget n (i_v o1) w1 o1) Hs) as HM. destruct (monit _ _ _) as [flag s']. cbn [snd] in HM.
        apply Y; [|exact HM]. destruct (flag =? 0); constructor. }
    intros fuel s Hs HF. destruct fuel as [|fuel]; [lia|].
    destruct (first_ok O e p A n b (i_x o) w o j_start F eq_refl) as (w1 & o1 & E1 & _).
    assert (R1 : freaches w o 1 success j_mv w1 o1) by (eapply fr_first; exact E1).
    cbn [gmres_loop]. rewrite E1. apply (X fuel 1%nat success j_mv w1 o1 s R1 Hs). lia.
  Qed.
End LP.

Section P.
  Context {T : Type} (O : ops T) (L : laws O) (HD : div_law O).
  Let rthS := l_ring L.
  Add Ring TrGS : rthS.
  Local Notation zero := (o0 O).
  Variable srt : (Z -> Z -> bool) -> list Z -> list Z.
  Variables (fz : Z -> list Z) (ft : Z -> list T).
  Hypothesis Hsrt : sort_contract srt.
  Hypothesis Hfz : forall z, 0 <= z -> zlen (fz z) = z.
  Hypothesis Hft : forall z, 0 <= z -> zlen (ft z) = z.
  Variables (sup : Z -> bool) (dt : dtype) (mvc : Z -> option Z) (nthreads : Z) (team : list Z).
  Hypothesis Hsup : sup 1 = true.
  Hypothesis Hteam : nthreads <= 1 \/ Permutation team (zrange 0 nthreads).
  Hypothesis Hreal : is_cplx dt = false -> forall a, ocj O a = a.
  Hypothesis Hmvc : forall k, mvc k <> None.

  (** A product with a general descriptor keeps the recorded sort state *)
  Lemma mv_class : forall (h : hnd T) d op alpha x beta y st yr h', d_type d = mt_general ->
    mv O srt fz ft sup dt mvc nthreads team op (Some alpha) (Some h) (Some d) (Some x) (Some beta) (Some y) = Some (st, yr, Some h') -> H_sort h' = H_sort h /\ H_full h' = H_full h.
  Proof.
    intros h d op alpha x beta y st yr h' Ty E. unfold mv in E. rewrite Ty in E. cbn [andb negb] in E.
    repeat match type of E with
    | Some _ = Some _ => injection E as <- <- <-; auto
    | None = Some _ => discriminate E
    | context [match ?z with _ => _ end] => let Q := fresh "Q" in destruct z eqn:Q; try discriminate
    end.
    all: try (repeat match goal with
      | Q : Some _ = Some _ |- _ => injection Q as; subst; clear Q
      | Q : (match ?z with _ => _ end) = Some _ |- _ => destruct z; try discriminate Q
      end; auto; fail).
  Qed.

  Lemma mv_pre_data : forall (h h' : hnd T) u u' d op, same_data u u' -> H_m h' = H_m h -> H_n h' = H_n h -> mv_pre O dt h u d op -> mv_pre O dt h' u' d op.
  Proof.
    intros h h' u u' d op SD E1 E2 [P1 P2 P3 P4 P5 P6 P7 P8 P9]. pose proof SD as (S1 & S2 & S3 & S4 & S5 & S6 & S7 & S8). constructor; auto.
    - congruence.
    - rewrite E1, E2. exact P3.
    - rewrite (same_data_mat O _ _ SD). exact P5.
    - intros Q. apply (same_data_sortable _ _ SD). auto.
    - rewrite S1, S2. exact P8.
    - unfold upper_count, centries in *. rewrite S1, S2, S4, S5, S6, S7, S8. exact P9.
  Qed.
  Lemma factored_data : forall near0 u u' lu v, same_data u u' -> factored O near0 u lu v -> factored O near0 u' lu v.
  Proof. intros near0 u u' lu v (S1 & S2 & S3 & S4 & S5 & S6 & S7 & S8). unfold factored. rewrite S1, S3, S5, S6, S7, S8. auto. Qed.
  Lemma pivots_data : forall near0 u u', same_data u u' -> pivots_ok O near0 u -> pivots_ok O near0 u'.
  Proof. intros near0 u u' (S1 & S2 & S3 & S4 & S5 & S6 & S7 & S8). unfold pivots_ok. rewrite S1, S3, S5, S6, S7, S8. auto. Qed.
  Lemma same_data_sym : forall u u' : cmat T, same_data u u' -> same_data u' u.
  Proof. intros u u' (S1 & S2 & S3 & S4 & S5 & S6 & S7 & S8). unfold same_data. auto 10. Qed.
  Lemma ilu_pre_data : forall (h h' : hnd T) u u' d, hnd_ok zero h' u' -> same_data u u' -> H_m h' = H_m h -> H_n h' = H_n h -> H_sort h' = fully_sorted -> H_full h' = true ->
    ilu_pre h u d -> ilu_pre h' u' d.
  Proof.
    intros h h' u u' d (UM & rest & EM & _) (S1 & S2 & S3 & S4 & S5 & S6 & S7 & S8) E1 E2 Es Ef [I1 I2 I3 I4 I5 I6 I7 I8 I9 I10 I11 I12].
    constructor; auto; try congruence; try lia.
    - eauto.
    - rewrite S1, S5, S6, S7. exact I6.
    - rewrite S1, S2, S5, S6, S7. exact I8.
  Qed.

  Context (e : genv T) (p : gopt T) (N0 : e_nz e zero = true).
  Context {U : Type} (pc : option (U -> list T -> list T -> Z * list T * U)) (monit : U -> option (list T) -> option (list T) -> Z * U).

  Theorem gmres_solve_ok : forall h u il d n b ud w o (prec : list T -> list T -> Prop) K fuel,
    let A := described O (d_type d) (d_fill d) (d_diag d) (hnd_mat O u) in
    hnd_ok zero h u -> sortable u -> mv_pre O dt h u d op_none -> H_m h = n -> H_n h = n -> zlen b = n -> 0 < p_restart p -> gfresh p n w o ->
    p_precond p = 0 \/
    p_precond p = 1 /\ (exists f, pc = Some f /\ forall ud u v, zlen u = n -> zlen v = n ->
      exists fl a ud', f ud u v = (fl, a, ud') /\ zlen a = n /\ (fl = 0 -> prec u a)) \/
    p_precond p = 2 /\ ilu_good O (e_nz e) h u d il /\ (forall r z, ilu_applied O (e_nz e) u r z -> prec r z) ->
    0 <= K ->
    (forall k st jb w' o', freaches O e p A n b prec w o k st jb w' o' -> jb <> j_stop -> Z.of_nat k <= K) ->
    K < Z.of_nat fuel ->
    exists k st h' u' il' ud' w' o',
      gmres_solve O e p srt fz ft sup dt mvc nthreads team pc monit fuel n b h il d ud w o = Some (st, (h', il', ud'), w', o') /\
      hnd_ok zero h' u' /\ same_data u u' /\
      freaches O e p A n b prec w o k st j_stop w' o'.
  Proof.
    intros h u il d n b ud w o prec K fuel A HOK HS MP Hm Hn Hb Hr F HP K0 HK HFu.
    assert (Nn : 0 <= n) by (rewrite <- Hb; apply zlen_nonneg).
    destruct (optimize_ok O srt fz ft Hsrt Hfz Hft h u HOK HS) as (h1 & i1 & c1 & u1 & E & HOK1 & SD & D1 & D2 & D3 & D4 & Rc & Oc & _ & _ & _ & _ & _ & HH).
    unfold gmres_solve. rewrite E, D1, D2, Hm, Hn, Z.eqb_refl. cbn [negb orb].
    replace ((p_precond p =? 1) && match pc with None => true | _ => false end) with false.
    2:{ destruct HP as [-> | [(-> & f & -> & _) | (-> & _)]]; reflexivity. }
    set (EI := fun s : gstate (T := T) (U := U) => exists u', hnd_ok zero (fst (fst s)) u' /\ same_data u u' /\ H_m (fst (fst s)) = n /\ H_n (fst (fst s)) = n /\
      (p_precond p = 2 -> ilu_good O (e_nz e) (fst (fst s)) u' d (snd (fst s)))).
    match goal with |- context [gmres_loop _ _ _ ?a ?b0 ?c0 ?d0 _ _ _ _ _ _ _] =>
      pose proof (gloop_ok O e p A n b prec Nn Hb Hr a b0 c0 d0 EI) as LO end.
    assert (Hmv0 : forall s u v, EI s -> zlen u = n -> zlen v = n -> exists a s', g_mv O srt fz ft sup dt mvc nthreads team d s u v = Some (success, a, s') /\ EI s' /\ product O A n a u).
    { intros ((h2, il2), ud2) x v (u2 & Q1 & Q2 & Q3 & Q4 & Q5) Lx Lv. cbn [fst snd] in *. unfold g_mv, smv.
      destruct (mv_handle_flag O L srt fz ft Hsrt Hfz Hft sup Hsup dt mvc nthreads team Hteam Hreal h2 u2 d op_none (o1 O) zero x v Q1) as (st & yr & h' & u' & E' & E1 & E2 & E3 & E4 & E5 & E6 & E7 & R).
      - apply (mv_pre_data h h2 u u2 d op_none Q2); [congruence|congruence|exact MP].
      - clear - Lx Q3 Q4. lia.
      - clear - Lv Q3 Q4. lia.
      - rewrite E'. destruct R as [(-> & y' & -> & Ly' & R)|[(-> & -> & (k & Kk))|(-> & -> & Kk)]].
        + exists y', (h', il2, ud2). split; [reflexivity|]. split.
          * exists u'. cbn [fst snd]. split; [exact E1|]. split; [eapply same_data_trans; eauto|]. split; [congruence|]. split; [congruence|].
            intros P2. destruct (Q5 P2) as (IP & IS). pose proof (mv_class _ _ _ _ _ _ _ _ _ _ (ip_type _ _ _ IP) E') as (C1 & C2). split.
            { apply (ilu_pre_data h2 h' u2 u' d E1 E2); [congruence|congruence| | |exact IP]; [rewrite C1; apply (ip_sort _ _ _ IP)|rewrite C2; apply (ip_hfull _ _ _ IP)]. }
            destruct IS as [(-> & PV) | (lu & v0 & -> & FA)]; [left|right]; [split; [reflexivity|eapply pivots_data; eauto]|].
            exists lu, v0. split; [reflexivity|]. eapply factored_data; eauto.
          * split; [lia|]. rewrite Q3, Q4 in R. intros i Hi. rewrite R by lia. rewrite (same_data_mat O _ _ Q2). unfold times, A. cbn [op_sem]. ring.
        + exfalso. exact (Hmvc k Kk).
        + exfalso. unfold declined in Kk. rewrite andb_false_r in Kk. discriminate. }
    assert (Hpc0 : p_precond p = 1 -> forall s u v, EI s -> zlen u = n -> zlen v = n -> exists f a s', g_pc pc s u v = (f, a, s') /\ EI s' /\ zlen a = n /\ (f = 0 -> prec u a)).
    { intros P1 ((h2, il2), ud2) x v He Lx Lv. destruct HP as [Q | [(_ & f & -> & Hf) | (Q & _)]]; try (exfalso; rewrite Q in P1; discriminate P1).
      destruct (Hf ud2 x v Lx Lv) as (fl & a & ud' & Ef & La & Pf). unfold g_pc. rewrite Ef. exists fl, a, (h2, il2, ud'). split; [reflexivity|]. split; [exact He|auto]. }
    assert (Hil0 : p_precond p = 2 -> forall s u v, EI s -> zlen u = n -> zlen v = n -> exists a s', g_ilu O e fz d s u v = Some (a, s') /\ EI s' /\ zlen a = n /\ prec u a).
    { intros P1 ((h2, il2), ud2) x v (u2 & Q1 & Q2 & Q3 & Q4 & Q5) Lx Lv. destruct HP as [Q | [(Q & _) | (_ & _ & Hpr)]]; try (exfalso; rewrite Q in P1; discriminate P1).
      cbn [fst snd] in *. destruct (Q5 P1) as (IP & IS). unfold g_ilu.
      assert (Fin : forall lu v0 x', factored O (e_nz e) u2 lu v0 -> lu_solves O (c_m u2) (csr_mat O (c_b u2) (c_ptr u2) (c_ind u2) v0) x' x ->
        EI (h2, Some (mkIlu true lu v0), ud2) /\ zlen x' = n /\ prec x x').
      { intros lu v0 x' FA LS. split; [exists u2; cbn [fst snd]; do 4 (split; [assumption|]); intros _; split; [exact IP|right; eauto]|].
        split; [destruct LS as (LS & _); lia|]. apply Hpr. pose proof (same_data_sym _ _ Q2) as Q2'. exists lu, v0. split; [eapply factored_data; eauto|].
        destruct Q2' as (Z1 & Z2 & Z3 & Z4 & Z5 & Z6 & Z7 & Z8). rewrite Z1, Z5, Z6, Z7. exact LS. }
      destruct IS as [(-> & PV) | (lu & v0 & -> & FA)].
      - destruct (smoother_fresh O L HD (e_nz e) fz N0 Hfz h2 u2 d v x IP ltac:(lia) ltac:(lia)) as (st & x' & out & s' & Es & R). rewrite Es.
        destruct R as [(-> & -> & IF & FA & LS) | (_ & _ & _ & vm & i & Lvm & Hi & IR & Nz & NB)].
        + destruct s' as [fa lu v0]. cbn in IF, FA, LS. subst fa. exists x', (h2, Some (mkIlu true lu v0), ud2). split; [reflexivity|]. apply Fin; assumption.
        + exfalso. rewrite (PV vm i Lvm Hi IR NB) in Nz. discriminate.
      - destruct (smoother_again O L HD (e_nz e) fz N0 Hfz h2 u2 d lu v0 v x IP ltac:(lia) ltac:(lia) FA) as (x' & Es & LS). rewrite Es.
        exists x', (h2, Some (mkIlu true lu v0), ud2). split; [reflexivity|]. apply Fin; assumption. }
    assert (Hmn : forall s x r, EI s -> EI (snd (g_monit monit s x r))).
    { intros ((h2, il2), ud2) x r He. unfold g_monit. destruct (monit ud2 x r) as [fl ud']. exact He. }
    specialize (LO Hmv0 Hpc0 Hil0 Hmn ltac:(tauto) w o K K0 F HK fuel (h1, il, ud)).
    destruct LO as (k & st & ((h' & il') & ud') & w' & o' & LO & He & R); [|exact HFu|].
    { exists u1. cbn [fst snd]. split; [exact HOK1|]. split; [exact SD|]. split; [congruence|]. split; [congruence|]. intros P2.
      destruct HP as [Q | [(Q & _) | (_ & (IP & IS) & _)]]; try (exfalso; rewrite Q in P2; discriminate P2). split.
      - destruct HH as [-> |(_ & SS & FU & _)].
        + apply (ilu_pre_data h _ u _ d HOK1 SD); [congruence|congruence|apply (ip_sort _ _ _ IP)|apply (ip_hfull _ _ _ IP)|exact IP].
        + apply (ilu_pre_data h _ u _ d HOK1 SD); [congruence|congruence| |apply FU; apply (ip_full _ _ _ IP)|exact IP].
          pose proof (ip_sorted _ _ _ IP) as RS. destruct (H_sort h1); cbn in SS; [contradiction|reflexivity| |].
          all: exfalso.
          all: try (destruct SS as (SS & _); exact (SS RS)).
          apply SS. apply CheckProof.rows_sorted_grouped. exact RS.
      - destruct IS as [(-> & PV) | (lu & v0 & -> & FA)]; [left; split; [reflexivity|eapply pivots_data; eauto]|right]. exists lu, v0. split; [reflexivity|]. eapply factored_data; eauto. }
    destruct He as (u' & W1 & W2 & _). exists k, st, h', u', il', ud', w', o'. auto.
  Qed.
End P.
