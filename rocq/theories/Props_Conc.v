(** C33: several threads needing the prepared form of one shared handle at once. *)
From Coq Require Import ZArith List Bool Arith Lia.
From Verif Require Import Base BaseFacts Algebra Csr CheckModel CheckSpec Decide SortModel SortSpec SortInst
  DoidModel MvModel MvSpec CsrmvModel HandleModel HandleSpec OptProof ConcModel ConcProof Props_Opt.
Import ListNotations.
Open Scope Z_scope.

(** Number of prepared matrices a handle holds *)
Definition prepared {T} (h : hnd T) : Z := zlen (filter (fun e => match e with Some c => c_opt c | None => false end) (H_mats h)).

(** Everybody has returned *)
Definition all_done {T} (N : nat) (s : cst T) : Prop := forall t, (t < N)%nat -> exists st r, s_pc s t = p_done st r.

Lemma filter_none : forall T (l : list (option (cmat T))) k, first_opt l k = None -> filter (fun e => match e with Some c => c_opt c | None => false end) l = [].
Proof.
  induction l as [|[c|] l IH]; intros k H; cbn in *; [reflexivity| |eauto]. destruct (c_opt c); [discriminate|]. eauto.
Qed.

Lemma prepared_none : forall T (h : hnd T), prepared h = 0 -> first_opt (H_mats h) 0 = None.
Proof.
  intros T h. unfold prepared. generalize 0 at 2 as k. generalize (H_mats h). induction l as [|[c|] l IH]; intros k; cbn [filter first_opt]; [reflexivity| |apply IH].
  destruct (c_opt c); [|apply IH]. rewrite zlen_cons. pose proof (zlen_nonneg _ (filter (fun e => match e with Some c => c_opt c | None => false end) l)). lia.
Qed.

Lemma one_prepared : forall T (O : ops T) srt fz ft h h' r, csr_csc_optimize O srt fz ft h = Some (success, h', r) -> prepared h = 0 -> prepared h' = 1.
Proof.
  intros T O srt fz ft h h' r E P. pose proof (prepared_none T h P) as F. unfold csr_csc_optimize in E.
  destruct (H_mats h) as [|[u|] rest] eqn:EM; try discriminate. rewrite F in E. cbn [first_csr] in E. destruct (negb _); [discriminate|].
  unfold optimize_slow in E. destruct (mat_check _ _ _ _ _ _ _ _ _) as [[st o]|] eqn:EK; [|discriminate]. destruct st; try discriminate; destruct o as [[so fd]|]; try discriminate; [|exfalso; eapply mat_check_none; exact EK].
  destruct (check_sort_diag _ _ _ _ _) as [[[st sorted] fulldiag]|]; [|discriminate]. destruct st; try discriminate.
  destruct (sorted && fulldiag).
  - destruct (csr_csc_indices _ _ _ _ _ _) as [[idiag iurow]|]; [|discriminate]. injection E as <- <-. unfold prepared. cbn [set_opt set_mats set_class H_mats]. rewrite EM.
    unfold upd. cbn. cbn in F. destruct (c_opt u); [discriminate|]. rewrite (filter_none T rest 1 F). reflexivity.
  - destruct (build_copy _ _ _ _ _ _ _ _) as [[st o]|] eqn:B; [|discriminate]. destruct o as [[c fulldiag']|].
    + injection E as <- <-. unfold prepared. cbn [set_opt set_mats set_class H_mats]. rewrite EM, filter_app, (filter_none T (Some u :: rest) 0 F). cbn [app filter].
      assert (Oc : c_opt c = true).
      { clear - B. unfold build_copy in B. repeat match type of B with match ?x with _ => _ end = Some _ => destruct x as [?|] eqn:?; try discriminate end.
        destruct p as [[[st' ?] ?] ?]. destruct st'; try discriminate.
        repeat match type of B with match ?x with _ => _ end = Some _ => destruct x eqn:?; try discriminate end. injection B as _ <- _. reflexivity. }
      rewrite Oc. reflexivity.
    + injection E as -> <- <-. exfalso. clear - B. unfold build_copy in B.
      repeat match type of B with match ?x with _ => _ end = Some _ => destruct x as [?|] eqn:?; try discriminate end.
      destruct p as [[[st' ?] ?] ?]. destruct st'; try discriminate.
      repeat match type of B with match ?x with _ => _ end = Some _ => destruct x eqn:?; try discriminate end.
Qed.

(** C33.  Any number of threads, any schedule, whether or not the lock prefers writers,
    any handle on which a single undisturbed call is defined.  No step is undefined, and a
    thread that has returned got exactly the answer a single undisturbed call gets; after a
    success the handle is from then on exactly what that single call leaves. *)
Theorem C33_as_if_alone : forall T (O : ops T) srt fz ft sup dt prefer N, (forall z, 0 <= z -> zlen (fz z) = z) ->
  forall h h1 st r, csr_csc_optimize O srt fz ft h = Some (st, h1, r) ->
  forall ps, (forall t, (t < N)%nat -> ps t = p_start) ->
  forall sched, let s := run O srt fz ft sup dt prefer N sched (init h ps) in
    (forall t, (t < N)%nat -> s_pc s t <> p_ub) /\
    (forall t st' r', (t < N)%nat -> s_pc s t = p_done st' r' -> st' = st /\ r' = r /\ (st = success -> s_h s = h1)) /\
    ((0 < N)%nat -> all_done N s -> s_h s = h1).
Proof.
  intros T O srt fz ft sup dt prefer N Hz h h1 st r E ps Hps sched s.
  pose proof (run_inv O srt fz ft sup dt prefer N Hz h h1 st r E sched _ (init_inv N h h1 st r ps Hps)) as I. fold s in I.
  assert (S1 : forall t st' r', (t < N)%nat -> s_pc s t = p_done st' r' -> st' = st /\ r' = r /\ (st = success -> s_h s = h1)).
  { intros t st' r' Ht Q. pose proof (v_th _ _ _ _ _ _ I t Ht) as Ti. rewrite Q in Ti. destruct Ti as (-> & ->). split; [reflexivity|]. split; [reflexivity|]. intros ->.
    destruct (v_end _ _ _ _ _ _ I t Ht) as [X | (X & _)]; [rewrite Q; reflexivity|exact X|contradiction]. }
  split; [|split; [exact S1|]].
  - intros t Ht Q. pose proof (v_th _ _ _ _ _ _ I t Ht) as Ti. rewrite Q in Ti. exact Ti.
  - intros HN D. destruct (D 0%nat HN) as (st' & r' & Q).
    destruct (v_end _ _ _ _ _ _ I 0%nat HN) as [X | (_ & t' & Ht' & X)]; [rewrite Q; reflexivity|exact X|].
    destruct (D t' Ht') as (a & b & Q'). rewrite Q' in X. discriminate.
Qed.
Print Assumptions C33_as_if_alone.

(** C33.  A fresh, valid handle whose rows can be ordered: every thread that has returned
    was given the same complete matrix (all of the user's entries, ordered, with recorded
    positions) and that matrix is the only prepared one in the handle; this stays so in
    every continuation of the schedule. *)
Theorem C33_one_complete_copy : forall T (O : ops T) srt fz ft sup dt prefer N,
  sort_contract srt -> (forall z, 0 <= z -> zlen (fz z) = z) -> (forall z, 0 <= z -> zlen (ft z) = z) ->
  forall h u, hnd_ok (o0 O) h u -> sortable u -> prepared h = 0 ->
  exists i c u', opt_ready c /\ arrays_ok c /\ same_entries (o0 O) u c /\ same_data u u' /\
    forall ps, (forall t, (t < N)%nat -> ps t = p_start) ->
    forall sched t st r, (t < N)%nat -> s_pc (run O srt fz ft sup dt prefer N sched (init h ps)) t = p_done st r ->
      st = success /\ r = Some i /\
      forall more, let s := run O srt fz ft sup dt prefer N (sched ++ more) (init h ps) in
        s_pc s t = p_done st r /\ rd (H_mats (s_h s)) i = Some (Some c) /\ rd (H_mats (s_h s)) 0 = Some (Some u') /\ prepared (s_h s) = 1.
Proof.
  intros T O srt fz ft sup dt prefer N Hs Hz Ht h u Hh So P.
  destruct (optimize_ok O srt fz ft Hs Hz Ht h u Hh So) as (h1 & i & c & u' & E & Hk & SD & _ & _ & _ & _ & R & _ & OR & AO & SE & _).
  exists i, c, u'. split; [exact OR|]. split; [exact AO|]. split; [exact SE|]. split; [exact SD|].
  intros ps Hps sched t st r Lt D.
  destruct (C33_as_if_alone T O srt fz ft sup dt prefer N Hz h h1 success (Some i) E ps Hps sched) as (_ & S1 & _).
  destruct (S1 t st r Lt D) as (-> & -> & _). split; [reflexivity|]. split; [reflexivity|]. intros more s.
  assert (Q : s_pc s t = p_done success (Some i)).
  { unfold s. rewrite run_app. revert D. generalize (run O srt fz ft sup dt prefer N sched (init h ps)). clear. induction more as [|x l IH]; intros s D; [exact D|].
    cbn [run]. apply IH. destruct (Nat.ltb x N); [|exact D]. destruct (tstep O srt fz ft sup dt prefer N x s) as [s'|] eqn:E; [|exact D].
    destruct (Nat.eq_dec x t) as [-> | Nx]; [unfold tstep in E; rewrite D in E; discriminate|].
    rewrite <- D. revert E. unfold tstep.
    assert (G : forall h rs w p, s_pc (go x s h rs w p) t = s_pc s t) by (intros; cbn; replace (Nat.eqb t x) with false by (symmetry; apply Nat.eqb_neq; auto); reflexivity).
    intros E. repeat match type of E with match ?y with _ => _ end = Some _ => destruct y; try discriminate end; injection E as <-; apply G. }
  destruct (C33_as_if_alone T O srt fz ft sup dt prefer N Hz h h1 success (Some i) E ps Hps (sched ++ more)) as (_ & S2 & _). fold s in S2.
  destruct (S2 t _ _ Lt Q) as (_ & _ & X). rewrite (X eq_refl).
  destruct Hk as (_ & rest & EM & _). split; [exact Q|]. split; [exact R|]. split; [rewrite EM; reflexivity|]. exact (one_prepared T O srt fz ft h h1 _ E P).
Qed.
Print Assumptions C33_one_complete_copy.

(** C33.  No two threads ever touch the same memory at the same time with one of them
    writing - including the reads of the result made by callers that have returned.
    Missing from the full property: threads that use the handle in other ways (refuted
    below for aoclsparse_?mv, ILU and SOR). *)
Theorem C33_race_free_partial : forall T (O : ops T) srt fz ft sup dt prefer N, (forall z, 0 <= z -> zlen (fz z) = z) ->
  forall h, csr_csc_optimize O srt fz ft h <> None ->
  forall ps, (forall t, (t < N)%nat -> ps t = p_start) ->
  forall sched, ~ race N (run O srt fz ft sup dt prefer N sched (init h ps)).
Proof.
  intros T O srt fz ft sup dt prefer N Hz h D ps Hps sched. destruct (csr_csc_optimize O srt fz ft h) as [[[st h1] r]|] eqn:E; [|contradiction].
  eapply inv_no_race; [exact E|]. apply (run_inv O srt fz ft sup dt prefer N Hz h h1 st r E). apply init_inv. exact Hps.
Qed.
Print Assumptions C33_race_free_partial.

(** C33.  No deadlock: while somebody has not returned, somebody can go on. *)
Theorem C33_no_deadlock : forall T (O : ops T) srt fz ft sup dt prefer N, (forall z, 0 <= z -> zlen (fz z) = z) ->
  forall h, csr_csc_optimize O srt fz ft h <> None ->
  forall ps, (forall t, (t < N)%nat -> ps t = p_start) ->
  forall sched, let s := run O srt fz ft sup dt prefer N sched (init h ps) in
    all_done N s \/ exists t s', (t < N)%nat /\ tstep O srt fz ft sup dt prefer N t s = Some s'.
Proof.
  intros T O srt fz ft sup dt prefer N Hz h D ps Hps sched s. destruct (csr_csc_optimize O srt fz ft h) as [[[st h1] r]|] eqn:E; [|contradiction].
  pose proof (run_inv O srt fz ft sup dt prefer N Hz h h1 st r E sched _ (init_inv N h h1 st r ps Hps)) as I. fold s in I.
  assert (Dec : (exists t, (t < N)%nat /\ returned (s_pc s t) = false) \/ forall t, (t < N)%nat -> returned (s_pc s t) = true).
  { clear. generalize N as n. induction n as [|k IHk]; [right; intros; lia|]. destruct IHk as [(t & Ht & R) | H]; [left; exists t; split; [lia|exact R]|].
    destruct (returned (s_pc s k)) eqn:R; [right; intros t Ht; destruct (Nat.eq_dec t k) as [->|]; [exact R|apply H; lia]|left; exists k; split; [lia|exact R]]. }
  destruct Dec as [X | X].
  - right. exact (inv_progress O srt fz ft sup dt prefer N Hz h h1 st r s I X).
  - left. intros t Ht. specialize (X t Ht). destruct (s_pc s t); try discriminate. eauto.
Qed.
Print Assumptions C33_no_deadlock.

(** C33.  Termination under any fair schedule: there is a number of rounds, depending only
    on the handle and the number of threads, after which everybody has returned, provided
    every thread gets a turn in every round - whatever else happens in the rounds. *)
Theorem C33_everybody_returns : forall T (O : ops T) srt fz ft N, (forall z, 0 <= z -> zlen (fz z) = z) ->
  forall h, csr_csc_optimize O srt fz ft h <> None ->
  exists B : nat, forall sup dt prefer ps, (forall t, (t < N)%nat -> ps t = p_start) ->
  forall rounds, (forall seg, In seg rounds -> forall t, (t < N)%nat -> In t seg) -> (B <= length rounds)%nat ->
    all_done N (run O srt fz ft sup dt prefer N (concat rounds) (init h ps)).
Proof.
  intros T O srt fz ft N Hz h D. destruct (csr_csc_optimize O srt fz ft h) as [[[st h1] r]|] eqn:E; [|contradiction].
  exists (total h N (fun _ => p_start)). intros sup dt prefer ps Hps rounds Hr Hl t Ht.
  pose proof (rounds_end O srt fz ft sup dt prefer N Hz h h1 st r E rounds (init h ps) (init_inv N h h1 st r ps Hps) Hr) as X.
  rewrite (total_ext h N _ (fun _ => p_start)) in X by (intros; apply Hps; assumption). specialize (X Hl t Ht).
  destruct (s_pc _ t); try discriminate. eauto.
Qed.
Print Assumptions C33_everybody_returns.

(** Concrete case: three threads on the unordered base-one matrix of Props_Opt, one of
    them interrupted while it holds the write lock. *)
Definition three : nat -> pc Z := fun _ => p_start.
Definition allisa (i : Z) : bool := true.
Definition crun := run Zops isort junk junk allisa dt_d.
Example C33_case_hyps : hnd_ok 0 demo_hnd demo_user /\ sortable demo_user /\ prepared demo_hnd = 0 /\ csr_csc_optimize Zops isort junk junk demo_hnd <> None.
Proof. destruct C13_case_hyps as (A & B). split; [exact A|]. split; [exact B|]. split; [reflexivity|]. rewrite C13_case. discriminate. Qed.
Definition turn (t : nat) (k : nat) : list nat := repeat t k.
Definition messy : list nat := turn 0 7 ++ turn 1 8 ++ turn 0 6 ++ [1;2;1;2]%nat ++ turn 0 9 ++ turn 1 5 ++ turn 2 9.
Example C33_case : map (s_pc (crun true 3%nat messy (init demo_hnd three))) [0;1;2]%nat
  = [p_done success (Some 1); p_done success (Some 1); p_done success (Some 1)].
Proof. vm_compute. reflexivity. Qed.
Example C33_case_middle : s_pc (crun true 3%nat (turn 0 7 ++ turn 1 8 ++ turn 0 6 ++ [1;2;1;2]%nat) (init demo_hnd three)) 1%nat = p_want_excl 0.
Proof. vm_compute. reflexivity. Qed.

(** The property is false once other calls join in: they touch the same memory without
    the lock.

    aoclsparse_?mv on a handle being prepared in place: mv picks the user's matrix under
    the lock, releases it and then reads is_optimized (mv.cpp 130-136) while the other
    thread stores it. *)
Definition tidy_user : cmat Z := mkCmat 2 2 3 gn 0 [0;2;3] [0;1;1] [10;20;30] None None false dg_non_unit None.
Definition tidy_hnd : hnd Z := mkHnd 2 2 3 [Some tidy_user] unknown_sort false false false [].
Example tidy_ok : hnd_ok 0 tidy_hnd tidy_user /\ sortable tidy_user.
Proof.
  split; [split|].
  - unfold user_mat. ands; try reflexivity.
    + unfold arrays_ok. ands; [apply csr_wfb_ok; reflexivity|apply diag_uniqueb_ok; reflexivity|reflexivity|left; reflexivity].
    + left. ands; reflexivity.
  - exists []. ands; [reflexivity|discriminate|constructor].
  - left. apply rows_groupedb_ok. reflexivity.
Qed.
Theorem C33_mv_race_refuted : exists (h : hnd Z) u d sched, hnd_ok 0 h u /\ sortable u /\
  forall prefer, race 2%nat (run Zops isort junk junk allisa dt_d prefer 2%nat sched (init h (fun t => if Nat.eqb t 0 then p_start else p_mv d))).
Proof.
  exists tidy_hnd, tidy_user, sl, (turn 1 3 ++ turn 0 20). destruct tidy_ok as (A & B). split; [exact A|]. split; [exact B|].
  intros prefer. exists 0%nat, 1%nat, (l_flag 0), false. destruct prefer; vm_compute; intuition (try congruence; lia).
Qed.
Print Assumptions C33_mv_race_refuted.

(** aoclsparse_?ilu_smoother: reads the recorded classification (ilu.hpp 72) while the
    preparing thread stores it. *)
Theorem C33_ilu_race_refuted : exists (h : hnd Z) u sched, hnd_ok 0 h u /\ sortable u /\
  forall prefer, race 2%nat (run Zops isort junk junk allisa dt_d prefer 2%nat sched (init h (fun t => if Nat.eqb t 0 then p_start else p_ilu))).
Proof.
  exists tidy_hnd, tidy_user, (turn 0 12). destruct tidy_ok as (A & B). split; [exact A|]. split; [exact B|].
  intros prefer. exists 0%nat, 1%nat, l_class, false. destruct prefer; vm_compute; intuition (try congruence; lia).
Qed.
Print Assumptions C33_ilu_race_refuted.

(** aoclsparse_?sorv stores opt_csr_full_diag (sorv.hpp 209) while the preparing thread
    stores it too. *)
Theorem C33_sor_race_refuted : exists (h : hnd Z) u sched, hnd_ok 0 h u /\ sortable u /\
  forall prefer, race 2%nat (run Zops isort junk junk allisa dt_d prefer 2%nat sched (init h (fun t => if Nat.eqb t 0 then p_start else p_sor))).
Proof.
  exists tidy_hnd, tidy_user, (turn 1 1 ++ turn 0 21). destruct tidy_ok as (A & B). split; [exact A|]. split; [exact B|].
  intros prefer. exists 1%nat, 0%nat, l_optfull, true. destruct prefer; vm_compute; intuition (try congruence; lia).
Qed.
Print Assumptions C33_sor_race_refuted.
