(** C62: concurrent products on one handle prepared for them. *)
From Coq Require Import ZArith List Bool Arith Lia ZifyBool ZifyNat Permutation.
From Verif Require Import Base BaseFacts Algebra Csr CsrFacts CheckModel Decide SortSpec SortInst DoidModel DoidSpec DoidProof MvModel MvSpec MvFacts MvProof MvHandleProof MvPubProof CsrmvModel HandleModel HandleSpec
  ExpandModel ExpandSpec CsrmmSpec CsrmmProof HintMvSpec Props_HintMv UniqueProof Props_Mv ConcMvModel ConcMvProof.
Import ListNotations.
Open Scope Z_scope.

(** A call of aoclsparse_?mv with descriptor [d] and operation [op] that the copy [c] was
    made for, on vectors of the right size. *)
Record served {T} (O : ops T) (dt : dtype) (h : hnd T) (u c : cmat T) (d : descr) (op : operation) (r : mreq T) : Prop := mk_served {
  sv_id : request_id dt d op = Some (c_doid c);
  sv_op : valid_op op = true;
  sv_cplx : d_type d = mt_hermitian -> is_cplx dt = true;
  sv_herm : d_type d = mt_hermitian -> d_diag d = dg_non_unit -> real_diag O (hnd_mat O u);
  sv_diag : rq_dg r = d_diag d;
  sv_x : zlen (rq_x r) = H_m h;
  sv_y : zlen (rq_y r) = H_m h }.

(** [c] is one of the handle's copies, made for a symmetric or Hermitian product. *)
Definition product_copy {T} (O : ops T) (h : hnd T) (u c : cmat T) : Prop :=
  hint_hnd O h u /\ In (Some c) (H_mats h) /\ hint_copy O (H_m h) (H_n h) u c /\ is_one_tri (c_doid c) = true.

(** The y a call must return. *)
Definition right_y {T} (O : ops T) (h : hnd T) (u : cmat T) (d : descr) (op : operation) (r : mreq T) (y : list T) : Prop :=
  mv_spec O (H_m h) (H_m h) (rq_alpha r) (rq_beta r) (op_sem O op (described O (d_type d) (d_fill d) (d_diag d) (hnd_mat O u))) (rq_x r) (rq_y r) y.

(** C62.  Any number of threads call aoclsparse_?mv on one handle prepared for a symmetric
    or Hermitian product, each with its own alpha, x, beta, y, all with the same diagonal
    rule.  Under every interleaving of their memory accesses no call reads or writes out of
    bounds or fails, every call that returns has the right y, and a call returns after at
    most 3 m + nnz + 4 of its own steps whatever the others do.  Missing: different
    diagonal rules (refuted below); memory is sequentially consistent, which C++ only
    promises when there is no data race (next theorem; refuted below when the rule has to
    be switched). *)
Theorem C62_same_rule_partial : forall T (O : ops T) dt, laws O -> (is_cplx dt = false -> forall a, ocj O a = a) ->
  forall h u c (ds : nat -> descr) (op : nat -> operation) rq dg, product_copy O h u c ->
  (forall t, served O dt h u c (ds t) (op t) (rq t) /\ d_diag (ds t) = dg) ->
  forall sched t, let p := g_pc (mrun O (H_m h) rq sched (mstart c)) t in
    p <> q_ub /\ p <> q_fail /\
    (forall y, p = q_done y -> right_y O h u (ds t) (op t) (rq t) y) /\
    (3 * H_m h + c_nnz c + 4 <= Z.of_nat (count_occ Nat.eq_dec sched t) -> exists y, p = q_done y).
Proof.
  intros T O dt L Hreal h u c ds op rq dg (HH & _ & HC & Ht) SV sched t p. destruct HC as (CS & _ & _ & _ & Sq & _). specialize (Sq Ht). rewrite <- Sq in CS.
  destruct (final_vals O L (H_m h) (hnd_mat O u) c dg CS Ht) as (idiag & dv & vF & E1 & E2 & Cm & Cn & L1 & L2 & Rg & LF & XF & OF & MF & MD).
  pose proof (cs_wf _ _ _ _ _ CS) as W. pose proof (cs_base _ _ _ _ _ CS) as B0. pose proof (cs_len _ _ _ _ _ CS) as L0. rewrite Cm in W.
  assert (Rq : forall t, rq_dg (rq t) = dg /\ zlen (rq_x (rq t)) = c_n c /\ zlen (rq_y (rq t)) = H_m h).
  { intros t'. destruct (SV t') as ([S1 S2 S3 S4 S5 S6 S7] & D). rewrite Cn. split; [congruence|auto]. }
  assert (I0 : inv O (H_m h) rq c dg idiag vF (mstart c)).
  { eapply start_inv; eauto. intros Md i Hi Hm. apply MD; auto. }
  destruct (run_inv O L (H_m h) rq c dg idiag dv vF E1 E2 Cm B0 W L1 L2 Rg LF XF OF Rq sched (mstart c) I0) as ((v & g & _ & _ & _ & Tv) & M).
  specialize (Tv t). specialize (M t). fold p in Tv, M.
  split; [intros F; rewrite F in Tv; exact Tv|]. split; [intros F; rewrite F in Tv; exact Tv|].
  assert (DN : forall y, p = q_done y -> right_y O h u (ds t) (op t) (rq t) y).
  { intros y Ey. rewrite Ey in Tv. cbn [tinv] in Tv. assert (PS : mv_spec O (H_m h) (c_n c) (rq_alpha (rq t)) (rq_beta (rq t)) (csr_mat O 0 (c_ptr c) (c_ind c) vF) (rq_x (rq t)) (rq_y (rq t)) y) by (eapply prog_spec; eauto).
    rewrite Cn in PS. unfold right_y. refine (mv_spec_ext O _ _ _ _ _ _ _ _ _ _ PS). intros i j Hi Hj. rewrite MF by auto.
    destruct (SV t) as ([S1 S2 S3 S4 S5 S6 S7] & D). subst dg.
    destruct (get_doid_ok O L (negb (is_cplx dt)) (d_type (ds t)) (d_fill (ds t)) (op_real dt (op t)) (with_diag O (d_diag (ds t)) (hnd_mat O u))) as (r & Er & Hr & RS).
    - intros H; apply Hreal. destruct (is_cplx dt); auto; discriminate.
    - intros Hh. apply (real_with_diag O L). auto.
    - unfold op_real. destruct (op t); try discriminate S2; destruct (is_cplx dt); auto.
    - unfold request_id in S1. fold (op_real dt (op t)) in S1. rewrite Er in S1. injection S1 as S1. rewrite <- S1, RS, (op_real_sem O dt Hreal).
      assert (NG : d_type (ds t) <> mt_general).
      { intros G. rewrite G in Er. rewrite <- S1 in Ht. clear - Er Ht S2. unfold is_one_tri in Ht. unfold op_real in Er. destruct (op t); try discriminate S2; destruct (is_cplx dt), (d_fill (ds t)); vm_compute in Er; inversion Er; subst r; discriminate Ht. }
      unfold described. destruct (d_type (ds t)); try reflexivity. congruence. }
  split; [exact DN|]. intros C. destruct M as [M|M]; [|exact M]. cbn [mstart g_pc left_] in M. clear DN.
  pose proof (wf_m _ _ _ _ _ _ W). pose proof (wf_nnz _ _ _ _ _ _ W). assert (P0 : zn (c_ptr c) 0 = 0) by (eapply ptr_facts; eauto).
  assert (Pm : zn (c_ptr c) (H_m h) = c_nnz c) by (eapply ptr_facts; eauto).
  assert (Pi : forall i, 0 <= i < H_m h -> 0 <= zn (c_ptr c) i <= zn (c_ptr c) (i + 1) /\ zn (c_ptr c) (i + 1) <= c_nnz c) by (eapply ptr_facts; eauto). clearbody p. clear - C M Tv H H0 P0 Pm Pi.
  destruct p as [|i| |i y|i k a y|y| |]; cbn [left_ tinv] in *; try contradiction; try (exfalso; lia).
  - exfalso. destruct Tv as (_ & Hi & _). destruct (Z.eq_dec i (H_m h)) as [->|]; [lia|]. pose proof (Pi i ltac:(lia)). lia.
  - exfalso. destruct Tv as (_ & Hi & Hk & _). pose proof (Pi i Hi). lia.
  - eauto.
Qed.
Print Assumptions C62_same_rule_partial.

(** In other words: each call returns what aoclsparse_?mv returns when called alone on the
    handle.  Missing: as above; and the cases in which mv itself declines (C58). *)
Theorem C62_as_if_alone_partial : forall T (O : ops T) srt fz ft sup dt choice nthreads team, env_ok O srt fz ft sup dt nthreads team ->
  forall h u c (ds : nat -> descr) (op : nat -> operation) rq dg, product_copy O h u c ->
  (forall t, served O dt h u c (ds t) (op t) (rq t) /\ d_diag (ds t) = dg) ->
  forall sched t y, hint_pre O dt h u (ds t) (op t) -> g_pc (mrun O (H_m h) rq sched (mstart c)) t = q_done y ->
  forall y1 h', mv O srt fz ft sup dt choice nthreads team (op t) (Some (rq_alpha (rq t))) (Some h) (Some (ds t)) (Some (rq_x (rq t))) (Some (rq_beta (rq t))) (Some (rq_y (rq t))) = Some (success, Some y1, h') ->
  y = y1.
Proof.
  intros T O srt fz ft sup dt choice nthreads team ENV h u c ds op rq dg PC SV sched t y HP Ey y1 h' E.
  pose proof ENV as [L _ _ _ _ _ Hreal]. destruct (C62_same_rule_partial T O dt L Hreal h u c ds op rq dg PC SV sched t) as (_ & _ & R & _). specialize (R y Ey).
  pose proof PC as (HH & _ & HC & Ht). destruct HC as (_ & _ & _ & _ & Sq & _). specialize (Sq Ht). destruct (SV t) as ([_ _ _ _ _ Lx Ly] & _).
  destruct (C58_hinted_product_partial T O srt fz ft sup dt choice nthreads team ENV h u (ds t) (op t) (rq_alpha (rq t)) (rq_beta (rq t)) (rq_x (rq t)) (rq_y (rq t)) HH HP)
    as (st & yr & h2 & u2 & E2 & _ & _ & _ & _ & _ & _ & K).
  - destruct (op t); congruence.
  - destruct (op t); congruence.
  - rewrite E in E2. injection E2 as <- <- _. destruct K as [(_ & y' & Ey' & S)|[(F & _)|(F & _)]]; try discriminate F. injection Ey' as <-.
    unfold right_y in R. rewrite <- Sq in S. destruct (op t); exact (mv_unique O _ _ _ _ _ _ _ _ _ R S).
Qed.
Print Assumptions C62_as_if_alone_partial.

(** Whenever no call is in the middle of switching the diagonal - for instance when all
    calls made so far have returned - the handle's copy is again a product copy of the
    user's matrix, so all of this holds for the calls that follow, with any rule.
    Missing: as above. *)
Theorem C62_afterwards_partial : forall T (O : ops T) dt, laws O ->
  forall h u c (ds : nat -> descr) (op : nat -> operation) rq dg, product_copy O h u c ->
  (forall t, served O dt h u c (ds t) (op t) (rq t) /\ d_diag (ds t) = dg) ->
  forall sched, let s := mrun O (H_m h) rq sched (mstart c) in
  (forall t, g_pc s t = q_flag \/ exists y, g_pc s t = q_done y) ->
  hint_copy O (H_m h) (H_n h) u (g_c s) /\ c_doid (g_c s) = c_doid c /\ (c_mdiag (g_c s) = c_mdiag c \/ c_mdiag (g_c s) = dg).
Proof.
  intros T O dt L h u c ds op rq dg (HH & _ & HC & Ht) SV sched s Q. pose proof HC as (CS & C1 & C2 & C3 & Sq & C4). specialize (Sq Ht). rewrite <- Sq in CS.
  destruct (final_vals O L (H_m h) (hnd_mat O u) c dg CS Ht) as (idiag & dv & vF & E1 & E2 & Cm & Cn & L1 & L2 & Rg & LF & XF & OF & MF & MD).
  pose proof CS as [Dd B0 Rm Rn W L0 Mt Dg]. rewrite Cm in W.
  assert (Rq : forall t, rq_dg (rq t) = dg /\ zlen (rq_x (rq t)) = c_n c /\ zlen (rq_y (rq t)) = H_m h).
  { intros t'. destruct (SV t') as ([S1 S2 S3 S4 S5 S6 S7] & D). rewrite Cn. split; [congruence|auto]. }
  assert (RS : g_c s = c \/ g_c s = wrap c vF dg).
  { unfold s. eapply rest_state with (rq := rq); eauto.
    - intros Md i Hi Hm. apply MD; auto.
    - intros t. specialize (Q t). fold s. destruct Q as [-> |(y & ->)]; intros []. }
  destruct RS as [-> | ->]; [split; [exact HC|auto]|]. unfold wrap. cbn [set_mark set_val c_doid c_mdiag]. split; [|auto].
  unfold hint_copy. cbn [set_mark set_val c_doid c_mdiag c_opt]. split; [|split; [exact C1|split; [exact C2|split; [exact C3|split; [auto|congruence]]]]].
  rewrite <- Sq. constructor; cbn [set_mark set_val c_doid c_b c_m c_n c_nnz c_ptr c_ind c_val c_mdiag c_idiag c_dval]; auto; [rewrite Cm; exact W|].
  rewrite Cm, Cn, Ht. exact MF.
Qed.
Print Assumptions C62_afterwards_partial.

(** When all calls ask for the diagonal rule the copy already has, none of them writes to
    the handle: it stays as it was and no two calls ever conflict.  Missing: as above. *)
Theorem C62_recorded_rule_partial : forall T (O : ops T) m rq (c : cmat T), (forall t, rq_dg (rq t) = c_mdiag c) ->
  forall sched, let s := mrun O m rq sched (mstart c) in g_c s = c /\ ~ mrace m rq s.
Proof.
  intros T O m rq c H sched s. destruct (quiet_run O m rq c H sched) as (E & P). fold s in E, P. split; [exact E|].
  intros (t & t' & l & w & _ & I1 & _). specialize (P t). destruct (g_pc s t) as [|i| |i y|i k a y|y| |]; cbn [macc In] in I1; try contradiction.
  - destruct I1 as [I1|[]]. discriminate I1.
  - destruct (_ <? _); [destruct I1 as [I1|[]]; discriminate I1|contradiction].
Qed.
Print Assumptions C62_recorded_rule_partial.

(** Concrete case: [[10,20],[20,30]] given by its lower triangle; the handle after
    preparation for the symmetric product. *)
Definition C62_fz (k : Z) : list Z := zrep k 7.
Definition C62_u : cmat Z := mkCmat 2 2 3 gn 0 [0;1;3] [0;0;1] [10;20;30] None None false dg_non_unit None.
Definition C62_h0 : hnd Z := mkHnd 2 2 3 [Some C62_u] unknown_sort false false false [].
Definition C62_h : hnd Z := match matrix_transform Zops (fun v => v) C62_fz C62_fz (Some C62_h0) [mkHint sl fm_lower false] with Some (_, Some h, _) => h | _ => C62_h0 end.
Definition C62_c : cmat Z := match H_mats C62_h with [_; Some c] => c | _ => C62_u end.
Definition C62_d dg : descr := mkDescr mt_symmetric fm_lower dg 0.
Definition C62_rq dg : mreq Z := mkReq dg 1 [1;1] 0 [9;9].
Lemma C62_copy : product_copy Zops C62_h C62_u C62_c.
Proof.
  assert (HH0 : hint_hnd Zops C62_h0 C62_u).
  { split; [|exists []; split; [reflexivity|split; [discriminate|constructor]]].
    split; [split; [apply csr_wfb_ok; reflexivity|split; [apply diag_uniqueb_ok; reflexivity|split; [reflexivity|left; reflexivity]]]|].
    split; [reflexivity|]. split; [reflexivity|]. split; [reflexivity|]. left. auto. }
  assert (HH : hint_hnd Zops C62_h C62_u).
  { destruct (C58_prepared Z Zops Zlaws (fun v => v) (fun v _ => eq_refl) C62_fz C62_fz) with (dt := dt_d) (h := C62_h0) (u := C62_u) (hs := [mkHint sl fm_lower false]) as (h' & hs' & E & HH & _); auto.
    - intros k Hk. apply zlen_zrep; auto.
    - intros k Hk. apply zlen_zrep; auto.
    - intros e [<-|[]]. exists (C62_d dg_non_unit), op_none. unfold hint_of. do 4 (split; [reflexivity|]). discriminate.
    - unfold C62_h. rewrite E. exact HH. }
  split; [exact HH|]. split; [right; left; reflexivity|]. split; [|reflexivity].
  destruct HH as (_ & rest & E & _ & F). injection E as E. subst rest. inversion F as [|? ? (c & Ec & [X|X]) _]; subst.
  - exfalso. injection Ec as <-. destruct X as (X & _). discriminate X.
  - injection Ec as <-. exact X.
Qed.
Lemma C62_served : forall dg, served Zops dt_d C62_h C62_u C62_c (C62_d dg) op_none (C62_rq dg).
Proof. intros dg. constructor; try reflexivity; discriminate. Qed.

Definition turns (t n : nat) : list nat := repeat t n.
(** Unit diagonal, which the copy does not have yet; two threads interleaved *)
Example C62_case_run : let s := mrun Zops 2 (fun _ => C62_rq dg_unit) (turns 0 3 ++ turns 1 4 ++ turns 0 4 ++ turns 1 20 ++ turns 0 20) (mstart C62_c) in
  g_pc s 0%nat = q_done [21;21] /\ g_pc s 1%nat = q_done [21;21] /\ c_val (g_c s) = [1;20;20;1] /\ c_mdiag (g_c s) = dg_unit /\ g_pc s 2%nat = q_flag.
Proof. vm_compute. auto 6. Qed.

(** Two threads with different diagonal rules: the second writes ones over the diagonal
    while the first is about to read it; the first returns success and a wrong y. *)
Theorem C62_different_rules_refuted : exists (h : hnd Z) u c ds rq sched y, product_copy Zops h u c /\
  (forall t, served Zops dt_d h u c (ds t) op_none (rq t)) /\
  g_pc (mrun Zops (H_m h) rq sched (mstart c)) 0%nat = q_done y /\ ~ right_y Zops h u (ds 0%nat) op_none (rq 0%nat) y.
Proof.
  exists C62_h, C62_u, C62_c, (fun t => C62_d (if Nat.eqb t 0 then dg_non_unit else dg_unit)), (fun t => C62_rq (if Nat.eqb t 0 then dg_non_unit else dg_unit)),
    (turns 0 1 ++ turns 1 5 ++ turns 0 20), [21;21].
  split; [exact C62_copy|]. split; [intros t; apply C62_served|]. split; [vm_compute; reflexivity|].
  intros (_ & H). specialize (H 0 ltac:(vm_compute; split; [discriminate|reflexivity])). vm_compute in H. discriminate H.
Qed.
Print Assumptions C62_different_rules_refuted.

(** Even with the same rule, switching to it is a data race: two threads store to the same
    diagonal entry with no lock held. *)
Theorem C62_switch_race_refuted : exists (h : hnd Z) u c d rq sched, product_copy Zops h u c /\
  (forall t, served Zops dt_d h u c d op_none (rq t)) /\ mrace (H_m h) rq (mrun Zops (H_m h) rq sched (mstart c)).
Proof.
  exists C62_h, C62_u, C62_c, (C62_d dg_unit), (fun _ => C62_rq dg_unit), [0%nat; 1%nat].
  split; [exact C62_copy|]. split; [intros t; apply C62_served|]. exists 0%nat, 1%nat, (ml_val 0), true. split; [discriminate|]. vm_compute. auto.
Qed.
Print Assumptions C62_switch_race_refuted.

(** The hypotheses of C62_as_if_alone hold for the unit diagonal, and the call alone
    returns what the interleaved ones returned. *)
Example C62_case_alone : env_ok Zops isort C62_fz C62_fz all_isa dt_d 2 [1;0] /\ hint_pre Zops dt_d C62_h C62_u (C62_d dg_unit) op_none /\
  match mv Zops isort C62_fz C62_fz all_isa dt_d pick2 2 [1;0] op_none (Some 1) (Some C62_h) (Some (C62_d dg_unit)) (Some [1;1]) (Some 0) (Some [9;9]) with
  | Some (st, y, _) => st = success /\ y = Some [21;21] | None => False end.
Proof.
  split; [|split].
  - constructor; [apply Zlaws|apply isort_contract| | |reflexivity|right; apply perm_swap|reflexivity]; intros z Hz; apply zlen_zrep; lia.
  - constructor; try reflexivity; try discriminate. intros _. right. exists C62_c. split; [right; left; reflexivity|reflexivity].
  - vm_compute. auto.
Qed.
