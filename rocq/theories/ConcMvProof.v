(** Invariants of concurrent products on a shared hinted copy. *)
From Coq Require Import ZArith List Bool Arith Lia ZifyBool ZifyNat Ring.
From Verif Require Import Base BaseFacts Algebra Csr CsrFacts Vec DoidModel DoidSpec MvModel MvSpec MvFacts MvProof CsrmvModel HandleModel HandleSpec ExpandSpec CsrmmSpec CsrmmProof
  ConcMvModel.
Import ListNotations.
Open Scope Z_scope.

Section P.
  Context {T : Type} (O : ops T) (L : laws O).
  Let rth := l_ring L.
  Add Ring CMring : rth.
  Local Notation zero := (o0 O).
  Local Notation tn := (nthZ (o0 O)).
  Variables (m : Z) (rq : nat -> mreq T) (c0 : cmat T) (dg : diag_type) (idiag : list Z) (dv vF : list T).
  Hypothesis Hid : c_idiag c0 = Some idiag.
  Hypothesis Hdv : c_dval c0 = Some dv.
  Hypothesis Hcm : c_m c0 = m.
  Hypothesis Hb : c_b c0 = 0.
  Hypothesis W : csr_wf m (c_n c0) (c_nnz c0) 0 (c_ptr c0) (c_ind c0).
  Hypothesis Lid : zlen idiag = m.
  Hypothesis Ldv : zlen dv = m.
  Hypothesis Rid : forall i, 0 <= i < m -> 0 <= zn idiag i < c_nnz c0.
  Hypothesis LF : zlen vF = c_nnz c0.
  Hypothesis L0 : zlen (c_val c0) = c_nnz c0.
  Hypothesis XF : forall i, 0 <= i < m -> tn vF (zn idiag i) = dsel O dg (tn dv i).
  Hypothesis OF : forall k, 0 <= k < c_nnz c0 -> (forall i, 0 <= i < m -> zn idiag i <> k) -> tn vF k = tn (c_val c0) k.
  Hypothesis Rq : forall t, rq_dg (rq t) = dg /\ zlen (rq_x (rq t)) = c_n c0 /\ zlen (rq_y (rq t)) = m.

  Definition wrap (v : list T) (g : diag_type) : cmat T := set_mark (set_val c0 v) g.
  (** values written so far are right; the others are the copy's *)
  Definition part (e : Z) (v : list T) : Prop := forall i, 0 <= i < e -> i < m -> tn v (zn idiag i) = tn vF (zn idiag i).
  Definition off (v : list T) : Prop := zlen v = c_nnz c0 /\ forall k, 0 <= k < c_nnz c0 -> (forall i, 0 <= i < m -> zn idiag i <> k) -> tn v k = tn vF k.

  Lemma full_eq : forall v, off v -> part m v -> v = vF.
  Proof.
    intros v (Lv & Ov) P. apply (nthZ_ext _ zero); [lia|]. intros k Hk. rewrite Lv in Hk.
    destruct (existsb (fun i => zn idiag i =? k) (zrange 0 m)) eqn:E.
    - apply existsb_exists in E. destruct E as (i & Ii & E). apply in_zrange in Ii. apply Z.eqb_eq in E. rewrite <- E. apply P; lia.
    - apply Ov; [exact Hk|]. intros i Hi F. assert (X : existsb (fun i => zn idiag i =? k) (zrange 0 m) = true); [|congruence].
      apply existsb_exists. exists i. split; [apply in_zrange; lia|lia].
  Qed.

  (** the product so far: rows below [i] done *)
  Definition rowF (r : mreq T) (i : Z) : T := sumz O (zn (c_ptr c0) i) (zn (c_ptr c0) (i + 1)) (fun k => omul O (tn vF k) (tn (rq_x r) (zn (c_ind c0) k))).
  Definition prog (r : mreq T) (e : Z) (y : list T) : Prop :=
    zlen y = m /\ forall i, 0 <= i < m ->
      tn y i = if i <? e then oadd O (omul O (rq_alpha r) (rowF r i)) (omul O (rq_beta r) (tn (rq_y r) i)) else tn (rq_y r) i.

  Definition tinv (r : mreq T) (v : list T) (p : mpc T) : Prop :=
    match p with
    | q_flag => True
    | q_fill e => 0 <= e <= m /\ part e v
    | q_mark => part m v
    | q_row i y => part m v /\ 0 <= i <= m /\ prog r i y
    | q_ent i k a y => part m v /\ 0 <= i < m /\ zn (c_ptr c0) i <= k <= zn (c_ptr c0) (i + 1) /\ prog r i y /\
        a = sumz O (zn (c_ptr c0) i) k (fun k => omul O (tn vF k) (tn (rq_x r) (zn (c_ind c0) k)))
    | q_done y => prog r m y
    | q_fail | q_ub => False
    end.

  Definition inv (s : mcs T) : Prop :=
    exists v g, g_c s = wrap v g /\ off v /\ (g = dg -> part m v) /\ forall t, tinv (rq t) v (g_pc s t).

  Lemma tinv_mono : forall r v v' p, (forall e, part e v -> part e v') -> tinv r v p -> tinv r v' p.
  Proof. intros r v v' p M. destruct p; cbn; intuition. Qed.

  (** steps a call still needs *)
  Definition left_ (p : mpc T) : Z :=
    match p with
    | q_flag => 3 * m + c_nnz c0 + 4
    | q_fill i => 3 * m - i + c_nnz c0 + 3
    | q_mark => 2 * m + c_nnz c0 + 2
    | q_row i _ => 1 + 2 * (m - i) + (c_nnz c0 - zn (c_ptr c0) i)
    | q_ent i k _ _ => 2 * (m - i) + (c_nnz c0 - k)
    | _ => 0
    end.

  Lemma ptr_facts : zn (c_ptr c0) 0 = 0 /\ zn (c_ptr c0) m = c_nnz c0 /\ (forall i, 0 <= i < m -> 0 <= zn (c_ptr c0) i <= zn (c_ptr c0) (i + 1) /\ zn (c_ptr c0) (i + 1) <= c_nnz c0) /\
    zlen (c_ptr c0) = m + 1 /\ zlen (c_ind c0) = c_nnz c0.
  Proof.
    destruct W as [W1 W2 W3 (W4 & W5) W6 W7]. pose proof (ptr_mono _ _ _ _ W6) as M. destruct W6 as (A & B & C). split; [exact A|]. split; [lia|]. split; [|auto].
    intros i Hi. pose proof (M 0 i). pose proof (M (i + 1) m). specialize (C i Hi). lia.
  Qed.

  Lemma step_inv : forall t s, inv s -> inv (mstep O m rq t s) /\
    (forall t', t' <> t -> g_pc (mstep O m rq t s) t' = g_pc s t') /\
    (left_ (g_pc (mstep O m rq t s) t) < left_ (g_pc s t) \/ exists y, g_pc s t = q_done y /\ g_pc (mstep O m rq t s) t = q_done y).
  Proof.
    intros t s (v & g & Ec & Ov & Fv & Tv). pose proof (Tv t) as I. destruct (Rq t) as (Rg & Rx & Ry). destruct ptr_facts as (P0 & Pm & Pi & Lp & Li).
    pose proof (wf_m _ _ _ _ _ _ W) as Hm. pose proof (wf_ind _ _ _ _ _ _ W) as Hind. pose proof (wf_nnz _ _ _ _ _ _ W) as Hnn.
    assert (G : exists v' g' p, mstep1 O m (rq t) (wrap v g) (g_pc s t) = Some (wrap v' g', p) /\ off v' /\ (g' = dg -> part m v') /\ (forall e, part e v -> part e v') /\ tinv (rq t) v' p /\
      (left_ p < left_ (g_pc s t) \/ exists y, g_pc s t = q_done y /\ p = q_done y)).
    { destruct (g_pc s t) as [|i| |i y|i k a y|y| |] eqn:Ep; cbn [tinv] in I; cbn [mstep1].
      - rewrite Rg. cbn [wrap set_mark set_val c_mdiag c_dval c_idiag]. destruct (diag_eqb dg g) eqn:Eg.
        + assert (g = dg) by (destruct dg, g; try discriminate; auto). exists v, g, (q_row 0 (rq_y (rq t))). split; [reflexivity|]. do 3 (split; [auto|]). split.
          * cbn [tinv]. split; [auto|]. split; [lia|]. split; [exact Ry|]. intros i Hi. replace (i <? 0) with false by lia. reflexivity.
          * left. cbn [left_]. lia.
        + rewrite Hdv, Hid. exists v, g, (q_fill 0). split; [reflexivity|]. do 3 (split; [auto|]). split; [cbn [tinv]; split; [lia|intros i Hi; lia]|]. left. cbn [left_]. lia.
      - destruct I as (Hi & Pe). destruct (Z.ltb_spec i m) as [Hl|Hl].
        + cbn [wrap set_mark set_val c_mdiag c_dval c_idiag c_val]. rewrite Hdv, Hid. rewrite (rd_nthZ _ 0) by lia. fold (zn idiag i). destruct Ov as (Lv & Ov). pose proof (Rid i ltac:(lia)) as Ri.
          assert (EV : match rq_dg (rq t) with dg_non_unit => rd dv i | dg_unit => Some (o1 O) | dg_zero => Some (o0 O) end = Some (tn vF (zn idiag i))).
          { rewrite Rg, XF by lia. unfold dsel. destruct dg; auto. apply rd_nthZ. lia. }
          rewrite EV, wr_upd by lia. exists (upd v (zn idiag i) (tn vF (zn idiag i))), g, (q_fill (i + 1)). split; [reflexivity|].
          assert (MM : forall e, part e v -> part e (upd v (zn idiag i) (tn vF (zn idiag i)))).
          { intros e P j Hj Hjm. pose proof (Rid j ltac:(lia)). rewrite nthZ_upd by lia. destruct (Z.eqb_spec (zn idiag j) (zn idiag i)) as [->|]; auto. }
          split.
          { split; [now rewrite zlen_upd|]. intros k Hk Nk. rewrite nthZ_upd by lia. destruct (Z.eqb_spec k (zn idiag i)) as [E|]; [exfalso; apply (Nk i); lia|]. auto. }
          split; [auto|]. split; [exact MM|]. split.
          * cbn [tinv]. split; [lia|]. intros j Hj Hjm. pose proof (Rid j ltac:(lia)). rewrite nthZ_upd by lia. destruct (Z.eqb_spec (zn idiag j) (zn idiag i)) as [->|N]; [reflexivity|].
            apply Pe; [|lia]. destruct (Z.eq_dec j i) as [->|]; [congruence|lia].
          * left. cbn [left_]. lia.
        + exists v, g, q_mark. split; [reflexivity|]. do 3 (split; [auto|]). split; [cbn [tinv]; replace m with i by lia; exact Pe|]. left. cbn [left_]. lia.
      - exists v, (rq_dg (rq t)), (q_row 0 (rq_y (rq t))). split; [reflexivity|]. do 3 (split; [auto|]). split.
        + cbn [tinv]. split; [auto|]. split; [lia|]. split; [exact Ry|]. intros i Hi. replace (i <? 0) with false by lia. reflexivity.
        + left. cbn [left_]. lia.
      - destruct I as (Pf & Hi & Pr). cbn [wrap set_mark set_val c_m c_ptr c_b]. rewrite Hcm, Hb. destruct (Z.ltb_spec i m) as [Hl|Hl].
        + rewrite (rd_nthZ _ 0) by lia. fold (zn (c_ptr c0) i). rewrite Z.sub_0_r. exists v, g, (q_ent i (zn (c_ptr c0) i) (o0 O) y). split; [reflexivity|]. do 3 (split; [auto|]). pose proof (Pi i ltac:(lia)). split.
          * cbn [tinv]. split; [auto|]. split; [lia|]. split; [lia|]. split; [exact Pr|]. rewrite sumz_nil by lia. reflexivity.
          * left. cbn [left_]. lia.
        + exists v, g, (q_done y). split; [reflexivity|]. do 3 (split; [auto|]). split; [cbn [tinv]; replace m with i by lia; exact Pr|]. left. cbn [left_]. replace i with m by lia. lia.
      - destruct I as (Pf & Hi & Hk & Pr & Ha). pose proof (Pi i Hi) as Pii. cbn [wrap set_mark set_val c_m c_ptr c_b c_ind c_val]. rewrite Hb. rewrite (rd_nthZ _ 0) by lia. fold (zn (c_ptr c0) (i + 1)). rewrite !Z.sub_0_r.
        pose proof (full_eq v Ov Pf) as EF. destruct (Z.ltb_spec k (zn (c_ptr c0) (i + 1))) as [Hl|Hl].
        + rewrite (rd_nthZ _ 0 (c_ind c0)) by lia. rewrite (rd_nthZ _ zero v) by (rewrite EF; lia). fold (zn (c_ind c0) k). rewrite Z.sub_0_r. pose proof (Hind k ltac:(lia)).
          rewrite (rd_nthZ _ zero (rq_x (rq t))) by lia. exists v, g, (q_ent i (k + 1) (oadd O a (omul O (tn v k) (tn (rq_x (rq t)) (zn (c_ind c0) k)))) y). split; [reflexivity|]. do 3 (split; [auto|]). split.
          * cbn [tinv]. split; [auto|]. split; [lia|]. split; [lia|]. split; [exact Pr|]. rewrite (sumz_last O L) by lia. rewrite Ha, EF. reflexivity.
          * left. cbn [left_]. lia.
        + destruct Pr as (Ly & Pr). rewrite (finish_row_ok O L) by lia. exists v, g. eexists. split; [reflexivity|]. do 3 (split; [auto|]). replace k with (zn (c_ptr c0) (i + 1)) in * by lia. split.
          * cbn [tinv]. split; [auto|]. split; [lia|]. split; [now rewrite zlen_upd|]. intros j Hj. rewrite nthZ_upd by lia. destruct (Z.eqb_spec j i) as [->|N].
            -- replace (i <? i + 1) with true by lia. rewrite (Pr i Hi), Z.ltb_irrefl. unfold rowF. rewrite <- Ha. reflexivity.
            -- rewrite Pr by lia. destruct (Z.ltb_spec j i), (Z.ltb_spec j (i + 1)); try lia; reflexivity.
          * left. cbn [left_]. lia.
      - exists v, g, (q_done y). split; [reflexivity|]. do 3 (split; [auto|]). split; [exact I|]. right. exists y. auto.
      - contradiction.
      - contradiction. }
    destruct G as (v' & g' & p & E & G1 & G2 & G3 & G4 & G5). unfold mstep. rewrite Ec, E. cbn [g_pc g_c]. split; [|split].
    - exists v', g'. split; [reflexivity|]. split; [exact G1|]. split; [exact G2|]. intros t'. cbn [g_pc]. destruct (Nat.eqb_spec t' t) as [->|N]; [exact G4|]. eapply tinv_mono; [exact G3|apply Tv].
    - intros t' N. destruct (Nat.eqb_spec t' t); [contradiction|reflexivity].
    - rewrite Nat.eqb_refl. exact G5.
  Qed.

  Lemma left_nonneg : forall v r p, tinv r v p -> 0 <= left_ p.
  Proof.
    intros v r p I. destruct ptr_facts as (P0 & Pm & Pi & _). pose proof (wf_m _ _ _ _ _ _ W). pose proof (wf_nnz _ _ _ _ _ _ W).
    destruct p as [|i| |i y|i k a y|y| |]; cbn [tinv left_] in *; try lia.
    - destruct I as (_ & Hi & _). destruct (Z.eq_dec i m) as [->|]; [lia|]. pose proof (Pi i ltac:(lia)). lia.
    - destruct I as (_ & Hi & Hk & _). pose proof (Pi i Hi). lia.
  Qed.

  Lemma run_inv : forall sched s, inv s -> inv (mrun O m rq sched s) /\
    forall t, left_ (g_pc (mrun O m rq sched s) t) <= left_ (g_pc s t) - Z.of_nat (count_occ Nat.eq_dec sched t) \/ exists y, g_pc (mrun O m rq sched s) t = q_done y.
  Proof.
    induction sched as [|t0 sched IH]; intros s I.
    - split; [exact I|]. intros t. left. cbn. lia.
    - cbn [mrun fold_left]. fold (mrun O m rq sched (mstep O m rq t0 s)). destruct (step_inv t0 s I) as (I1 & Ot & Me). destruct (IH _ I1) as (I2 & M2). split; [exact I2|]. intros t. cbn [count_occ].
      destruct (M2 t) as [X|X]; [|right; exact X]. destruct (Nat.eq_dec t0 t) as [->|N]; [|left; rewrite Ot in X by auto; exact X].
      destruct Me as [Me|(y & _ & Ey)]; [left; lia|]. right.
      (* done stays done *)
      clear X IH I2 M2 Ot. exists y. revert Ey. generalize (mstep O m rq t s). clear. induction sched as [|t1 sched IH]; intros s' Ey; [exact Ey|].
      cbn [mrun fold_left]. apply IH. unfold mstep. destruct (Nat.eq_dec t1 t) as [->|N].
      + rewrite Ey. cbn [mstep1 g_pc]. rewrite Nat.eqb_refl. reflexivity.
      + destruct (mstep1 _ _ _ _ _) as [(c, p)|]; cbn [g_pc]; destruct (Nat.eqb_spec t t1); congruence.
  Qed.

  Lemma start_inv : (c_mdiag c0 = dg -> part m (c_val c0)) -> inv (mstart c0).
  Proof.
    intros H. exists (c_val c0), (c_mdiag c0). split; [unfold wrap; destruct c0; reflexivity|]. split; [|split; [exact H|intros t; exact I]].
    split; [exact L0|]. intros k Hk Nk. symmetry. apply OF; auto.
  Qed.

  (** a call in the middle of switching the diagonal *)
  Definition mid (p : mpc T) : Prop := match p with q_fill _ | q_mark => True | _ => False end.
  Definition settled (s : mcs T) : Prop := c_mdiag (g_c s) = dg \/ g_c s = c0 \/ exists t, mid (g_pc s t).

  Local Ltac fin := let E := fresh in intros E; first [discriminate E|injection E; intros; symmetry; assumption].
  Lemma step_settled : forall t s, inv s -> settled s -> settled (mstep O m rq t s).
  Proof.
    intros t s I J. destruct (step_inv t s I) as ((v' & g' & _ & _ & _ & Tv) & _ & _). specialize (Tv t). revert Tv.
    assert (KP : forall p, ~ mid (g_pc s t) -> settled (mkMcs (g_c s) (fun t' => if Nat.eqb t' t then p else g_pc s t'))).
    { intros p N. destruct J as [J|[J|(t1 & J)]]; [left; exact J|right; left; exact J|]. right; right. exists t1. cbn [g_pc]. destruct (Nat.eqb_spec t1 t) as [->|]; [contradiction|exact J]. }
    unfold mstep. destruct (mstep1 O m (rq t) (g_c s) (g_pc s t)) as [(c', p)|] eqn:E; [|cbn [g_pc]; rewrite Nat.eqb_refl; cbn [tinv]; contradiction]. intros _.
    destruct (g_pc s t) as [|i| |i y|i k a y|y| |] eqn:Ep; cbn [mstep1] in E.
    - assert (c' = g_c s) as -> by (revert E; destruct (diag_eqb _ _); [fin|]; destruct (c_dval (g_c s)); [destruct (c_idiag (g_c s)); fin|fin]). apply KP. auto.
    - right; right. exists t. cbn [g_pc]. rewrite Nat.eqb_refl. revert E. destruct (i <? m); [|intros E; injection E as _ <-; exact Logic.I]. destruct (c_dval (g_c s)) as [dv1|]; [|discriminate]. destruct (c_idiag (g_c s)) as [id1|]; [|discriminate].
      destruct (rd id1 i); [|discriminate]. destruct (rq_dg (rq t)); [destruct (rd dv1 i); [|discriminate]|..]; (match goal with |- context [wr ?a ?b ?c] => destruct (wr a b c) end; [|discriminate]; intros E; injection E as _ <-; exact Logic.I).
    - left. injection E as <- _. cbn [g_c set_mark c_mdiag]. apply Rq.
    - assert (c' = g_c s) as -> by (revert E; destruct (i <? c_m (g_c s)); [destruct (rd (c_ptr (g_c s)) i)|]; fin). apply KP. auto.
    - assert (c' = g_c s) as ->; [|apply KP; auto]. revert E. destruct (rd (c_ptr (g_c s)) (i + 1)) as [e1|]; [|discriminate]. destruct (k <? e1 - c_b (g_c s)).
      + destruct (rd (c_ind (g_c s)) k) as [j1|]; [|discriminate]. destruct (rd (c_val (g_c s)) k); [|discriminate]. destruct (rd (rq_x (rq t)) (j1 - c_b (g_c s))); fin.
      + match goal with |- context [finish_row O ?a ?b ?c ?d ?e] => destruct (finish_row O a b c d e) end; fin.
    - injection E as <- _. apply KP. auto.
    - injection E as <- _. apply KP. auto.
    - injection E as <- _. apply KP. auto.
  Qed.

  Lemma run_settled : forall sched s, inv s -> settled s -> settled (mrun O m rq sched s).
  Proof.
    induction sched as [|t sched IH]; intros s I J; [exact J|]. cbn [mrun fold_left]. apply IH; [apply step_inv; exact I|apply step_settled; auto].
  Qed.

  (** when nobody is switching, the copy is as before or completely switched *)
  Lemma rest_state : forall sched, (c_mdiag c0 = dg -> part m (c_val c0)) -> let s := mrun O m rq sched (mstart c0) in
    (forall t, ~ mid (g_pc s t)) -> g_c s = c0 \/ g_c s = wrap vF dg.
  Proof.
    intros sched H s N. pose proof (start_inv H) as I0. destruct (run_settled sched (mstart c0) I0) as [J|[J|(t & J)]]; [right; left; reflexivity| |left; exact J|exfalso; exact (N t J)].
    destruct (proj1 (run_inv sched (mstart c0) I0)) as (v & g & E & Ov & F & _). right. fold s in E, J. rewrite E in *. cbn [wrap set_mark c_mdiag] in J. subst g. rewrite (full_eq v Ov (F eq_refl)). reflexivity.
  Qed.

  Lemma prog_spec : forall r y, prog r m y -> mv_spec O m (c_n c0) (rq_alpha r) (rq_beta r) (csr_mat O 0 (c_ptr c0) (c_ind c0) vF) (rq_x r) (rq_y r) y.
  Proof.
    intros r y (Ly & P). split; [exact Ly|]. intros i Hi. rewrite P by exact Hi. replace (i <? m) with true by lia. f_equal. f_equal. unfold rowF.
    destruct ptr_facts as (_ & _ & Pi & _). pose proof (Pi i Hi).
    transitivity (sumz O (zn (c_ptr c0) i) (zn (c_ptr c0) (i + 1)) (fun k => omul O ((fun a => a) (tn vF k)) ((fun j => tn (rq_x r) j) (zn (c_ind c0) k - 0)))).
    - apply sumz_ext. intros k Hk. rewrite Z.sub_0_r. reflexivity.
    - rewrite (row_sum_cols O L m (c_n c0) (c_nnz c0) 0 (c_ptr c0) (c_ind c0) vF i _ _ (fun _ => true) (fun a => a) (fun j => tn (rq_x r) j)); [reflexivity|exact W|exact LF|exact Hi|repeat split| |lia|lia|lia].
      + intros k Hk. unfold in_row in Hk. split; [reflexivity|]. intros _. lia.
  Qed.
End P.

Section E.
  Context {T : Type} (O : ops T) (L : laws O).
  Local Notation zero := (o0 O).
  Local Notation tn := (nthZ (o0 O)).

  (** the values once a diagonal rule is written completely, and the matrix they hold *)
  Lemma final_vals : forall m A c dg, copy_state O m m A c -> is_one_tri (c_doid c) = true ->
    exists idiag dv vF, c_idiag c = Some idiag /\ c_dval c = Some dv /\ c_m c = m /\ c_n c = m /\ zlen idiag = m /\ zlen dv = m /\
      (forall i, 0 <= i < m -> 0 <= zn idiag i < c_nnz c) /\ zlen vF = c_nnz c /\
      (forall i, 0 <= i < m -> tn vF (zn idiag i) = dsel O dg (tn dv i)) /\
      (forall k, 0 <= k < c_nnz c -> (forall i, 0 <= i < m -> zn idiag i <> k) -> tn vF k = tn (c_val c) k) /\
      (forall i j, 0 <= i < m -> 0 <= j < m -> csr_mat O 0 (c_ptr c) (c_ind c) vF i j = doid_sem O (c_doid c) (with_diag O dg A) i j) /\
      (c_mdiag c = dg -> forall i, 0 <= i < m -> tn (c_val c) (zn idiag i) = tn vF (zn idiag i)).
  Proof.
    intros m A c dg CS Ht. pose proof CS as [Dd Cb Cm Cn W Lv Mt Dg]. destruct (Dg Ht) as (idiag & dv & E1 & E2 & L1 & L2 & U & P).
    replace (if swaps (c_doid c) then m else m) with m in Cm, Cn by (destruct (swaps _); auto). rewrite Cm, Cn in *.
    pose proof (wf_m _ _ _ _ _ _ W) as Hm. pose proof (wf_ptr _ _ _ _ _ _ W) as WP.
    assert (Rg : forall i, 0 <= i < m -> 0 <= zn idiag i < c_nnz c).
    { intros i Hi. destruct (P i Hi) as (R & _). eapply in_row_range; eauto. }
    assert (Inj : forall i i', 0 <= i < m -> 0 <= i' < m -> zn idiag i = zn idiag i' -> i = i').
    { intros i i' Hi Hi' Eq. destruct (P i Hi) as (_ & Q & _). destruct (P i' Hi') as (_ & Q' & _). congruence. }
    set (X := fun i => dsel O dg (tn dv i)).
    destruct (for_inv _ (fun e st => zlen st = c_nnz c /\ (forall i, 0 <= i < e -> tn st (zn idiag i) = X i) /\
        forall k, 0 <= k < c_nnz c -> (forall i, 0 <= i < m -> zn idiag i <> k) -> tn st k = tn (c_val c) k) 0 m (fun i st => wr st (zn idiag i) (X i)) (c_val c) ltac:(lia)) as (vF & _ & Ls & R1 & R2).
    - split; [auto|]. split; [intros; lia|auto].
    - intros i st Hi (Ls & R1 & R2). pose proof (Rg i ltac:(lia)). rewrite wr_upd by lia. eexists. split; [reflexivity|]. split; [|split].
      + now rewrite zlen_upd.
      + intros i' Hi'. pose proof (Rg i' ltac:(lia)). rewrite nthZ_upd by lia. destruct (Z.eqb_spec (zn idiag i') (zn idiag i)) as [Eq|Ne].
        * apply Inj in Eq; try lia. now subst.
        * apply R1. destruct (Z.eq_dec i i'); [subst; congruence|lia].
      + intros k Hk Nk. rewrite nthZ_upd by lia. replace (k =? zn idiag i) with false by (specialize (Nk i ltac:(lia)); lia). now apply R2.
    - assert (IR : forall v : list T, zlen v = c_nnz c -> forall i k, 0 <= i < m -> in_row (c_ptr c) 0 i k -> 0 <= k < zlen v).
      { intros v Lv' i k Hi Hk. rewrite Lv'. exact (in_row_range _ _ _ _ WP i k Hi Hk). }
      assert (DV : forall (v : list T) i, zlen v = c_nnz c -> 0 <= i < m -> csr_mat O 0 (c_ptr c) (c_ind c) v i i = tn v (zn idiag i)).
      { intros v i Lv' Hi. rewrite (csr_mat_sum O L) by (intros k; apply IR; auto). destruct (P i Hi) as (Q1 & Q2 & _). unfold in_row in Q1. rewrite (sumz_delta O L _ _ (zn idiag i)).
        - replace (zn (c_ind c) (zn idiag i) =? i + 0) with true by lia. reflexivity.
        - lia.
        - intros k Hk Nk. destruct (Z.eqb_spec (zn (c_ind c) k) (i + 0)); auto. exfalso. apply Nk. apply (U i k (zn idiag i)); auto; unfold in_row; lia. }
      exists idiag, dv, vF. do 10 (split; [auto|]). split.
      + intros i j Hi Hj. rewrite (sem_with_diag O L) by auto. specialize (Mt i j Hi Hj). rewrite Ht, (sem_with_diag O L) in Mt by auto.
        destruct (P i Hi) as (Q1 & Q2 & Q3). destruct (Z.eqb_spec i j) as [Eq0|Ne].
        * subst j. rewrite DV by auto. rewrite R1 by lia. unfold X. now rewrite Q3.
        * rewrite (csr_mat_sum O L) in Mt by (intros k; apply IR; auto). rewrite (csr_mat_sum O L) by (intros k; apply IR; auto). rewrite <- Mt. apply sumz_ext. intros k Hk.
          destruct (Z.eqb_spec (zn (c_ind c) k) (j + 0)); auto.
          assert (IK : in_row (c_ptr c) 0 i k) by (unfold in_row; lia). pose proof (in_row_range _ _ _ _ WP i k Hi IK).
          apply R2; auto. intros i' Hi' Eq. destruct (P i' Hi') as (S1 & S2 & _). rewrite Eq in *.
          pose proof (row_unique _ _ _ _ WP i i' k Hi Hi' IK S1). lia.
      + intros Md i Hi. rewrite R1 by lia. rewrite <- DV by auto. rewrite Mt by auto. rewrite Ht, (sem_with_diag O L), Z.eqb_refl, Md by auto. destruct (P i Hi) as (_ & _ & Q3). unfold X. now rewrite Q3.
  Qed.

  (** no call writes when all ask for the recorded rule *)
  Lemma quiet_run : forall m rq (c : cmat T), (forall t, rq_dg (rq t) = c_mdiag c) -> forall sched,
    let s := mrun O m rq sched (mstart c) in g_c s = c /\ forall t, match g_pc s t with q_fill _ | q_mark => False | _ => True end.
  Proof.
    intros m rq c H. assert (G : forall sched s, g_c s = c -> (forall t, match g_pc s t with q_fill _ | q_mark => False | _ => True end) ->
      let s' := mrun O m rq sched s in g_c s' = c /\ forall t, match g_pc s' t with q_fill _ | q_mark => False | _ => True end).
    { induction sched as [|t sched IH]; intros s E P; [split; auto|]. cbn [mrun fold_left]. apply IH.
      - unfold mstep. rewrite E. specialize (P t). destruct (g_pc s t) as [|i| |i y|i k a y|y| |]; try contradiction; cbn [mstep1].
        + rewrite H. replace (diag_eqb (c_mdiag c) (c_mdiag c)) with true by (destruct (c_mdiag c); reflexivity). reflexivity.
        + destruct (_ <? _); [|reflexivity]. destruct (rd _ _); reflexivity.
        + destruct (rd (c_ptr c) _); [|reflexivity]. destruct (_ <? _); [destruct (rd (c_ind c) k), (rd (c_val c) k); try reflexivity; destruct (rd (rq_x _) _); reflexivity|].
          destruct (finish_row _ _ _ _ _ _); reflexivity.
        + reflexivity.
        + reflexivity.
        + reflexivity.
      - intros t'. unfold mstep. rewrite E. pose proof (P t) as Pt. destruct (Nat.eqb_spec t' t) as [->|N].
        + destruct (g_pc s t) as [|i| |i y|i k a y|y| |]; try contradiction; cbn [mstep1].
          * rewrite H. replace (diag_eqb (c_mdiag c) (c_mdiag c)) with true by (destruct (c_mdiag c); reflexivity). cbn [g_pc]. rewrite Nat.eqb_refl. exact I.
          * destruct (_ <? _); [destruct (rd _ _)|]; cbn [g_pc]; rewrite Nat.eqb_refl; exact I.
          * destruct (rd (c_ptr c) _); [|cbn [g_pc]; rewrite Nat.eqb_refl; exact I]. destruct (_ <? _); [destruct (rd (c_ind c) k), (rd (c_val c) k); try (cbn [g_pc]; rewrite Nat.eqb_refl; exact I); destruct (rd (rq_x _) _); cbn [g_pc]; rewrite Nat.eqb_refl; exact I|].
            destruct (finish_row _ _ _ _ _ _); cbn [g_pc]; rewrite Nat.eqb_refl; exact I.
          * cbn [g_pc]. rewrite Nat.eqb_refl. exact I.
          * cbn [g_pc]. rewrite Nat.eqb_refl. exact I.
          * cbn [g_pc]. rewrite Nat.eqb_refl. exact I.
        + destruct (mstep1 _ _ _ _ _) as [(c', p)|]; cbn [g_pc]; destruct (Nat.eqb_spec t' t); try contradiction; apply P. }
    intros sched. apply G; [reflexivity|]. intros t. exact I.
  Qed.
End E.
