(** aoclsparse_?mv on a handle computes alpha * op(A) * x + beta * y for the matrix
    the user supplied, whichever stored copy and kernel it picks. *)
From Coq Require Import ZArith List Bool Lia ZifyBool Ring Permutation.
From Verif Require Import Base BaseFacts Algebra Vec DoidModel DoidSpec DoidProof Csr CsrFacts CheckModel CheckSpec CheckProof
  CountSort Csr2CscProof MvModel MvSpec MvFacts MvProof MvPubProof SortModel SortSpec SortProof CsrmvModel CsrmvProof HandleModel HandleSpec TrsvSpec HandleFacts OptProof.
Import ListNotations.
Open Scope Z_scope.

Section P.
  Context {T : Type} (O : ops T) (L : laws O).
  Variable srt : (Z -> Z -> bool) -> list Z -> list Z.
  Variables (fz : Z -> list Z) (ft : Z -> list T).
  Hypothesis Hsrt : sort_contract srt.
  Hypothesis Hfz : forall z, 0 <= z -> zlen (fz z) = z.
  Hypothesis Hft : forall z, 0 <= z -> zlen (ft z) = z.
  Variable sup : Z -> bool.
  Hypothesis Hsup : sup 1 = true.
  Variables (dt : dtype) (choice : Z -> option Z) (nthreads : Z) (team : list Z).
  Hypothesis Hteam : nthreads <= 1 \/ Permutation team (zrange 0 nthreads).
  Hypothesis Hreal : is_cplx dt = false -> forall a, ocj O a = a.
  Let rth := l_ring L.
  Add Ring Tring5 : rth.



  (** Kernel matrix against the user's request, all combinations. *)
  Definition request_ok (ty : mat_type) (op : operation) : Prop :=
    (op = op_none \/ op = op_transpose \/ op = op_conjugate_transpose /\ is_cplx dt = true) /\
    (ty = mt_hermitian -> is_cplx dt = true).

  Ltac allreq := intros ty fm op d r e (Hop & Hh) Hd E1 E2; unfold declined, supported;
    destruct (is_cplx dt) eqn:Ec;
    (destruct Hop as [Hop|[Hop|[Hop Hop']]]; try discriminate; subst op);
    (destruct Hd as [Hd|Hd]; subst d; destruct ty, fm; try (specialize (Hh eq_refl); discriminate));
    (vm_compute in E1; inversion E1; subst r; clear E1; vm_compute in E2; inversion E2; subst e; clear E2).

  Definition fill' (d : Z) (fm : fill_mode) := if (d =? gt) || (d =? gh) then flip_fill fm else fm.

  Lemma request_shape : forall ty fm op d r e,
    request_ok ty op -> (d = gn \/ d = gt) ->
    get_doid (negb (is_cplx dt)) ty fm op = Some r -> get_effective_doid d r = Some e ->
    (r <? 4) = is_gen ty /\ (e <? 4) = is_gen ty /\ (e <? 12) = (is_gen ty || one_tri ty) /\
    0 <= r < 20 /\ 0 <= e < 20 /\ fill_of e (fill' d fm) /\ supported dt e = negb (declined dt ty op d) /\
    (declined dt ty op d = true -> e = 1 \/ e = 13 \/ e = 17) /\
    (one_tri ty = false -> transposed e = if d =? gt then is_none op else negb (is_none op)) /\
    (one_tri ty = true -> transposed e = false).
  Proof. allreq. all: cbn -[Z.le Z.lt]; clear; repeat split; try lia; try discriminate; auto. Qed.

  Lemma request_sem : forall ty fm op d r e,
    request_ok ty op -> (d = gn \/ d = gt) ->
    get_doid (negb (is_cplx dt)) ty fm op = Some r -> get_effective_doid d r = Some e ->
    declined dt ty op d = false ->
    forall dg A, (ty = mt_hermitian -> dg = dg_non_unit -> real_diag O A) ->
    forall i j, ksem O e (fill' d fm) dg A i j = op_sem O op (described O ty fm dg (stored_as d A)) i j.
  Proof.
    allreq. all: cbn; intros D; try discriminate; clear D; intros dg A Hrd i j.
    all: cbn -[with_diag]; unfold real_diag in Hrd; try reflexivity.
    all: try (specialize (Hrd eq_refl)); unfold mT, mC, mSL, mSU, mHL, mHU, mL, mU, with_diag.
    all: destruct (Z.lt_total i j) as [H|[H|H]];
      [rewrite ?(proj2 (Z.leb_le i j)) by lia; rewrite ?(proj2 (Z.leb_gt j i)) by lia;
       rewrite ?(proj2 (Z.eqb_neq i j)) by lia; rewrite ?(proj2 (Z.eqb_neq j i)) by lia
      |subst j; rewrite ?Z.leb_refl, ?Z.eqb_refl
      |rewrite ?(proj2 (Z.leb_le j i)) by lia; rewrite ?(proj2 (Z.leb_gt i j)) by lia;
       rewrite ?(proj2 (Z.eqb_neq i j)) by lia; rewrite ?(proj2 (Z.eqb_neq j i)) by lia];
      rewrite ?(l_cj_cj L), ?(cj_0 O L); try reflexivity;
      destruct dg; rewrite ?(cj_0 O L), ?(cj_1 O L); try reflexivity; try (rewrite Hrd by reflexivity; reflexivity).
  Qed.

  Lemma arch_ok : forall e, 0 <= e < 20 -> (supported dt e = true -> 0 < arch_score sup dt e) /\
    (e = 1 \/ e = 13 \/ e = 17 -> arch_score sup dt e = 0).
  Proof.
    intros e He. unfold supported, arch_score. dcases He;
      (split; [|intros [H|[H|H]]; try discriminate; vm_compute; destruct (is_cplx dt); reflexivity]).
    all: cbn; rewrite ?andb_true_r, ?andb_false_r; cbn; destruct (is_cplx dt); cbn; intros H; try discriminate; unfold get_supported; cbn; rewrite Hsup;
      destruct (sup 3), (sup 2); cbn; lia.
  Qed.

  Lemma doid_score_ok : forall e, 0 <= e < 20 -> exists s, doid_score e = Some s /\ 0 < s.
  Proof. intros e He. dcases He; vm_compute; eexists; split; eauto; reflexivity. Qed.

  Lemma best_ok : forall (mats : list (option (cmat T))) d r e,
    Forall (fun o => exists c, o = Some c /\ c_doid c = d) mats -> mats <> [] ->
    get_effective_doid d r = Some e -> 0 <= e < 20 ->
    (arch_score sup dt e = 0 -> get_best_matrix sup dt mats r = Some None) /\
    (0 < arch_score sup dt e -> exists i c, get_best_matrix sup dt mats r = Some (Some (i, c)) /\ rd mats i = Some (Some c)).
  Proof.
    intros mats d r e HF Hne Ee He. destruct (doid_score_ok e He) as (s & Es & Hs).
    assert (Hz : 0 < zlen mats) by (destruct mats; [contradiction|unfold zlen; cbn [length]; lia]).
    assert (Hrd : forall i, 0 <= i < zlen mats -> exists c, rd mats i = Some (Some c) /\ c_doid c = d).
    { intros i Hi. pose proof (rd_nthZ _ None mats i Hi) as R. rewrite Forall_forall in HF.
      destruct (HF (nthZ None mats i)) as (c & Ec & Ed).
      { unfold rd in R. destruct (i <? 0); [discriminate|]. eapply nth_error_In; eauto. }
      exists c. rewrite R, Ec. auto. }
    unfold get_best_matrix. split; intros Ha.
    - match goal with |- context [for_ ?lo ?hi ?f ?s0] => destruct (for_inv _ (fun (_ : Z) (st : Z * option (Z * cmat T)) => st = (0, None)) lo hi f s0) as (st & E & ->) end;
        [lia|reflexivity| |rewrite E; reflexivity].
      intros i st Hi ->. destruct (Hrd i ltac:(lia)) as (c & -> & <-). rewrite Ee. rewrite Es.
      replace (s =? 0) with false by lia. rewrite Ha. cbn. eauto.
    - match goal with |- context [for_ ?lo ?hi ?f ?s0] => destruct (for_inv _ (fun i st => 0 <= fst st /\ match snd st with None => i = 0 /\ fst st = 0 | Some (k, c) => rd mats k = Some (Some c) end) lo hi f s0) as (st & E & R1 & R2) end.
      + lia.
      + cbn; lia.
      + intros i [ms best] Hi (H1 & H2). cbn [fst snd] in *. destruct (Hrd i ltac:(lia)) as (c & Ec & Ed). rewrite Ec, Ed. rewrite Ee. rewrite Es.
        replace (s =? 0) with false by lia. replace (arch_score sup dt e =? 0) with false by lia.
        assert (Hm : 0 <= matrix_score c) by (unfold matrix_score; destruct (c_opt c); lia).
        destruct (Z.ltb_spec ms (s + matrix_score c + arch_score sup dt e)).
        * eexists; split; [reflexivity|]. cbn. split; [lia|exact Ec].
        * eexists; split; [reflexivity|]. cbn. split; [lia|]. destruct best as [[k c']|]; auto. lia.
      + rewrite E. destruct st as [ms [[k c]|]]; cbn in *; [eauto 6|]. lia.
  Qed.



  Lemma upper_count_ok : forall (c : cmat T) idiag iurow i, arrays_ok c ->
    tri_ready (c_m c) (c_n c) (c_nnz c) (c_b c) (c_ptr c) (c_ind c) idiag iurow -> 0 <= i < c_m c ->
    upper_count c i = zn (c_ptr c) (i + 1) - zn iurow i.
  Proof.
    intros c idiag iurow i (W & _ & Lv & Hb) [_ _ _ _ Sp] Hi. destruct (Sp i Hi) as (S1 & S2 & S3).
    unfold upper_count, centries.
    rewrite (sumz_ext Zops) with (g := fun j => sumz Zops (zn (c_ptr c) i - c_b c) (zn (c_ptr c) (i + 1) - c_b c) (fun k => if zn (c_ind c) k =? j + c_b c then 1 else 0))
      by (intros; eapply zlen_ents; eauto).
    rewrite (sumz_swap Zops Zlaws).
    rewrite (sumz_split Zops Zlaws _ (zn iurow i - c_b c)) by lia.
    rewrite (sumz_zero Zops Zlaws (zn (c_ptr c) i - c_b c)).
    - rewrite (sumz_ext Zops) with (g := fun _ => 1).
      + cbn [oadd Zops o0]. 
        assert (HH : forall lo hi, lo <= hi -> sumz Zops lo hi (fun _ => 1) = hi - lo).
        { clear. intros lo hi H. replace hi with (lo + (hi - lo)) by lia. generalize (hi - lo) (Zle_minus_le_0 _ _ H). clear. intros q Hq.
          pattern q. apply natlike_ind; [|clear|exact Hq].
          - rewrite (sumz_nil Zops) by lia. cbn. lia.
          - intros x Hx IH. replace (lo + Z.succ x) with (lo + x + 1) by lia. rewrite (sumz_last Zops Zlaws) by lia. rewrite IH. cbn. lia. }
        rewrite HH by lia. lia.
      + intros k Hk. assert (IR : in_row (c_ptr c) (c_b c) i k) by (unfold in_row; lia).
        destruct (S3 k IR) as (_ & _ & A3). pose proof (in_row_range _ _ _ _ (wf_ptr _ _ _ _ _ _ W) i k Hi IR) as Hr.
        pose proof (wf_ind _ _ _ _ _ _ W k Hr) as Hc.
        rewrite (sumz_delta Zops Zlaws _ _ (zn (c_ind c) k - c_b c)).
        * replace (_ =? _) with true by lia. reflexivity.
        * lia.
        * intros q Hq Hne. replace (_ =? _) with false by lia. reflexivity.
    - intros k Hk. assert (IR : in_row (c_ptr c) (c_b c) i k) by (unfold in_row; lia).
      destruct (S3 k IR) as (A1 & A2 & A3). apply (sumz_zero Zops Zlaws). intros j Hj.
      replace (_ =? _) with false by lia. reflexivity.
  Qed.

  Lemma upper_count_same : forall (u c : cmat T) i, same_entries (o0 O) u c -> 0 <= i < c_m u -> upper_count c i = upper_count u i.
  Proof.
    intros u c i (Em & En & _ & EE) Hi. unfold upper_count. rewrite En. apply (sumz_ext Zops). intros j Hj.
    rewrite EE by auto. replace (i =? j) with false by lia. cbn [andb]. destruct (centries u i j); reflexivity.
  Qed.

  Definition op_real (op : operation) : operation :=
    if is_cplx dt then op else match op with op_conjugate_transpose => op_transpose | o => o end.

  Lemma op_real_sem : forall op M i j, op_sem O (op_real op) M i j = op_sem O op M i j.
  Proof.
    intros op M i j. unfold op_real. destruct (is_cplx dt) eqn:E; auto. destruct op; auto. cbn. unfold mC, mT. rewrite Hreal; auto.
  Qed.

  Lemma mv_handle_flag : forall h u d op alpha beta x y,
    hnd_ok (o0 O) h u -> mv_pre O dt h u d op ->
    let rows := match op with op_none => H_m h | _ => H_n h end in
    let cols := match op with op_none => H_n h | _ => H_m h end in
    zlen x = cols -> zlen y = rows ->
    exists st yr h' u',
      mv O srt fz ft sup dt choice nthreads team op (Some alpha) (Some h) (Some d) (Some x) (Some beta) (Some y)
        = Some (st, yr, Some h') /\
      hnd_ok (o0 O) h' u' /\ same_data u u' /\
      H_m h' = H_m h /\ H_n h' = H_n h /\ H_nnz h' = H_nnz h /\ H_hints h' = H_hints h /\
      (diag_flag_ok h u -> diag_flag_ok h' u') /\
      (st = success /\ (exists y', yr = Some y' /\
         mv_spec O rows cols alpha beta (op_sem O op (described O (d_type d) (d_fill d) (d_diag d) (hnd_mat O u))) x y y') \/
       st = invalid_kid /\ yr = None /\ (exists k, choice k = None) \/
       st = not_implemented /\ yr = None /\ declined dt (d_type d) op (c_doid u) = true).
  Proof.
    intros h u d op alpha beta x y HOK [Pb Pop Psq Pc Ph Pg Ps Pw Pu] rows cols Lx Ly.
    pose proof HOK as (UM & rest & EM & HO & HF).
    pose proof UM as (AOK & EN & EMD & EDV & EDIM). pose proof AOK as (W & U & Lv & Hb).
    assert (SQ : one_tri (d_type d) = true -> c_m u = c_n u /\ H_m h = c_m u /\ H_n h = c_m u).
    { clear - Psq EDIM. intros Eo. specialize (Psq ltac:(destruct (d_type d); try discriminate; auto)). lia. }
    assert (DIM : forall tr, (one_tri (d_type d) = false -> tr = if c_doid u =? gt then is_none (op_real op) else negb (is_none (op_real op))) ->
       (one_tri (d_type d) = true -> tr = false) ->
       (if tr then c_n u else c_m u) = rows /\ (if tr then c_m u else c_n u) = cols).
    { clear - SQ EDIM. intros tr T1 T2. unfold rows, cols. destruct (one_tri (d_type d)).
      - rewrite T2 by auto. destruct (SQ eq_refl) as (E1 & E2 & E3). destruct op; split; congruence.
      - rewrite T1 by auto. unfold op_real, is_none. destruct EDIM as [(-> & E1 & E2)|(-> & E1 & E2)]; cbn; destruct op; try (destruct (is_cplx dt)); cbn; auto. }
    unfold mv. rewrite EM. replace (c_b u =? d_base d) with true by lia. rewrite Pop. cbn [negb].
    replace ((match d_type d with mt_symmetric | mt_hermitian => true | _ => false end) && negb (H_m h =? H_n h)) with false
      by (destruct (d_type d); auto; cbn; rewrite Psq by auto; rewrite Z.eqb_refl; reflexivity).
    replace (negb (is_cplx dt) && (match d_type d with mt_hermitian => true | _ => false end)) with false
      by (destruct (d_type d); rewrite ?andb_false_r; auto; rewrite Pc by auto; reflexivity).
    fold (op_real op). 
    assert (Hrow : (match op_real op with op_none => H_m h | _ => H_n h end) = rows).
    { unfold rows, op_real. destruct (is_cplx dt), op; reflexivity. }
    assert (Hm : 0 <= H_m h /\ 0 <= H_n h /\ 0 <= H_nnz h) by (destruct W; lia).
    change (match d_type d with mt_general => true | _ => false end) with (is_gen (d_type d)).
    destruct ((H_m h =? 0) || (H_n h =? 0) || ((H_nnz h =? 0) && is_gen (d_type d))) eqn:Eq.
    { rewrite Hrow. destruct (vscale_ok O L beta rows y) as (y' & E & Ly' & R); [unfold rows; destruct op; lia|auto|].
      rewrite E. eexists _, _, h, u. split; [reflexivity|]. split; [exact HOK|]. split; [apply same_data_refl|].
      do 4 (split; [reflexivity|]). split; [auto|]. left. split; [reflexivity|]. exists y'. split; [reflexivity|]. split; [exact Ly'|].
      intros i Hi. rewrite R by auto.
      match goal with |- _ = oadd O (omul O alpha ?s) _ => assert (Hs0 : s = o0 O) end.
      { destruct (Z.eq_dec (H_m h) 0) as [e|]; [|destruct (Z.eq_dec (H_n h) 0) as [e|]].
        - clear - Hi e. unfold cols, rows in *. destruct op; try lia; apply (sumz_nil O); lia.
        - clear - Hi e. unfold cols, rows in *. destruct op; try lia; apply (sumz_nil O); lia.
        - assert (Hz : c_nnz u = 0 /\ is_gen (d_type d) = true) by lia. destruct Hz as [Hz Hg]. destruct (d_type d); try discriminate.
          apply (sumz_zero O L). intros j Hj.
          assert (HA : forall a b, csr_mat O (c_b u) (c_ptr u) (c_ind u) (c_val u) a b = o0 O).
          { intros a b. unfold csr_mat, ents. rewrite flat_map_nil; [reflexivity|]. intros k Hk.
            destruct (zn (c_ind u) k =? b + c_b u); auto. unfold rd. destruct (k <? 0); auto. replace (c_val u) with (@nil T); [destruct (Z.to_nat k); reflexivity|].
            destruct (c_val u); auto. unfold zlen in Lv; cbn in Lv; lia. }
          assert (HB : forall a b, hnd_mat O u a b = o0 O) by (intros; unfold hnd_mat, stored_as; destruct (c_doid u =? gt); unfold mT; apply HA).
          cbn [described]. replace (op_sem O op (hnd_mat O u) i j) with (o0 O); [ring|].
          destruct op; cbn; unfold mC, mT; rewrite HB; auto. symmetry; apply (cj_0 O L). }
      rewrite Hs0. ring. }
    assert (RQ : request_ok (d_type d) (op_real op)).
    { unfold request_ok, op_real. split; auto. destruct op; try discriminate; destruct (is_cplx dt); auto. }
    assert (Hd : c_doid u = gn \/ c_doid u = gt) by tauto.
    destruct (get_doid_ok O L (negb (is_cplx dt)) (d_type d) (d_fill d) (op_real op) (fun _ _ => o0 O)) as (r & Er & Hr & _).
    { intros H; apply Hreal. destruct (is_cplx dt); auto; discriminate. }
    { intros _ i. apply (cj_0 O L). }
    { destruct RQ as [RQ _]. clear - RQ. tauto. }
    rewrite Er.
    destruct (eff_general (c_doid u) r) as (e & Ee & He); [unfold gn, gt in Hd; lia|auto|].
    destruct (request_shape _ _ _ _ _ _ RQ Hd Er Ee) as (Q1 & Q2 & Q3 & _ & _ & Qf & Qs & Qd & Qt & Qt').
    destruct (arch_ok e He) as [AR1 AR2].
    assert (HFd : Forall (fun o => exists c, o = Some c /\ c_doid c = c_doid u) (Some u :: rest)).
    { constructor; [eauto|]. eapply Forall_impl; [|exact HF]. cbn. intros o (c & -> & _ & _ & _ & (_ & _ & Ed & _) & _). eauto. }
    destruct (best_ok (Some u :: rest) (c_doid u) r e HFd ltac:(discriminate) Ee He) as [BN BS].
    destruct (declined dt (d_type d) (op_real op) (c_doid u)) eqn:ED.
    { rewrite BN by (apply AR2; auto). eexists _, _, h, u. split; [reflexivity|]. split; [exact HOK|]. split; [apply same_data_refl|].
      do 4 (split; [reflexivity|]). split; [auto|]. right. right. split; [reflexivity|]. split; [reflexivity|].
      unfold declined, op_real in *. destruct (is_cplx dt); auto. }
    cbn [negb] in Qs. destruct BS as (ib & cb & EB & RB); [auto|]. rewrite EB.
    (* the matrix used: consistent, same entries, optimised unless general *)
    match goal with |- context [if ?bb then ?Y else Some (success, h, Some (ib, cb))] => assert (MID : exists h' u' i c, (if bb then Y else Some (success, h, Some (ib, cb))) = Some (success, h', Some (i, c)) /\
       hnd_ok (o0 O) h' u' /\ same_data u u' /\ H_m h' = H_m h /\ H_n h' = H_n h /\ H_nnz h' = H_nnz h /\ H_hints h' = H_hints h /\ (diag_flag_ok h u -> diag_flag_ok h' u') /\
       arrays_ok c /\ c_m c = c_m u /\ c_n c = c_n u /\ c_doid c = c_doid u /\ c_mdiag c = dg_non_unit /\
       (is_gen (d_type d) = false -> opt_ready c /\ same_entries (o0 O) u c) /\
       (forall a b, csr_mat O (c_b c) (c_ptr c) (c_ind c) (c_val c) a b = csr_mat O (c_b u) (c_ptr u) (c_ind u) (c_val u) a b)) end.
    { assert (CB : cb = u \/ c_opt cb = true /\ opt_ready cb /\ arrays_ok cb /\ same_entries (o0 O) u cb /\ c_mdiag cb = dg_non_unit).
      { assert (HI : In (Some cb) (Some u :: rest)).
        { unfold rd in RB. destruct (ib <? 0); [discriminate|]. eapply nth_error_In; eauto. }
        destruct HI as [HI|HI]; [left; congruence|right]. rewrite Forall_forall in HF. destruct (HF _ HI) as (c & Ec & X). inversion Ec; subst c. clear - X. tauto. }
      destruct (negb (is_gen (d_type d)) && negb (c_opt cb) && negb (c_doid cb =? r)) eqn:Eopt.
      - destruct (optimize_ok O srt fz ft Hsrt Hfz Hft h u HOK) as (h' & i & c & u' & E & HOK' & SD & D1 & D2 & D3 & D4 & Rc & Oc & OR & AR & SE & MD & _ & HH).
        { apply Ps. destruct (d_type d); discriminate. }
        rewrite E, Rc. exists h', u', i, c. split; [reflexivity|]. pose proof SE as (E1 & E2 & E3 & _). ands; auto; [|apply same_entries_mat; auto].
        pose proof SD as (S1 & S2 & S3 & S4 & S5 & S6 & S7 & S8). unfold diag_flag_ok. rewrite S1, S2, S5, S6, S7. intros FL. destruct HH as [-> |HH]; [exact FL|intros _; clear - HH; tauto].
      - exists h, u, ib, cb. split; [reflexivity|]. split; [exact HOK|]. split; [apply same_data_refl|]. do 4 (split; [reflexivity|]). split; [auto|].
        destruct CB as [->|(Oc & OR & AR & SE & MD)].
        + ands; auto. intros Hg. destruct (c_opt u) eqn:Eo.
          * split; auto. pose proof (HO eq_refl) as OR. apply entries_full with (fz := fz) (ft := ft); auto.
            -- destruct OR as (? & ? & _ & _ & _ & F); exact F.
            -- apply same_data_refl.
          * exfalso. rewrite Hg in Eopt. cbn in Eopt. rewrite Hg in Q1. clear - Hd Q1 Eopt. unfold gn, gt in Hd. lia.
        + pose proof SE as (E1 & E2 & E3 & _). ands; auto. apply same_entries_mat; auto. }
    destruct MID as (h' & u' & i & c & -> & HOK' & SD & D1 & D2 & D3 & D4 & FLG & AC & Cm & Cn & Cd & CMD & CR & CM).
    rewrite Cd.
    (* kernel run on c *)
    assert (RUN : forall dd, d_base dd = c_b c ->
       (if c_doid u =? r then True else d_type dd = d_type d /\ d_fill dd = fill' (c_doid u) (d_fill d) /\ d_diag dd = d_diag d) ->
       forall kid, let R := csrmv_run O dt choice nthreads team false e kid dd alpha (c_m c) (c_n c) (c_nnz c) (c_val c) (c_ind c) (c_ptr c)
           (onull (c_idiag c)) (onull (c_iurow c)) x beta y in
         R = Some (invalid_kid, None) /\ (exists k, choice k = None) \/
         exists y', R = Some (success, Some y') /\
           mv_spec O rows cols alpha beta (op_sem O op (described O (d_type d) (d_fill d) (d_diag d) (hnd_mat O u))) x y y').
    { intros dd Hbd Hdd kid R.
      assert (Hex : c_doid u = r -> is_gen (d_type d) = true /\ e = 0).
      { intros Hx. assert (e = 0) as -> by (rewrite <- Hx in Ee; destruct Hd as [Hd|Hd]; rewrite Hd in Ee; vm_compute in Ee; congruence).
        split; auto. }
      destruct (csrmv_run_ok O L dt choice nthreads team Hteam Hreal e kid dd alpha (c_m c) (c_n c) (c_nnz c) (c_val c) (c_ind c) (c_ptr c)
         (onull (c_idiag c)) (onull (c_iurow c)) x beta y) as [X|(y' & X & S)].
      - exact Qs.
      - destruct (Z.eqb_spec (c_doid u) r) as [Hx|Hx]; [destruct (Hex Hx) as [_ ->]; exact I|]. destruct Hdd as (_ & -> & _). exact Qf.
      - unfold prepared. rewrite Q2. rewrite Hbd. destruct (is_gen (d_type d)) eqn:Eg; [apply AC|].
        destruct (Z.eqb_spec (c_doid u) r) as [Hx|Hx]; [destruct (Hex Hx); congruence|]. destruct Hdd as (-> & _ & ->).
        destruct (CR eq_refl) as [(idg & iur & -> & -> & TR & FD) SE]. cbn [onull].
        split; [exact TR|]. split; [intros Hg; rewrite Hg in Eg; discriminate|].
        rewrite Q3. cbn [orb]. destruct (one_tri (d_type d)) eqn:Eo.
        + split; [|exact FD]. rewrite Cm, Cn. apply SQ; reflexivity.
        + unfold diag_usable. destruct (d_diag d) eqn:Edg; auto; right; (split; [|exact FD]); rewrite Cm, Cn; apply Pw; try discriminate; destruct (d_type d); auto; discriminate.
      - apply AC.
      - unfold avx2ptr_fine. intros Edt E16 Edu k Hk. subst e.
        destruct (is_gen (d_type d)) eqn:Eg; [cbn in Q2; discriminate|].
        destruct (Z.eqb_spec (c_doid u) r) as [Hx|Hx]; [destruct (Hex Hx); congruence|]. destruct Hdd as (_ & Hfill & Hdg). rewrite Hdg in Edu.
        destruct (CR eq_refl) as [(idg & iur & _ & -> & TR & _) SE]. cbn [onull].
        rewrite <- (upper_count_ok c idg iur) by auto. rewrite Cm in Hk. rewrite (upper_count_same u c) by auto. apply Pu; auto.
        + destruct (d_type d); cbn in Q3; try discriminate; auto.
        + assert (Eo : one_tri (d_type d) = false) by (destruct (d_type d); cbn in Q3; try discriminate; auto).
          specialize (Qt Eo). cbn in Qf. destruct Hd as [Hd|Hd]; rewrite Hd in Qf, Qt; cbn in Qf, Qt; [left|right]; (split; [exact Hd|]).
          * split; [exact Qf|]. unfold op_real, is_none in Qt. destruct op; auto; destruct (is_cplx dt); cbn in Qt; discriminate.
          * split; [destruct (d_fill d); auto; discriminate|]. intros ->. unfold op_real in Qt. destruct (is_cplx dt); cbn in Qt; discriminate.
      - rewrite Lx, Cm, Cn. symmetry. apply (DIM (transposed e)); auto.
      - rewrite Ly, Cm, Cn. symmetry. apply (DIM (transposed e)); auto.
      - left. exact X.
      - right. exists y'. split; [exact X|].
        destruct (DIM (transposed e) Qt Qt') as [DR DC]. rewrite Cm, Cn, DR, DC in S.
        refine (mv_spec_ext O _ _ _ _ _ _ _ _ _ _ S). intros a b _ _.
        rewrite <- op_real_sem. unfold hnd_mat.
        rewrite <- (request_sem _ _ _ _ _ _ RQ Hd Er Ee ED).
        + rewrite Hbd. 
          transitivity (ksem O e (fill' (c_doid u) (d_fill d)) (d_diag d) (csr_mat O (c_b c) (c_ptr c) (c_ind c) (c_val c)) a b).
          { destruct (Z.eqb_spec (c_doid u) r) as [Hx|Hx]; [destruct (Hex Hx) as [_ ->]; reflexivity|]. destruct Hdd as (_ & -> & ->). reflexivity. }
          revert CM. generalize (csr_mat O (c_b c) (c_ptr c) (c_ind c) (c_val c)) (csr_mat O (c_b u) (c_ptr u) (c_ind u) (c_val u)).
          intros A A' HA. clear - HA He. dcases He; unfold ksem, described, descr_sem, mT, mC, mSL, mSU, mHL, mHU, mL, mU, with_diag; destruct (fill' (c_doid u) (d_fill d)); rewrite ?HA; reflexivity.
        + intros Hh Hdg k. specialize (Ph Hh Hdg k). unfold hnd_mat, stored_as in Ph. destruct (_ =? gt); exact Ph. }
    cbn [option_map].
    destruct (Z.eqb_spec (c_doid u) r) as [Hx|Hx].
    - assert (e = 0) as -> by (rewrite <- Hx in Ee; destruct Hd as [Hd|Hd]; rewrite Hd in Ee; vm_compute in Ee; congruence).
      rewrite CMD. cbn [Z.ltb Z.compare] in Q2. assert (Edg : d_diag d = dg_non_unit) by (apply Pg; destruct (d_type d); auto; discriminate).
      rewrite Edg in RUN. rewrite !Edg. cbn [diag_eqb negb andb].
      match goal with |- context [csrmv_run _ _ _ _ _ _ _ ?kid ?dd] => destruct (RUN dd eq_refl I kid) as [(X & K)|(y' & X & S)] end; change 0 with gn in X; rewrite X.
      + eexists _, _, h', u'. split; [reflexivity|]. do 7 (split; [assumption|]). right; left. split; [reflexivity|]. split; [reflexivity|exact K].
      + eexists _, _, h', u'. split; [reflexivity|]. do 7 (split; [assumption|]). left. split; [reflexivity|]. exists y'. split; [reflexivity|exact S].
    - rewrite Ee. cbn [andb].
      match goal with |- context [csrmv_run _ _ _ _ _ _ _ ?kid ?dd] => destruct (RUN dd eq_refl ltac:(cbn; auto) kid) as [(X & K)|(y' & X & S)] end; rewrite X.
      + eexists _, _, h', u'. split; [reflexivity|]. do 7 (split; [assumption|]). right; left. split; [reflexivity|]. split; [reflexivity|exact K].
      + eexists _, _, h', u'. split; [reflexivity|]. do 7 (split; [assumption|]). left. split; [reflexivity|]. exists y'. split; [reflexivity|exact S].
  Qed.
  Lemma mv_handle_ok : forall h u d op alpha beta x y,
    hnd_ok (o0 O) h u -> mv_pre O dt h u d op ->
    let rows := match op with op_none => H_m h | _ => H_n h end in
    let cols := match op with op_none => H_n h | _ => H_m h end in
    zlen x = cols -> zlen y = rows ->
    exists st yr h' u',
      mv O srt fz ft sup dt choice nthreads team op (Some alpha) (Some h) (Some d) (Some x) (Some beta) (Some y)
        = Some (st, yr, Some h') /\
      hnd_ok (o0 O) h' u' /\ same_data u u' /\
      H_m h' = H_m h /\ H_n h' = H_n h /\ H_nnz h' = H_nnz h /\ H_hints h' = H_hints h /\
      (st = success /\ (exists y', yr = Some y' /\
         mv_spec O rows cols alpha beta (op_sem O op (described O (d_type d) (d_fill d) (d_diag d) (hnd_mat O u))) x y y') \/
       st = invalid_kid /\ yr = None /\ (exists k, choice k = None) \/
       st = not_implemented /\ yr = None /\ declined dt (d_type d) op (c_doid u) = true).
  Proof.
    intros h u d op alpha beta x y HOK PRE rows cols Lx Ly.
    destruct (mv_handle_flag h u d op alpha beta x y HOK PRE Lx Ly) as (st & yr & h' & u' & E & E1 & E2 & E3 & E4 & E5 & E6 & _ & R).
    exists st, yr, h', u'. auto 10.
  Qed.
End P.
