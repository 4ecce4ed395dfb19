(** aoclsparse_?mv on handles with hinted copies: the whole call. *)
From Coq Require Import ZArith List Bool Lia ZifyBool Ring Permutation.
From Verif Require Import Base BaseFacts Algebra Vec DoidModel DoidSpec DoidProof Csr CsrFacts CheckModel CheckSpec CheckProof
  CountSort Csr2CscProof MvModel MvSpec MvFacts MvProof MvPubProof SortModel SortSpec SortProof CsrmvModel CsrmvProof HandleModel HandleSpec TrsvSpec HandleFacts OptProof MvHandleProof
  ExpandSpec CsrmmSpec CsrmmProof HintMvSpec HintMvProof.
Import ListNotations.
Open Scope Z_scope.

Lemma eff_same : forall d r e, 0 <= d < 20 -> 0 <= r < 20 -> get_effective_doid d r = Some e -> is_one_tri r = true -> e < 4 -> e <> 1 -> d = r.
Proof. intros d r e Hd Hr E Ht. revert E. dcases Hr; try discriminate Ht; clear Ht; dcases Hd; vm_compute; intros E; injection E as <-; intros; congruence. Qed.
Lemma In_rd : forall A (l : list A) a, In a l -> exists k, rd l k = Some a.
Proof. intros A l a I. destruct (In_nth_error _ _ I) as (k & E). exists (Z.of_nat k). unfold rd. replace (Z.of_nat k <? 0) with false by lia. rewrite Nat2Z.id. exact E. Qed.

Section P.
  Context {T : Type} (O : ops T) (L : laws O).
  Variable srt : (Z -> Z -> bool) -> list Z -> list Z.
  Variables (fz : Z -> list Z) (ft : Z -> list T).
  Hypothesis Hsrt : sort_contract srt.
  Hypothesis Hfz : forall z, 0 <= z -> zlen (fz z) = z.
  Hypothesis Hft : forall z, 0 <= z -> zlen (ft z) = z.
  Variable sup : Z -> bool.
  Hypothesis Hsup : sup 1 = true.
  Variables (dt : dtype) (choice : Z -> option Z) (nthreads : Z) (team : list Z).
  Hypothesis Hteam : nthreads <= 1 \/ Permutation team (zrange 0 nthreads).
  Hypothesis Hreal : is_cplx dt = false -> forall a, ocj O a = a.
  Let rth := l_ring L.
  Add Ring Tring10 : rth.


  Lemma exact_gn : forall d, d = gn \/ d = gt \/ d = gh -> get_effective_doid d d = Some gn.
  Proof. intros d [-> |[-> | ->]]; reflexivity. Qed.

  Lemma empty_sortable : forall u : cmat T, arrays_ok u -> c_m u = 0 \/ c_n u = 0 -> sortable u.
  Proof.
    intros u (W & _ & _ & Hb) H. right. intros i k k' Hi IK. exfalso. destruct H as [H|H]; [lia|].
    pose proof (in_row_range _ _ _ _ (wf_ptr _ _ _ _ _ _ W) i k Hi IK) as R. pose proof (wf_ind _ _ _ _ _ _ W k R). lia.
  Qed.

  Lemma hint_mv : forall h u d op alpha beta x y,
    hint_hnd O h u -> hint_pre O dt h u d op ->
    let rows := match op with op_none => H_m h | _ => H_n h end in
    let cols := match op with op_none => H_n h | _ => H_m h end in
    zlen x = cols -> zlen y = rows ->
    exists st yr h' u',
      mv O srt fz ft sup dt choice nthreads team op (Some alpha) (Some h) (Some d) (Some x) (Some beta) (Some y)
        = Some (st, yr, Some h') /\
      hint_hnd O h' u' /\ same_data u u' /\
      H_m h' = H_m h /\ H_n h' = H_n h /\ H_nnz h' = H_nnz h /\ H_hints h' = H_hints h /\
      (st = success /\ (exists y', yr = Some y' /\
         mv_spec O rows cols alpha beta (op_sem O op (described O (d_type d) (d_fill d) (d_diag d) (hnd_mat O u))) x y y') \/
       st = invalid_kid /\ yr = None /\ (exists k, choice k = None) \/
       st = not_implemented /\ yr = None /\ declined dt (d_type d) op (c_doid u) = true).
  Proof.
    intros h u d op alpha beta x y HH PRE rows cols Lx Ly.
    pose proof PRE as [Pb Pop Psq Pc Ph Pg Ps Pw Pu].
    pose proof HH as (UM & rest & EM & HO & HF).
    pose proof UM as (AOK & EN & EMD & EDV & EDIM). pose proof AOK as (W & U & Lv & Hb).
    assert (Hm : 0 <= H_m h /\ 0 <= H_n h /\ 0 <= H_nnz h) by (clear - W EN EDIM; destruct W; lia).
    assert (Hrow : (match op_real dt op with op_none => H_m h | _ => H_n h end) = rows).
    { unfold rows, op_real. destruct (is_cplx dt), op; reflexivity. }
    assert (Hcol : (match op_real dt op with op_none => H_n h | _ => H_m h end) = cols).
    { unfold cols, op_real. destruct (is_cplx dt), op; reflexivity. }
    destruct ((H_m h =? 0) || (H_n h =? 0) || ((H_nnz h =? 0) && is_gen (d_type d))) eqn:Eq.
    { (* nothing to multiply: as on the handle without copies *)
      assert (H0 : hnd_ok (o0 O) (set_mats h [Some u]) u).
      { split; [exact UM|]. exists []. split; [reflexivity|]. split; [exact HO|constructor]. }
      assert (PRE0 : mv_pre O dt (set_mats h [Some u]) u d op).
      { constructor; auto. intros Ng. apply empty_sortable; auto. clear - Eq Ng EDIM W. destruct (d_type d); try congruence; cbn in Eq; rewrite andb_false_r, orb_false_r in Eq; lia. }
      destruct (mv_handle_ok O L srt fz ft Hsrt Hfz Hft sup Hsup dt choice nthreads team Hteam Hreal _ u d op alpha beta x y H0 PRE0 Lx Ly)
        as (st & yr & h' & u' & E & _ & _ & _ & _ & _ & _ & R).
      unfold mv in E |- *. rewrite EM. cbn [set_mats H_mats H_m H_n H_nnz] in E.
      change (match d_type d with mt_general => true | _ => false end) with (is_gen (d_type d)) in *.
      rewrite Eq in E. rewrite Eq.
      replace (c_b u =? d_base d) with true in E |- * by (clear - Pb; lia). rewrite Pop in E |- *. cbn [negb] in E |- *.
      destruct (_ && negb (H_m h =? H_n h)) eqn:E1.
      { exfalso. destruct (d_type d); try discriminate E1; rewrite Psq in E1 by auto; rewrite Z.eqb_refl in E1; discriminate. }
      destruct (negb (is_cplx dt) && _) eqn:E2.
      { exfalso. destruct (d_type d); rewrite ?andb_false_r in E2; try discriminate E2. rewrite Pc in E2 by auto. discriminate. }
      destruct (vscale O y beta _) as [y1|]; [|discriminate E]. injection E as <- <- _.
      exists success, (Some y1), h, u. split; [reflexivity|]. split; [exact HH|]. split; [apply same_data_refl|]. do 4 (split; [reflexivity|]). exact R. }
    unfold mv. rewrite EM. replace (c_b u =? d_base d) with true by (clear - Pb; lia). rewrite Pop. cbn [negb].
    replace ((match d_type d with mt_symmetric | mt_hermitian => true | _ => false end) && negb (H_m h =? H_n h)) with false
      by (destruct (d_type d); auto; cbn; rewrite Psq by auto; rewrite Z.eqb_refl; reflexivity).
    replace (negb (is_cplx dt) && (match d_type d with mt_hermitian => true | _ => false end)) with false
      by (destruct (d_type d); rewrite ?andb_false_r; auto; rewrite Pc by auto; reflexivity).
    fold (op_real dt op).
    change (match d_type d with mt_general => true | _ => false end) with (is_gen (d_type d)). rewrite Eq.
    assert (RQ : request_ok dt (d_type d) (op_real dt op)).
    { unfold request_ok, op_real. split; auto. destruct op; try discriminate; destruct (is_cplx dt); auto. }
    assert (Vr : valid_op (op_real dt op) = true) by (unfold op_real; destruct op; try discriminate Pop; destruct (is_cplx dt); reflexivity).
    assert (Nr : is_cplx dt = false -> op_real dt op <> op_conjugate_transpose) by (intros Ec; unfold op_real; rewrite Ec; destruct op; discriminate).
    assert (Hd : c_doid u = gn \/ c_doid u = gt) by (clear - EDIM; tauto).
    assert (Hdr : 0 <= c_doid u < 20) by (clear - Hd; unfold gn, gt in Hd; lia).
    set (D := with_diag O (d_diag d) (hnd_mat O u)).
    assert (RD : d_type d = mt_hermitian -> real_diag O D).
    { intros Hh. apply (real_with_diag O L). auto. }
    destruct (get_doid_ok O L (negb (is_cplx dt)) (d_type d) (d_fill d) (op_real dt op) D) as (r & Er & Hr & RS).
    { intros H; apply Hreal. destruct (is_cplx dt); auto; discriminate. }
    { exact RD. }
    { destruct RQ as [RQ _]. clear - RQ. tauto. }
    rewrite Er.
    destruct (eff_general (c_doid u) r) as (e & Ee & He); [clear - Hd; unfold gn, gt in Hd; lia|auto|].
    destruct (request_shape O dt Hreal _ _ _ _ _ _ RQ Hd Er Ee) as (Q1 & Q2 & Q3 & _ & _ & Qf & Qs & Qd & Qt & Qt').
    assert (HFd : Forall (fun o : option (cmat T) => exists c, o = Some c /\ 0 <= c_doid c < 20) (Some u :: rest)).
    { constructor; [exists u; split; [reflexivity|exact Hdr]|]. eapply Forall_impl; [|exact HF]. cbn. intros o (c & -> & [X|X]); exists c; (split; [reflexivity|]).
      - destruct X as (_ & _ & _ & (_ & _ & -> & _) & _). exact Hdr.
      - destruct X as (X & _). apply X. }
    destruct (best_any O fz ft Hfz Hft sup Hsup dt choice nthreads Hreal (Some u :: rest) r Hr HFd) as (b & EB & BP). rewrite EB.
    destruct b as [[ib cb]|].
    2:{ (* no usable matrix *)
      exists not_implemented, None, h, u. split; [reflexivity|]. split; [exact HH|]. split; [apply same_data_refl|]. do 4 (split; [reflexivity|]).
      right. right. split; [reflexivity|]. split; [reflexivity|].
      specialize (BP 0 u e eq_refl Ee (proj2 He)).
      destruct (declined dt (d_type d) (op_real dt op) (c_doid u)) eqn:ED.
      - unfold declined, op_real in *. destruct (is_cplx dt); auto.
      - exfalso. cbn [negb] in Qs. destruct (arch_ok O fz ft Hfz Hft sup Hsup dt choice nthreads Hreal e He) as [AR1 _]. specialize (AR1 Qs). rewrite BP in AR1. discriminate AR1. }
    destruct BP as (RB & eb & Eb & Heb & Ab & XB). pose proof (proj2 (arch_pos O fz ft Hfz Hft sup Hsup dt choice nthreads Hreal eb Heb) Ab) as Sb.
    assert (HI : In (Some cb) (Some u :: rest)) by (unfold rd in RB; destruct (ib <? 0); [discriminate|]; eapply nth_error_In; eauto).
    assert (CB : cb = u \/ opt_copy O u cb \/ hint_copy O (H_m h) (H_n h) u cb).
    { destruct HI as [HI|HI]; [left; congruence|right]. rewrite Forall_forall in HF. destruct (HF _ HI) as (c & Ec & X). injection Ec as <-. exact X. }
    destruct (is_gen (d_type d)) eqn:Eg.
    { (* general requests *)
      assert (Ety : d_type d = mt_general) by (destruct (d_type d); auto; discriminate).
      assert (Edg : d_diag d = dg_non_unit) by auto.
      rewrite Ety in Er. cbn [negb andb].
      assert (GC : csr_wf (c_m cb) (c_n cb) (c_nnz cb) (c_b cb) (c_ptr cb) (c_ind cb) /\ zlen (c_val cb) = c_nnz cb /\
        (c_doid cb = gn \/ c_doid cb = gt \/ c_doid cb = gh) /\ c_mdiag cb = dg_non_unit /\
        c_m cb = (if swaps (c_doid cb) then H_n h else H_m h) /\ c_n cb = (if swaps (c_doid cb) then H_m h else H_n h) /\
        (forall i j, 0 <= i < c_m cb -> 0 <= j < c_n cb -> csr_mat O (c_b cb) (c_ptr cb) (c_ind cb) (c_val cb) i j = doid_sem O (c_doid cb) (hnd_mat O u) i j)).
      { assert (US : forall c : cmat T, arrays_ok c -> c_m c = c_m u -> c_n c = c_n u -> c_doid c = c_doid u -> c_mdiag c = dg_non_unit ->
          (forall a b, csr_mat O (c_b c) (c_ptr c) (c_ind c) (c_val c) a b = csr_mat O (c_b u) (c_ptr u) (c_ind u) (c_val u) a b) ->
          csr_wf (c_m c) (c_n c) (c_nnz c) (c_b c) (c_ptr c) (c_ind c) /\ zlen (c_val c) = c_nnz c /\
          (c_doid c = gn \/ c_doid c = gt \/ c_doid c = gh) /\ c_mdiag c = dg_non_unit /\
          c_m c = (if swaps (c_doid c) then H_n h else H_m h) /\ c_n c = (if swaps (c_doid c) then H_m h else H_n h) /\
          (forall i j, 0 <= i < c_m c -> 0 <= j < c_n c -> csr_mat O (c_b c) (c_ptr c) (c_ind c) (c_val c) i j = doid_sem O (c_doid c) (hnd_mat O u) i j)).
        { intros c AC E1 E2 E3 E4 E5. split; [apply AC|]. split; [apply AC|]. rewrite E3. split; [clear - Hd; tauto|]. split; [exact E4|].
          rewrite E1, E2. unfold hnd_mat, stored_as. destruct EDIM as [(Ed & D1 & D2)|(Ed & D1 & D2)]; rewrite Ed; cbn [swaps Z.eqb gn gt gh Pos.eqb orb];
            (split; [exact D1|]); (split; [exact D2|]); intros i j _ _; rewrite E5; reflexivity. }
        destruct CB as [-> |[X|X]].
        - apply US; auto.
        - destruct X as (_ & _ & AR & SE & MD & _). pose proof SE as (E1 & E2 & E3 & _). apply US; auto. apply same_entries_mat; auto.
        - destruct X as ([C0 C1 C2 C3 C4 C5 C6 _] & _ & X1 & X2 & _ & X3).
          assert (NT : is_one_tri (c_doid cb) = false).
          { destruct (is_one_tri (c_doid cb)) eqn:Et; auto. exfalso.
            assert (c_doid cb = r) by (apply (eff_tri _ r eb); auto; [apply Heb|]; intros ->; unfold supported in Sb; cbn in Sb; discriminate).
            clear - Et H Q1. unfold is_one_tri in Et. lia. }
          rewrite NT in C6. rewrite C1. split; [exact C4|]. split; [exact C5|].
          split; [|split; [auto|split; [exact C2|split; [exact C3|exact C6]]]].
          unfold copied in X1. rewrite NT in X1. cbn [orb] in X1. clear - X1 X2. unfold gn, gt, gh, gc in *. destruct (c_doid u =? 2); lia. }
      destruct GC as (G1 & G2 & G3 & G4 & G5 & G6 & G7).
      assert (EX : (if c_doid cb =? r then Some gn else get_effective_doid (c_doid cb) r) = Some eb).
      { destruct (Z.eqb_spec (c_doid cb) r) as [Hx|]; [|exact Eb]. rewrite <- Hx in Eb. rewrite (exact_gn _ G3) in Eb. exact Eb. }
      rewrite EX. rewrite Edg, G4. cbn [diag_eqb negb]. rewrite andb_false_r.
      match goal with |- context [csrmv_run _ _ _ _ _ _ _ ?kid ?dd] =>
        destruct (run_gen O L fz ft Hfz Hft sup Hsup dt choice nthreads team Hteam Hreal (H_m h) (H_n h) (hnd_mat O u) cb (d_fill d) (op_real dt op) r eb G1 G2 G3 G5 G6 G7 Vr Nr Er Eb Sb dd kid alpha beta x y
          (onull (c_idiag cb)) (onull (c_iurow cb))) as [(X & K)|(y' & X & S)] end.
      - destruct (c_doid cb =? r); reflexivity.
      - rewrite Hcol. exact Lx.
      - rewrite Hrow. exact Ly.
      - rewrite X. exists invalid_kid, None, h, u. split; [reflexivity|]. split; [exact HH|]. split; [apply same_data_refl|]. do 4 (split; [reflexivity|]). right. left. auto.
      - rewrite X. exists success, (Some y'), h, u. split; [reflexivity|]. split; [exact HH|]. split; [apply same_data_refl|]. do 4 (split; [reflexivity|]). left. split; [reflexivity|].
        exists y'. split; [reflexivity|]. rewrite Hrow, Hcol in S. refine (mv_spec_ext O _ _ _ _ _ _ _ _ _ _ S). intros a b _ _.
        rewrite Ety. cbn [described]. apply (op_real_sem O dt Hreal). }
    (* other requests: an exact copy, or an optimised form of the user's matrix *)
    assert (NG : forall M, described O (d_type d) (d_fill d) (d_diag d) M = descr_sem O (d_type d) (d_fill d) (with_diag O (d_diag d) M)) by (intros M; destruct (d_type d); auto; discriminate).
    cbn [negb andb].
    assert (SC : sortable u \/ c_doid cb = r).
    { destruct Ps as [Ps'|(c0 & I0 & R0)]; [destruct (d_type d); discriminate|left; exact Ps'|right].
      unfold request_id in R0. fold (op_real dt op) in R0. rewrite Er in R0. injection R0 as R0.
      assert (T0 : is_one_tri r = true /\ c0 <> u).
      { rewrite EM in I0. assert (Nu : c0 <> u) by (intros ->; clear - Hd R0 Q1; unfold gn, gt in Hd; lia). split; [|exact Nu]. destruct I0 as [I0|I0]; [congruence|].
        rewrite Forall_forall in HF. destruct (HF _ I0) as (c & Ec & [X|X]); injection Ec as <-.
        - exfalso. destruct X as (_ & _ & _ & (_ & _ & Y & _) & _). clear - Y Hd R0 Q1. unfold gn, gt in Hd. lia.
        - destruct X as (_ & _ & X1 & X2 & _). unfold copied in X1. rewrite <- R0 in X1, X2. destruct (is_one_tri r) eqn:Et; auto. exfalso. clear - X1 Q1. unfold gn, gt, gh, gc in *. destruct (c_doid u =? 2); lia. }
      destruct T0 as [T0 _].
      destruct (In_rd _ _ _ I0) as (k0 & K0). rewrite EM in K0.
      assert (E4 : eb < 4).
      { apply XB. exists k0, c0. split; [exact K0|]. rewrite <- R0. clear - T0. assert (0 <= r < 20) as Hr by (unfold is_one_tri in T0; lia). dcases Hr; try discriminate T0; reflexivity. }
      apply (eff_same _ r eb); auto; [|intros ->; unfold supported in Sb; cbn in Sb; discriminate].
      clear - HI HFd. rewrite Forall_forall in HFd. destruct (HFd _ HI) as (c & Ec & X). injection Ec as <-. exact X. }
    assert (OPT : sortable u -> forall hx ux ix cx, hint_hnd O hx ux -> same_data u ux -> H_m hx = H_m h -> H_n hx = H_n h -> H_nnz hx = H_nnz h -> H_hints hx = H_hints h ->
      opt_ready cx -> arrays_ok cx -> same_entries (o0 O) u cx ->
      exists st yr h' u',
       (let exact := c_doid cx =? r in
        let* eff := (if exact then Some gn else get_effective_doid (c_doid cx) r) in
        let d_t := if exact then mkDescr mt_general fm_lower dg_non_unit (c_b cx)
                   else mkDescr (d_type d) (if (c_doid cx =? gt) || (c_doid cx =? gh) then flip_fill (d_fill d) else d_fill d) (d_diag d) (c_b cx) in
        let* (st, c, hy) :=
          (if exact && negb (diag_eqb (d_diag d) (c_mdiag cx)) then
             let* (st, c') := set_mat_diag O (H_m hx) (d_diag d) cx in
             Some (st, c', set_mats hx (upd (H_mats hx) ix (Some c')))
           else Some (success, cx, hx)) in
        match st with
        | success =>
            let* (st, y) := csrmv_run O dt choice nthreads team false eff (get_kid (H_hints h) r) d_t alpha
                              (c_m c) (c_n c) (c_nnz c) (c_val c) (c_ind c) (c_ptr c)
                              (onull (c_idiag c)) (onull (c_iurow c)) x beta y in
            Some (st, y, Some hy)
        | _ => Some (st, None, Some hy)
        end) = Some (st, yr, Some h') /\
      hint_hnd O h' u' /\ same_data u u' /\
      H_m h' = H_m h /\ H_n h' = H_n h /\ H_nnz h' = H_nnz h /\ H_hints h' = H_hints h /\
      (st = success /\ (exists y', yr = Some y' /\
         mv_spec O rows cols alpha beta (op_sem O op (described O (d_type d) (d_fill d) (d_diag d) (hnd_mat O u))) x y y') \/
       st = invalid_kid /\ yr = None /\ (exists k, choice k = None) \/
       st = not_implemented /\ yr = None /\ declined dt (d_type d) op (c_doid u) = true)).
    { intros SRT hx ux ix cx HX SD D1 D2 D3 D4 OR AR SE.
      destruct (run_tri O L fz ft Hfz Hft sup Hsup dt choice nthreads team Hteam Hreal h u cx d op r e alpha beta x y UM (mk_mv_pre O dt h u d op Pb Pop Psq Pc Ph Pg (fun _ => SRT) Pw Pu) Eg Lx Ly Er Ee AR OR SE) as [Nx RUN].
      pose proof SE as (_ & _ & Ed & _). rewrite Ed. cbv zeta. replace (c_doid u =? r) with false by (clear - Nx; lia). rewrite Ee. cbn [andb].
      fold (fill' (c_doid u) (d_fill d)).
      destruct (RUN (get_kid (H_hints h) r)) as [(X & K)|[(X & K)|(y' & X & S)]]; rewrite X.
      - eexists _, _, hx, ux. split; [reflexivity|]. do 6 (split; [assumption|]). right; left. auto.
      - eexists _, _, hx, ux. split; [reflexivity|]. do 6 (split; [assumption|]). right; right. auto.
      - eexists _, _, hx, ux. split; [reflexivity|]. do 6 (split; [assumption|]). left. split; [reflexivity|]. exists y'. auto. }
    destruct (negb (c_opt cb) && negb (c_doid cb =? r)) eqn:Eopt.
    { destruct (hint_optimize O srt fz ft Hsrt Hfz Hft sup Hsup dt choice nthreads team Hteam Hreal h u HH) as (h' & i & c & u' & E & HH' & SD & D1 & D2 & D3 & D4 & Rc & Oc & OR & AR & SE & MD).
      { destruct SC as [SC|SC]; [exact SC|]. exfalso. clear - Eopt SC. lia. }
      rewrite E, Rc. apply (OPT ltac:(destruct SC as [SC|SC]; [exact SC|exfalso; clear - Eopt SC; lia]) h' u' i c); auto. }
    assert (OC : cb = u /\ c_opt u = true \/ opt_copy O u cb \/ hint_copy O (H_m h) (H_n h) u cb /\ c_doid cb = r).
    { destruct CB as [-> |[X|X]]; [left|right; left; exact X|right; right].
      - split; [reflexivity|]. destruct (c_opt u); auto. exfalso. cbn in Eopt. clear - Eopt Hd Q1. unfold gn, gt in Hd. lia.
      - split; [exact X|]. destruct X as (_ & X & _). rewrite X in Eopt. cbn in Eopt. clear - Eopt. lia. }
    assert (NX : c_doid cb = c_doid u -> sortable u).
    { intros Y. destruct SC as [SC|SC]; [exact SC|]. exfalso. clear - Y SC Hd Q1. unfold gn, gt in Hd. lia. }
    destruct OC as [(-> & Ou)|[X|(X & Ex)]].
    - apply (OPT (NX eq_refl) h u ib u); auto; [apply same_data_refl|]. specialize (HO Ou). apply entries_full with (fz := fz) (ft := ft); auto; [destruct HO as (? & ? & _ & _ & _ & F); exact F|apply same_data_refl].
    - destruct X as (_ & OR & AR & SE & MD & _). pose proof SE as (_ & _ & Y & _). apply (OPT (NX Y) h u ib cb); auto. apply same_data_refl.
    - (* the copy made for this very request *)
      clear OPT. pose proof (cs_base _ _ _ _ _ (proj1 X)) as B0. destruct X as (CS & X0 & X1 & X2 & X3 & X4).
      assert (Ht : is_one_tri (c_doid cb) = true).
      { unfold copied in X1. destruct (is_one_tri (c_doid cb)) eqn:Et; auto. exfalso. clear - X1 Et Ex Q1. unfold is_one_tri in Et. unfold gn, gt, gh, gc in *. destruct (c_doid u =? 2); lia. }
      specialize (X3 Ht). rewrite Ex, Z.eqb_refl. cbn [andb].
      assert (Hi : 0 < ib).
      { unfold rd in RB. destruct (Z.ltb_spec ib 0); [discriminate|]. destruct (Z.eq_dec ib 0) as [->|]; [|clear - H n; lia]. cbn in RB. injection RB as ->.
        exfalso. clear - Hd Ht. unfold is_one_tri, gn, gt in *. lia. }
      assert (FIN : exists c' hy, (if negb (diag_eqb (d_diag d) (c_mdiag cb)) then
             let* (st, c') := set_mat_diag O (H_m h) (d_diag d) cb in
             Some (st, c', set_mats h (upd (H_mats h) ib (Some c')))
           else Some (success, cb, h)) = Some (success, c', hy) /\ hint_hnd O hy u /\ H_m hy = H_m h /\ H_n hy = H_n h /\ H_nnz hy = H_nnz h /\ H_hints hy = H_hints h /\
           copy_state O (H_m h) (H_m h) (hnd_mat O u) c' /\ c_doid c' = r /\ c_mdiag c' = d_diag d).
      { assert (CS' : copy_state O (H_m h) (H_m h) (hnd_mat O u) cb) by (rewrite <- X3 in CS; exact CS).
        destruct (diag_eqb (d_diag d) (c_mdiag cb)) eqn:Edq; cbn [negb].
        - exists cb, h. split; [reflexivity|]. split; [exact HH|]. do 4 (split; [reflexivity|]). split; [exact CS'|]. split; [exact Ex|].
          destruct (d_diag d), (c_mdiag cb); auto; discriminate.
        - destruct (set_mat_diag_ok O L (H_m h) (hnd_mat O u) cb (d_diag d) CS' Ht) as (c' & E & CS2 & Md & Dc). rewrite E.
          exists c', (set_mats h (upd (H_mats h) ib (Some c'))). split; [reflexivity|].
          split; [|do 4 (split; [reflexivity|]); split; [exact CS2|]; split; [congruence|exact Md]].
          split; [exact UM|]. exists (upd rest (ib - 1) (Some c')). cbn [set_mats H_mats H_m H_n]. rewrite EM, upd_cons by exact Hi. split; [reflexivity|]. split; [exact HO|].
          apply Forall_upd; [exact HF|]. exists c'. split; [reflexivity|]. right.
          assert (Oc : c_opt c' = false).
          { revert E. unfold set_mat_diag. destruct (c_dval cb), (c_idiag cb); try discriminate. destruct (for_ _ _ _ _); [|discriminate]. intros E. injection E as <-. exact X0. }
          unfold hint_copy. rewrite Dc. split; [rewrite <- X3; exact CS2|]. split; [exact Oc|]. split; [exact X1|]. split; [exact X2|]. split; [auto|]. rewrite Ht. discriminate. }
      destruct FIN as (c' & hy & -> & HHy & Y1 & Y2 & Y3 & Y4 & CS2 & Dc & Md).
      destruct CS2 as [C0 C1 C2 C3 C4 C5 C6 _]. rewrite Dc in *. rewrite Ex in Ht. rewrite Ht, Md in C6. fold D in C6.
      assert (SW : swaps r = false) by (clear - Ht; unfold is_one_tri, swaps, gt, gh in *; lia). rewrite SW in C2, C3.
      assert (RC : rows = H_m h /\ cols = H_m h) by (unfold rows, cols; destruct op; split; congruence). destruct RC as [R1 R2].
      match goal with |- context [csrmv_run _ _ _ _ _ _ _ ?kid ?dd] =>
        destruct (csrmv_run_ok O L dt choice nthreads team Hteam Hreal 0 kid dd alpha (c_m c') (c_n c') (c_nnz c') (c_val c') (c_ind c') (c_ptr c')
          (onull (c_idiag c')) (onull (c_iurow c')) x beta y) as [(X & K)|(y' & X & S)] end.
      + unfold supported. cbn. rewrite orb_true_r. reflexivity.
      + exact I.
      + unfold prepared. cbn [Z.ltb Z.compare d_base]. rewrite B0. exact C4.
      + exact C5.
      + intros _ E16. discriminate E16.
      + cbn [transposed Z.eqb orb]. rewrite Lx, C3. exact R2.
      + cbn [transposed Z.eqb orb]. rewrite Ly, C2. exact R1.
      + change 0 with gn in X. rewrite X. eexists _, _, hy, u. split; [reflexivity|]. split; [exact HHy|]. split; [apply same_data_refl|]. do 4 (split; [assumption|]). right; left. auto.
      + change 0 with gn in X. rewrite X. eexists _, _, hy, u. split; [reflexivity|]. split; [exact HHy|]. split; [apply same_data_refl|]. do 4 (split; [assumption|]). left. split; [reflexivity|].
        exists y'. split; [reflexivity|]. cbn [transposed Z.eqb orb d_base d_fill d_diag] in S. rewrite B0, C2, C3 in S. rewrite R1, R2.
        refine (mv_spec_ext O _ _ _ _ _ _ _ _ _ _ S). intros a b Ha Hb'. cbn [ksem]. rewrite C6 by (clear - Ha Hb' C2 C3 R1 R2; lia). rewrite RS, NG. apply (op_real_sem O dt Hreal).
  Qed.
End P.
