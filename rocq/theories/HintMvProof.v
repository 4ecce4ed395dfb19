(** aoclsparse_?mv on handles with hinted copies. *)
From Coq Require Import ZArith List Bool Lia ZifyBool Ring Permutation.
From Verif Require Import Base BaseFacts Algebra Vec DoidModel DoidSpec DoidProof Csr CsrFacts CheckModel CheckSpec CheckProof
  CountSort Csr2CscProof MvModel MvSpec MvFacts MvProof MvPubProof SortModel SortSpec SortProof CsrmvModel CsrmvProof HandleModel HandleSpec TrsvSpec HandleFacts OptProof MvHandleProof
  ExpandSpec CsrmmSpec CsrmmProof HintMvSpec.
Import ListNotations.
Open Scope Z_scope.

Lemma first_opt_rd : forall T (l : list (option (cmat T))) k i c, first_opt l k = Some (i, c) ->
  k <= i /\ rd l (i - k) = Some (Some c) /\ c_opt c = true.
Proof.
  induction l as [|e l IH]; intros k i c E; cbn [first_opt] in E; [discriminate|].
  assert (R : first_opt l (k + 1) = Some (i, c) -> k <= i /\ rd (e :: l) (i - k) = Some (Some c) /\ c_opt c = true).
  { intros E'. apply IH in E'. destruct E' as (H1 & H2 & H3). split; [lia|]. split; auto. rewrite <- H2. unfold rd.
    replace (i - k <? 0) with false by lia. replace (i - (k + 1) <? 0) with false by lia.
    replace (Z.to_nat (i - k)) with (S (Z.to_nat (i - (k + 1)))) by lia. reflexivity. }
  destruct e as [c0|]; auto. destruct (c_opt c0) eqn:Eo; auto. injection E as <- <-. split; [lia|]. rewrite Z.sub_diag. auto.
Qed.
Lemma first_opt_nil : forall T (l : list (option (cmat T))) k, first_opt l k = None -> forall c, In (Some c) l -> c_opt c = false.
Proof.
  induction l as [|e l IH]; intros k E c I; [destruct I|]. cbn [first_opt] in E. destruct I as [->|I].
  - destruct (c_opt c); [discriminate|reflexivity].
  - destruct e as [c0|]; [destruct (c_opt c0); [discriminate|]|]; eauto.
Qed.

Lemma eff_range : forall d r, 0 <= d < 20 -> 0 <= r < 20 -> exists e, get_effective_doid d r = Some e /\ 0 <= e <= 20.
Proof. intros d r Hd Hr. dcases Hd; dcases Hr; vm_compute; eexists; (split; [reflexivity|split; discriminate]). Qed.
(** a one-triangle copy serves only the very request it was made for *)
Lemma eff_tri : forall d r e, 0 <= d < 20 -> is_one_tri d = true -> 0 <= r < 20 -> get_effective_doid d r = Some e -> e < 20 -> e <> 1 -> d = r.
Proof. intros d r e Hd Ht Hr. dcases Hd; try discriminate Ht; clear Ht; dcases Hr; vm_compute; intros E; injection E as <-; intros; congruence. Qed.

Section P.
  Context {T : Type} (O : ops T) (L : laws O).
  Variable srt : (Z -> Z -> bool) -> list Z -> list Z.
  Variables (fz : Z -> list Z) (ft : Z -> list T).
  Hypothesis Hsrt : sort_contract srt.
  Hypothesis Hfz : forall z, 0 <= z -> zlen (fz z) = z.
  Hypothesis Hft : forall z, 0 <= z -> zlen (ft z) = z.
  Variable sup : Z -> bool.
  Hypothesis Hsup : sup 1 = true.
  Variables (dt : dtype) (choice : Z -> option Z) (nthreads : Z) (team : list Z).
  Hypothesis Hteam : nthreads <= 1 \/ Permutation team (zrange 0 nthreads).
  Hypothesis Hreal : is_cplx dt = false -> forall a, ocj O a = a.
  Let rth := l_ring L.
  Add Ring Tring9 : rth.

  Lemma arch_pos : forall e, 0 <= e < 20 -> 0 <= arch_score sup dt e <= 3 /\ (arch_score sup dt e <> 0 -> supported dt e = true).
  Proof.
    intros e He. unfold supported, arch_score. dcases He; cbn; unfold get_supported; cbn; rewrite ?Hsup;
      destruct (is_cplx dt), (sup 3), (sup 2); cbn; rewrite ?Hsup; cbn; (split; [lia|]); intros; congruence.
  Qed.

  Lemma score_bound : forall e s, 0 <= e < 20 -> doid_score e = Some s -> (e = 0 -> s = 100) /\ (4 <= e -> s <= 40).
  Proof. intros e s He. dcases He; vm_compute; intros E; injection E as <-; split; intros H; try discriminate; try reflexivity; exfalso; now apply H. Qed.

  Lemma best_any : forall (mats : list (option (cmat T))) r, 0 <= r < 20 ->
    Forall (fun o => exists c, o = Some c /\ 0 <= c_doid c < 20) mats ->
    exists b, get_best_matrix sup dt mats r = Some b /\
      match b with
      | Some (i, c) => rd mats i = Some (Some c) /\ exists e, get_effective_doid (c_doid c) r = Some e /\ 0 <= e < 20 /\ arch_score sup dt e <> 0 /\
          ((exists k c', rd mats k = Some (Some c') /\ get_effective_doid (c_doid c') r = Some 0) -> e < 4)
      | None => forall k c e, rd mats k = Some (Some c) -> get_effective_doid (c_doid c) r = Some e -> e < 20 -> arch_score sup dt e = 0
      end.
  Proof.
    intros mats r Hr HF.
    assert (Hrd : forall i, 0 <= i < zlen mats -> exists c, rd mats i = Some (Some c) /\ 0 <= c_doid c < 20).
    { intros i Hi. pose proof (rd_nthZ _ None mats i Hi) as R. rewrite Forall_forall in HF.
      destruct (HF (nthZ None mats i)) as (c & Ec & Ed).
      { unfold rd in R. destruct (i <? 0); [discriminate|]. eapply nth_error_In; eauto. }
      exists c. rewrite R, Ec. auto. }
    unfold get_best_matrix.
    match goal with |- context [for_ ?lo ?hi ?f ?s0] => destruct (for_inv _ (fun i st => 0 <= fst st /\ (forall k c', 0 <= k < i -> rd mats k = Some (Some c') -> get_effective_doid (c_doid c') r = Some 0 -> 100 <= fst st) /\
      match snd st with
      | Some (k, c) => rd mats k = Some (Some c) /\ exists e, get_effective_doid (c_doid c) r = Some e /\ 0 <= e < 20 /\ arch_score sup dt e <> 0 /\ (e < 4 \/ fst st <= 60)
      | None => fst st = 0 /\ forall k c e, 0 <= k < i -> rd mats k = Some (Some c) -> get_effective_doid (c_doid c) r = Some e -> e < 20 -> arch_score sup dt e = 0
      end) lo hi f s0) as (st & E & R1 & RX & R2) end.
    - apply zlen_nonneg.
    - cbn. split; [lia|]. split; [intros; lia|]. split; [reflexivity|]. lia.
    - intros i [ms best] Hi (H1 & HX & H2). cbn [fst snd] in *. destruct (Hrd i ltac:(lia)) as (c & Ec & Ed). rewrite Ec.
      destruct (eff_range (c_doid c) r Ed Hr) as (e & Ee & He). rewrite Ee.
      assert (SK : (e < 20 -> arch_score sup dt e = 0) -> 0 <= ms /\ (forall k c', 0 <= k < i + 1 -> rd mats k = Some (Some c') -> get_effective_doid (c_doid c') r = Some 0 -> 100 <= ms) /\
        match best with
        | Some (k, c) => rd mats k = Some (Some c) /\ exists e, get_effective_doid (c_doid c) r = Some e /\ 0 <= e < 20 /\ arch_score sup dt e <> 0 /\ (e < 4 \/ ms <= 60)
        | None => ms = 0 /\ forall k c e, 0 <= k < i + 1 -> rd mats k = Some (Some c) -> get_effective_doid (c_doid c) r = Some e -> e < 20 -> arch_score sup dt e = 0
        end).
      { intros Z0. split; [exact H1|]. split.
        { intros k c' Hk Rk Ek. destruct (Z.eq_dec k i) as [->|]; [|apply (HX k c'); auto; lia].
          rewrite Ec in Rk. injection Rk as <-. rewrite Ee in Ek. injection Ek as ->. exfalso. specialize (Z0 ltac:(lia)).
          destruct (arch_ok O fz ft Hfz Hft sup Hsup dt choice nthreads Hreal 0 ltac:(lia)) as [A0 _]. specialize (A0 ltac:(unfold supported; cbn; apply orb_true_r)). lia. }
        destruct best as [[k c']|]; [exact H2|]. destruct H2 as [H2 H3]. split; [exact H2|].
        intros k c' e' Hk Rk Ek He'. destruct (Z.eq_dec k i) as [->|]; [|eapply H3; eauto; lia].
        rewrite Ec in Rk. injection Rk as <-. rewrite Ee in Ek. injection Ek as <-. auto. }
      destruct (Z.eq_dec e 20) as [->|Ne].
      { cbn. eexists. split; [reflexivity|]. cbn. apply SK. lia. }
      destruct (doid_score_ok e ltac:(lia)) as (s & Es & Hs). rewrite Es. replace (s =? 0) with false by lia.
      destruct (arch_pos e ltac:(lia)) as [A1 A2]. destruct (score_bound e s ltac:(lia) Es) as [B1 B2].
      destruct (Z.eqb_spec (arch_score sup dt e) 0) as [Z0|Z0].
      { eexists. split; [reflexivity|]. cbn. auto. }
      assert (Hm : 0 <= matrix_score c) by (unfold matrix_score; destruct (c_opt c); lia). assert (Hm' : matrix_score c <= 10) by (unfold matrix_score; destruct (c_opt c); lia).
      destruct (Z.ltb_spec ms (s + matrix_score c + arch_score sup dt e)).
      + eexists; split; [reflexivity|]. cbn [fst snd]. split; [lia|]. split.
        { intros k c' Hk Rk Ek. destruct (Z.eq_dec k i) as [->|]; [|specialize (HX k c' ltac:(lia) Rk Ek); lia].
          rewrite Ec in Rk. injection Rk as <-. rewrite Ee in Ek. injection Ek as ->. specialize (B1 eq_refl). lia. }
        split; [exact Ec|]. exists e. split; [exact Ee|]. split; [lia|]. split; [exact Z0|]. lia.
      + eexists; split; [reflexivity|]. cbn [fst snd]. split; [lia|]. split.
        { intros k c' Hk Rk Ek. destruct (Z.eq_dec k i) as [->|]; [|apply (HX k c'); auto; lia].
          rewrite Ec in Rk. injection Rk as <-. rewrite Ee in Ek. injection Ek as ->. specialize (B1 eq_refl). lia. }
        destruct best as [[k c']|]; [exact H2|]. lia.
    - rewrite E. destruct st as [ms b]. eexists. split; [reflexivity|]. cbn [fst snd] in *. destruct b as [[k c]|].
      { destruct R2 as (R2 & e & Re & R3 & R4 & R5). split; [exact R2|]. exists e. split; [exact Re|]. split; [exact R3|]. split; [exact R4|].
        intros (k' & c' & Rk & Ek). specialize (RX k' c'). destruct R5 as [R5|R5]; [exact R5|]. exfalso.
        assert (0 <= k' < zlen mats) by (unfold rd in Rk; destruct (Z.ltb_spec k' 0); [discriminate|]; assert (X : (Z.to_nat k' < length mats)%nat) by (apply nth_error_Some; congruence); unfold zlen; lia).
        specialize (RX H Rk Ek). lia. }
      destruct R2 as [_ R2]. intros k c e Rk. apply (R2 k c e); auto.
      unfold rd in Rk. destruct (Z.ltb_spec k 0); [discriminate|]. apply nth_error_Some_lt in Rk || (assert (X : (Z.to_nat k < length mats)%nat) by (apply nth_error_Some; congruence); unfold zlen; lia).
  Qed.

  Lemma slow_lift : forall h rest (u : cmat T) h' i, optimize_slow O srt fz ft (set_mats h [Some u]) 0 u = Some (success, h', Some i) ->
    exists c' j l, rd (H_mats h') i = Some (Some c') /\
      optimize_slow O srt fz ft (set_mats h (Some u :: rest)) 0 u = Some (success, set_mats h' l, Some j) /\
      (H_mats h' = [Some c'] /\ l = Some c' :: rest /\ j = 0 \/
       H_mats h' = [Some u; Some c'] /\ l = Some u :: rest ++ [Some c'] /\ j = 1 + zlen rest).
  Proof.
    intros h rest u h' i. unfold optimize_slow. cbn [set_mats H_nnz].
    destruct (mat_check _ _ _ _ _ _ _ _ _) as [(st, [(so, fd)|])|]; try discriminate; destruct st; try discriminate.
    destruct (check_sort_diag _ _ _ _ _) as [((st, sorted), fulldiag)|]; try discriminate. destruct st; try discriminate.
    destruct (sorted && fulldiag).
    - destruct (csr_csc_indices _ _ _ _ _ _) as [(idg, iur)|]; [|discriminate].
      intros E. injection E as <- <-. eexists _, _, _. split; [reflexivity|]. split; [reflexivity|]. left. split; [reflexivity|]. split; reflexivity.
    - cbn [set_class H_nnz]. destruct (build_copy _ _ _ _ _ _ _ _) as [(st, [(c, f)|])|]; try discriminate.
      intros E. injection E as <- <-. eexists _, _, _. split; [reflexivity|]. split; [reflexivity|].
      right. split; [reflexivity|]. split; [reflexivity|]. cbn [set_class set_mats H_mats]. now rewrite zlen_cons.
  Qed.

  Lemma hint_copy_data : forall m n (u u' c : cmat T), same_data u u' -> hint_copy O m n u c -> hint_copy O m n u' c.
  Proof.
    intros m n u u' c (S1 & S2 & S3 & S4 & S5 & S6 & S7 & S8) H. unfold hint_copy, hnd_mat in *. rewrite S4, S5, S6, S7, S8. exact H.
  Qed.
  Lemma rd_last : forall (l : list (option (cmat T))) a, rd (l ++ [a]) (zlen l) = Some a.
  Proof.
    intros l a. unfold rd, zlen. replace (Z.of_nat (length l) <? 0) with false by lia. rewrite Nat2Z.id, nth_error_app2 by lia.
    rewrite Nat.sub_diag. reflexivity.
  Qed.

  Lemma hint_optimize : forall h u, hint_hnd O h u -> sortable u ->
    exists h' i c u', csr_csc_optimize O srt fz ft h = Some (success, h', Some i) /\
      hint_hnd O h' u' /\ same_data u u' /\
      H_m h' = H_m h /\ H_n h' = H_n h /\ H_nnz h' = H_nnz h /\ H_hints h' = H_hints h /\
      rd (H_mats h') i = Some (Some c) /\ c_opt c = true /\ opt_ready c /\ arrays_ok c /\ same_entries (o0 O) u c /\ c_mdiag c = dg_non_unit.
  Proof.
    intros h u HH Hs. pose proof HH as (UM & rest & EM & HO & HF). pose proof UM as (AOK & EN & EMD & EDV & EDIM).
    unfold csr_csc_optimize. rewrite EM.
    destruct (first_opt (Some u :: rest) 0) as [[i c]|] eqn:EF.
    - destruct (first_opt_rd _ _ _ _ _ EF) as (_ & R & Oc). rewrite Z.sub_0_r in R.
      exists h, i, c, u. rewrite EM. split; [reflexivity|]. split; [exact HH|]. split; [apply same_data_refl|]. do 4 (split; [reflexivity|]).
      split; [exact R|]. split; [exact Oc|].
      assert (HI : In (Some c) (Some u :: rest)) by (unfold rd in R; destruct (i <? 0); [discriminate|]; eapply nth_error_In; eauto).
      destruct HI as [HI|HI].
      + injection HI as <-. specialize (HO Oc). split; [exact HO|]. split; [exact AOK|]. split; [|exact EMD].
        apply entries_full with (fz := fz) (ft := ft); auto; [destruct HO as (? & ? & _ & _ & _ & F); exact F|apply same_data_refl].
      + rewrite Forall_forall in HF. destruct (HF _ HI) as (c' & Ec & X). injection Ec as <-. destruct X as [X|X].
        * unfold opt_copy in X. tauto.
        * unfold hint_copy in X. destruct X as (_ & X & _). congruence.
    - pose proof (first_opt_nil _ _ _ EF) as NO. cbn [first_csr].
      assert (Hb : negb ((c_b u =? 0) || (c_b u =? 1)) = false) by (destruct AOK as (_ & _ & _ & [->| ->]); reflexivity).
      rewrite Hb. set (h0 := set_mats h [Some u]).
      assert (H0 : hnd_ok (o0 O) h0 u).
      { split; [exact UM|]. exists []. split; [reflexivity|]. split; [exact HO|constructor]. }
      destruct (optimize_ok O srt fz ft Hsrt Hfz Hft h0 u H0 Hs) as (h' & i & c & u' & E & HOK' & SD & D1 & D2 & D3 & D4 & Rc & Oc & OR & AR & SE & MD & DV & _).
      unfold csr_csc_optimize in E. change (H_mats h0) with [Some u] in E. cbn [first_opt first_csr] in E.
      rewrite (NO u (or_introl eq_refl)), Hb in E.
      destruct (slow_lift h rest u h' i E) as (c' & j & l & Rc' & E' & FORM).
      replace (set_mats h (Some u :: rest)) with h in E' by (destruct h; cbn in *; subst; reflexivity).
      rewrite Rc in Rc'. injection Rc' as <-.
      assert (HR : Forall (fun e => exists c, e = Some c /\ (opt_copy O u' c \/ hint_copy O (H_m h') (H_n h') u' c)) rest).
      { rewrite Forall_forall in HF |- *. intros e I. destruct (HF e I) as (ce & -> & [X|X]).
        - destruct X as (X & _). rewrite (NO ce (or_intror I)) in X. discriminate.
        - exists ce. split; [reflexivity|]. right. rewrite D1, D2. apply (hint_copy_data _ _ u u'); assumption. }
      pose proof HOK' as (UM' & rest' & EM' & HO' & HF').
      exists (set_mats h' l), j, c, u'. split; [exact E'|].
      assert (HM : hint_hnd O (set_mats h' l) u' /\ rd l j = Some (Some c)).
      { destruct FORM as [(F1 & -> & ->)|(F1 & -> & ->)]; rewrite F1 in EM'.
        - injection EM' as <- <-. split; [|reflexivity]. split; [exact UM'|]. exists rest. split; [reflexivity|]. split; [exact HO'|exact HR].
        - injection EM' as <- <-. split.
          + split; [exact UM'|]. exists (rest ++ [Some c]). split; [reflexivity|]. split; [exact HO'|].
            apply Forall_app. split; [exact HR|]. constructor; [|constructor]. exists c. split; [reflexivity|]. left.
            inversion HF' as [|? ? X _]; subst. destruct X as (c2 & Ec2 & X). injection Ec2 as <-. exact X.
          + replace (1 + zlen rest) with (zlen (Some u :: rest)) by (rewrite zlen_cons; reflexivity).
            apply (rd_last (Some u :: rest) (Some c)). }
      destruct HM as [HM1 HM2].
      split; [exact HM1|]. split; [exact SD|]. cbn [set_mats H_m H_n H_nnz H_hints H_mats].
      split; [rewrite D1; reflexivity|]. split; [rewrite D2; reflexivity|]. split; [rewrite D3; reflexivity|]. split; [rewrite D4; reflexivity|].
      split; [exact HM2|]. auto 10.
  Qed.

  (** A general request on any copy [c] that stores [doid_sem (c_doid c) A]. *)
  Lemma gen_sem : forall fm op r d e (A : Z -> Z -> T), valid_op op = true -> (is_cplx dt = false -> op <> op_conjugate_transpose) ->
    get_doid (negb (is_cplx dt)) mt_general fm op = Some r -> (d = gn \/ d = gt \/ d = gh) ->
    get_effective_doid d r = Some e -> supported dt e = true ->
    (e = 0 \/ e = 2 \/ e = 3) /\
    transposed e = xorb (swaps d) (negb (is_none op)) /\
    forall f dg M, (forall i j, ksem O e f dg M i j = if transposed e then (if e =? 3 then ocj O (M j i) else M j i) else M i j) /\
      forall i j, (if transposed e then (if e =? 3 then ocj O (doid_sem O d A j i) else doid_sem O d A j i) else doid_sem O d A i j) = op_sem O op A i j.
  Proof.
    intros fm op r d e A Vop Hop Er Hd Ee Hs.
    assert (C : is_cplx dt = true \/ is_cplx dt = false) by (destruct (is_cplx dt); auto).
    destruct C as [C|C]; unfold supported in Hs; rewrite C in Er, Hs.
    - destruct op; try discriminate Vop; destruct fm; vm_compute in Er; injection Er as <-;
        destruct Hd as [-> |[-> | -> ]]; vm_compute in Ee; injection Ee as <-; try discriminate Hs;
        (split; [tauto|]); (split; [reflexivity|]); intros f dg M; cbn; unfold mC, mT; (split; [reflexivity|]);
        intros i j; rewrite ?(l_cj_cj L); reflexivity.
    - specialize (Hop C). destruct op; try discriminate Vop; try congruence; destruct fm; vm_compute in Er; injection Er as <-;
        destruct Hd as [-> |[-> | -> ]]; vm_compute in Ee; injection Ee as <-; try discriminate Hs;
        (split; [tauto|]); (split; [reflexivity|]); intros f dg M; cbn; unfold mC, mT; (split; [reflexivity|]);
        intros i j; rewrite ?(l_cj_cj L); reflexivity.
  Qed.

  Lemma run_gen : forall m n (A : Z -> Z -> T) (c : cmat T) fm op r e,
    csr_wf (c_m c) (c_n c) (c_nnz c) (c_b c) (c_ptr c) (c_ind c) -> zlen (c_val c) = c_nnz c ->
    (c_doid c = gn \/ c_doid c = gt \/ c_doid c = gh) ->
    c_m c = (if swaps (c_doid c) then n else m) -> c_n c = (if swaps (c_doid c) then m else n) ->
    (forall i j, 0 <= i < c_m c -> 0 <= j < c_n c -> csr_mat O (c_b c) (c_ptr c) (c_ind c) (c_val c) i j = doid_sem O (c_doid c) A i j) ->
    valid_op op = true -> (is_cplx dt = false -> op <> op_conjugate_transpose) ->
    get_doid (negb (is_cplx dt)) mt_general fm op = Some r -> get_effective_doid (c_doid c) r = Some e -> supported dt e = true ->
    let rows := match op with op_none => m | _ => n end in
    let cols := match op with op_none => n | _ => m end in
    forall dd kid alpha beta x y idg iur, d_base dd = c_b c -> zlen x = cols -> zlen y = rows ->
    let R := csrmv_run O dt choice nthreads team false e kid dd alpha (c_m c) (c_n c) (c_nnz c) (c_val c) (c_ind c) (c_ptr c) idg iur x beta y in
    R = Some (invalid_kid, None) /\ (exists k, choice k = None) \/
    exists y', R = Some (success, Some y') /\ mv_spec O rows cols alpha beta (op_sem O op A) x y y'.
  Proof.
    intros m n A c fm op r e W Lv Hd Cm Cn CM Vop Hop Er Ee Hs rows cols dd kid alpha beta x y idg iur Hb Lx Ly R.
    destruct (gen_sem fm op r (c_doid c) e A Vop Hop Er Hd Ee Hs) as (He & Ht & SEM).
    assert (DIM : (if transposed e then c_n c else c_m c) = rows /\ (if transposed e then c_m c else c_n c) = cols).
    { rewrite Ht, Cm, Cn. unfold rows, cols, is_none. destruct (swaps (c_doid c)), op; cbn; try discriminate Vop; auto. }
    destruct DIM as [DR DC].
    destruct (csrmv_run_ok O L dt choice nthreads team Hteam Hreal e kid dd alpha (c_m c) (c_n c) (c_nnz c) (c_val c) (c_ind c) (c_ptr c) idg iur x beta y) as [X|(y' & X & S)].
    - exact Hs.
    - destruct He as [-> |[-> | -> ]]; exact I.
    - unfold prepared. rewrite Hb. replace (e <? 4) with true by lia. exact W.
    - exact Lv.
    - intros _ E16. lia.
    - rewrite DC. exact Lx.
    - rewrite DR. exact Ly.
    - left. exact X.
    - right. exists y'. split; [exact X|]. rewrite DR, DC in S. rewrite Hb in S.
      refine (mv_spec_ext O _ _ _ _ _ _ _ _ _ _ S). intros a b0 Ha Hb0.
      destruct (SEM (d_fill dd) (d_diag dd) (csr_mat O (c_b c) (c_ptr c) (c_ind c) (c_val c))) as (K1 & K2).
      rewrite K1, <- K2. destruct (transposed e); rewrite CM by lia; reflexivity.
  Qed.

  (** A non-general request on an optimised form [c] of the user's matrix. *)
  Lemma run_tri : forall h (u c : cmat T) d op r e alpha beta x y, user_mat h u -> mv_pre O dt h u d op -> is_gen (d_type d) = false ->
    let rows := match op with op_none => H_m h | _ => H_n h end in
    let cols := match op with op_none => H_n h | _ => H_m h end in
    zlen x = cols -> zlen y = rows ->
    get_doid (negb (is_cplx dt)) (d_type d) (d_fill d) (op_real dt op) = Some r -> get_effective_doid (c_doid u) r = Some e ->
    arrays_ok c -> opt_ready c -> same_entries (o0 O) u c ->
    c_doid u <> r /\
    forall kid, let R := csrmv_run O dt choice nthreads team false e kid (mkDescr (d_type d) (fill' (c_doid u) (d_fill d)) (d_diag d) (c_b c)) alpha
           (c_m c) (c_n c) (c_nnz c) (c_val c) (c_ind c) (c_ptr c) (onull (c_idiag c)) (onull (c_iurow c)) x beta y in
         R = Some (invalid_kid, None) /\ (exists k, choice k = None) \/
         R = Some (not_implemented, None) /\ declined dt (d_type d) op (c_doid u) = true \/
         exists y', R = Some (success, Some y') /\
           mv_spec O rows cols alpha beta (op_sem O op (described O (d_type d) (d_fill d) (d_diag d) (hnd_mat O u))) x y y'.
  Proof.
    intros h u c d op r e alpha beta x y UM [Pb Pop Psq Pc Ph Pg Ps Pw Pu] Eg rows cols Lx Ly Er Ee AC OR SE.
    pose proof UM as (AOK & EN & EMD & EDV & EDIM).
    pose proof SE as (Cm & Cn & Cd & _). pose proof (same_entries_mat O L u c AOK AC SE) as CM.
    assert (SQ : one_tri (d_type d) = true -> c_m u = c_n u /\ H_m h = c_m u /\ H_n h = c_m u).
    { clear - Psq EDIM. intros Eo. specialize (Psq ltac:(destruct (d_type d); try discriminate; auto)). lia. }
    assert (DIM : forall tr, (one_tri (d_type d) = false -> tr = if c_doid u =? gt then is_none (op_real dt op) else negb (is_none (op_real dt op))) ->
       (one_tri (d_type d) = true -> tr = false) ->
       (if tr then c_n u else c_m u) = rows /\ (if tr then c_m u else c_n u) = cols).
    { clear - SQ EDIM. intros tr T1 T2. unfold rows, cols. destruct (one_tri (d_type d)).
      - rewrite T2 by auto. destruct (SQ eq_refl) as (E1 & E2 & E3). destruct op; split; congruence.
      - rewrite T1 by auto. unfold op_real, HandleSpec.is_none. destruct EDIM as [(-> & E1 & E2)|(-> & E1 & E2)]; cbn; destruct op; try (destruct (is_cplx dt)); cbn; auto. }
    assert (RQ : request_ok dt (d_type d) (op_real dt op)).
    { unfold request_ok, op_real. split; auto. destruct op; try discriminate; destruct (is_cplx dt); auto. }
    assert (Hd : c_doid u = gn \/ c_doid u = gt) by tauto.
    destruct (request_shape O dt Hreal _ _ _ _ _ _ RQ Hd Er Ee) as (Q1 & Q2 & Q3 & Hr & He & Qf & Qs & Qd & Qt & Qt').
    split; [rewrite Eg in Q1; unfold gn, gt in Hd; lia|].
    intros kid R. set (dd := mkDescr (d_type d) (fill' (c_doid u) (d_fill d)) (d_diag d) (c_b c)) in *.
    destruct (declined dt (d_type d) (op_real dt op) (c_doid u)) eqn:ED.
    { right. left. split; [|unfold declined, op_real in *; destruct (is_cplx dt); auto].
      assert (Ec : is_cplx dt = true) by (unfold declined in ED; destruct (is_cplx dt); auto).
      unfold R, csrmv_run. rewrite Ec. destruct (Qd eq_refl) as [-> |[-> | ->]]; reflexivity. }
    cbn [negb] in Qs.
    destruct (csrmv_run_ok O L dt choice nthreads team Hteam Hreal e kid dd alpha (c_m c) (c_n c) (c_nnz c) (c_val c) (c_ind c) (c_ptr c)
         (onull (c_idiag c)) (onull (c_iurow c)) x beta y) as [X|(y' & X & S)].
    - exact Qs.
    - exact Qf.
    - unfold prepared. rewrite Q2, Eg. destruct OR as (idg & iur & -> & -> & TR & FD). cbn [onull dd d_base d_type d_diag].
      split; [exact TR|]. split; [intros Hg; rewrite Hg in Eg; discriminate|].
      rewrite Q3, Eg. cbn [orb]. destruct (one_tri (d_type d)) eqn:Eo.
      + split; [|exact FD]. rewrite Cm, Cn. apply SQ; reflexivity.
      + unfold diag_usable. destruct (d_diag d) eqn:Edg; auto; right; (split; [|exact FD]); rewrite Cm, Cn; apply Pw; try discriminate; destruct (d_type d); auto; discriminate.
    - apply AC.
    - unfold avx2ptr_fine. intros Edt E16 Edu k Hk. subst e. cbn [dd d_diag] in Edu.
      destruct OR as (idg & iur & _ & -> & TR & _). cbn [onull].
      rewrite <- (upper_count_ok O fz ft Hfz Hft sup Hsup dt choice nthreads Hreal c idg iur) by auto. rewrite Cm in Hk. rewrite (upper_count_same O fz ft Hfz Hft sup Hsup dt choice Hreal u c) by auto. apply Pu; auto.
      + destruct (d_type d); cbn in Q3; try discriminate; auto.
      + assert (Eo : one_tri (d_type d) = false) by (destruct (d_type d); cbn in Q3; try discriminate; auto).
        specialize (Qt Eo). cbn in Qf. destruct Hd as [Hd|Hd]; rewrite Hd in Qf, Qt; cbn in Qf, Qt; [left|right]; (split; [exact Hd|]).
        * split; [exact Qf|]. unfold op_real, HandleSpec.is_none in Qt. destruct op; auto; destruct (is_cplx dt); cbn in Qt; discriminate.
        * split; [destruct (d_fill d); auto; discriminate|]. intros ->. unfold op_real in Qt. destruct (is_cplx dt); cbn in Qt; discriminate.
    - rewrite Lx, Cm, Cn. symmetry. apply (DIM (transposed e)); auto.
    - rewrite Ly, Cm, Cn. symmetry. apply (DIM (transposed e)); auto.
    - left. exact X.
    - right. right. exists y'. split; [exact X|].
      destruct (DIM (transposed e) Qt Qt') as [DR DC]. rewrite Cm, Cn, DR, DC in S.
      refine (mv_spec_ext O _ _ _ _ _ _ _ _ _ _ S). intros a b _ _.
      rewrite <- (op_real_sem O dt Hreal). unfold hnd_mat.
      rewrite <- (request_sem O L fz ft Hfz Hft sup Hsup dt choice nthreads Hreal _ _ _ _ _ _ RQ Hd Er Ee ED).
      + cbn [dd d_fill d_diag d_base].
        revert CM. generalize (csr_mat O (c_b c) (c_ptr c) (c_ind c) (c_val c)) (csr_mat O (c_b u) (c_ptr u) (c_ind u) (c_val u)).
        intros A A' HA. clear - HA He. dcases He; unfold ksem, described, descr_sem, mT, mC, mSL, mSU, mHL, mHU, mL, mU, with_diag; destruct (fill' (c_doid u) (d_fill d)); rewrite ?HA; reflexivity.
      + intros Hh Hdg k. specialize (Ph Hh Hdg k). unfold hnd_mat, stored_as in Ph. destruct (_ =? gt); exact Ph.
  Qed.
End P.
