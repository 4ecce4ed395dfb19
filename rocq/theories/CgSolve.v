From Coq Require Import ZArith List Bool Lia ZifyBool Ring Permutation.
From Verif Require Import Base BaseFacts Algebra DoidModel DoidSpec Csr CsrFacts CheckModel SortSpec MvModel MvSpec MvFacts CsrmvModel
  HandleModel HandleSpec HandleFacts OptProof MvHandleProof TrsvModel TrsvSpec TrsvHandleProof SymgsModel SymgsSpec SymgsProof
  CgModel CgSpec CgProof CgLoop CgSolveModel.
Import ListNotations.
Open Scope Z_scope.

Lemma foldM_keep : forall X S (P : S -> Prop) (f : X -> S -> option S) l s s',
  (forall x s s', P s -> f x s = Some s' -> P s') -> P s -> foldM f l s = Some s' -> P s'.
Proof.
  intros X S P f l. induction l as [|x l IH]; intros s s' H H0 E; cbn [foldM] in E; [injection E as <-; exact H0|].
  destruct (f x s) as [s1|] eqn:Ef; [|discriminate]. apply (IH s1 s' H); [exact (H x s s1 H0 Ef)|exact E].
Qed.

Section P.
  Context {T N : Type} (O : ops T) (L : laws O) (HD : div_law O).
  Let rth := l_ring L.
  Add Ring TrCS : rth.
  Local Notation zero := (o0 O).
  Local Notation tn := (nthZ zero).
  Variable srt : (Z -> Z -> bool) -> list Z -> list Z.
  Variables (fz : Z -> list Z) (ft : Z -> list T).
  Hypothesis Hsrt : sort_contract srt.
  Hypothesis Hfz : forall z, 0 <= z -> zlen (fz z) = z.
  Hypothesis Hft : forall z, 0 <= z -> zlen (ft z) = z.
  Variables (sup : Z -> bool) (dt : dtype) (mvc : Z -> option Z) (nthreads : Z) (team : list Z) (tsc : Z -> option Z) (w : Z).
  Hypothesis Hsup : sup 1 = true.
  Hypothesis Hteam : nthreads <= 1 \/ Permutation team (zrange 0 nthreads).
  Hypothesis Hreal : is_cplx dt = false -> forall a, ocj O a = a.
  Hypothesis Hmvc : forall k, mvc k <> None.

  (** Once an optimised matrix is stored, solves and symmetric products keep the handle *)
  Lemma optimize_found : forall (h : hnd T) i c, first_opt (H_mats h) 0 = Some (i, c) -> hd_error (H_mats h) <> Some None -> H_mats h <> [] ->
    csr_csc_optimize O srt fz ft h = Some (success, h, Some i).
  Proof. intros h i c E N1 N2. unfold csr_csc_optimize. rewrite E. destruct (H_mats h) as [|[u|] l]; [congruence|reflexivity|cbn in N1; congruence]. Qed.

  Lemma trsv_same : forall (h : hnd T) u rest i c op alpha d rhs x st xr ho, H_mats h = Some u :: rest -> first_opt (H_mats h) 0 = Some (i, c) ->
    trsv O dt tsc srt fz ft w op alpha (Some h) (Some d) (Some rhs) 1 (Some x) 1 (-1) = Some (st, xr, ho) -> ho = Some h.
  Proof.
    intros h u rest i c op alpha d rhs x st xr ho EM EF E. unfold trsv in E.
    rewrite (optimize_found h i c EF) in E by (rewrite EM; discriminate).
    repeat match type of E with context [match ?z with _ => _ end] => destruct z; try discriminate end; injection E as <- <- <-; reflexivity.
  Qed.

  Lemma best_in : forall mats r i c, get_best_matrix sup dt mats r = Some (Some (i, c)) -> In (Some c : option (cmat T)) mats.
  Proof.
    intros mats r i c E. unfold get_best_matrix in E.
    match type of E with context [for_ ?lo ?hi ?f ?s] => destruct (for_ lo hi f s) as [[ms best]|] eqn:Ef; [|discriminate] end.
    injection E as ->. unfold for_ in Ef.
    assert (K : forall j c', snd (ms, Some (i, c)) = Some (j, c') -> In (Some c') mats); [|apply (K i c); reflexivity].
    revert Ef. apply (foldM_keep _ _ (fun p : Z * option (Z * cmat T) => forall j c', snd p = Some (j, c') -> In (Some c') mats)).
    - intros x [m1 b1] [m2 b2] H E. destruct (rd mats x) as [[e|]|] eqn:R; try discriminate.
      repeat match type of E with context [match ?z with _ => _ end] => destruct z; try discriminate end;
      injection E as <- <-; auto.
      intros j c' Q. cbn in Q. injection Q as <- <-. unfold rd in R. destruct (x <? 0); [discriminate|]. eapply nth_error_In; eauto.
    - discriminate.
  Qed.

  Lemma mv_same : forall (h : hnd T) u d i c op alpha x beta y st yr ho, hnd_ok zero h u -> first_opt (H_mats h) 0 = Some (i, c) -> d_type d = mt_symmetric ->
    mv O srt fz ft sup dt mvc nthreads team op (Some alpha) (Some h) (Some d) (Some x) (Some beta) (Some y) = Some (st, yr, ho) -> ho = Some h.
  Proof.
    intros h u d i c op alpha x beta y st yr ho HOK EF Ty E.
    pose proof HOK as (UM & rest & EM & HO & HF).
    assert (DD : forall c', In (Some c') (H_mats h) -> c_doid c' = gn \/ c_doid c' = gt).
    { intros c' Hi. rewrite EM in Hi. destruct UM as (_ & _ & _ & _ & UM). destruct Hi as [Hi | Hi].
      - injection Hi as <-. tauto.
      - rewrite Forall_forall in HF. destruct (HF _ Hi) as (c2 & Q & _ & _ & _ & (_ & _ & Q3 & _) & _). injection Q as <-. rewrite Q3. tauto. }
    assert (RI : forall j e c', rd (H_mats h) j = Some e -> e = Some c' -> In (Some c') (H_mats h)).
    { intros j e c' Q ->. unfold rd in Q. destruct (j <? 0); [discriminate|]. eapply nth_error_In; eauto. }
    assert (GD : forall b fm o r, valid_op o = true -> get_doid b mt_symmetric fm o = Some r -> r <> gn /\ r <> gt).
    { intros b0 fm o r V Q. destruct b0, fm, o; try discriminate V; vm_compute in Q; injection Q as <-; split; vm_compute; discriminate. }
    unfold mv in E. rewrite (optimize_found h i c EF) in E by (rewrite EM; discriminate). rewrite EM in E. rewrite Ty in E. rewrite <- EM in E.
    destruct (negb (c_b u =? d_base d)); [injection E as <- <- <-; reflexivity|].
    destruct (negb (valid_op op)) eqn:Vo; [injection E as <- <- <-; reflexivity|].
    destruct (true && negb (H_m h =? H_n h)); [injection E as <- <- <-; reflexivity|].
    set (op' := if is_cplx dt then op else match op with op_conjugate_transpose => op_transpose | o => o end)  in *.
    assert (Vo' : valid_op op' = true) by (unfold op'; destruct (is_cplx dt), op; try discriminate Vo; reflexivity). clearbody op'.
    rewrite andb_false_r in E. cbv iota beta in E.
    destruct ((H_m h =? 0) || (H_n h =? 0) || (H_nnz h =? 0) && false).
    { destruct (vscale _ _ _ _) in E; [|discriminate]. injection E as <- <- <-. reflexivity. }
    destruct (get_doid (negb (is_cplx dt)) mt_symmetric (d_fill d) op') as [r|] eqn:Er; [|discriminate].
    destruct (GD _ _ _ _ Vo' Er) as (G1 & G2).
    destruct (get_best_matrix sup dt (H_mats h) r) as [[[j c1]|]|] eqn:Eb; [| |discriminate].
    - pose proof (DD c1 (best_in _ _ _ _ Eb)) as D1.
      cbn [negb andb] in E.
      match type of E with context [if ?z then _ else _] => destruct z eqn:Ez end.
      + destruct (rd (H_mats h) i) as [e|] eqn:Re; [|discriminate]. destruct e as [c2|]; [|discriminate].
        pose proof (DD c2 (RI _ _ _ Re eq_refl)) as D2. replace (c_doid c2 =? r) with false in E by (symmetry; apply Z.eqb_neq; destruct D2; congruence).
        cbn [andb] in E. repeat match type of E with context [match ?z with _ => _ end] => destruct z; try discriminate end; injection E as <- <- <-; reflexivity.
      + replace (c_doid c1 =? r) with false in E by (symmetry; apply Z.eqb_neq; destruct D1; congruence).
        cbn [andb] in E. repeat match type of E with context [match ?z with _ => _ end] => destruct z; try discriminate end; injection E as <- <- <-; reflexivity.
    - injection E as <- <- <-. reflexivity.
  Qed.

  Lemma opt_base : forall (h h' : hnd T) st r, (forall c, In (Some c) (H_mats h) -> c_b c = 0) ->
    csr_csc_optimize O srt fz ft h = Some (st, h', r) -> forall c, In (Some c) (H_mats h') -> c_b c = 0.
  Proof.
    intros h h' st r HB E c Hc. unfold csr_csc_optimize in E.
    destruct (H_mats h) as [|[u|] l] eqn:EM; try (injection E as <- <- <-; rewrite EM in Hc; auto; fail).
    destruct (first_opt (Some u :: l) 0) as [[i c1]|]; [injection E as <- <- <-; rewrite EM in Hc; auto|].
    cbn [first_csr] in E. destruct (negb _); [injection E as <- <- <-; rewrite EM in Hc; auto|].
    unfold optimize_slow in E. destruct (mat_check _ _ _ _ _ _ _ _ _) as [[st1 o1]|]; [|discriminate].
    assert (X : Some (st, h', r) = Some (st1, h, None) -> c_b c = 0).
    { intros Q. injection Q as -> -> ->. rewrite EM in Hc; auto. }
    destruct st1; try (apply X; symmetry; exact E). destruct o1 as [[so fd]|]; [|injection E as <- <- <-; rewrite EM in Hc; auto].
    destruct (check_sort_diag _ _ _ _ _) as [[[st2 sorted] fulldiag]|]; [|discriminate].
    destruct st2; try (injection E as <- <- <-; cbn in Hc; rewrite EM in Hc; auto; fail).
    destruct (sorted && fulldiag).
    - destruct (csr_csc_indices _ _ _ _ _ _) as [[idiag iurow]|]; [|discriminate]. injection E as <- <- <-. cbn in Hc. rewrite EM in Hc. cbn in Hc.
      destruct Hc as [Hc | Hc]; [injection Hc as <-; cbn; apply HB; left; reflexivity|apply HB; right; exact Hc].
    - destruct (build_copy _ _ _ _ _ _ _ _) as [[st3 [[c3 fd3]|]]|] eqn:BC; [| |discriminate].
      + injection E as <- <- <-. cbn in Hc. rewrite EM in Hc. apply in_app_or in Hc. destruct Hc as [Hc | [Hc | []]]; [auto|]. injection Hc as <-.
        unfold build_copy in BC. repeat match type of BC with context [match ?z with _ => _ end] => destruct z; try discriminate end; injection BC as <- <- _; reflexivity.
      + injection E as <- <- <-. cbn in Hc. rewrite EM in Hc. auto.
  Qed.

  Lemma scale_ok : forall m aval idiag (g : Z -> T) y, 0 <= m -> zlen y = m -> m <= zlen idiag ->
    (forall i, 0 <= i < m -> rd aval (zn idiag i) = Some (g i)) ->
    exists y', scale_diag O m aval idiag y = Some y' /\ zlen y' = m /\ forall i, 0 <= i < m -> tn y' i = omul O (tn y i) (g i).
  Proof.
    intros m aval idiag g y Hm Ly Li Hg. unfold scale_diag.
    match goal with |- context [for_ ?lo ?hi ?f ?s] => destruct (for_inv _ (fun e z => zlen z = m /\ forall i, 0 <= i < m -> tn z i = if i <? e then omul O (tn y i) (g i) else tn y i) lo hi f s ltac:(lia)) as (z & Ez & R1 & R2) end.
    - split; auto. intros i Hi. replace (i <? 0) with false by lia. reflexivity.
    - intros i z Hi (R1 & R2). rewrite (rd_nthZ _ 0 idiag) by lia. rewrite Hg by lia. rewrite (rd_nthZ _ zero) by lia. rewrite wr_upd by lia. eexists. split; [reflexivity|]. split; [now rewrite zlen_upd|].
      intros k Hk. rewrite nthZ_upd by lia. destruct (Z.eqb_spec k i) as [->|].
      + rewrite R2 by lia. replace (i <? i) with false by lia. replace (i <? i + 1) with true by lia. reflexivity.
      + rewrite R2 by lia. replace (k <? i + 1) with (k <? i) by lia. reflexivity.
    - exists z. split; [exact Ez|]. split; [exact R1|]. intros i Hi. rewrite R2 by lia. replace (i <? m) with true by lia. reflexivity.
  Qed.

  Section U.
    Variables (u0 : cmat T) (m nnz0 : Z).
    Hypothesis (Hm : 0 < m <= 2 ^ w - 1) (Hw : 0 < w) (Hz : 0 < nnz0).
    Hypothesis HS : sortable u0.
    Hypothesis Htsc : tsc (-1) <> None.
    Hypothesis HC : tsc (-1) = Some 0 \/ rows_distinct (c_m u0) (c_b u0) (c_ptr u0) (c_ind u0).
    Hypothesis HF : full_diag (c_m u0) (c_n u0) (c_b u0) (c_ptr u0) (c_ind u0).
    Hypothesis NZ : forall i, 0 <= i < m -> hnd_mat O u0 i i <> zero.

    Lemma strsv_keep : forall h i c d op rhs x, stH O u0 m nnz0 h -> first_opt (H_mats h) 0 = Some (i, c) ->
      d_base d = c_b u0 -> valid_op op = true -> d_type d = mt_triangular -> d_diag d = dg_non_unit ->
      zlen x = m -> zlen rhs = m ->
      exists x', strsv O srt fz ft dt tsc w op (o1 O) h d rhs x = Some (success, x', h) /\ zlen x' = m /\
        forall i, 0 <= i < m -> rowx O m (op_sem O op (described O mt_triangular (d_fill d) (d_diag d) (hnd_mat O u0))) x' i = tn rhs i.
    Proof.
      intros h i c d op rhs x ST EF Hb Hop Ty Dg Lx Lr.
      destruct (strsv_ok O L HD srt fz ft Hsrt Hfz Hft sup dt mvc tsc w Hsup Hreal Hmvc Htsc u0 m nnz0 Hm Hw Hz HS HC HF NZ h d op rhs x ST Hb Hop Ty Dg Lx Lr) as (x' & h' & E & _ & Lx' & R).
      exists x'. split; [|auto]. rewrite E. do 2 f_equal. unfold strsv in E.
      destruct ST as (u & HOK & _). destruct HOK as (_ & rest & EM & _).
      destruct (trsv O dt tsc srt fz ft w op (o1 O) (Some h) (Some d) (Some rhs) 1 (Some x) 1 (-1)) as [[[st xr] ho]|] eqn:Et; [|discriminate].
      rewrite (trsv_same h u rest i c _ _ _ _ _ _ _ _ EM EF Et) in E. injection E as _ _ <-. reflexivity.
    Qed.

    (** The optimised matrix holds the diagonal of the user's matrix *)
    Lemma opt_diag : forall h i c, stH O u0 m nnz0 h -> first_opt (H_mats h) 0 = Some (i, c) -> c_b c = 0 ->
      zlen (onull (c_idiag c)) = m /\ forall k, 0 <= k < m -> rd (c_val c) (zn (onull (c_idiag c)) k) = Some (hnd_mat O u0 k k).
    Proof.
      intros h i c (u & HOK & _ & SD & D1 & D2 & D3) EF B0. pose proof HOK as (UM & rest & EM & HO & HFo).
      pose proof UM as (AR & EN & MD & DV & DIM).
      assert (Em : c_m u = m /\ c_n u = m) by lia. destruct Em as (Em & En).
      assert (X : opt_ready c /\ arrays_ok c /\ c_m c = m /\ c_n c = m /\ c_doid c = c_doid u /\
        forall a b, csr_mat O (c_b c) (c_ptr c) (c_ind c) (c_val c) a b = csr_mat O (c_b u) (c_ptr u) (c_ind u) (c_val u) a b).
      { rewrite EM in EF. cbn [first_opt] in EF. destruct (c_opt u) eqn:Eo.
        - injection EF as <- <-. auto 10.
        - clear EM HOK. revert EF. generalize (0 + 1). induction HFo as [|e l He Hl IH]; intros k EF; [discriminate|].
          destruct He as (c' & -> & Q1 & Q2 & Q3 & Q4 & _). cbn [first_opt] in EF. rewrite Q1 in EF. injection EF as _ <-.
          split; [exact Q2|]. split; [exact Q3|]. pose proof Q4 as (W1 & W2 & W3 & _). split; [congruence|]. split; [congruence|]. split; [congruence|].
          apply (same_entries_mat O L); auto. }
      destruct X as ((idiag & iurow & -> & _ & TR & FD) & (_ & _ & Lv & _) & Ec & Ecn & Dd & ME). cbn [onull].
      rewrite Ec, Ecn in *. pose proof (tr_ld _ _ _ _ _ _ _ _ TR) as Li. split; [exact Li|].
      intros k Hk. destruct (TrsvHandleProof.diag_val O L m (c_nnz c) (c_b c) (c_ptr c) (c_ind c) idiag iurow (c_val c) TR FD Lv k Hk) as (R1 & _ & R2).
      rewrite B0, Z.sub_0_r in R1, R2. rewrite (rd_nthZ _ zero) by lia. f_equal. rewrite R2.
      rewrite B0 in ME. rewrite ME. destruct SD as (E1 & E2 & E3 & E4 & E5 & E6 & E7 & E8). unfold hnd_mat, stored_as. rewrite <- E4, E5, E6, E7, E8.
      destruct (c_doid u =? gt); reflexivity.
    Qed.

    Theorem itsol_symgs_ok : forall h i c d r y z, stH O u0 m nnz0 h -> first_opt (H_mats h) 0 = Some (i, c) -> c_b c = 0 ->
      d_type d = mt_general \/ d_type d = mt_symmetric -> d_diag d = dg_non_unit -> d_base d = c_b u0 ->
      zlen r = m -> zlen y = m -> zlen z = m ->
      exists z', itsol_symgs O srt fz ft dt tsc w h d r y z = Some (success, z', h) /\
        gauss_seidel O (described O (d_type d) (d_fill d) (d_diag d) (hnd_mat O u0)) m r z'.
    Proof.
      intros h i c d r y z ST EF B0 Ty Dg Hb Lr Ly Lz. unfold itsol_symgs. rewrite EF, Dg. cbn [diag_eqb].
      set (A := described O (d_type d) (d_fill d) dg_non_unit (hnd_mat O u0)).
      destruct (opt_diag h i c ST EF B0) as (Li & Hd).
      pose proof (parts_ok O L fz ft Hfz Hft sup dt mvc w Hsup Hreal Hmvc (hnd_mat O u0) (d_type d) (d_fill d) op_none) as PO. cbv zeta in PO.
      destruct (symgs_parts (d_type d) (d_fill d) op_none) as [[[uf lf] ut] lt] eqn:EP.
      specialize (PO uf lf ut lt ltac:(destruct Ty; congruence) eq_refl ltac:(discriminate) ltac:(discriminate) ltac:(destruct Ty; congruence) eq_refl).
      destruct PO as (Vu & Vl & _ & PO). cbn [op_sem] in PO. fold A in PO.
      assert (F1 : (if match d_type d with mt_general => true | _ => false end || match d_fill d with fm_lower => true | fm_upper => false end then (fm_lower, op_none) else (fm_upper, op_transpose)) = (lf, lt)).
      { clear - EP Ty. destruct Ty as [Q | Q]; rewrite Q in *; destruct (d_fill d); cbn in EP; injection EP as <- <- <- <-; reflexivity. }
      assert (F2 : (if match d_type d with mt_general => true | _ => false end || negb match d_fill d with fm_lower => true | fm_upper => false end then (fm_upper, op_none) else (fm_lower, op_transpose)) = (uf, ut)).
      { clear - EP Ty. destruct Ty as [Q | Q]; rewrite Q in *; destruct (d_fill d); cbn in EP; injection EP as <- <- <- <-; reflexivity. }
      rewrite F1, F2.
      destruct (strsv_keep h i c (mkDescr mt_triangular lf dg_non_unit (d_base d)) lt r y ST EF Hb Vl eq_refl eq_refl Ly Lr) as (y1 & E1 & Ly1 & R1).
      cbn [d_fill d_diag] in R1.
      assert (Hm' : H_m h = m) by (destruct ST as (u & _ & _ & _ & D & _); exact D).
      destruct (scale_ok m (c_val c) (onull (c_idiag c)) (fun k => hnd_mat O u0 k k) y1 ltac:(lia) Ly1 ltac:(lia) Hd) as (y2 & E2 & Ly2 & R2).
      destruct (strsv_keep h i c (mkDescr mt_triangular uf dg_non_unit (d_base d)) ut y2 z ST EF Hb Vu eq_refl eq_refl Lz Ly2) as (z1 & E3 & Lz1 & R3).
      cbn [d_fill d_diag] in R3.
      exists z1. split.
      { destruct Ty as [-> | ->]; rewrite E1, Hm', E2, E3; reflexivity. }
      split; [exact Lz1|]. exists y1. split; [exact Ly1|]. intros k Hk. split.
      - rewrite <- R1 by lia. unfold rowx. apply sumz_ext. intros j Hj. f_equal. destruct (PO k j) as (_ & _ & _ & ->).
        unfold madd, pL, pD. destruct (Z.lt_trichotomy j k) as [Q | [Q | Q]].
        + replace (j <=? k) with true by lia. replace (j <? k) with true by lia. replace (k =? j) with false by lia. ring.
        + replace (j <=? k) with true by lia. replace (j <? k) with false by lia. replace (k =? j) with true by lia. ring.
        + replace (j <=? k) with false by lia. replace (j <? k) with false by lia. replace (k =? j) with false by lia. ring.
      - transitivity (rowx O m (op_sem O ut (described O mt_triangular uf dg_non_unit (hnd_mat O u0))) z1 k).
        + unfold rowx. apply sumz_ext. intros j Hj. f_equal. destruct (PO k j) as (_ & -> & _ & _).
          unfold madd, pU, pD. destruct (Z.lt_trichotomy j k) as [Q | [Q | Q]].
          * replace (k <=? j) with false by lia. replace (k <? j) with false by lia. replace (k =? j) with false by lia. ring.
          * replace (k <=? j) with true by lia. replace (k <? j) with false by lia. replace (k =? j) with true by lia. ring.
          * replace (k <=? j) with true by lia. replace (k <? j) with true by lia. replace (k =? j) with false by lia. ring.
        + rewrite R3, R2 by lia. replace (A k k) with (hnd_mat O u0 k k); [ring|].
          unfold A, described, with_diag, descr_sem. destruct Ty as [-> | ->]; [reflexivity|].
          destruct (d_fill d); unfold mSL, mSU; rewrite ?Z.eqb_refl, ?Z.leb_refl, ?Z.ltb_irrefl; reflexivity.
    Qed.
  End U.

  Lemma first_opt_in : forall (l : list (option (cmat T))) k i c, first_opt l k = Some (i, c) -> In (Some c) l.
  Proof.
    induction l as [|[c0|] l IH]; intros k i c E; cbn [first_opt] in E; [discriminate| |right; eapply IH; eauto].
    destruct (c_opt c0); [injection E as _ <-; left; reflexivity|right; eapply IH; eauto].
  Qed.

  Context (npos : N -> bool) (nle : N -> N -> bool) (nmul : N -> N -> N) (nnan : N -> bool) (n0 : N).
  Context (nrm : list T -> N) (negz : T -> bool) (rz1 : T).
  Context {U : Type} (pc : option (U -> list T -> list T -> Z * list T * U)) (monit : U -> option (list T) -> option (list T) -> Z * U).

  Theorem cg_solve_ok : forall h u d n b ud (c : cg T N) o (prec : list T -> list T -> Prop) K fuel,
    let A := described O mt_symmetric fm_lower (d_diag d) (hnd_mat O u) in
    hnd_ok zero h u -> sortable u -> H_m h = n -> H_n h = n -> zlen b = n ->
    d_type d = mt_symmetric -> d_fill d = fm_lower -> d_base d = c_b u -> fresh n c o ->
    g_precond c = 0 \/
    g_precond c = 1 /\ (exists f, pc = Some f /\ forall ud u v, zlen u = n -> zlen v = n ->
      exists fl w' ud', f ud u v = (fl, w', ud') /\ zlen w' = n /\ (fl = 0 -> prec u w')) \/
    g_precond c = 3 /\ gs_ready O tsc w h u d /\ (forall r z, gauss_seidel O A n r z -> prec r z) ->
    0 <= K ->
    (forall k st jb c' o', reaches O npos nle nmul nnan n0 nrm negz rz1 A n b prec c o k st jb c' o' -> jb <> j_stop -> Z.of_nat k <= K) ->
    K < Z.of_nat fuel ->
    exists k st h' u' ud' c' o',
      cg_solve O srt fz ft sup dt mvc nthreads team tsc w npos nle nmul nnan n0 nrm negz rz1 pc monit fuel n b h d ud c o = Some (st, (h', ud'), c', o') /\
      hnd_ok zero h' u' /\ same_data u u' /\
      reaches O npos nle nmul nnan n0 nrm negz rz1 A n b prec c o k st j_stop c' o'.
  Proof.
    intros h u d n b ud c o prec K fuel A HOK HS Hm Hn Hb Ty Fl Bs F HP K0 HK HFu.
    assert (Nn : 0 <= n) by (rewrite <- Hb; apply zlen_nonneg).
    destruct (optimize_ok O srt fz ft Hsrt Hfz Hft h u HOK HS) as (h1 & i1 & c1 & u1 & E & HOK1 & SD & D1 & D2 & D3 & D4 & Rc & Oc & _ & _ & _ & _ & _ & HH).
    unfold cg_solve. rewrite E, D1, D2, Hm, Hn, Z.eqb_refl, Ty, Fl. cbn [negb orb].
    pose proof SD as (S1 & S2 & S3 & S4 & S5 & S6 & S7 & S8).
    assert (Hi1 : 0 <= i1) by (unfold rd in Rc; destruct (i1 <? 0) eqn:?; [discriminate|lia]).
    destruct (first_opt_some fz ft Hfz Hft (H_mats h1) i1 0 c1 Hi1 Rc Oc) as (i2 & c2 & EF).
    destruct HOK1 as (UM1 & rest1 & EM1 & HO1 & HF1).
    assert (HOK1 : hnd_ok zero h1 u1) by (split; [exact UM1|exists rest1; auto]).
    replace ((g_precond c =? 1) && match pc with None => true | _ => false end) with false.
    2:{ destruct HP as [-> | [(-> & f & -> & _) | (-> & _)]]; reflexivity. }
    assert (FLG : gs_ready O tsc w h u d -> (H_optfull h1 = true <-> full_diag (c_m u) (c_n u) (c_b u) (c_ptr u) (c_ind u))).
    { intros G. destruct HH as [-> |HH]; [|tauto]. apply (gr_flag _ _ _ _ _ _ G). exists c1. split; auto. unfold rd in Rc. destruct (i1 <? 0); [discriminate|]. eapply nth_error_In; eauto. }
    replace ((g_precond c =? 3) && _) with false.
    2:{ destruct HP as [-> | [(-> & _) | (-> & G & _)]]; try reflexivity. rewrite (gr_diag _ _ _ _ _ _ G), (proj2 (FLG G) (gr_full _ _ _ _ _ _ G)). reflexivity. }
    set (EI := fun e : hnd T * U => fst e = h1).
    match goal with |- context [cg_loop _ _ _ _ _ _ _ _ _ ?a ?b0 ?c0 ?d0 _ _ _ _ _ _ _] =>
      pose proof (loop_ok O L npos nle nmul nnan n0 nrm negz rz1 A n b prec Nn Hb a b0 c0 d0 EI (g_precond c)) as LO end.
    assert (Hmv0 : forall e u v, EI e -> zlen u = n -> zlen v = n -> exists w' e',
      (let* (st, v0, h0) := smv O srt fz ft sup dt mvc nthreads team op_none (o1 O) (fst e) d u zero v in Some (st, v0, (h0, snd e))) = Some (success, w', e') /\ EI e' /\ product O A n w' u).
    { intros e x v He Lx Lv. unfold EI in He. rewrite He. unfold smv.
      destruct (mv_handle_flag O L srt fz ft Hsrt Hfz Hft sup Hsup dt mvc nthreads team Hteam Hreal h1 u1 d op_none (o1 O) zero x v HOK1) as (st & yr & h' & u' & E' & E1 & E2 & E3 & E4 & E5 & E6 & E7 & R).
      - constructor; try congruence; auto.
        intros _. eapply same_data_sortable; eauto.
      - clear - Lx Lv D1 D2 Hm Hn. lia.
      - clear - Lx Lv D1 D2 Hm Hn. lia.
      - rewrite E'. pose proof (mv_same h1 u1 d i2 c2 _ _ _ _ _ _ _ _ HOK1 EF Ty E') as Q. injection Q as ->.
        destruct R as [(-> & y' & -> & Ly' & R)|[(-> & -> & (k & Kk))|(-> & -> & Kk)]].
        + exists y', (h1, snd e). split; [reflexivity|]. split; [reflexivity|]. split; [lia|].
          rewrite D1, D2, Hm, Hn in R. intros i Hi. rewrite R by lia. rewrite (same_data_mat O _ _ SD). unfold times, A. rewrite Ty, Fl. cbn [op_sem]. ring.
        + exfalso. exact (Hmvc k Kk).
        + exfalso. unfold declined in Kk. rewrite Ty in Kk. cbn in Kk. rewrite andb_false_r in Kk. discriminate. }
    assert (Hpc0 : g_precond c = 1 -> forall e u v, EI e -> zlen u = n -> zlen v = n -> exists f w' e',
      match pc with Some f => let '(flag, v, ud) := f (snd e) u v in (flag, v, (fst e, ud)) | None => (0, v, e) end = (f, w', e') /\ EI e' /\ zlen w' = n /\ (f = 0 -> prec u w')).
    { intros P1 e x v He Lx Lv. destruct HP as [Q | [(_ & f & -> & Hf) | (Q & _)]]; try (exfalso; rewrite Q in P1; discriminate P1).
      destruct (Hf (snd e) x v Lx Lv) as (fl & w' & ud' & Ef & Lw & Pf). rewrite Ef. exists fl, w', (fst e, ud'). auto. }
    assert (Hsg0 : g_precond c = 3 -> forall e u v, EI e -> zlen u = n -> zlen v = n -> exists w' e',
      (let* (st, v0, h0) := itsol_symgs O srt fz ft dt tsc w (fst e) d u (ft n) v in Some (st, v0, (h0, snd e))) = Some (success, w', e') /\ EI e' /\ zlen w' = n /\ prec u w').
    { intros P1 e x v He Lx Lv. destruct HP as [Q | [(Q & _) | (_ & G & Hgs)]]; try (exfalso; rewrite Q in P1; discriminate P1). unfold EI in He. rewrite He.
      assert (ST : stH O u n (H_nnz h) h1).
      { exists u1. split; [exact HOK1|]. split; [intros _; rewrite S1, S2, S5, S6, S7; exact (FLG G)|]. split; [exact SD|]. lia. }
      assert (Gs : 0 < n <= 2 ^ w - 1) by (rewrite <- Hm; apply (gr_size _ _ _ _ _ _ G)).
      assert (Gz : forall i, 0 <= i < n -> hnd_mat O u i i <> zero) by (rewrite <- Hm; apply (gr_nz _ _ _ _ _ _ G)).
      destruct (itsol_symgs_ok u n (H_nnz h) Gs (gr_w _ _ _ _ _ _ G) (gr_nnz _ _ _ _ _ _ G) HS (gr_kid _ _ _ _ _ _ G) (gr_cols _ _ _ _ _ _ G) (gr_full _ _ _ _ _ _ G) Gz
        h1 i2 c2 d x (ft n) v ST EF
        (opt_base h h1 success (Some i1) (gr_base _ _ _ _ _ _ G) E c2 (first_opt_in _ _ _ _ EF)) (or_intror Ty) (gr_diag _ _ _ _ _ _ G) Bs Lx (Hft n Nn) Lv) as (z' & Ez & Gr).
      rewrite Ez. exists z', (h1, snd e). split; [reflexivity|]. split; [reflexivity|]. split; [apply Gr|]. apply Hgs. rewrite Ty, Fl in Gr. exact Gr. }
    assert (Hmn : forall e x r, EI e -> EI (snd (let '(flag, ud) := monit (snd e) x r in (flag, (fst e, ud))))).
    { intros e x r He. destruct (monit (snd e) x r) as [fl ud']. unfold EI in *. cbn. exact He. }
    specialize (LO Hmv0 Hpc0 Hsg0 Hmn ltac:(destruct HP as [Q | [(Q & _) | (Q & _)]]; rewrite Q; auto) c o K K0 F eq_refl HK fuel (h1, ud) eq_refl HFu).
    destruct LO as (k & st & (h' & ud') & c' & o' & LO & He & R). unfold EI in He. cbn in He. subst h'.
    exists k, st, h1, u1, ud', c', o'. auto.
  Qed.
End P.
