(** C60: programs on one handle. *)
From Coq Require Import ZArith List Bool Lia ZifyBool QArith Qcanon Permutation.
From Verif Require Import Base BaseFacts Algebra Csr CheckModel CheckSpec Decide SortSpec SortInst DoidModel DoidSpec DenseSpec
  UtilModel MvModel MvSpec CsrmvModel HandleModel HandleSpec HandleFacts OptProof ExpandModel ExpandSpec CsrmmSpec CsrmmProof HintMvSpec TrsvModel TrsvSpec TrsmModel TrsmSpec
  SymgsModel SymgsSpec HintSolveProof HintSymgsProof Props_Mv Props_Trsv Props_Trsm Props_Symgs Props_Expand Props_HintMv Props_HintSolve HistSpec.
Import ListNotations.
Open Scope Z_scope.

Lemma same_sym : forall T (u u' : cmat T), same_data u u' -> same_data u' u.
Proof. intros T u u' (S1 & S2 & S3 & S4 & S5 & S6 & S7 & S8). unfold same_data. auto 10. Qed.

(** what a program keeps *)
Definition alike {T} (h h' : hnd T) : Prop := H_m h' = H_m h /\ H_n h' = H_n h /\ H_nnz h' = H_nnz h.

Lemma prepare_flag : forall T (O : ops T), laws O -> forall re : T -> T, (forall v, ocj O v = v -> re v = v) ->
  forall (fz : Z -> list Z) (ft : Z -> list T), (forall k, 0 <= k -> zlen (fz k) = k) -> (forall k, 0 <= k -> zlen (ft k) = k) ->
  forall dt h u hs, hint_hnd O h u -> diag_flag_ok h u -> (forall e, In e hs -> exists d op, hint_of O dt h u e d op) ->
    exists h' hs', matrix_transform O re fz ft (Some h) hs = Some (success, Some h', hs') /\ hint_hnd O h' u /\ diag_flag_ok h' u /\ alike h h'.
Proof.
  intros T O L re Hre fz ft Hfz Hft dt h u hs HH FL HS.
  destruct (C58_prepared T O L re Hre fz ft Hfz Hft dt h u hs HH HS) as (h' & hs' & E & HH' & D1 & D2 & D3 & _).
  exists h', hs'. split; [exact E|]. split; [exact HH'|]. split; [|split; auto].
  destruct HH as (UM & rest & EM & _).
  destruct (C12_hinted_copies T O L re Hre fz ft Hfz Hft h u rest hs UM EM) as (copies & hs2 & E2 & R1 & _).
  { intros e I. destruct (HS e I) as (d & op & H). destruct (hint_of_id _ _ _ _ _ _ _ _ H) as (A1 & A2 & A3 & A4). destruct H as (_ & _ & _ & H1 & H2).
    split; [exact A1|]. split; [intros X; apply H1; congruence|]. intros X. apply H2, A4, X. }
  rewrite E in E2. injection E2 as -> _. intros (c & Ic & Oc). cbn [set_mats H_mats H_optfull] in *. apply FL. apply in_app_or in Ic. destruct Ic as [Ic|Ic]; [eauto|].
  exfalso. apply in_map_iff in Ic. destruct Ic as (c' & Ec & Ic). injection Ec as ->. destruct (R1 c Ic) as (e & _ & _ & _ & K & _). congruence.
Qed.

Section Step.
  Context {T : Type} (O : ops T) (re : T -> T).
  Variable srt : (Z -> Z -> bool) -> list Z -> list Z.
  Variables (fz : Z -> list Z) (ft : Z -> list T) (sup : Z -> bool) (dt : dtype) (mvc tsc : Z -> option Z) (nthreads : Z) (team : list Z) (w : Z).
  Hypothesis ENV : env_ok O srt fz ft sup dt nthreads team.
  Hypothesis SENV : solve_env O srt fz ft dt.
  Hypothesis Hre : forall v, ocj O v = v -> re v = v.
  Hypothesis Hw : 0 < w.
  Variables (h : hnd T) (u : cmat T).
  Hypothesis Hs : sortable u.

  Definition kept (h1 : hnd T) (u1 : cmat T) : Prop := hint_hnd O h1 u1 /\ diag_flag_ok h1 u1 /\ same_data u u1 /\ alike h h1.

  Lemma step_ok : forall c h1 u1, kept h1 u1 -> valid_call O sup dt mvc tsc nthreads team w h u c ->
    exists o h2 u2, do_call O re srt fz ft sup dt mvc tsc nthreads team w c h1 = Some (o, h2) /\ kept h2 u2 /\ right_outcome O dt mvc tsc w h u c o.
  Proof.
    intros c h1 u1 (HH & FL & SD & AL) V. pose proof SD as (S1 & S2 & S3 & S4 & S5 & S6 & S7 & S8). pose proof AL as (A1 & A2 & A3).
    assert (Hs1 : sortable u1) by (unfold sortable; rewrite S1, S5, S6, S7; exact Hs).
    assert (ME : hnd_mat O u1 = hnd_mat O u) by (unfold hnd_mat; now rewrite S4, S5, S6, S7, S8).
    assert (KP : forall h2 u2, hint_hnd O h2 u2 -> diag_flag_ok h2 u2 -> same_data u1 u2 -> alike h1 h2 -> kept h2 u2).
    { intros h2 u2 K1 K2 K3 (K4 & K5 & K6). split; [exact K1|]. split; [exact K2|]. split; [eapply HintSolveProof.same_data_trans; eauto|]. unfold alike. rewrite K4, K5, K6. auto. }
    assert (WD : H_m (without_hints h1) = H_m h /\ H_n (without_hints h1) = H_n h /\ H_nnz (without_hints h1) = H_nnz h) by (unfold without_hints; cbn; auto).
    destruct WD as (W1 & W2 & W3). pose proof (without_ok T O h1 u1 HH) as WO.
    assert (WF : diag_flag_ok (without_hints h1) u1) by (apply (strip_flag _ _ _ (without_stripped T O h1 u1 HH)); exact FL).
    pose proof ENV as [EL ES Ez Et Eu Em Er]. destruct c as [hs|op alpha d x beta y|op alpha d rhs incb x incx kid|op alpha d order B n ldb X ldx kid sched|op d alpha b x y]; cbn [valid_call do_call right_outcome] in *.
    - destruct (prepare_flag T O EL re Hre fz ft Ez Et dt h1 u1 hs HH FL) as (h2 & hs' & E & K1 & K2 & K3).
      { intros e I. destruct (V e I) as (d & op & H1 & H2 & H3 & H4 & H5). exists d, op. unfold hint_of. rewrite A1, A2, ME. auto. }
      rewrite E. eexists _, h2, u1. split; [reflexivity|]. split; [|reflexivity]. apply KP; auto. apply same_data_refl.
    - destruct V as (P & Lx & Ly). destruct P as [P1 P2 P3 P4 P5 P6 _ P8 P9]. cbn [fresh set_mats H_m H_n] in *.
      destruct (C58_hinted_product_partial T O srt fz ft sup dt mvc nthreads team ENV h1 u1 d op alpha beta x y HH) as (st & yr & h2 & u2 & E & K1 & K2 & D1 & D2 & D3 & _ & R).
      + constructor; auto; rewrite ?S1, ?S2, ?S4, ?S5, ?A1, ?A2, ?ME; auto.
        unfold upper_count, centries in *. rewrite S2, S5, S6, S7, S8. exact P9.
      + rewrite A1, A2. exact Lx.
      + rewrite A1, A2. exact Ly.
      + pose proof (mv_flag O srt fz ft ES Ez Et sup dt mvc nthreads team Eu Er h1 u1 d op alpha beta x y st yr h2 u2 HH Hs1 FL K2 E) as F2.
        rewrite E. eexists _, h2, u2. split; [reflexivity|]. split; [apply KP; auto; split; auto|]. rewrite A1, A2, ME, S4 in R. exact R.
    - destruct V as (P & Q). destruct P as [_ _ _ P1 P2 P3 P4 P5 P6 P7 P8 P9 P10 P11 P12]. cbn [fresh set_mats H_m H_n H_nnz] in *.
      destruct (C59_trsv_partial T O srt fz ft dt tsc SENV w h1 u1 d op alpha rhs incb x incx kid Hw HH FL) as (st & xr & h2 & u2 & E & K1 & K2 & F2 & D1 & D2 & D3 & _ & R).
      + constructor; rewrite ?W1, ?W2, ?W3, ?S1, ?S2, ?S5, ?S6, ?S7, ?ME; auto.
      + unfold col_ok in Q. rewrite S1, S4, S5, S6, S7. exact Q.
      + rewrite E. eexists _, h2, u2. split; [reflexivity|]. split; [apply KP; auto; split; auto|]. rewrite A1, ME, S1, S2, S5, S6, S7 in R. exact R.
    - destruct V as (P & PM & Q). destruct P as [_ _ _ P1 P2 P3 P4 P5 P6 P7 P8 P9 P10 P11 P12 P13 P14]. cbn [fresh set_mats H_m H_n H_nnz] in *.
      destruct (C59_trsm_partial T O srt fz ft dt tsc SENV w sched h1 u1 d op alpha order B n ldb X ldx kid Hw HH FL) as (st & X1 & h2 & u2 & E & K1 & K2 & F2 & D1 & D2 & D3 & _ & R).
      + constructor; rewrite ?W1, ?W2, ?W3, ?S1, ?S2, ?S5, ?S6, ?S7, ?ME; auto.
      + exact PM.
      + unfold col_ok in Q. rewrite S1, S4, S5, S6, S7. exact Q.
      + rewrite E. eexists _, h2, u2. split; [reflexivity|]. split; [apply KP; auto; split; auto|]. rewrite A1, ME, S1, S2, S5, S6, S7 in R. exists X1. split; [reflexivity|]. exact R.
    - destruct V as (GE & P & Ly). destruct P as [_ _ _ P1 P2 P3 P4 P5 P6 P7 P8 P9 P10 P11 P12 P13 P14 P15 P16]. cbn [fresh set_mats H_m H_n H_nnz] in *.
      destruct SENV as [L HD Q1 Q2 Q3 Q4]. destruct GE as [G1 G2 G3 G4].
      destruct (hint_symgs_ok O L HD srt fz ft Q1 Q2 Q3 sup dt mvc nthreads team tsc w G1 G2 Q4 G3 G4 h1 _ u1 d op alpha b x (Some y) true HH FL (without_stripped T O h1 u1 HH))
        as (x' & yr & h2 & u2 & E & K1 & F2 & K2 & D1 & D2 & D3 & K4 & _ & K5).
      + constructor; rewrite ?W1, ?W2, ?W3, ?S1, ?S2, ?S4, ?S5, ?S6, ?S7, ?ME; auto.
      + intros _. exists y. split; [reflexivity|]. rewrite A1. exact Ly.
      + rewrite E. destruct (K5 eq_refl) as (y' & -> & Ly' & Ry). eexists _, h2, u2. split; [reflexivity|]. split; [apply KP; auto; split; auto|].
        split; [reflexivity|]. exists x', y'. split; [reflexivity|]. split; [reflexivity|].
        assert (RM : req_mat O u1 d op = req_mat O u d op) by (unfold req_mat; now rewrite ME). rewrite A1, RM in *. auto.
  Qed.

  Lemma history_ok : forall cs h1 u1, kept h1 u1 -> Forall (valid_call O sup dt mvc tsc nthreads team w h u) cs ->
    exists os h2 u2, history O re srt fz ft sup dt mvc tsc nthreads team w cs h1 = Some (os, h2) /\ kept h2 u2 /\ Forall2 (right_outcome O dt mvc tsc w h u) cs os.
  Proof.
    induction cs as [|c cs IH]; intros h1 u1 K V.
    - exists [], h1, u1. auto.
    - inversion V as [|? ? V1 V2]; subst. destruct (step_ok c h1 u1 K V1) as (o & h2 & u2 & E & K2 & R).
      destruct (IH h2 u2 K2 V2) as (os & h3 & u3 & E3 & K3 & R3). cbn [history]. rewrite E, E3. exists (o :: os), h3, u3. auto.
  Qed.
End Step.

(** C60.  Take a handle in any state that hints, products and solves lead to (for
    instance a new one), and any program of such calls, of any length and in any order,
    each call valid for the user's matrix.  Every call is defined and returns the right
    result for the user's matrix; at the end the handle holds the same matrix and is
    again in such a state.  Missing (refuted under C16, C21, C30, C46): the calls excluded
    by [valid_call], rows that cannot be sorted. *)
Theorem C60_any_program_partial : forall T (O : ops T) re srt fz ft sup dt mvc tsc nthreads team w,
  env_ok O srt fz ft sup dt nthreads team -> div_law O -> (forall v, ocj O v = v -> re v = v) -> 0 < w ->
  forall h u cs, hint_hnd O h u -> diag_flag_ok h u -> sortable u ->
  Forall (valid_call O sup dt mvc tsc nthreads team w h u) cs ->
  exists os h' u', history O re srt fz ft sup dt mvc tsc nthreads team w cs h = Some (os, h') /\
    Forall2 (right_outcome O dt mvc tsc w h u) cs os /\
    hint_hnd O h' u' /\ diag_flag_ok h' u' /\ same_data u u' /\ H_m h' = H_m h /\ H_n h' = H_n h /\ H_nnz h' = H_nnz h.
Proof.
  intros T O re srt fz ft sup dt mvc tsc nthreads team w ENV HD Hre Hw h u cs HH FL Hs V.
  assert (SENV : solve_env O srt fz ft dt) by (destruct ENV; constructor; auto).
  destruct (history_ok O re srt fz ft sup dt mvc tsc nthreads team w ENV SENV Hre Hw h u Hs cs h u) as (os & h' & u' & E & (K1 & K2 & K3 & K4 & K5 & K6) & R); auto.
  - split; [exact HH|]. split; [exact FL|]. split; [apply same_data_refl|]. split; auto.
  - exists os, h', u'. auto 10.
Qed.
Print Assumptions C60_any_program_partial.

(** Concrete case: the matrix of C30; hint its symmetric product, multiply, solve with its
    upper triangle (unit diagonal, strides 1 and 2), sweep, multiply with another diagonal. *)
Definition C60_prog : list (@call Qc) :=
  [ call_prepare [mkHint su fm_upper false];
    call_mv op_none (Q2Qc 1) sg_d (sg_q [1;1;1]%Q) (Q2Qc 0) (sg_q [8;8;8]%Q);
    call_trsv op_none (Q2Qc 2) (mkDescr mt_triangular fm_upper dg_unit 1) (sg_q [1;2;3]%Q) 1 (sg_q [7;7;7;7;7]%Q) 2 (-1);
    call_symgs op_transpose sg_d (Q2Qc 1) (sg_q [1;2;3]%Q) (sg_q [1;1;1]%Q) (sg_q [8;8;8]%Q);
    call_mv op_none (Q2Qc 1) (mkDescr mt_symmetric fm_upper dg_unit 1) (sg_q [1;1;1]%Q) (Q2Qc 1) (sg_q [1;0;0]%Q) ].
Example C60_case_hyps : env_ok Qops isort tjunk tjunkq sg_sup dt_d 2 [1;0] /\ hint_hnd Qops sg_h sg_u /\ diag_flag_ok sg_h sg_u /\ sortable sg_u /\
  Forall (valid_call Qops sg_sup dt_d sg_mvc tpick 2 [1;0] 31 sg_h sg_u) C60_prog.
Proof.
  pose proof C30_pre_case as P. pose proof P as [K1 K2 K3 _ _ _ _ _ _ _ _ _ _ _ _ _ _ _ _].
  split; [|split; [|split; [exact K2|split; [exact K3|]]]].
  - constructor; [apply Qlaws|apply isort_contract| | |reflexivity|right; apply perm_swap|reflexivity]; intros z Hz; unfold tjunk, tjunkq; apply zlen_zrep; lia.
  - destruct K1 as (UM & _). split; [exact UM|]. exists []. split; [reflexivity|split; [discriminate|constructor]].
  - assert (MV : forall dg, hint_pre Qops dt_d (fresh sg_h sg_u) sg_u (mkDescr mt_symmetric fm_upper dg 1) op_none).
    { intros dg. constructor; try reflexivity; try discriminate. intros _. left. exact K3. }
    constructor; [|constructor; [|constructor; [|constructor; [|constructor; [|constructor]]]]]; cbn [valid_call].
    + intros e [<-|[]]. exists (mkDescr mt_symmetric fm_upper dg_non_unit 1), op_none. unfold hint_of. do 4 (split; [reflexivity|]). discriminate.
    + split; [exact (MV dg_non_unit)|split; reflexivity].
    + split; [|right; left; reflexivity]. constructor; try (cbn; lia); try reflexivity; auto; try discriminate.
      * split; [lia|reflexivity].
      * split; [lia|reflexivity].
    + split; [apply C30_env_case|]. split; [exact P|reflexivity].
    + split; [exact (MV dg_unit)|split; reflexivity].
Qed.
Definition C60_show (r : option (list (@outcome Qc) * hnd Qc)) :=
  match r with Some (os, h) => Some (map (fun '(s, a, b) => (s, option_map (map this) a, option_map (map this) b)) os, C59_view h) | None => None end.
Example C60_case_run : C60_show (history Qops (fun v => v) isort tjunk tjunkq sg_sup dt_d sg_mvc tpick 2 [1;0] 31 C60_prog sg_h) =
  Some ([ (success, None, None);
          (success, Some [6;7;7]%Q, None);
          (success, Some [4;7;-8;7;6]%Q, None);
          (success, Some [3#256; 11#64; 25#32]%Q, Some [1; 579#256; 891#256]%Q);
          (success, Some [4;4;4]%Q, None) ], [(gn, false); (su, false); (gn, true)]).
Proof. vm_compute. reflexivity. Qed.
