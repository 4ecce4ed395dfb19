(** C61: what a call returns does not depend on what was done with the handle before, nor
    on threads, instruction set, kernels, sorting algorithm or contents of new memory. *)
From Coq Require Import ZArith List Bool Lia ZifyBool QArith Qcanon Permutation.
From Verif Require Import Base BaseFacts Algebra Csr CheckModel CheckSpec Decide SortSpec SortInst DoidModel DoidSpec DenseSpec
  UtilModel MvModel MvSpec CsrmvModel HandleModel HandleSpec HandleFacts OptProof ExpandModel ExpandSpec CsrmmSpec CsrmmProof HintMvSpec TrsvModel TrsvSpec TrsmModel TrsmSpec
  SymgsModel SymgsSpec HintSolveProof HintSymgsProof Props_Mv Props_Trsv Props_Trsm Props_Symgs Props_Expand Props_HintMv Props_HintSolve HistSpec UniqueProof Props_History.
Import ListNotations.
Open Scope Z_scope.

(** The same call up to the caller's choice of kernel and, for several right-hand sides,
    the order in which the columns are processed. *)
Inductive same_request {T} : @call T -> @call T -> Prop :=
| sr_refl : forall c, same_request c c
| sr_trsv : forall op alpha d rhs incb x incx kid kid',
    same_request (call_trsv op alpha d rhs incb x incx kid) (call_trsv op alpha d rhs incb x incx kid')
| sr_trsm : forall op alpha d order B n ldb X ldx kid kid' sched sched',
    same_request (call_trsm op alpha d order B n ldb X ldx kid sched) (call_trsm op alpha d order B n ldb X ldx kid' sched').

(** The triangle of a solve is invertible: its diagonal is taken as one, or stored (and
    then non-zero by [valid_call]). *)
Definition invertible {T} (u : cmat T) (c : @call T) : Prop :=
  match c with
  | call_trsv _ _ d _ _ _ _ _ | call_trsm _ _ d _ _ _ _ _ _ _ _ => d_diag d = dg_unit \/ full_diag (c_m u) (c_n u) (c_b u) (c_ptr u) (c_ind u)
  | _ => True
  end.

Definition status_of {T} (o : @outcome T) : status := fst (fst o).

(** a call that has only one output leaves the other unset *)
Lemma second_out : forall T (O : ops T) re srt fz ft sup dt mvc tsc nthreads team w c h st v1 v2 h',
  do_call O re srt fz ft sup dt mvc tsc nthreads team w c h = Some ((st, v1, v2), h') ->
  match c with call_symgs _ _ _ _ _ _ => True | call_prepare _ => v1 = None /\ v2 = None | _ => v2 = None end.
Proof.
  intros T O re srt fz ft sup dt mvc tsc nthreads team w c h st v1 v2 h' E. destruct c; cbn [do_call] in E; auto;
  match type of E with match ?m with _ => _ end = _ => destruct m as [[[a b] c]|]; [|discriminate] end.
  - destruct b; [|discriminate]. injection E as _ <- <- _. auto.
  - destruct c; [|discriminate]. injection E as _ _ <- _. reflexivity.
  - destruct c; [|discriminate]. injection E as _ _ <- _. reflexivity.
  - destruct c; [|discriminate]. injection E as _ _ <- _. reflexivity.
Qed.

Lemma diag_nz : forall T (O : ops T), laws O -> forall op ty fm (A : Z -> Z -> T) i, A i i <> o0 O -> op_sem O op (described O ty fm dg_non_unit A) i i <> o0 O.
Proof.
  intros T O L op ty fm A i N. destruct op, ty, fm; cbn [op_sem described descr_sem]; unfold mC, mT, mL, mU, mSL, mSU, mHL, mHU, with_diag; rewrite ?Z.leb_refl, ?Z.eqb_refl; auto using (cj_nz O L).
Qed.

Lemma outcome_unique : forall T (O : ops T), laws O -> div_law O ->
  forall sup1 sup2 dt mvc1 mvc2 tsc1 tsc2 nt1 nt2 team1 team2 w h u c1 c2 st1 st2 v1 v2 v1' v2',
  same_request c1 c2 -> invertible u c1 ->
  valid_call O sup1 dt mvc1 tsc1 nt1 team1 w h u c1 -> valid_call O sup2 dt mvc2 tsc2 nt2 team2 w h u c2 ->
  right_outcome O dt mvc1 tsc1 w h u c1 (st1, v1, v2) -> right_outcome O dt mvc2 tsc2 w h u c2 (st2, v1', v2') ->
  st1 = success -> st2 = success ->
  match c1 with call_prepare _ => True | call_symgs _ _ _ _ _ _ => v1 = v1' /\ v2 = v2' | _ => v1 = v1' end.
Proof.
  intros T O L HD sup1 sup2 dt mvc1 mvc2 tsc1 tsc2 nt1 nt2 team1 team2 w h u c1 c2 st1 st2 v1 v2 v1' v2' SR IV V1 V2 R1 R2 -> ->.
  assert (TR : forall op alpha d rhs incb x incx kid kid',
    valid_call O sup1 dt mvc1 tsc1 nt1 team1 w h u (call_trsv op alpha d rhs incb x incx kid) -> invertible u (call_trsv op alpha d rhs incb x incx kid) ->
    right_outcome O dt mvc1 tsc1 w h u (call_trsv op alpha d rhs incb x incx kid) (success, v1, v2) ->
    right_outcome O dt mvc2 tsc2 w h u (call_trsv op alpha d rhs incb x incx kid') (success, v1', v2') -> v1 = v1').
  { clear - L HD. intros op alpha d rhs incb x incx kid kid' (P & _) IV R1 R2. destruct P as [_ _ _ _ _ _ _ _ _ P1 _ _ P2 _ P3]. cbn [fresh set_mats H_m invertible right_outcome] in *.
    destruct R1 as [(_ & x1 & -> & A1 & B1)|[(F & _)|[(F & _)|(F & _)]]]; try discriminate F.
    destruct R2 as [(_ & x2 & -> & A2 & B2)|[(F & _)|[(F & _)|(F & _)]]]; try discriminate F.
    f_equal. destruct P2 as (P2 & _). eapply (trsv_unique O L HD op (d_fill d) (d_diag d) (hnd_mat O u)); eauto.
    intros E. apply P3; auto. destruct IV as [IV|IV]; [congruence|exact IV]. }
  assert (TM : forall op alpha d order B n ldb X ldx kid kid' sched sched',
    valid_call O sup1 dt mvc1 tsc1 nt1 team1 w h u (call_trsm op alpha d order B n ldb X ldx kid sched) -> invertible u (call_trsm op alpha d order B n ldb X ldx kid sched) ->
    right_outcome O dt mvc1 tsc1 w h u (call_trsm op alpha d order B n ldb X ldx kid sched) (success, v1, v2) ->
    right_outcome O dt mvc2 tsc2 w h u (call_trsm op alpha d order B n ldb X ldx kid' sched') (success, v1', v2') -> v1 = v1').
  { clear - L HD. intros op alpha d order B n ldb X ldx kid kid' sched sched' (P & _) IV R1 R2. destruct P as [_ _ _ _ _ _ _ _ _ _ P1 _ _ _ _ _ P3]. cbn [fresh set_mats H_m invertible right_outcome] in *.
    destruct R1 as (X1 & -> & [(_ & A1 & B1)|(_ & [(F & _)|[(F & _)|(F & _)]])]); try discriminate F.
    destruct R2 as (X2 & -> & [(_ & A2 & B2)|(_ & [(F & _)|[(F & _)|(F & _)]])]); try discriminate F.
    f_equal. eapply (trsm_unique O L HD op (d_fill d) (d_diag d) (hnd_mat O u)); eauto.
    intros E. apply P3; auto. destruct IV as [IV|IV]; [congruence|exact IV]. }
  destruct SR as [c| |]; [|eapply TR; eauto|eapply TM; eauto].
  destruct c as [hs|op alpha d x beta y|op alpha d rhs incb x incx kid|op alpha d order B n ldb X ldx kid sched|op d alpha b x y]; auto.
  - cbn [right_outcome] in *.
    destruct R1 as [(_ & y1 & -> & A1)|[(F & _)|(F & _)]]; try discriminate F.
    destruct R2 as [(_ & y2 & -> & A2)|[(F & _)|(F & _)]]; try discriminate F.
    f_equal. eapply mv_unique; eauto.
  - eapply TR; eauto.
  - eapply TM; eauto.
  - cbn [valid_call right_outcome] in *. destruct V1 as (_ & P & _). destruct P as [_ _ _ _ _ _ _ _ _ P1 _ _ P2 _ _ _ _ _ _]. cbn [fresh set_mats H_m] in *.
    destruct R1 as (_ & x1 & y1 & -> & -> & S1 & L1 & Q1). destruct R2 as (_ & x2 & y2 & -> & -> & S2 & L2 & Q2).
    assert (x1 = x2) as ->.
    { eapply (symgs_unique O L HD (H_m h) (req_mat O u d op)); eauto. intros i Hi. unfold req_mat. rewrite P1. apply diag_nz; auto. }
    split; [reflexivity|]. f_equal. apply (nthZ_ext _ (o0 O)); [lia|]. intros i Hi. rewrite Q1, Q2 by lia. reflexivity.
Qed.

(** C61.  Take two copies of one handle.  Run any valid program on the first and any other
    valid program on the second, in environments that may differ in the number of
    threads, their schedule, the supported instruction sets, the kernels picked, the
    sorting algorithm and the contents of new memory.  Then make the same valid call on
    both.  If both report success they return the same values.  Missing: as for C60; and
    the arithmetic is exact. *)
Theorem C61_same_result_partial : forall T (O : ops T) re srt1 fz1 ft1 sup1 mvc1 tsc1 nt1 team1 srt2 fz2 ft2 sup2 mvc2 tsc2 nt2 team2 dt w,
  env_ok O srt1 fz1 ft1 sup1 dt nt1 team1 -> env_ok O srt2 fz2 ft2 sup2 dt nt2 team2 ->
  div_law O -> (forall v, ocj O v = v -> re v = v) -> 0 < w ->
  forall h u, hint_hnd O h u -> diag_flag_ok h u -> sortable u ->
  forall cs1 cs2 c1 c2,
  Forall (valid_call O sup1 dt mvc1 tsc1 nt1 team1 w h u) (cs1 ++ [c1]) ->
  Forall (valid_call O sup2 dt mvc2 tsc2 nt2 team2 w h u) (cs2 ++ [c2]) ->
  same_request c1 c2 -> invertible u c1 ->
  exists os1 o1 h1 os2 o2 h2,
    history O re srt1 fz1 ft1 sup1 dt mvc1 tsc1 nt1 team1 w (cs1 ++ [c1]) h = Some (os1 ++ [o1], h1) /\
    history O re srt2 fz2 ft2 sup2 dt mvc2 tsc2 nt2 team2 w (cs2 ++ [c2]) h = Some (os2 ++ [o2], h2) /\
    (status_of o1 = success -> status_of o2 = success -> o1 = o2).
Proof.
  intros T O re srt1 fz1 ft1 sup1 mvc1 tsc1 nt1 team1 srt2 fz2 ft2 sup2 mvc2 tsc2 nt2 team2 dt w ENV1 ENV2 HD Hre Hw h u HH FL Hs cs1 cs2 c1 c2 V1 V2 SR IV.
  pose proof ENV1 as [L _ _ _ _ _ _].
  assert (RUN : forall srt fz ft sup mvc tsc nt team, env_ok O srt fz ft sup dt nt team -> forall cs c, Forall (valid_call O sup dt mvc tsc nt team w h u) (cs ++ [c]) ->
    exists os o h1 h', history O re srt fz ft sup dt mvc tsc nt team w (cs ++ [c]) h = Some (os ++ [o], h') /\
      do_call O re srt fz ft sup dt mvc tsc nt team w c h1 = Some (o, h') /\ right_outcome O dt mvc tsc w h u c o /\ valid_call O sup dt mvc tsc nt team w h u c).
  { clear - HD Hre Hw HH FL Hs. intros srt fz ft sup mvc tsc nt team ENV cs c V. assert (SENV : solve_env O srt fz ft dt) by (destruct ENV; constructor; auto).
    apply Forall_app in V. destruct V as (V & Vc). inversion Vc as [|? ? Vc1 _]; subst.
    destruct (history_ok O re srt fz ft sup dt mvc tsc nt team w ENV SENV Hre Hw h u Hs cs h u) as (os & h1 & u1 & E & K & _); auto.
    { split; [exact HH|]. split; [exact FL|]. split; [apply same_data_refl|]. split; auto. }
    destruct (step_ok O re srt fz ft sup dt mvc tsc nt team w ENV SENV Hre Hw h u Hs c h1 u1 K Vc1) as (o & h2 & u2 & E2 & _ & R).
    exists os, o, h1, h2. split; [|auto].
    clear - E E2. revert h os E. induction cs as [|c0 cs IH]; intros h os E; cbn [history app] in *.
    - injection E as <- ->. rewrite E2. reflexivity.
    - destruct (do_call O re srt fz ft sup dt mvc tsc nt team w c0 h) as [[o0 h0]|]; [|discriminate].
      destruct (history O re srt fz ft sup dt mvc tsc nt team w cs h0) as [[os' h3]|] eqn:E3; [|discriminate]. injection E as <- ->. rewrite (IH h0 os' E3). reflexivity. }
  destruct (RUN srt1 fz1 ft1 sup1 mvc1 tsc1 nt1 team1 ENV1 cs1 c1 V1) as (os1 & o1 & g1 & h1 & E1 & D1 & R1 & W1).
  destruct (RUN srt2 fz2 ft2 sup2 mvc2 tsc2 nt2 team2 ENV2 cs2 c2 V2) as (os2 & o2 & g2 & h2 & E2 & D2 & R2 & W2).
  exists os1, o1, h1, os2, o2, h2. split; [exact E1|]. split; [exact E2|]. destruct o1 as ((st1 & v1) & v2), o2 as ((st2 & v1') & v2'). unfold status_of. cbn [fst]. intros F1 F2.
  pose proof (outcome_unique T O L HD sup1 sup2 dt mvc1 mvc2 tsc1 tsc2 nt1 nt2 team1 team2 w h u c1 c2 st1 st2 v1 v2 v1' v2' SR IV W1 W2 R1 R2 F1 F2) as U.
  apply second_out in D1, D2. clear - F1 F2 U D1 D2 SR. subst st1 st2. destruct SR as [c| |]; [destruct c|..]; try (destruct D1, D2); try destruct U; subst; reflexivity.
Qed.
Print Assumptions C61_same_result_partial.

(** Concrete case: the solve of C60 after its hint and its product, on two threads with
    the kernel picked by the library; and as the first call, with one thread, other
    garbage in new memory, and the second kernel requested. *)
Definition C61_solve kid : @call Qc := call_trsv op_none (Q2Qc 2) (mkDescr mt_triangular fm_upper dg_unit 1) (sg_q [1;2;3]%Q) 1 (sg_q [7;7;7;7;7]%Q) 2 kid.
Definition C61_fz (k : Z) : list Z := zrep k 5.
Definition C61_ft (k : Z) : list Qc := zrep k (Q2Qc 3).
Example C61_case_hyps : env_ok Qops isort tjunk tjunkq sg_sup dt_d 2 [1;0] /\ env_ok Qops isort C61_fz C61_ft sg_sup dt_d 1 [0] /\
  hint_hnd Qops sg_h sg_u /\ diag_flag_ok sg_h sg_u /\ sortable sg_u /\
  Forall (valid_call Qops sg_sup dt_d sg_mvc tpick 2 [1;0] 31 sg_h sg_u) (firstn 2 C60_prog ++ [C61_solve (-1)]) /\
  Forall (valid_call Qops sg_sup dt_d sg_mvc tpick 1 [0] 31 sg_h sg_u) ([] ++ [C61_solve 1]) /\
  same_request (C61_solve (-1)) (C61_solve 1) /\ invertible sg_u (C61_solve (-1)).
Proof.
  destruct C60_case_hyps as (E & HH & FL & S & V). split; [exact E|]. split.
  { constructor; [apply Qlaws|apply isort_contract| | |reflexivity|left; reflexivity|reflexivity]; intros z Hz; unfold C61_fz, C61_ft; apply zlen_zrep; lia. }
  split; [exact HH|]. split; [exact FL|]. split; [exact S|]. unfold C60_prog in *. cbn [firstn app].
  inversion V as [|? ? V1 W1]; subst. inversion W1 as [|? ? V2 W2]; subst. inversion W2 as [|? ? V3 W3]; subst.
  split; [auto|]. split; [|split; [constructor|left; reflexivity]].
  constructor; [|constructor]. destruct V3 as (V3 & _). split; [exact V3|]. right; left; reflexivity.
Qed.
Example C61_case_run :
  option_map (fun r => last (fst r) (success, None, None)) (C60_show (history Qops (fun v => v) isort tjunk tjunkq sg_sup dt_d sg_mvc tpick 2 [1;0] 31 (firstn 2 C60_prog ++ [C61_solve (-1)]) sg_h)) = Some (success, Some [4;7;-8;7;6]%Q, None) /\
  option_map (fun r => last (fst r) (success, None, None)) (C60_show (history Qops (fun v => v) isort C61_fz C61_ft sg_sup dt_d sg_mvc tpick 1 [0] 31 [C61_solve 1] sg_h)) = Some (success, Some [4;7;-8;7;6]%Q, None).
Proof. vm_compute. split; reflexivity. Qed.
