(** C59: solves on handles holding copies made for hinted products. *)
From Coq Require Import ZArith List Bool Lia ZifyBool QArith Qcanon Permutation.
From Verif Require Import Base BaseFacts Algebra Csr CheckModel CheckSpec Decide SortSpec SortInst DoidModel DoidSpec DenseSpec
  UtilModel MvModel MvSpec CsrmvModel HandleModel HandleSpec HandleFacts OptProof ExpandModel ExpandSpec CsrmmSpec HintMvSpec TrsvModel TrsvSpec TrsmModel TrsmSpec
  SymgsModel SymgsSpec HintSolveProof HintSymgsProof Props_Trsv Props_Trsm Props_Symgs Props_Expand Props_HintMv.
Import ListNotations.
Open Scope Z_scope.

(** The handle without the copies made for hinted products: the user's matrix and the
    optimised copies remain. *)
Definition without_hints {T} (h : hnd T) : hnd T :=
  set_mats h (match H_mats h with
              | [] => []
              | u :: rest => u :: filter (fun e => match e with Some c => c_opt c | None => false end) rest
              end).

Lemma without_stripped : forall T (O : ops T) h u, hint_hnd O h u -> stripped h (without_hints h).
Proof. intros T O h u (_ & rest & EM & _). exists u, rest. split; [exact EM|]. unfold without_hints. rewrite EM. reflexivity. Qed.
Lemma stripped_without : forall T (h h0 : hnd T), stripped h h0 -> without_hints h = h0.
Proof. intros T h h0 (u & rest & EM & ->). unfold without_hints. rewrite EM. reflexivity. Qed.
Lemma without_ok : forall T (O : ops T) h u, hint_hnd O h u -> hnd_ok (o0 O) (without_hints h) u.
Proof. intros T O h u HH. destruct (hint_strip O h u HH) as (h0 & ST & K). rewrite (stripped_without _ _ _ ST). exact K. Qed.
Lemma first_same : forall T (O : ops T) h h0 u v, stripped h h0 -> hint_hnd O h u -> hnd_ok (o0 O) h0 v -> u = v.
Proof. intros T O h h0 u v (a & l & EA & ->) (_ & r & EM & _) (_ & r' & EM' & _). cbn in EM'. congruence. Qed.

(** C59.  Triangular solve: the conclusions of C21 hold on every handle with hinted
    copies; the request is one that is valid for the user's matrix.  Missing: as in C21. *)
Theorem C59_trsv_partial : forall T (O : ops T) srt fz ft dt choice, solve_env O srt fz ft dt ->
  forall w h u d op alpha rhs incb x incx kid,
  0 < w -> hint_hnd O h u -> diag_flag_ok h u -> trsv_request O w (without_hints h) u d op rhs incb x incx ->
  (choice kid = Some 0 \/ (if c_doid u =? gt then is_none op else negb (is_none op)) = false \/
   alpha <> o0 O /\ rows_distinct (c_m u) (c_b u) (c_ptr u) (c_ind u)) ->
  exists st xr h' u',
    trsv O dt choice srt fz ft w op alpha (Some h) (Some d) (Some rhs) incb (Some x) incx kid = Some (st, xr, Some h') /\
    hint_hnd O h' u' /\ same_data u u' /\ diag_flag_ok h' u' /\
    H_m h' = H_m h /\ H_n h' = H_n h /\ H_nnz h' = H_nnz h /\ H_hints h' = H_hints h /\
    (st = success /\ (exists x1, xr = Some x1 /\ only_strided O (H_m h) incx x x1 /\
       solves O (H_m h) alpha (op_sem O op (described O mt_triangular (d_fill d) (d_diag d) (hnd_mat O u))) rhs incb x1 incx) \/
     st = invalid_value /\ xr = None /\ d_diag d = dg_non_unit /\ ~ full_diag (c_m u) (c_n u) (c_b u) (c_ptr u) (c_ind u) \/
     st = invalid_kid /\ xr = None /\ choice kid = None \/
     st = invalid_size /\ xr = None /\ (2 ^ w - 1 < (H_m h - 1) * incx \/ 2 ^ w - 1 < (H_m h - 1) * incb)).
Proof.
  intros T O srt fz ft dt choice ENV w h u d op alpha rhs incb x incx kid Hw HH FL RQ HC.
  destruct (C21_trsv_solves_partial T O srt fz ft dt choice ENV w _ u d op alpha rhs incb x incx kid Hw RQ HC) as (st & xr & g0 & v & E & K1 & K2 & K3 & D1 & D2 & D3 & D4 & R).
  pose proof (without_stripped T O h u HH) as ST. destruct ENV as [E1 E2 E3 E4 E5 E6].
  destruct (trsv_sim O srt fz ft E3 E4 E5 dt choice E6 _ _ u w op alpha d rhs incb x incx kid st xr g0 HH (tq_sort _ _ _ _ _ _ _ _ _ _ RQ) ST E) as (h' & u' & E' & ST' & HH' & SD).
  pose proof (first_same _ _ _ _ _ _ ST' HH' K1) as ->. destruct (stripped_dims _ _ ST') as (G1 & G2 & G3 & G4 & G5).
  exists st, xr, h', v. split; [exact E'|]. split; [exact HH'|]. split; [exact SD|]. split; [apply (strip_flag _ _ _ ST'); exact K3|].
  rewrite <- G1, <- G2, <- G3, <- G5. split; [exact D1|]. split; [exact D2|]. split; [exact D3|]. split; [exact D4|]. exact R.
Qed.
Print Assumptions C59_trsv_partial.

(** C59.  Several right-hand sides.  Missing: as in C46. *)
Theorem C59_trsm_partial : forall T (O : ops T) srt fz ft dt choice, solve_env O srt fz ft dt ->
  forall w sched h u d op alpha order B n ldb X ldx kid,
  0 < w -> hint_hnd O h u -> diag_flag_ok h u -> trsm_request O w (without_hints h) u d op order B n ldb X ldx -> Permutation sched (zrange 0 n) ->
  (choice kid = Some 0 \/ (if c_doid u =? gt then is_none op else negb (is_none op)) = false \/
   alpha <> o0 O /\ rows_distinct (c_m u) (c_b u) (c_ptr u) (c_ind u)) ->
  exists st X1 h' u',
    trsm O dt choice srt fz ft w sched op alpha (Some h) (Some d) order (Some B) n ldb (Some X) ldx kid = Some (st, Some X1, Some h') /\
    hint_hnd O h' u' /\ same_data u u' /\ diag_flag_ok h' u' /\
    H_m h' = H_m h /\ H_n h' = H_n h /\ H_nnz h' = H_nnz h /\ H_hints h' = H_hints h /\
    (st = success /\ only_window (o0 O) order ldx (H_m h) n X X1 /\
       solves_many O (H_m h) n alpha (op_sem O op (described O mt_triangular (d_fill d) (d_diag d) (hnd_mat O u))) order B ldb X1 ldx \/
     X1 = X /\
     (st = invalid_value /\ d_diag d = dg_non_unit /\ ~ full_diag (c_m u) (c_n u) (c_b u) (c_ptr u) (c_ind u) \/
      st = invalid_kid /\ choice kid = None \/
      st = invalid_size /\ (2 ^ w - 1 < (if order =? 0 then H_m h - 1 else n) * ldx \/ 2 ^ w - 1 < (if order =? 0 then H_m h - 1 else n) * ldb))).
Proof.
  intros T O srt fz ft dt choice ENV w sched h u d op alpha order B n ldb X ldx kid Hw HH FL RQ PM HC.
  destruct (C46_trsm_solves_partial T O srt fz ft dt choice ENV w sched _ u d op alpha order B n ldb X ldx kid Hw RQ PM HC) as (st & X1 & g0 & v & E & K1 & K2 & K3 & D1 & D2 & D3 & D4 & R).
  pose proof (without_stripped T O h u HH) as ST. destruct ENV as [E1 E2 E3 E4 E5 E6].
  destruct (trsm_sim O srt fz ft E3 E4 E5 dt choice E6 _ _ u w sched op alpha d order B n ldb X ldx kid st (Some X1) g0 HH (tmq_sort _ _ _ _ _ _ _ _ _ _ _ _ RQ) ST E) as (h' & u' & E' & ST' & HH' & SD).
  pose proof (first_same _ _ _ _ _ _ ST' HH' K1) as ->. destruct (stripped_dims _ _ ST') as (G1 & G2 & G3 & G4 & G5).
  exists st, X1, h', v. split; [exact E'|]. split; [exact HH'|]. split; [exact SD|]. split; [apply (strip_flag _ _ _ ST'); exact K3|].
  rewrite <- G1, <- G2, <- G3, <- G5. split; [exact D1|]. split; [exact D2|]. split; [exact D3|]. split; [exact D4|]. exact R.
Qed.
Print Assumptions C59_trsm_partial.

(** C59.  The copies are not looked at: whatever the arguments and the arithmetic (no
    law is assumed, so this holds bit for bit), both solves give the same status and
    the same x as on the handle without the copies. *)
Theorem C59_hints_irrelevant : forall T (O : ops T) srt fz ft dt choice,
  sort_contract srt -> (forall z, 0 <= z -> zlen (fz z) = z) -> (forall z, 0 <= z -> zlen (ft z) = z) ->
  (is_cplx dt = false -> forall a, ocj O a = a) ->
  forall w h u d op alpha, hint_hnd O h u -> sortable u ->
  (forall rhs incb x incx kid st xr h0,
     trsv O dt choice srt fz ft w op alpha (Some (without_hints h)) (Some d) (Some rhs) incb (Some x) incx kid = Some (st, xr, Some h0) ->
     exists h', trsv O dt choice srt fz ft w op alpha (Some h) (Some d) (Some rhs) incb (Some x) incx kid = Some (st, xr, Some h') /\ without_hints h' = h0) /\
  (forall sched order B n ldb X ldx kid st Xr h0,
     trsm O dt choice srt fz ft w sched op alpha (Some (without_hints h)) (Some d) order (Some B) n ldb (Some X) ldx kid = Some (st, Xr, Some h0) ->
     exists h', trsm O dt choice srt fz ft w sched op alpha (Some h) (Some d) order (Some B) n ldb (Some X) ldx kid = Some (st, Xr, Some h') /\ without_hints h' = h0).
Proof.
  intros T O srt fz ft dt choice E3 E4 E5 E6 w h u d op alpha HH Hs. pose proof (without_stripped T O h u HH) as ST. split.
  - intros rhs incb x incx kid st xr h0 E.
    destruct (trsv_sim O srt fz ft E3 E4 E5 dt choice E6 _ _ u w op alpha d rhs incb x incx kid st xr h0 HH Hs ST E) as (h' & u' & E' & ST' & _).
    exists h'. split; [exact E'|]. apply stripped_without, ST'.
  - intros sched order B n ldb X ldx kid st Xr h0 E.
    destruct (trsm_sim O srt fz ft E3 E4 E5 dt choice E6 _ _ u w sched op alpha d order B n ldb X ldx kid st Xr h0 HH Hs ST E) as (h' & u' & E' & ST' & _).
    exists h'. split; [exact E'|]. apply stripped_without, ST'.
Qed.
Print Assumptions C59_hints_irrelevant.

(** C59.  Symmetric Gauss-Seidel, alone and followed by the product; its inner products
    may be served by the copies.  Missing: as in C30. *)
Theorem C59_symgs_partial : forall T (O : ops T) srt fz ft sup dt mvc nthreads team tsc w,
  solve_env O srt fz ft dt -> symgs_env sup mvc tsc nthreads team ->
  forall h u d op alpha b x y_p, hint_hnd O h u -> diag_flag_ok h u -> symgs_pre O dt tsc w (without_hints h) u d op b x ->
  exists x' h' u', symgs O srt fz ft sup dt mvc nthreads team tsc w op (Some h) (Some d) alpha (Some b) (Some x) y_p false = Some (success, Some x', y_p, Some h') /\
    hint_hnd O h' u' /\ diag_flag_ok h' u' /\ same_data u u' /\
    symgs_sweep O (H_m h) (req_mat O u d op) alpha b x x'.
Proof.
  intros T O srt fz ft sup dt mvc nthreads team tsc w [L HD S1 S2 S3 S4] [E1 E2 E3 E4] h u d op alpha b x y_p HH FL PRE.
  destruct (hint_symgs_ok O L HD srt fz ft S1 S2 S3 sup dt mvc nthreads team tsc w E1 E2 S4 E3 E4 h _ u d op alpha b x y_p false HH FL (without_stripped T O h u HH) PRE)
    as (x' & yr & h' & u' & E & K1 & K2 & K3 & _ & _ & _ & K4 & K5 & _); [discriminate|].
  exists x', h', u'. rewrite K5 in E by reflexivity. auto.
Qed.
Print Assumptions C59_symgs_partial.

Theorem C59_symgs_mv_partial : forall T (O : ops T) srt fz ft sup dt mvc nthreads team tsc w,
  solve_env O srt fz ft dt -> symgs_env sup mvc tsc nthreads team ->
  forall h u d op alpha b x y, hint_hnd O h u -> diag_flag_ok h u -> symgs_pre O dt tsc w (without_hints h) u d op b x -> zlen y = H_m h ->
  exists x' y' h' u', symgs O srt fz ft sup dt mvc nthreads team tsc w op (Some h) (Some d) alpha (Some b) (Some x) (Some y) true = Some (success, Some x', Some y', Some h') /\
    hint_hnd O h' u' /\ diag_flag_ok h' u' /\ same_data u u' /\
    symgs_sweep O (H_m h) (req_mat O u d op) alpha b x x' /\
    zlen y' = H_m h /\ forall i, 0 <= i < H_m h -> nthZ (o0 O) y' i = rowx O (H_m h) (req_mat O u d op) x' i.
Proof.
  intros T O srt fz ft sup dt mvc nthreads team tsc w [L HD S1 S2 S3 S4] [E1 E2 E3 E4] h u d op alpha b x y HH FL PRE Ly.
  destruct (hint_symgs_ok O L HD srt fz ft S1 S2 S3 sup dt mvc nthreads team tsc w E1 E2 S4 E3 E4 h _ u d op alpha b x (Some y) true HH FL (without_stripped T O h u HH) PRE)
    as (x' & yr & h' & u' & E & K1 & K2 & K3 & _ & _ & _ & K4 & _ & K5); [eauto|].
  destruct (K5 eq_refl) as (y' & -> & Ly' & Ry). exists x', y', h', u'. auto 10.
Qed.
Print Assumptions C59_symgs_mv_partial.

(** Concrete case: the matrix of C21, hinted for a symmetric product with its lower
    triangle and for the transposed product; then solved. *)
Definition C59_hints := [mkHint sl fm_lower false; mkHint gt fm_lower false].
Definition C59_h : hnd Qc := match matrix_transform Qops (fun v => v) tjunk tjunkq (Some tq_hnd0) C59_hints with Some (_, Some h, _) => h | _ => tq_hnd0 end.
Definition C59_view {T} (h : hnd T) := map (fun o => match o with Some c => (c_doid c, c_opt c) | None => (99, false) end) (H_mats h).
Example C59_case_hyps : hint_hnd Qops C59_h tq_user /\ diag_flag_ok C59_h tq_user /\ C59_view C59_h = [(gn, false); (sl, false); (gt, false)] /\
  forall op, op = op_none \/ op = op_transpose ->
  trsv_request Qops 31 (without_hints C59_h) tq_user (mkDescr mt_triangular fm_lower dg_non_unit 1) op (qv [2;9;9;14]%Q) 1 (qv [7;7;7;7;7]%Q) 2.
Proof.
  assert (V : C59_view C59_h = [(gn, false); (sl, false); (gt, false)]) by (vm_compute; reflexivity).
  split; [|split; [|split; [exact V|]]].
  - assert (H0 : hint_hnd Qops tq_hnd0 tq_user) by (destruct tq_ok as ((UM & _) & _); split; [exact UM|]; exists []; split; [reflexivity|split; [discriminate|constructor]]).
    destruct (C58_prepared Qc Qops Qlaws (fun v => v) (fun v _ => eq_refl) tjunk tjunkq) with (dt := dt_d) (h := tq_hnd0) (u := tq_user) (hs := C59_hints) as (h' & hs' & E & HH & _).
    + intros z Hz. apply zlen_zrep; auto.
    + intros z Hz. apply zlen_zrep; auto.
    + exact H0.
    + intros e [<-|[<-|[]]].
      * exists (mkDescr mt_symmetric fm_lower dg_non_unit 1), op_none. unfold hint_of. do 4 (split; [reflexivity|]). discriminate.
      * exists (mkDescr mt_general fm_lower dg_non_unit 1), op_transpose. unfold hint_of. do 3 (split; [reflexivity|]). split; discriminate.
    + unfold C59_h. rewrite E. exact HH.
  - intros (c & Hc & Ho). exfalso. assert (I : In (c_doid c, c_opt c) (C59_view C59_h)).
    { unfold C59_view. apply in_map_iff. exists (Some c). auto. }
    rewrite V, Ho in I. destruct I as [I|[I|[I|[]]]]; discriminate.
  - intros op Hop. replace (without_hints C59_h) with tq_hnd0 by (vm_compute; reflexivity). apply C21_case_request, Hop.
Qed.
Example C59_case_run :
  match trsv Qops dt_d tpick isort tjunk tjunkq 31 op_none (Q2Qc 2) (Some C59_h) (Some (mkDescr mt_triangular fm_lower dg_non_unit 1))
    (Some (qv [2;9;9]%Q)) 1 (Some (qv [7;7;7;7;7]%Q)) 2 (-1) with
  | Some (st, Some x, Some h) => Some (st, map this x, C59_view h) | _ => None end
  = Some (success, [2; 7; 2; 7; 3 # 2]%Q, [(gn, false); (sl, false); (gt, false); (gn, true)]).
Proof. vm_compute. reflexivity. Qed.

(** The matrix of C30, hinted for the symmetric product that symgs_mv ends with: that
    product is served by the copy, the result is that of C30_run_case. *)
Definition C59_g : hnd Qc := match matrix_transform Qops (fun v => v) tjunk tjunkq (Some sg_h) [mkHint su fm_upper false] with Some (_, Some h, _) => h | _ => sg_h end.
Example C59_symgs_hyps : hint_hnd Qops C59_g sg_u /\ diag_flag_ok C59_g sg_u /\ C59_view C59_g = [(gn, false); (su, false)] /\
  symgs_pre Qops dt_d tpick 31 (without_hints C59_g) sg_u sg_d op_transpose (sg_q [1;2;3]%Q) (sg_q [1;1;1]%Q).
Proof.
  assert (V : C59_view C59_g = [(gn, false); (su, false)]) by (vm_compute; reflexivity).
  split; [|split; [|split; [exact V|]]].
  - assert (H0 : hint_hnd Qops sg_h sg_u) by (destruct (sg_hnd _ _ _ _ _ _ _ _ _ _ C30_pre_case) as (UM & _); split; [exact UM|]; exists []; split; [reflexivity|split; [discriminate|constructor]]).
    destruct (C58_prepared Qc Qops Qlaws (fun v => v) (fun v _ => eq_refl) tjunk tjunkq) with (dt := dt_d) (h := sg_h) (u := sg_u) (hs := [mkHint su fm_upper false]) as (h' & hs' & E & HH & _).
    + intros z Hz. apply zlen_zrep; auto.
    + intros z Hz. apply zlen_zrep; auto.
    + exact H0.
    + intros e [<-|[]]. exists (mkDescr mt_symmetric fm_upper dg_non_unit 1), op_none. unfold hint_of. do 4 (split; [reflexivity|]). discriminate.
    + unfold C59_g. rewrite E. exact HH.
  - intros (c & Hc & Ho). exfalso. assert (I : In (c_doid c, c_opt c) (C59_view C59_g)).
    { unfold C59_view. apply in_map_iff. exists (Some c). auto. }
    rewrite V, Ho in I. destruct I as [I|[I|[]]]; discriminate.
  - replace (without_hints C59_g) with sg_h by (vm_compute; reflexivity). exact C30_pre_case.
Qed.
Example C59_symgs_run : sg_show (symgs Qops isort tjunk tjunkq sg_sup dt_d sg_mvc 2 [1;0] tpick 31 op_transpose (Some C59_g) (Some sg_d) (Q2Qc 1) (Some (sg_q [1;2;3]%Q)) (Some (sg_q [1;1;1]%Q)) (Some (sg_q [8;8;8]%Q)) true) =
  Some (success, Some [3#256; 11#64; 25#32]%Q, Some [1; 579#256; 891#256]%Q).
Proof. vm_compute. reflexivity. Qed.
