(** C27, C28: the ILU(0) smoother. *)
From Coq Require Import ZArith List Bool Lia ZifyBool QArith Qcanon.
From Verif Require Import Base BaseFacts Algebra Csr CheckModel Decide DoidModel DoidSpec MvModel HandleModel HandleSpec
  IluModel IluSpec IluProof IluHandleProof.
Import ListNotations.
Open Scope Z_scope.

(** C27.  For every accepted matrix (square CSR, sorted rows, full diagonal) and every b:
    on success the kept factors live on the stored pattern, L*U = A on every stored
    position, no pivot is near zero and x solves L*U*x = b; otherwise the status is
    numerical_error, x is untouched, no factors are handed out and elimination met a
    near-zero pivot. *)
Theorem C27_ilu0 : forall T (O : ops T) (near0 : T -> bool) (fz : Z -> list Z),
  laws O -> div_law O -> near0 (o0 O) = true -> (forall m, 0 <= m -> zlen (fz m) = m) ->
  forall h u d x bv, ilu_pre h u d -> zlen x = H_m h -> zlen bv = H_m h ->
  exists st x' out s',
    ilu_smoother O near0 fz op_none (Some h) None (Some d) true (Some x) (Some bv) = Some (st, Some x', out, Some s') /\
    (st = success /\ out = factors /\ il_fact s' = true /\ factored O near0 u (il_diag s') (il_val s') /\
       lu_solves O (c_m u) (csr_mat O (c_b u) (c_ptr u) (c_ind u) (il_val s')) x' bv \/
     st = numerical_error /\ out = null_ptr /\ x' = x /\ exists v i, zlen v = c_nnz u /\ 0 <= i < c_m u /\ let F := csr_mat O (c_b u) (c_ptr u) (c_ind u) v in
       ilu_rows O (c_m u) (c_b u) (c_ptr u) (c_ind u) F (csr_mat O (c_b u) (c_ptr u) (c_ind u) (c_val u)) (i + 1) /\
       near0 (F i i) = true /\ forall r, 0 <= r < i -> near0 (F r r) = false).
Proof. intros T O near0 fz L HD N0 FZ. exact (smoother_fresh O L HD near0 fz N0 FZ). Qed.
Print Assumptions C27_ilu0.

(** Every further call keeps the factors and solves with them. *)
Theorem C27_reuse : forall T (O : ops T) (near0 : T -> bool) (fz : Z -> list Z),
  laws O -> div_law O -> near0 (o0 O) = true -> (forall m, 0 <= m -> zlen (fz m) = m) ->
  forall h u d lu v x bv, ilu_pre h u d -> zlen x = H_m h -> zlen bv = H_m h -> factored O near0 u lu v ->
  exists x',
    ilu_smoother O near0 fz op_none (Some h) (Some (mkIlu true lu v)) (Some d) true (Some x) (Some bv) =
      Some (success, Some x', factors, Some (mkIlu true lu v)) /\
    lu_solves O (c_m u) (csr_mat O (c_b u) (c_ptr u) (c_ind u) v) x' bv.
Proof. intros T O near0 fz L HD N0 FZ. exact (smoother_again O L HD near0 fz N0 FZ). Qed.
Print Assumptions C27_reuse.

(** C28 without the case of a numerical failure (refuted below): whatever calls were made before
    on the handle, valid or not, a call that succeeds or is rejected on a fresh handle
    gives the same status, the same x and the same kind of factor pointer. *)
Theorem C28_outcome_stable_partial : forall T (O : ops T) near0 fz A op d pre x bv st x' out s1 s,
  ilu_smoother O near0 fz op A None d pre x bv = Some (st, x', out, s1) -> out <> null_ptr -> later O near0 fz A s ->
  exists s', ilu_smoother O near0 fz op A s d pre x bv = Some (st, x', out, s').
Proof. intros T O near0 fz. exact (smoother_stable O near0 fz). Qed.
Print Assumptions C28_outcome_stable_partial.

(** ** Concrete cases *)
Definition qv (l : list Q) : list Qc := map Q2Qc l.
Definition qz (v : Qc) : bool := oeqb Qops v (o0 Qops).
Definition ifz (m : Z) : list Z := zrep m 77.
Definition il_case (b : Z) (val : list Q) : cmat Qc := mkCmat 3 3 7 gn b (map (Z.add b) [0;2;5;7]) (map (Z.add b) [0;1;0;1;2;1;2]) (qv val) None None false dg_non_unit None.
Definition il_hnd (u : cmat Qc) (so : msort) : hnd Qc := mkHnd (c_m u) (c_n u) (c_nnz u) [Some u] so true false false [].
Definition il_descr (b : Z) : descr := mkDescr mt_general fm_lower dg_non_unit b.
Definition il_out (r : option (status * option (list Qc) * out_ptr * option (ilu_st (T:=Qc)))) :=
  match r with Some (st, x, o, s) => Some (st, option_map (map this) x, o, option_map (fun s => map this (il_val s)) s) | None => None end.

Ltac um := split; [split; [apply csr_wfb_ok; reflexivity | split; [apply diag_uniqueb_ok; reflexivity | split; [reflexivity | (left; reflexivity) || (right; reflexivity)]]]
  | split; [reflexivity | split; [reflexivity | split; [reflexivity | (left; split; [reflexivity | split; reflexivity]) || (right; split; [reflexivity | split; reflexivity])]]]].

Example C27_case_pre : forall b, b = 0 \/ b = 1 -> ilu_pre (il_hnd (il_case b [2;1;4;5;3;6;8]%Q) fully_sorted) (il_case b [2;1;4;5;3;6;8]%Q) (il_descr b).
Proof.
  intros b [-> | ->]; (constructor; try reflexivity; try (cbn; lia);
  [ um
  | exists []; reflexivity | apply rows_sortedb_ok; reflexivity | apply full_diagb_ok; reflexivity ]).
Qed.
(** A = [[2,1,0],[4,5,3],[0,6,8]]: L21 = 2, L32 = 2, U = [[2,1,0],[0,3,3],[0,0,2]]. *)
Example C27_case_success :
  il_out (ilu_smoother Qops qz ifz op_none (Some (il_hnd (il_case 1 [2;1;4;5;3;6;8]%Q) fully_sorted)) None (Some (il_descr 1)) true (Some (qv [0;0;0]%Q)) (Some (qv [3;12;14]%Q))) =
  Some (success, Some [1;1;1]%Q, factors, Some [2;1;2;3;3;2;2]%Q).
Proof. vm_compute. reflexivity. Qed.
Example C27_case_singular :
  il_out (ilu_smoother Qops qz ifz op_none (Some (il_hnd (il_case 1 [2;1;4;2;3;6;8]%Q) fully_sorted)) None (Some (il_descr 1)) true (Some (qv [7;7;7]%Q)) (Some (qv [3;12;14]%Q))) =
  Some (numerical_error, Some [7;7;7]%Q, null_ptr, Some [2;1;2;0;3;6;8]%Q).
Proof. vm_compute. reflexivity. Qed.

(** ** Cases in which the library fails the property *)

(** C27 for a CSC handle (accepted: create_csc also records the CSR input format): the
    factors are those of the transposed matrix and x solves A^T x = b.
    A = [[1,2],[0,1]] as CSC. *)
Definition csc_u : cmat Qc := mkCmat 2 2 3 gt 0 [0;1;3] [0;0;1] (qv [1;2;1]%Q) None None false dg_non_unit None.
Theorem C27_csc_refuted : exists h u d x bv x' s', user_mat h u /\ c_doid u = gt /\ H_sort h = fully_sorted /\ H_full h = true /\
  rows_sorted (c_m u) (c_b u) (c_ptr u) (c_ind u) /\ full_diag (c_m u) (c_n u) (c_b u) (c_ptr u) (c_ind u) /\
  ilu_smoother Qops qz ifz op_none (Some h) None (Some d) true (Some x) (Some bv) = Some (success, Some x', factors, Some s') /\
  (* A has no fill, so L*U = A; yet A*x' is not b *)
  sumz Qops 0 2 (fun j => hnd_mat Qops u 1 j * nthZ (o0 Qops) x' j)%Qc <> nthZ (o0 Qops) bv 1.
Proof.
  exists (mkHnd 2 2 3 [Some csc_u] fully_sorted true false false []), csc_u, (il_descr 0), (qv [0;0]%Q), (qv [1;0]%Q).
  eexists. eexists. split; [|split; [|split; [|split; [|split; [|split; [|split; [vm_compute; reflexivity|]]]]]]]; try reflexivity.
  - um.
  - apply rows_sortedb_ok; reflexivity.
  - apply full_diagb_ok; reflexivity.
  - intros E. apply (f_equal this) in E. vm_compute in E. discriminate.
Qed.
Print Assumptions C27_csc_refuted.

(** C27 for rows that are only grouped (lower | diagonal | upper, accepted as
    "partially sorted"): the last row stores its columns as 1, 0, 2.  The call succeeds
    but L*U differs from A at the stored position (2, 2). *)
Definition ps_u : cmat Qc := mkCmat 3 3 9 gn 0 [0;3;6;9] [0;1;2;0;1;2;1;0;2] (qv [1;1;1; 1;2;2; 3;1;7]%Q) None None false dg_non_unit None.
Theorem C27_partially_sorted_refuted : exists h u d x bv x' s', user_mat h u /\ c_doid u = gn /\ H_sort h = partially_sorted /\ H_full h = true /\
  rows_grouped (c_m u) (c_b u) (c_ptr u) (c_ind u) /\ full_diag (c_m u) (c_n u) (c_b u) (c_ptr u) (c_ind u) /\
  ilu_smoother Qops qz ifz op_none (Some h) None (Some d) true (Some x) (Some bv) = Some (success, Some x', factors, Some s') /\
  ~ ilu_rows Qops (c_m u) (c_b u) (c_ptr u) (c_ind u) (csr_mat Qops (c_b u) (c_ptr u) (c_ind u) (il_val s')) (csr_mat Qops (c_b u) (c_ptr u) (c_ind u) (c_val u)) (c_m u).
Proof.
  exists (il_hnd ps_u partially_sorted), ps_u, (il_descr 0), (qv [0;0;0]%Q), (qv [1;1;1]%Q).
  eexists. eexists. split; [|split; [|split; [|split; [|split; [|split; [|split; [vm_compute; reflexivity|]]]]]]]; try reflexivity.
  - um.
  - apply rows_groupedb_ok; reflexivity.
  - apply full_diagb_ok; reflexivity.
  - intros R. assert (Q : exists k, in_row (c_ptr ps_u) (c_b ps_u) 2 k /\ zn (c_ind ps_u) k = 2 + c_b ps_u) by (exists 8; split; [split; vm_compute; congruence|reflexivity]).
    assert (B2 : 0 <= 2 < c_m ps_u) by (cbn; lia).
    specialize (R 2 2 B2 B2 Q). apply (f_equal this) in R. vm_compute in R. discriminate.
Qed.
Print Assumptions C27_partially_sorted_refuted.

(** C28 fails after a numerical failure: the values are factored in place, the handle
    keeps the half-done factors and the next call starts from them.  [[1,1],[1,1]] is
    refused, then accepted with a wrong answer. *)
Definition sing_u : cmat Qc := mkCmat 2 2 4 gn 0 [0;2;4] [0;1;0;1] (qv [1;1;1;1]%Q) None None false dg_non_unit None.
Theorem C28_failure_not_repeated_refuted : exists h u d x bv s1 x2 s2, ilu_pre h u d /\
  ilu_smoother Qops qz ifz op_none (Some h) None (Some d) true (Some x) (Some bv) = Some (numerical_error, Some x, null_ptr, s1) /\
  ilu_smoother Qops qz ifz op_none (Some h) s1 (Some d) true (Some x) (Some bv) = Some (success, Some x2, factors, Some s2) /\
  ~ ilu_rows Qops (c_m u) (c_b u) (c_ptr u) (c_ind u) (csr_mat Qops (c_b u) (c_ptr u) (c_ind u) (il_val s2)) (csr_mat Qops (c_b u) (c_ptr u) (c_ind u) (c_val u)) (c_m u).
Proof.
  exists (il_hnd sing_u fully_sorted), sing_u, (il_descr 0), (qv [0;0]%Q), (qv [1;2]%Q). eexists. eexists. eexists.
  split; [|split; [vm_compute; reflexivity|split; [vm_compute; reflexivity|]]].
  - constructor; try reflexivity; try (cbn; lia);
      [ um
      | exists []; reflexivity | apply rows_sortedb_ok; reflexivity | apply full_diagb_ok; reflexivity ].
  - intros R. assert (Q : exists k, in_row (c_ptr sing_u) (c_b sing_u) 1 k /\ zn (c_ind sing_u) k = 1 + c_b sing_u) by (exists 3; split; [split; vm_compute; congruence|reflexivity]).
    assert (B1 : 0 <= 1 < c_m sing_u) by (cbn; lia).
    specialize (R 1 1 B1 B1 Q). apply (f_equal this) in R. vm_compute in R. discriminate.
Qed.
Print Assumptions C28_failure_not_repeated_refuted.

(** C28_outcome_stable_partial applies: a later state reached through a rejected and a
    successful call. *)
Example C28_case_later :
  let A := Some (il_hnd (il_case 1 [2;1;4;5;3;6;8]%Q) fully_sorted) in
  exists s, s <> None /\ later Qops qz ifz A s /\
    il_out (ilu_smoother Qops qz ifz op_none A s (Some (il_descr 1)) true (Some (qv [0;0;0]%Q)) (Some (qv [3;12;14]%Q))) =
    Some (success, Some [1;1;1]%Q, factors, Some [2;1;2;3;3;2;2]%Q).
Proof.
  cbv zeta. eexists. split; [|split].
  2:{ eapply later_S with (op := op_none) (d := Some (il_descr 1)) (pre := true) (x := Some (qv [5;5;5]%Q)) (bv := Some (qv [1;2;3]%Q)).
      - eapply later_S with (op := op_none) (d := Some (il_descr 0)) (pre := true) (x := Some (qv [0;0;0]%Q)) (bv := Some (qv [1;2;3]%Q)); [apply later_0|reflexivity].
      - vm_compute. reflexivity. }
  - discriminate.
  - vm_compute. reflexivity.
Qed.
