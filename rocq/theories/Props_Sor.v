(** C29: the SOR sweep. *)
From Coq Require Import ZArith List Bool Lia ZifyBool QArith Qcanon.
From Verif Require Import Base BaseFacts Algebra Csr CheckModel Decide SortInst DoidModel DoidSpec MvModel HandleModel HandleSpec
  SorModel SorSpec SorProof.
Import ListNotations.
Open Scope Z_scope.

(** C29.  Every square CSR matrix, rows in any order, either base, any omega and alpha: when no diagonal
    entry is zero the call succeeds and x becomes one forward sweep; when some
    diagonal entry is zero or missing it is refused and x is kept.  A handle whose
    diagonal was already accepted (or recorded as complete by an optimisation) is not
    tested again; for it the diagonal must be non-zero.  Missing (refuted below): that
    case, and CSC matrices. *)
Theorem C29_sor_sweep_partial : forall T (O : ops T), laws O ->
  forall h u d omega alpha x bv, sor_pre h u d x bv ->
  (H_optfull h = true -> forall i, 0 <= i < H_m h -> hnd_mat O u i i <> o0 O) ->
  exists st x' h',
    sorv O false sor_forward (Some d) (Some h) omega alpha (Some x) (Some bv) = Some (st, Some x', Some h') /\
    ((forall i, 0 <= i < H_m h -> hnd_mat O u i i <> o0 O) ->
       st = success /\ h' = set_optfull h /\ sor_sweep O (H_m h) (hnd_mat O u) omega alpha bv x x') /\
    ((exists i, 0 <= i < H_m h /\ hnd_mat O u i i = o0 O) -> st = invalid_value /\ x' = x /\ h' = h).
Proof. intros T O L. exact (sorv_ok O L). Qed.
Print Assumptions C29_sor_sweep_partial.

(** Whatever the arguments, a call that does not succeed leaves x and the handle alone. *)
Theorem C29_failure_keeps_x : forall T (O : ops T) cplx ty d A omega alpha x bv st x' A',
  sorv O cplx ty d A omega alpha x bv = Some (st, x', A') -> st <> success -> x' = x /\ A' = A.
Proof.
  intros T O cplx ty d A omega alpha x bv st x' A' E N. unfold sorv in E. destruct cplx; [injection E as <- <- <-; auto|].
  destruct A as [h|]; [|injection E as <- <- <-; auto]. destruct d as [d|]; [|injection E as <- <- <-; auto].
  destruct x as [x|]; [|injection E as <- <- <-; auto]. destruct bv as [bv|]; [|injection E as <- <- <-; auto].
  destruct (H_mats h) as [|[u|] r]; try (injection E as <- <- <-; auto).
  destruct (negb _); [injection E as <- <- <-; auto|]. destruct (negb _); [injection E as <- <- <-; auto|].
  destruct (_ =? _); [injection E as <- <- <-; auto|]. destruct (_ || _); [injection E as <- <- <-; auto|]. destruct (negb _); [injection E as <- <- <-; auto|].
  destruct ty; try (injection E as <- <- <-; auto).
  match type of E with match ?m with _ => _ end = _ => destruct m as [(ok & h1)|]; [|discriminate] end.
  destruct ok; cbn [negb] in E; [|injection E as <- <- <-; auto].
  destruct (scale_x _ _ _ _); [|discriminate]. destruct (sor_sweep_fwd _ _ _ _ _ _ _ _ _); [|discriminate]. injection E as <- <- <-. congruence.
Qed.
Print Assumptions C29_failure_keeps_x.

(** ** Concrete cases *)
Definition qs (l : list Q) : list Qc := map Q2Qc l.
(** [[4,1,0],[2,5,1],[1,0,3]], base 1, columns of each row in mixed order *)
Definition so_u (d3 : Q) : cmat Qc := mkCmat 3 3 7 gn 1 [1;3;6;8] [2;1;3;2;1;3;1] (qs [1;4;1;5;2;d3;1]%Q) None None false dg_non_unit None.
Definition so_h (u : cmat Qc) : hnd Qc := mkHnd (c_m u) (c_n u) (c_nnz u) [Some u] unsorted true false false [].
Definition so_d : descr := mkDescr mt_general fm_lower dg_non_unit 1.
Ltac um := split; [split; [apply csr_wfb_ok; reflexivity | split; [apply diag_uniqueb_ok; reflexivity | split; [reflexivity | (left; reflexivity) || (right; reflexivity)]]]
  | split; [reflexivity | split; [reflexivity | split; [reflexivity | (left; split; [reflexivity | split; reflexivity]) || (right; split; [reflexivity | split; reflexivity])]]]].
Example C29_case_pre : sor_pre (so_h (so_u 3)) (so_u 3) so_d (qs [1;1;1;9]%Q) (qs [5;8;4]%Q) /\
  forall i, 0 <= i < 3 -> hnd_mat Qops (so_u 3) i i <> o0 Qops.
Proof.
  split.
  - constructor; try reflexivity; try (vm_compute; congruence); [um|exists []; reflexivity].
  - intros i Hi. assert (C : i = 0 \/ i = 1 \/ i = 2) by lia. destruct C as [-> | [-> | ->]]; intros E; apply (f_equal this) in E; vm_compute in E; discriminate.
Qed.
Definition so_out (r : option (status * option (list Qc) * option (hnd Qc))) :=
  match r with Some (st, x, h) => Some (st, option_map (map this) x, option_map H_optfull h) | None => None end.
Example C29_case_run : so_out (sorv Qops false sor_forward (Some so_d) (Some (so_h (so_u 3))) (Q2Qc (1#2)) (Q2Qc 2) (Some (qs [1;1;1;9]%Q)) (Some (qs [5;8;4]%Q))) =
  Some (success, Some [11#8; 53#40; 23#16; 9]%Q, Some true).
Proof. vm_compute. reflexivity. Qed.
Example C29_case_zero : so_out (sorv Qops false sor_forward (Some so_d) (Some (so_h (so_u 0))) (Q2Qc (1#2)) (Q2Qc 2) (Some (qs [1;1;1;9]%Q)) (Some (qs [5;8;4]%Q))) =
  Some (invalid_value, Some [1;1;1;9]%Q, Some false).
Proof. vm_compute. reflexivity. Qed.

(** ** Cases in which the library fails the property *)

(** The zero-diagonal test is skipped when the handle records a complete diagonal;
    the optimisation of the handle records completeness of the pattern only.  The same
    matrix is refused on a fresh handle and accepted, with a division by zero, once the
    handle was optimised. *)
Theorem C29_zero_diagonal_refuted : exists h u d h' x bv x1 x2 h2, sor_pre h u d x bv /\
  hnd_mat Qops u 2 2 = o0 Qops /\
  sorv Qops false sor_forward (Some d) (Some h) (o1 Qops) (o1 Qops) (Some x) (Some bv) = Some (invalid_value, Some x1, Some h) /\
  csr_csc_optimize Qops isort (fun m => zrep m 0) (fun m => zrep m (o0 Qops)) h = Some (success, h', Some 1) /\
  sorv Qops false sor_forward (Some d) (Some h') (o1 Qops) (o1 Qops) (Some x) (Some bv) = Some (success, Some x2, Some h2).
Proof.
  exists (so_h (so_u 0)), (so_u 0), so_d. eexists. exists (qs [1;1;1]%Q), (qs [5;8;4]%Q). eexists. eexists. eexists.
  split; [|split; [|split; [vm_compute; reflexivity|split; [vm_compute; reflexivity|vm_compute; reflexivity]]]].
  - constructor; try reflexivity; try (vm_compute; congruence); [um|exists []; reflexivity].
  - vm_compute. reflexivity.
Qed.
Print Assumptions C29_zero_diagonal_refuted.

(** CSC handles are accepted and swept with the transposed matrix: A = [[1,2],[0,1]],
    omega = 1, x = 0, b = (0,1): the sweep of A gives (0,1), the call the same; b = (1,1)
    gives (1,1) for A but the call returns (1,-1). *)
Definition sc_u : cmat Qc := mkCmat 2 2 3 gt 0 [0;1;3] [0;0;1] (qs [1;2;1]%Q) None None false dg_non_unit None.
Theorem C29_csc_refuted : exists h u d x bv x' h', user_mat h u /\ c_doid u = gt /\ H_mats h = [Some u] /\ H_m h = H_n h /\
  sorv Qops false sor_forward (Some d) (Some h) (o1 Qops) (o1 Qops) (Some x) (Some bv) = Some (success, Some x', Some h') /\
  ~ sor_sweep Qops (H_m h) (hnd_mat Qops u) (o1 Qops) (o1 Qops) bv x x'.
Proof.
  exists (so_h sc_u), sc_u, (mkDescr mt_general fm_lower dg_non_unit 0), (qs [0;0]%Q), (qs [1;1]%Q). eexists. eexists.
  split; [um|split; [reflexivity|split; [reflexivity|split; [reflexivity|split; [vm_compute; reflexivity|]]]]].
  intros (_ & _ & S). assert (B : 0 <= 1 < H_m (so_h sc_u)) by (cbn; lia). specialize (S 1 B). apply (f_equal this) in S. vm_compute in S. discriminate.
Qed.
Print Assumptions C29_csc_refuted.
