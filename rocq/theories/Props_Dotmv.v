(** C47: a matrix-vector product followed by a dot product. *)
From Coq Require Import ZArith List Bool Lia Permutation.
From Verif Require Import Base BaseFacts Algebra Csr CheckSpec Decide SortSpec SortInst DispatchModel DoidModel DoidSpec MvModel MvSpec CsrmvModel
  HandleModel HandleSpec HandleFacts MvHandleProof L1Model L1Spec L1Proof DotmvModel Props_Mv Props_L1.
Import ListNotations.
Open Scope Z_scope.

(** C47.  The call is defined and keeps the handle consistent; on success y is the
    product of C15-C17 and d is the sum of conj(x_i) * y_i, i < min(m,n), over the new y;
    otherwise neither y nor d is written.
    Missing from the full property: the requests excluded by [mv_pre], see C16. *)
Theorem C47_dotmv_partial : forall T (O : ops T) srt fz ft sup dt choice nthreads team w256 w512 cpu,
  env_ok O srt fz ft sup dt nthreads team -> 0 < w256 -> 0 < w512 -> cpu_ok cpu ->
  forall h u d op alpha beta x y,
  hnd_ok (o0 O) h u -> mv_pre O dt h u d op ->
  let rows := match op with op_none => H_m h | _ => H_n h end in
  let cols := match op with op_none => H_n h | _ => H_m h end in
  zlen x = cols -> zlen y = rows ->
  exists st yr dr h' u',
    dotmv O srt fz ft sup dt choice nthreads team w256 w512 cpu op alpha (Some h) (Some d) (Some x) beta (Some y) true
      = Some (st, yr, dr, Some h') /\
    hnd_ok (o0 O) h' u' /\ same_data u u' /\
    H_m h' = H_m h /\ H_n h' = H_n h /\ H_nnz h' = H_nnz h /\ H_hints h' = H_hints h /\
    (st = success /\ (exists y', yr = Some y' /\
       mv_spec O rows cols alpha beta (op_sem O op (described O (d_type d) (d_fill d) (d_diag d) (hnd_mat O u))) x y y' /\
       dr = Some (sumz O 0 (Z.min (H_m h) (H_n h)) (fun i => omul O (ocj O (nthZ (o0 O) x i)) (nthZ (o0 O) y' i)))) \/
     st = invalid_kid /\ yr = None /\ dr = None /\ (exists k, choice k = None) \/
     st = not_implemented /\ yr = None /\ dr = None /\ declined dt (d_type d) op (c_doid u) = true).
Proof.
  intros T O srt fz ft sup dt choice nt team w256 w512 c [EL ES Ez Et Eu Em Er] W1 W2 C h u d op alpha beta x y HO PRE rows cols Lx Ly.
  destruct (mv_handle_ok O EL srt fz ft ES Ez Et sup Eu dt choice nt team Em Er h u d op alpha beta x y HO PRE Lx Ly)
    as (st & yr & h' & u' & E & E1 & E2 & D1 & D2 & D3 & D4 & R).
  unfold dotmv. cbn [negb]. rewrite E.
  destruct R as [(-> & y' & -> & SP)|[(-> & -> & K)|(-> & -> & K)]].
  - pose proof SP as [LY _]. rewrite D1, D2.
    assert (0 <= rows /\ 0 <= cols) by (pose proof (zlen_nonneg _ x); pose proof (zlen_nonneg _ y); lia).
    destruct (dense_dot_ok O EL w256 w512 W1 W2 c (-1) (Z.min (H_m h) (H_n h)) x y') as [-> |[? _]]; auto; try lia;
      try (subst rows cols; destruct op; lia).
    exists success, (Some y'). do 3 eexists. split; [reflexivity|]. split; [exact E1|]. ands; auto. left. split; [reflexivity|].
    exists y'. auto.
  - exists invalid_kid, None, None, h', u'. split; [reflexivity|]. ands; auto. right. left. auto.
  - exists not_implemented, None, None, h', u'. split; [reflexivity|]. ands; auto. right. right. auto.
Qed.
Print Assumptions C47_dotmv_partial.

(** A null handle or result pointer is rejected; the handle, y and d are untouched. *)
Theorem C47_null_rejected : forall T (O : ops T) srt fz ft sup dt choice nthreads team w256 w512 cpu op alpha A d x beta y has_d,
  A = None \/ has_d = false ->
  dotmv O srt fz ft sup dt choice nthreads team w256 w512 cpu op alpha A d x beta y has_d = Some (invalid_pointer, None, None, A).
Proof. intros. unfold dotmv. destruct A; [|reflexivity]. destruct H as [H|H]; [discriminate|]. rewrite H. reflexivity. Qed.
Print Assumptions C47_null_rejected.
(** Whatever the arguments, d is written exactly on success. *)
Theorem C47_result_iff_success : forall T (O : ops T) srt fz ft sup dt choice nthreads team w256 w512 cpu op alpha A d x beta y has_d st yr dr h',
  dotmv O srt fz ft sup dt choice nthreads team w256 w512 cpu op alpha A d x beta y has_d = Some (st, yr, dr, h') ->
  (st = success <-> dr <> None).
Proof.
  intros until h'. unfold dotmv. destruct A as [h|]; [|intros E; inversion E; split; congruence].
  destruct (negb has_d); [intros E; inversion E; split; congruence|].
  destruct (mv _ _ _ _ _ _ _ _ _ _ _ _ _ _ _ _) as [[[s y1] h1]|]; [|discriminate].
  destruct s; try (intros E; inversion E; split; congruence).
  destruct x as [x|]; [|discriminate]. destruct (match y1 with Some y1 => Some y1 | None => y end) as [y2|]; [|discriminate].
  destruct h1 as [h1|]; [|discriminate]. unfold dense_dot. destruct (pick4 cpu (-1)) as [k|].
  - assert (S : forall r s t, (if k =? 0 then dense_dot_ref O r x y2 else if k <=? 2 then dense_dot_kt O w256 r x y2 else dense_dot_kt O w512 r x y2) = Some (s, t) -> s = success).
    { intros r s t. unfold dense_dot_ref, dense_dot_kt. destruct (k =? 0); [|destruct (k <=? 2)];
      repeat match goal with |- match ?e with Some _ => _ | None => _ end = _ -> _ => destruct e; [|discriminate] end; intros E; inversion E; auto. }
    destruct (if k =? 0 then _ else _) as [[s t]|] eqn:Es; [|discriminate]. intros E; inversion E; subst. apply S in Es. split; congruence.
  - intros E; inversion E; split; congruence.
Qed.
Print Assumptions C47_result_iff_success.

(** ** Concrete cases *)
Example C47_case_pre : mv_pre Zops dt_d ex_hnd ex_user (mkDescr mt_general fm_lower dg_non_unit 1) op_none.
Proof. constructor; cbn [d_type d_diag d_base d_fill]; try reflexivity; intros; try discriminate; try congruence. Qed.
Definition dout {A} (r : option (status * option (list Z) * option Z * A)) :=
  match r with Some (s, y, d, _) => Some (s, y, d) | None => None end.
Example C47_case :
  dout (dotmv Zops isort junkz junkz all_isa dt_d pick2 2 [1;0] 4 8 l1_cpu op_none 2 (Some ex_hnd)
    (Some (mkDescr mt_general fm_lower dg_non_unit 1)) (Some [1;2;3]) 3 (Some [100;200;300]) true)
  = Some (success, Some [400;860;1200], Some 5720).
Proof. vm_compute. reflexivity. Qed.
