(** C24: sparse products in one or two stages. *)
From Coq Require Import ZArith List Bool Lia Permutation.
From Verif Require Import Base BaseFacts Algebra Csr SortSpec CheckModel Decide DoidModel DoidSpec MvModel CsrmvModel HandleModel HandleSpec
  AddSpec Csr2mModel Csr2mSpec Csr2mProof Csr2mHandleProof Props_Add.
Import ListNotations.
Open Scope Z_scope.

(** C24.  The full computation, for all operations, CSR or CSC operands in either base
    and any number of threads in any order: with [l] the positions that receive a
    contribution, the call returns a handle holding op(A)*op(B) with exactly [zlen l]
    stored elements, or fails with invalid_size and no handle when that number exceeds
    the largest aoclsparse_int. *)
Theorem C24_full : forall T (O : ops T), laws O -> forall is_real, (is_real = true -> forall x, ocj O x = x) ->
  forall opA opB dA dB (e : call_env T) imax (A B : hnd T) a b C0, call_ok e -> 0 <= imax -> sp2m_pre opA opB dA dB A B a b ->
  let run := sp2m O is_real (e_fz e) (e_ft e) imax (e_tc e) (e_tf e) opA (Some dA) (Some A) opB (Some dB) (Some B) rq_full (Some C0) in
  exists l, structure_list opA opB A B a b l /\
    (imax < zlen l -> run = Some (invalid_size, None)) /\
    (zlen l <= imax -> exists C, run = Some (success, Some C) /\ H_nnz C = zlen l /\
       product_handle O (rows_of opA A) (cols_of opB B) (mat_prod O opA opB (cols_of opA A) a b) C).
Proof.
  intros T O L is_real HR opA opB dA dB e imax A B a b C0 He Hi PRE run.
  destruct (stage_run O L is_real HR opA opB dA dB e imax A B a b rq_full C0 He Hi PRE (or_intror eq_refl)) as (l & SL & H1 & H2).
  exists l. split; auto. split; auto. intros Hl. destruct (H2 Hl) as (C & E & N & PH). exists C. auto.
Qed.
Print Assumptions C24_full.

(** C24.  The counting stage makes a handle whose number of stored elements is exactly
    the number of positions of the product. *)
Theorem C24_count : forall T (O : ops T), laws O -> forall is_real, (is_real = true -> forall x, ocj O x = x) ->
  forall opA opB dA dB (e : call_env T) imax (A B : hnd T) a b C0, call_ok e -> 0 <= imax -> sp2m_pre opA opB dA dB A B a b ->
  let run := sp2m O is_real (e_fz e) (e_ft e) imax (e_tc e) (e_tf e) opA (Some dA) (Some A) opB (Some dB) (Some B) rq_count (Some C0) in
  exists l, structure_list opA opB A B a b l /\
    (imax < zlen l -> run = Some (invalid_size, None)) /\
    (zlen l <= imax -> exists C, run = Some (success, Some C) /\ H_nnz C = zlen l /\ output_of O is_real imax opA opB dA dB A B C).
Proof.
  intros T O L is_real HR opA opB dA dB e imax A B a b C0 He Hi PRE run.
  destruct (stage_run O L is_real HR opA opB dA dB e imax A B a b rq_count C0 He Hi PRE (or_introl eq_refl)) as (l & SL & H1 & H2).
  exists l. split; auto. split; auto. intros Hl. destruct (H2 Hl) as (C & E & N & _). exists C. split; auto. split; auto. exact (out_count O is_real imax opA opB dA dB A B e rq_count C0 C He (or_introl eq_refl) E).
Qed.
Print Assumptions C24_count.

(** C24.  After any history of the output handle, finalising it with handles of the
    counted structure, whatever their values, succeeds, keeps the number of stored
    elements and leaves the product of those values in it. *)
Theorem C24_finalize : forall T (O : ops T), laws O -> forall is_real, (is_real = true -> forall x, ocj O x = x) ->
  forall opA opB dA dB (e : call_env T) imax (A B : hnd T) a b (A' B' : hnd T) a' b' C, call_ok e -> sp2m_pre opA opB dA dB A B a b ->
  output_of O is_real imax opA opB dA dB A B C -> same_structure A A' -> same_structure B B' -> holds A' a' -> holds B' b' ->
  exists C', sp2m O is_real (e_fz e) (e_ft e) imax (e_tc e) (e_tf e) opA (Some dA) (Some A') opB (Some dB) (Some B') rq_finalize (Some (Some C)) = Some (success, Some C') /\
    H_nnz C' = H_nnz C /\ product_handle O (rows_of opA A') (cols_of opB B') (mat_prod O opA opB (cols_of opA A') a' b') C' /\
    output_of O is_real imax opA opB dA dB A B C'.
Proof.
  intros T O L is_real HR opA opB dA dB e imax A B a b A' B' a' b' C He PRE HO SA SB HA HB.
  destruct (final_run O L is_real HR opA opB dA dB e imax A B a b A' B' a' b' C He PRE HO SA SB HA HB) as (C' & E & N & PH). exists C'. split; auto. split; auto. split; auto. exact (out_final O is_real imax opA opB dA dB A B e C A' B' C' success HO He SA SB E).
Qed.
Print Assumptions C24_finalize.

(** C24.  aoclsparse_spmm is the full product op(A)*B. *)
Theorem C24_spmm : forall T (O : ops T), laws O -> forall is_real, (is_real = true -> forall x, ocj O x = x) ->
  forall opA (e : call_env T) imax (A B : hnd T) a b C0, call_ok e -> 0 <= imax -> holds A a -> holds B b -> valid_op opA = true -> cols_of opA A = H_m B ->
  let run := spmm O is_real (e_fz e) (e_ft e) imax (e_tc e) (e_tf e) opA (Some A) (Some B) (Some C0) in
  exists l, structure_list opA op_none A B a b l /\
    (imax < zlen l -> run = Some (invalid_size, None)) /\
    (zlen l <= imax -> exists C, run = Some (success, Some C) /\ H_nnz C = zlen l /\
       product_handle O (rows_of opA A) (H_n B) (mat_prod O opA op_none (cols_of opA A) a b) C).
Proof.
  intros T O L is_real HR opA e imax A B a b C0 He Hi HA HB Ho Hd run. unfold run.
  destruct (spmm_is O is_real opA e imax A B a b C0 HA HB Ho Hd) as (PRE & ->).
  exact (C24_full T O L is_real HR opA op_none _ _ e imax A B a b C0 He Hi PRE).
Qed.
Print Assumptions C24_spmm.

(** C24.  Calls that cannot be carried out are rejected and hand out no new handle. *)
Theorem C24_rejects : forall T (O : ops T) is_real (e : call_env T) imax opA opB dA dB (A B : option (hnd T)) rq C0,
  let run := sp2m O is_real (e_fz e) (e_ft e) imax (e_tc e) (e_tf e) opA dA A opB dB B rq (Some C0) in
  (A = None \/ B = None \/ dA = None \/ dB = None -> run = Some (invalid_pointer, C0)) /\
  forall A' B' a b dA' dB', A = Some A' -> B = Some B' -> dA = Some dA' -> dB = Some dB' -> holds A' a -> holds B' b ->
    let C := match rq with rq_finalize => C0 | _ => None end in
    (d_base dA' <> c_b a \/ d_base dB' <> c_b b -> run = Some (invalid_value, C)) /\
    (d_base dA' = c_b a -> d_base dB' = c_b b ->
       (d_type dA' <> mt_general \/ d_type dB' <> mt_general -> run = Some (not_implemented, C)) /\
       (d_type dA' = mt_general -> d_type dB' = mt_general ->
          (valid_op opA = false \/ valid_op opB = false -> run = Some (invalid_value, C)) /\
          (valid_op opA = true -> valid_op opB = true -> cols_of opA A' <> rows_of opB B' -> run = Some (invalid_size, C)))).
Proof.
  intros T O is_real e imax opA opB dA dB A B rq C0 run. unfold run. split.
  - intros H. unfold sp2m. destruct dA, dB, A, B; try reflexivity. destruct H as [H|[H|[H|H]]]; discriminate.
  - intros A' B' a b dA' dB' -> -> -> -> HA HB.
    assert (MA : get_mtx (H_mats A') = Some a) by (destruct HA as (_ & rest & ->); reflexivity). assert (MB : get_mtx (H_mats B') = Some b) by (destruct HB as (_ & rest & ->); reflexivity).
    assert (BA : c_b a = 0 \/ c_b a = 1) by (destruct HA as (((_ & _ & _ & ?) & _) & _); auto). assert (BB : c_b b = 0 \/ c_b b = 1) by (destruct HB as (((_ & _ & _ & ?) & _) & _); auto).
    unfold sp2m. rewrite MA, MB. split.
    + intros H. destruct (negb ((d_base dA' =? 0) || (d_base dA' =? 1)) || negb ((d_base dB' =? 0) || (d_base dB' =? 1))); [reflexivity|].
      replace (negb (c_b a =? d_base dA') || negb (c_b b =? d_base dB')) with true; [reflexivity|]. symmetry. apply orb_true_iff.
      destruct H; [left|right]; apply negb_true_iff, Z.eqb_neq; auto.
    + intros -> ->. replace (negb ((c_b a =? 0) || (c_b a =? 1)) || negb ((c_b b =? 0) || (c_b b =? 1))) with false by (destruct BA as [-> | ->], BB as [-> | ->]; reflexivity).
      rewrite !Z.eqb_refl. cbn [negb orb]. split.
      * intros H. destruct (d_type dA'), (d_type dB'); cbn; try reflexivity. destruct H; congruence.
      * intros -> ->. cbn [negb]. split.
        -- intros [H|H]; destruct opA, opB; try discriminate; reflexivity.
        -- intros H1 H2 H. apply Z.eqb_neq in H. destruct opA, opB; try discriminate; cbn [rows_of cols_of] in H; rewrite H; reflexivity.
Qed.
Print Assumptions C24_rejects.

(** A concrete case over the Gaussian integers: A a 2x3 CSR matrix in base one with a
    repeated position, B a 3x2 matrix stored as CSC in base zero, D a 2x3 CSC matrix. *)
Definition C24_a : cmat G := mkCmat 2 3 4 gn 1 [1;4;5] [3;1;3;2] [(1,1);(2,0);(3,0);(0,5)] None None false dg_non_unit None.
Definition C24_A : hnd G := C23_H 2 3 4 C24_a.
Definition C24_b : cmat G := mkCmat 2 3 3 gt 0 [0;2;3] [2;0;1] [(1,0);(4,4);(7,0)] None None false dg_non_unit None.
Definition C24_B : hnd G := C23_H 3 2 3 C24_b.
Definition C24_a2 : cmat G := mkCmat 2 3 4 gn 1 [1;4;5] [3;1;3;2] [(0,1);(5,0);(0,0);(1,1)] None None false dg_non_unit None.
Definition C24_A2 : hnd G := C23_H 2 3 4 C24_a2.
Definition C24_e1 : call_env G := mkEnv (fun n => zrep n 77) (fun n => zrep n (7,7)) [0] [0].
Definition C24_e2 : call_env G := mkEnv (fun n => zrep n 55) (fun n => zrep n (5,5)) [1;0] [2;0;1].
Definition C24_d0 := mkDescr mt_general fm_lower dg_non_unit 0.
Definition C24_d1 := mkDescr mt_general fm_lower dg_non_unit 1.
Lemma C24_env : call_ok C24_e1 /\ call_ok C24_e2.
Proof.
  split; (split; [intros n H; now apply zlen_zrep|]; split; [intros n H; now apply zlen_zrep|]; split; (split; [discriminate|])); cbn.
  - apply Permutation_refl.
  - apply Permutation_refl.
  - apply perm_swap.
  - apply (Permutation_trans (l' := [0;2;1])); [apply perm_swap|]. apply perm_skip. apply perm_swap.
Qed.
Example C24_hyps : sp2m_pre op_none op_none C24_d1 C24_d0 C24_A C24_B C24_a C24_b /\
  sp2m_pre op_conjugate_transpose op_transpose C24_d1 C24_d0 C24_A C24_B C24_a C24_b /\
  same_structure C24_A C24_A2 /\ same_structure C24_B C24_B.
Proof.
  assert (HA : holds C24_A C24_a) by (apply (holds_case G 2 3 4 gn 1); reflexivity). assert (HA2 : holds C24_A2 C24_a2) by (apply (holds_case G 2 3 4 gn 1); reflexivity).
  assert (HB : holds C24_B C24_b) by (apply (holds_case G 2 3 3 gt 0); reflexivity).
  split; [constructor; auto; reflexivity|]. split; [constructor; auto; reflexivity|]. split; repeat (split; [reflexivity|]).
  - exists C24_a, C24_a2. repeat (split; auto).
  - exists C24_b, C24_b. repeat (split; auto).
Qed.
Definition C24_show (r : option (status * option (hnd G))) :=
  match r with
  | Some (st, Some h) => Some (st, H_m h, H_n h, H_nnz h, map (fun c => match c with Some c => Some (c_doid c, c_ptr c, c_ind c, c_val c) | None => None end) (H_mats h))
  | Some (st, None) => Some (st, 0, 0, 0, [])
  | None => None
  end.
Definition C24_sp (e : call_env G) opA opB A B rq C :=
  sp2m Gops false (e_fz e) (e_ft e) 2147483647 (e_tc e) (e_tf e) opA (Some C24_d1) (Some A) opB (Some C24_d0) (Some B) rq (Some C).
Example C24_case_full : map C24_show [C24_sp C24_e1 op_none op_none C24_A C24_B rq_full None; C24_sp C24_e2 op_none op_none C24_A C24_B rq_full None]
  = let r := Some (success, 2, 2, 2, [Some (gn, [0;1;2], [0;1], [(12,9);(0,35)])]) in [r; r].
Proof. reflexivity. Qed.
Example C24_case_ct : C24_show (C24_sp C24_e2 op_conjugate_transpose op_transpose C24_A C24_B rq_full None)
  = Some (success, 3, 3, 5, [Some (gn, [0;2;3;5], [2;0;1;2;0], [(2,0);(8,8);(0,-35);(4,-1);(20,12)])]).
Proof. vm_compute. reflexivity. Qed.
(** both operands end up transposed: the product is formed as a CSC matrix first *)
Example C24_case_both : C24_show (C24_sp C24_e2 op_conjugate_transpose op_none C24_A C23_B rq_full None)
  = Some (success, 3, 3, 5, [Some (gt, [0;2;2;5], [2;0;1;2;0], [(4,-1);(2,0);(20,-20);(28,-7);(14,0)]);
                             Some (gn, [0;2;3;5], [0;2;2;0;2], [(2,0);(14,0);(20,-20);(4,-1);(28,-7)])]).
Proof. vm_compute. reflexivity. Qed.
Example C24_case_stages : match C24_sp C24_e1 op_none op_none C24_A C24_B rq_count None with
  | Some (success, Some C) => match C24_sp C24_e2 op_none op_none C24_A C24_B rq_finalize (Some C) with
     | Some (success, Some C') => C24_show (C24_sp C24_e1 op_none op_none C24_A2 C24_B rq_finalize (Some C'))
     | _ => None end
  | _ => None end = Some (success, 2, 2, 2, [Some (gn, [0;1;2], [0;1], [(20,21);(7,7)])]).
Proof. vm_compute. reflexivity. Qed.

(** C24 refuted for other structures: a handle counted for one structure and finalised
    with operands of another (same dimensions) is written outside its arrays, although
    the library has a status (internal_error) for a wrong prediction. *)
Theorem C24_other_structure_refuted : exists (e : call_env Z) (A B A' : hnd Z) a b a' C,
  sp2m_pre op_none op_none C24_d0 C24_d0 A B a b /\ sp2m_pre op_none op_none C24_d0 C24_d0 A' B a' b /\ call_ok e /\
  output_of Zops true 2147483647 op_none op_none C24_d0 C24_d0 A B C /\
  sp2m Zops true (e_fz e) (e_ft e) 2147483647 (e_tc e) (e_tf e) op_none (Some C24_d0) (Some A') op_none (Some C24_d0) (Some B) rq_finalize (Some (Some C)) = None.
Proof.
  pose (e := mkEnv (fun n => zrep n 0) (fun n => zrep n 0) [0] [0] : call_env Z).
  pose (a := mkCmat 2 2 2 gn 0 [0;1;2] [0;1] [1;1] None None false dg_non_unit None : cmat Z). pose (a' := mkCmat 2 2 4 gn 0 [0;2;4] [0;1;0;1] [1;1;1;1] None None false dg_non_unit None : cmat Z).
  exists e, (C23_H 2 2 2 a), (C23_H 2 2 2 a), (C23_H 2 2 4 a'), a, a, a'. eexists.
  assert (HA : holds (C23_H 2 2 2 a) a) by (apply (holds_case Z 2 2 2 gn 0); reflexivity). assert (HA' : holds (C23_H 2 2 4 a') a') by (apply (holds_case Z 2 2 4 gn 0); reflexivity).
  assert (He : call_ok e). { split; [intros n H; now apply zlen_zrep|]; split; [intros n H; now apply zlen_zrep|]; split; (split; [discriminate|apply Permutation_refl]). }
  split; [constructor; auto; reflexivity|]. split; [constructor; auto; reflexivity|]. split; auto. split.
  - eapply (out_count _ _ _ _ _ _ _ _ _ e rq_count None); auto. reflexivity.
  - reflexivity.
Qed.
Print Assumptions C24_other_structure_refuted.
