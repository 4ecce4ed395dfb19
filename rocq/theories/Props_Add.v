(** C23: sparse addition. *)
From Coq Require Import ZArith List Bool Lia Permutation.
From Verif Require Import Base BaseFacts Algebra Csr SortSpec CheckModel Decide DoidModel DoidSpec MvModel CsrmvModel HandleModel HandleSpec
  AddModel AddSpec AddProof.
Import ListNotations.
Open Scope Z_scope.

(** C23.  For all handles (CSR or CSC) and every operation, any number of threads in any
    order, one pass or two: the result is a valid CSR matrix in A's index base with
    C(i,j) = alpha*op(A)(i,j) + B(i,j).  The call can only fail if the number of stored
    elements may exceed the largest aoclsparse_int ([imax]); then no handle is made.
    Missing: rows of B must not hold a column twice (C23_duplicate_refuted) and the
    runtime must deliver the requested threads (C23_small_team_refuted); [fz], [ft] are
    the contents of freshly allocated arrays. *)
Theorem C23_add_partial : forall T (O : ops T), laws O -> forall (fz : Z -> list Z) (ft : Z -> list T) imax te op (A B : hnd T) a b alpha,
  (forall n, 0 <= n -> zlen (fz n) = n) -> (forall n, 0 <= n -> zlen (ft n) = n) -> threads_ok te ->
  holds A a -> holds B b -> conform op A B -> valid_op op = true -> rows_distinct (c_m b) (c_b b) (c_ptr b) (c_ind b) ->
  (exists C c, add_t O fz ft imax te op (Some A) alpha (Some B) false = Some (success, Some C) /\
     csr_result O (H_m B) (H_n B) (c_b a) (fun i j => oadd O (omul O alpha (op_sem O op (hnd_mat O a) i j)) (hnd_mat O b i j)) C c) \/
  add_t O fz ft imax te op (Some A) alpha (Some B) false = Some (internal_error, None) /\ imax < c_b a + H_nnz A + H_nnz B.
Proof. exact @add_ok. Qed.
Print Assumptions C23_add_partial.

(** C23.  One-pass and two-pass runs with any thread counts give the same arrays. *)
Theorem C23_same_result_partial : forall T (O : ops T), laws O -> forall (fz : Z -> list Z) (ft : Z -> list T) (fz' : Z -> list Z) (ft' : Z -> list T) imax te te' op (A B : hnd T) a b alpha C C',
  (forall n, 0 <= n -> zlen (fz n) = n) -> (forall n, 0 <= n -> zlen (ft n) = n) -> threads_ok te ->
  (forall n, 0 <= n -> zlen (fz' n) = n) -> (forall n, 0 <= n -> zlen (ft' n) = n) -> threads_ok te' ->
  holds A a -> holds B b -> conform op A B -> valid_op op = true -> rows_distinct (c_m b) (c_b b) (c_ptr b) (c_ind b) ->
  add_t O fz ft imax te op (Some A) alpha (Some B) false = Some (success, Some C) ->
  add_t O fz' ft' imax te' op (Some A) alpha (Some B) false = Some (success, Some C') ->
  exists c c', H_mats C = [Some c] /\ H_mats C' = [Some c'] /\ H_nnz C' = H_nnz C /\ c_ptr c' = c_ptr c /\
    prefix (H_nnz C) (c_ind c') = prefix (H_nnz C) (c_ind c) /\ prefix (H_nnz C) (c_val c') = prefix (H_nnz C) (c_val c).
Proof. exact @add_same. Qed.
Print Assumptions C23_same_result_partial.

(** C23.  Null handles and non-conforming dimensions are rejected and make no handle. *)
Theorem C23_rejects : forall T (O : ops T) (fz : Z -> list Z) (ft : Z -> list T) imax te op (A B : option (hnd T)) alpha Cnull,
  (A = None \/ B = None \/ Cnull = true -> add_t O fz ft imax te op A alpha B Cnull = Some (invalid_pointer, None)) /\
  (forall A' B', A = Some A' -> B = Some B' -> Cnull = false -> ~ conform op A' B' -> add_t O fz ft imax te op A alpha B Cnull = Some (invalid_size, None)).
Proof.
  intros. split.
  - intros [-> | [-> | ->]]; unfold add_t; [reflexivity | destruct A; reflexivity | destruct A, B; reflexivity].
  - intros A' B' -> -> -> H. unfold add_t. match goal with |- context [if ?x then Some (invalid_size, None) else _] => replace x with true; [reflexivity|] end.
    symmetry. destruct op; cbn [conform] in H; apply orb_true_iff;
      match goal with H : ~ (?x = ?y /\ ?z = ?w) |- _ => destruct (Z.eqb_spec x y); [right; destruct (Z.eqb_spec z w); [tauto|reflexivity] | left; reflexivity] end.
Qed.
Print Assumptions C23_rejects.

(** Deciding [holds] for concrete handles. *)
Definition C23_H {T} m n nnz (u : cmat T) : hnd T := mkHnd m n nnz [Some u] unsorted false false false [].
Lemma holds_case : forall T m n nnz d b ptr ind (val : list T),
  csr_wfb m n nnz b ptr ind = true -> diag_uniqueb m b ptr ind = true -> (zlen val =? nnz) = true -> (b =? 0) || (b =? 1) = true -> (d =? gn) || (d =? gt) = true ->
  let u := mkCmat m n nnz d b ptr ind val None None false dg_non_unit None in
  holds (C23_H (if d =? gn then m else n) (if d =? gn then n else m) nnz u) u.
Proof.
  intros T m n nnz d b ptr ind val H1 H2 H3 H4 H5 u. split; [|exists []; reflexivity]. split; [|split; [reflexivity|]; split; [reflexivity|]; split; [reflexivity|]].
  - split; [now apply csr_wfb_ok|]. split; [now apply diag_uniqueb_ok|]. split; [now apply Z.eqb_eq|]. apply orb_true_iff in H4. now rewrite !Z.eqb_eq in H4.
  - cbn. apply orb_true_iff in H5. destruct H5 as [H|H]; apply Z.eqb_eq in H; subst d; cbn; auto.
Qed.

(** A concrete case: A one-based CSR 2x3 with a duplicate entry, B zero-based CSC,
    Gaussian integers. *)
Definition C23_a : cmat G := mkCmat 2 3 4 gn 1 [1;4;5] [3;1;3;2] [(1,1);(2,0);(3,0);(0,5)] None None false dg_non_unit None.
Definition C23_A : hnd G := C23_H 2 3 4 C23_a.
(** stored transpose of a 2x3 matrix *)
Definition C23_b : cmat G := mkCmat 3 2 3 gt 0 [0;1;1;3] [0;1;0] [(1,0);(4,4);(7,0)] None None false dg_non_unit None.
Definition C23_B : hnd G := C23_H 2 3 3 C23_b.
(** a 3x2 matrix to add to the conjugate transpose of A *)
Definition C23_d : cmat G := mkCmat 3 2 2 gn 0 [0;1;1;2] [1;0] [(1,0);(0,1)] None None false dg_non_unit None.
Definition C23_D : hnd G := C23_H 3 2 2 C23_d.
Definition C23_fz (n : Z) : list Z := zrep n 77.
Definition C23_ft (n : Z) : list G := zrep n (7, 7).
Definition C23_te1 := mkThreads 1 [0] [0].
Definition C23_te3 := mkThreads 3 [1;0] [2;0;1].
Example C23_case_hyps : threads_ok C23_te1 /\ threads_ok C23_te3 /\ holds C23_A C23_a /\ holds C23_B C23_b /\ holds C23_D C23_d /\
  conform op_none C23_A C23_B /\ conform op_conjugate_transpose C23_A C23_D /\
  rows_distinct 3 0 [0;1;1;3] [0;1;0] /\ rows_distinct 3 0 [0;1;1;2] [1;0].
Proof.
  split; [split; [cbn; lia|]; split; [apply Permutation_refl|]; split; [discriminate|apply Permutation_refl]|].
  split. { split; [cbn; lia|]. cbn. split; [|split; [discriminate|apply perm_swap]]. apply (Permutation_trans (l' := [0;2;1])); [apply perm_swap|]. apply perm_skip. apply perm_swap. }
  split; [|split; [|split]]; [| | |cbn; repeat split; apply rows_distinctb_ok; reflexivity].
  - apply (holds_case G 2 3 4 gn 1); reflexivity.
  - apply (holds_case G 3 2 3 gt 0); reflexivity.
  - apply (holds_case G 3 2 2 gn 0); reflexivity.
Qed.
Definition C23_show (r : option (status * option (hnd G))) :=
  match r with
  | Some (st, Some h) => match H_mats h with [Some c] => Some (st, H_nnz h, c_ptr c, prefix (H_nnz h) (c_ind c), prefix (H_nnz h) (c_val c)) | _ => None end
  | _ => None
  end.
Example C23_case : map C23_show [add_t Gops C23_fz C23_ft 2147483647 C23_te1 op_none (Some C23_A) (2,0) (Some C23_B) false;
                                 add_t Gops C23_fz C23_ft 2147483647 C23_te3 op_none (Some C23_A) (2,0) (Some C23_B) false]
  = let r := Some (success, 5, [1;4;6], [3;1;3;2;3], [(2,2);(5,0);(13,0);(0,10);(4,4)]) in [r; r].
Proof. reflexivity. Qed.
Example C23_case_ct : C23_show (add_t Gops C23_fz C23_ft 2147483647 C23_te3 op_conjugate_transpose (Some C23_A) (0,1) (Some C23_D) false)
  = Some (success, 5, [1;3;4;6], [1;2;2;1;1], [(0,2);(1,0);(5,0);(1,1);(0,4)]).
Proof. reflexivity. Qed.

(** C23 refuted (finding B23): a row of B that holds a column twice, absent from A's row,
    makes the call write outside the result's arrays. *)
Theorem C23_duplicate_refuted : exists (A B : hnd Z) a b, holds A a /\ holds B b /\ conform op_none A B /\
  forall imax, 2147483647 <= imax -> add_t Zops (fun n => zrep n 0) (fun n => zrep n 0) imax (mkThreads 1 [0] [0]) op_none (Some A) 1 (Some B) false = None.
Proof.
  exists (C23_H 1 2 1 (mkCmat 1 2 1 gn 0 [0;1] [0] [1] None None false dg_non_unit None)), (C23_H 1 2 2 (mkCmat 1 2 2 gn 0 [0;2] [1;1] [1;1] None None false dg_non_unit None)).
  eexists; eexists. split; [|split; [|split; [split; reflexivity|]]].
  1: apply (holds_case Z 1 2 1 gn 0); reflexivity.
  1: apply (holds_case Z 1 2 2 gn 0); reflexivity.
  intros imax Hi. unfold add_t, add_csr_ref. cbn. replace (imax <? 3) with false by (symmetry; apply Z.ltb_ge; lia). reflexivity.
Qed.
Print Assumptions C23_duplicate_refuted.

(** C23 refuted (finding B24): if the OpenMP runtime gives the second parallel region
    fewer threads than requested (one instead of two here), the rows of the missing
    threads keep whatever the allocated memory held, and the call reports success. *)
Theorem C23_small_team_refuted : exists (A B : hnd Z) a b C, holds A a /\ holds B b /\ conform op_none A B /\
  rows_distinct (c_m b) (c_b b) (c_ptr b) (c_ind b) /\
  add_t Zops (fun n => zrep n 99) (fun n => zrep n 99) 2147483647 (mkThreads 2 [0] [0]) op_none (Some A) 1 (Some B) false = Some (success, Some C) /\
  forall c, H_mats C = [Some c] -> ~ csr_wf 2 2 (c_nnz c) 0 (c_ptr c) (c_ind c).
Proof.
  exists (C23_H 2 2 2 (mkCmat 2 2 2 gn 0 [0;1;2] [0;1] [1;1] None None false dg_non_unit None)), (C23_H 2 2 2 (mkCmat 2 2 2 gn 0 [0;1;2] [0;0] [1;1] None None false dg_non_unit None)).
  eexists; eexists; eexists. split; [|split; [|split; [split; reflexivity|]]].
  1: apply (holds_case Z 2 2 2 gn 0); reflexivity.
  1: apply (holds_case Z 2 2 2 gn 0); reflexivity.
  split; [apply rows_distinctb_ok; reflexivity|]. split; [reflexivity|]. intros c H. injection H as <-. intros W. pose proof (wf_ind _ _ _ _ _ _ W 1 ltac:(cbn; lia)) as X. vm_compute in X. destruct X as [_ X]. discriminate X.
Qed.
Print Assumptions C23_small_team_refuted.
