(** C57: preparing a matrix for products with aoclsparse_set_mv_hint and
    aoclsparse_optimize (double, CSR) changes no result.  [optimize_mv] is the step that
    may add a second storage format to the handle, [dmv] the product afterwards. *)
From Coq Require Import ZArith List Bool Lia Permutation.
From Verif Require Import Base BaseFacts Algebra UtilModel DoidModel DoidSpec Csr CsrFacts Decide CheckModel CheckSpec SortModel SortSpec SortInst MvModel MvSpec CsrmvModel HandleModel HandleSpec HandleFacts EllModel BlkModel Br4Model ExportModel OptMvModel OptMv Props_Mv.
Import ListNotations.
Open Scope Z_scope.

(** Whatever format the heuristics choose, and whatever other calls add to the handle
    afterwards (any consistent handle [h'] with the same user's data), a product with a
    general descriptor has the outcome it has without the copy: alpha op(A) x + beta y.
    Missing (refuted below): matrices whose first row is empty; and matrices recorded as
    sorted that repeat a position or have columns up to the largest int (C53). *)
Theorem C57_product_partial : forall T (O : ops T) srt fz ft sup choice nthreads team low pick ratio,
  env_ok O srt fz ft sup dt_d nthreads team ->
  forall h u, hnd_ok (o0 O) h u -> c_doid u = gn -> H_n h + 7 <= 2147483647 ->
  (0 < H_m h -> zn (c_ptr u) 0 < zn (c_ptr u) 1) ->
  (H_sort h = fully_sorted -> rows_sorted (c_m u) (c_b u) (c_ptr u) (c_ind u) /\ rows_distinct (c_m u) (c_b u) (c_ptr u) (c_ind u)) ->
  exists k, optimize_mv O fz ft sup low pick ratio h = Some (success, k) /\
  forall h' u', hnd_ok (o0 O) h' u' -> same_data u u' -> H_m h' = H_m h -> H_n h' = H_n h -> H_nnz h' = H_nnz h ->
  forall d op alpha beta x y, d_type d = mt_general -> d_diag d = dg_non_unit -> d_base d = c_b u -> valid_op op = true ->
  zlen x = match op with op_none => H_n h | _ => H_m h end ->
  zlen y = match op with op_none => H_m h | _ => H_n h end ->
  mv_delivers O dt_d choice h' u' mt_general op (csr_mat O (c_b u) (c_ptr u) (c_ind u) (c_val u)) alpha beta x y
    (dmv O fz ft sup srt choice nthreads team op (Some alpha) (Some h') k (Some d) (Some x) (Some beta) (Some y)).
Proof.
  intros T O srt fz ft sup choice nt team low pick ratio Env h u HO Hgn HN Hf Hs.
  pose proof Env as [EL ES Ez Et Eu Em Er]. pose proof HO as (UM & rest & EM & _).
  destruct (optimize_mv_ok O EL fz ft sup Ez Et low pick ratio h u rest EM UM Hgn HN Hf Hs) as (k & Ek & Wk).
  exists k. split; [exact Ek|]. intros h' u' HO' SD A1 A2 A3 d op al be x y Hty Hdg Hb Hop Lx Ly.
  pose proof SD as (_ & _ & _ & S4 & S5 & S6 & S7 & S8).
  assert (mv_delivers O dt_d choice h' u' mt_general op (csr_mat O (c_b u) (c_ptr u) (c_ind u) (c_val u)) al be x y
    (mv O srt fz ft sup dt_d choice nt team op (Some al) (Some h') (Some d) (Some x) (Some be) (Some y))) as Plain.
  { pose proof (C15_mv_general_correct T O srt fz ft sup dt_d choice nt team Env h' u' d op al be x y HO' Hty Hdg) as P.
    unfold hnd_mat, stored_as in P. rewrite S4, S5, S6, S7, S8, Hgn in P. cbn [Z.eqb gn gt] in P. rewrite A1, A2 in P. apply P; auto. }
  destruct k as [k|]; [|exact Plain]. unfold dmv.
  destruct op; try (rewrite copy_unused by (right; discriminate); exact Plain).
  destruct (copy_used_def O sup h' u' k d HO' ltac:(congruence) Hty) as ([|] & ->); [|exact Plain].
  pose proof HO' as (UM' & rest' & EM' & _). rewrite EM'.
  destruct (Wk k eq_refl h' u' al be x y A1 A2 A3 SD Lx Ly) as (y1 & -> & Sy).
  exists success, (Some y1), h', u'. split; [reflexivity|]. split; [exact HO'|]. split; [unfold same_data; tauto|].
  repeat (split; [reflexivity|]). left. split; [reflexivity|]. exists y1. split; [reflexivity|]. cbn [op_sem]. rewrite A1, A2. exact Sy.
Qed.
Print Assumptions C57_product_partial.

(** Every other request is the call on the handle without the copy, so C16 and C17 and the
    refusals apply to it unchanged; so is every call when no copy was made. *)
Theorem C57_other_requests : forall T (O : ops T) srt fz ft sup choice nthreads team op alpha A k d x beta y,
  (forall d', d = Some d' -> k = None \/ d_type d' <> mt_general \/ op <> op_none) ->
  dmv O fz ft sup srt choice nthreads team op alpha A k d x beta y =
  mv O srt fz ft sup dt_d choice nthreads team op alpha A d x beta y.
Proof.
  intros T O srt fz ft sup choice nt team op alpha A k d x beta y H. unfold dmv.
  destruct alpha, beta, A, k, d, x, y; try reflexivity.
  destruct (H _ eq_refl) as [E|E]; [discriminate E|]. rewrite copy_unused by exact E. reflexivity.
Qed.
Print Assumptions C57_other_requests.

(** Invalid arguments are refused with or without a copy, and y is not written: null
    pointers, another index base than the matrix, operations outside the enumeration. *)
Theorem C57_refuses : forall T (O : ops T) srt fz ft sup choice nthreads team op alpha h u k d x beta y,
  hnd_ok (o0 O) h u ->
  (alpha = None \/ beta = None \/ d = None \/ x = None \/ y = None ->
   dmv O fz ft sup srt choice nthreads team op alpha (Some h) k d x beta y = Some (invalid_pointer, None, Some h)) /\
  (dmv O fz ft sup srt choice nthreads team op alpha None k d x beta y = Some (invalid_pointer, None, None)) /\
  (forall al be d' x' y', alpha = Some al -> beta = Some be -> d = Some d' -> x = Some x' -> y = Some y' ->
   d_base d' <> c_b u \/ valid_op op = false ->
   dmv O fz ft sup srt choice nthreads team op alpha (Some h) k d x beta y = Some (invalid_value, None, Some h)).
Proof.
  intros T O srt fz ft sup choice nt team op alpha h u k d x beta y (_ & rest & EM & _). split; [|split].
  - intros H. unfold dmv, mv. destruct alpha, beta, d, x, y, k; try reflexivity; exfalso; intuition discriminate.
  - unfold dmv, mv. destruct alpha, beta, d, x, y, k; reflexivity.
  - intros al be d' x' y' -> -> -> -> -> H. unfold dmv, mv, copy_used. rewrite EM.
    destruct (c_b u =? d_base d') eqn:Eb; cbn [negb]; [|destruct k; reflexivity]. apply Z.eqb_eq in Eb.
    destruct H as [H| ->]; [congruence|]. cbn [negb]. destruct k; reflexivity.
Qed.
Print Assumptions C57_refuses.

(** With a blocked or hybrid copy, exporting and copying the handle answer as without it
    (C40 says what that is).  Missing (refuted below): the 4-row copy. *)
Theorem C57_export_partial : forall T (h : hnd T) k out_ok type_ok, (forall c, k <> cp_br4 c) ->
  export_csr out_ok type_ok (Some (with_copy h k)) = export_csr out_ok type_ok (Some h) /\
  export_csc out_ok type_ok (Some (with_copy h k)) = export_csc out_ok type_ok (Some h).
Proof.
  intros T h k o t Hk. unfold export_csr, export_csc, with_copy.
  destruct (negb o); [split; reflexivity|]. destruct (negb t); [split; reflexivity|].
  destruct h as [hm hn hz mats so fu ofu opt hi]. cbn [H_mats H_m H_n set_mats].
  destruct k as [? ? ? ? ?|? ? ? ? ?|c]; [| |exfalso; apply (Hk c); reflexivity].
  all: destruct mats as [|[u|] rest]; split; reflexivity.
Qed.
Print Assumptions C57_export_partial.

(** ** Concrete cases *)
Definition ex_mat (m n : Z) (ptr ind val : list Z) : cmat Z := mkCmat m n (zlen ind) gn 0 ptr ind val None None false dg_non_unit None.
Definition ex_hnd (u : cmat Z) : hnd Z := mkHnd (c_m u) (c_n u) (c_nnz u) [Some u] fully_sorted true false false [].
(** fill_ratio compared with -0.1 and 0.1 *)
Definition exact_ratio (tnnz ell_nnz : Z) : comparison :=
  if 1000 * (tnnz - ell_nnz) <? - tnnz then Lt
  else if (- tnnz <? 1000 * (tnnz - ell_nnz)) && (1000 * (tnnz - ell_nnz) <? tnnz) then Eq else Gt.
Definition ex_opt (sup : Z -> bool) := optimize_mv Zops junkz junkz sup (fun _ _ _ => false) (fun _ _ _ _ _ => use_4) exact_ratio.
Definition ex_dmv (sup : Z -> bool) := dmv Zops junkz junkz sup isort (fun z => Some z) 2 [1;0].

(** rows of 1, 1, 1 and 2 elements; two elements in every row; ten elements in every row *)
Definition m_br4 : cmat Z := ex_mat 4 4 [0;1;2;3;5] [0;1;2;2;3] [1;2;3;4;5].
Definition m_hyb : cmat Z := ex_mat 4 4 [0;2;4;6;8] [0;1;0;1;2;3;1;2] [1;2;3;4;5;6;7;8].
Definition m_blk : cmat Z := ex_mat 4 12 (map (fun i => 10 * i) (zrange 0 5))
  (flat_map (fun i => map (fun j => j + i mod 2) (zrange 0 10)) (zrange 0 4)) (zrange 1 41).

(** Each of the three formats is chosen for some matrix, and the product uses it. *)
Example C57_case_formats :
  (exists c, ex_opt all_isa (ex_hnd m_br4) = Some (success, Some (cp_br4 c)) /\ copy_used all_isa op_none (ex_hnd m_br4) (cp_br4 c) (mkDescr mt_general fm_lower dg_non_unit 0) = Some true) /\
  (exists wd em col v r, ex_opt all_isa (ex_hnd m_hyb) = Some (success, Some (cp_hyb wd em col v r)) /\
     copy_used all_isa op_none (ex_hnd m_hyb) (cp_hyb wd em col v r) (mkDescr mt_general fm_lower dg_non_unit 0) = Some true) /\
  (exists nb bp bc bv bm, ex_opt all_isa (ex_hnd m_blk) = Some (success, Some (cp_blk nb bp bc bv bm)) /\
     copy_used all_isa op_none (ex_hnd m_blk) (cp_blk nb bp bc bv bm) (mkDescr mt_general fm_lower dg_non_unit 0) = Some true).
Proof.
  split; [eexists; split; vm_compute; reflexivity|]. split; do 5 eexists; split; vm_compute; reflexivity.
Qed.

(** The hypotheses of C57_product_partial hold for them. *)
Example C57_case_hyps : forall u, In u [m_br4; m_hyb; m_blk] ->
  hnd_ok 0 (ex_hnd u) u /\ c_doid u = gn /\ H_n (ex_hnd u) + 7 <= 2147483647 /\ (0 < H_m (ex_hnd u) -> zn (c_ptr u) 0 < zn (c_ptr u) 1) /\
  rows_sorted (c_m u) (c_b u) (c_ptr u) (c_ind u) /\ rows_distinct (c_m u) (c_b u) (c_ptr u) (c_ind u).
Proof.
  intros u [<-|[<-|[<-|[]]]].
  all: split; [|split; [reflexivity|split; [vm_compute; discriminate|split; [intros _; vm_compute; reflexivity|split; [apply rows_sortedb_ok|apply rows_distinctb_ok]; vm_compute; reflexivity]]]].
  all: split; [split; [|split; [reflexivity|split; [reflexivity|split; [reflexivity|left; split; [reflexivity|split; reflexivity]]]]]|].
  all: try (split; [apply csr_wfb_ok; vm_compute; reflexivity|split; [apply diag_uniqueb_ok; vm_compute; reflexivity|split; [reflexivity|left; reflexivity]]]).
  all: exists []; split; [reflexivity|split; [discriminate|constructor]].
Qed.
Example C57_case_env : env_ok Zops isort junkz junkz all_isa dt_d 2 [1;0].
Proof. apply env_demo. reflexivity. Qed.

(** y := A x + 100 y on the 4-row copy, and the transposed product on the user's arrays. *)
Definition out (r : option (status * option (list Z) * option (hnd Z))) : option (status * option (list Z)) :=
  match r with Some (st, y, _) => Some (st, y) | None => None end.
Example C57_case_product : forall k, ex_opt all_isa (ex_hnd m_br4) = Some (success, k) ->
  out (ex_dmv all_isa op_none (Some 1) (Some (ex_hnd m_br4)) k (Some (mkDescr mt_general fm_lower dg_non_unit 0)) (Some [1;2;3;4]) (Some 100) (Some [1;1;1;1]))
    = Some (success, Some [101;104;109;132]) /\
  out (ex_dmv all_isa op_transpose (Some 1) (Some (ex_hnd m_br4)) k (Some (mkDescr mt_general fm_lower dg_non_unit 0)) (Some [1;2;3;4]) (Some 100) (Some [1;1;1;1]))
    = Some (success, Some [101;104;125;120]).
Proof. intros k E. vm_compute in E. injection E as <-. split; vm_compute; reflexivity. Qed.

(** ** Where preparation does harm *)

(** Finding B67.  A matrix whose first row is empty and whose other rows have two elements:
    the hybrid is chosen and its conversion reads the column index before the first one. *)
Theorem C57_empty_first_row_refuted : exists u : cmat Z,
  hnd_ok 0 (ex_hnd u) u /\ c_doid u = gn /\ rows_sorted (c_m u) (c_b u) (c_ptr u) (c_ind u) /\ rows_distinct (c_m u) (c_b u) (c_ptr u) (c_ind u) /\
  forall sup low pick, optimize_mv Zops junkz junkz sup low pick exact_ratio (ex_hnd u) = None.
Proof.
  exists (ex_mat 4 4 [0;0;2;4;6] [0;1;0;1;2;3] [1;2;3;4;5;6]).
  split; [|split; [reflexivity|split; [apply rows_sortedb_ok; vm_compute; reflexivity|split; [apply rows_distinctb_ok; vm_compute; reflexivity|]]]].
  - split; [split; [|split; [reflexivity|split; [reflexivity|split; [reflexivity|left; split; [reflexivity|split; reflexivity]]]]]|].
    + split; [apply csr_wfb_ok; vm_compute; reflexivity|split; [apply diag_uniqueb_ok; vm_compute; reflexivity|split; [reflexivity|left; reflexivity]]].
    + exists []; split; [reflexivity|split; [discriminate|constructor]].
  - intros sup low pick. unfold optimize_mv. destruct (sup 3); vm_compute; reflexivity.
Qed.
Print Assumptions C57_empty_first_row_refuted.

(** Finding B68.  The 4-row copy is an object of class csr with the doid of the user's
    matrix, so aoclsparse_export_dcsr, which returns the last such object, answers with
    its padded and interleaved arrays: read as CSR they are another matrix. *)
Theorem C57_export_refuted : exists (u : cmat Z) k e,
  hnd_ok 0 (ex_hnd u) u /\ c_doid u = gn /\
  (forall sup low pick, optimize_mv Zops junkz junkz sup low pick exact_ratio (ex_hnd u) = Some (success, Some k)) /\
  export_csr true true (Some (with_copy (ex_hnd u) k)) = Some (success, Some e) /\
  csr_mat Zops (ex_base e) (ex_ptr e) (ex_ind e) (ex_val e) 0 1 <> csr_mat Zops (c_b u) (c_ptr u) (c_ind u) (c_val u) 0 1.
Proof.
  exists m_br4. eexists _, _. split; [apply (C57_case_hyps m_br4); left; reflexivity|]. split; [reflexivity|]. split.
  - intros sup low pick. unfold optimize_mv. destruct (sup 3); vm_compute; reflexivity.
  - split; [vm_compute; reflexivity|]. vm_compute. discriminate.
Qed.
Print Assumptions C57_export_refuted.
