(** C51: sparse product of a matrix with its own conjugate transpose. *)
From Coq Require Import ZArith List Bool Lia ZifyBool Floats.SpecFloat.
From Verif Require Import Base BaseFacts Algebra Float64 UtilModel UtilProof Csr SortSpec CheckModel CheckSpec Decide DoidModel DoidSpec MvModel CsrmvModel HandleModel HandleSpec
  AddSpec Csr2mModel Csr2mSpec ConvertModel OftModel SyrkdSpec SyrkModel SyrkSpec SyrkProof Csr2mHandleProof Props_Add Props_Csr2m Props_Syrkd.
Import ListNotations.
Open Scope Z_scope.

(** C51.  For CSR and CSC matrices in either base and any operation (op = transpose for real
    values only, the call documents that): the call succeeds and returns a new handle whose
    matrix is the upper triangle of op(A)*op(A)^H in the base of A, whatever fresh memory
    contains, and never writes outside of the arrays it allocated by its estimate; or, when
    the estimate for a result with r rows may not fit the index type, so that r*(r/2+1) does
    not fit either, it returns invalid_size and no handle.  When the library walks the
    stored rows themselves they have to be sorted and the handle has to say so.
    Missing (refuted below): matrices that store a position more than once, infinite
    values. *)
Theorem C51_syrk_partial : forall T (O : ops T), laws O -> forall is_real, (is_real = true -> forall x, ocj O x = x) ->
  forall w fz ft, 0 < w <= 63 -> (forall k, 0 <= k -> zlen (fz k) = k) -> (forall k, 0 <= k -> zlen (ft k) = k) ->
  forall op (A : hnd T) a, holds A a -> valid_op op = true -> (is_real = false -> op <> op_transpose) ->
  (stored_rows op a = true -> rows_sorted (c_m a) (c_b a) (c_ptr a) (c_ind a)) -> (stored_rows op a = true -> H_sort A = fully_sorted) ->
  rows_distinct (c_m a) (c_b a) (c_ptr a) (c_ind a) -> c_nnz a <= int_max w ->
  let r := rows_of op A in
  (exists C c, syrk O is_real w fz ft op (Some A) true = Some (success, Some C) /\ upper_result O r (c_b a) (gram O op (cols_of op A) a) C c) \/
  (syrk O is_real w fz ft op (Some A) true = Some (invalid_size, None) /\ int_max w < r * (r / 2 + 1)).
Proof.
  intros T O L is_real HR w fz ft Hw Hfz Hft op A a H1 H2 H3 H4 H5 H6 H7 r.
  destruct (syrk_run O L is_real HR w fz ft Hw Hfz Hft op A a H1 H2 H3 H4 H5 H6 H7) as (cap & B & R). fold r in B, R. destruct (int_sum_overflow 63 w cap) eqn:E.
  - right. split; auto. unfold int_sum_overflow in E. destruct (w <? 63); [lia|discriminate].
  - left. destruct R as (C & c & R1 & _ & R2). exists C, c. auto.
Qed.
Print Assumptions C51_syrk_partial.

(** C51.  What is rejected, in which order, and that no handle comes back then. *)
Theorem C51_rejects : forall T (O : ops T) is_real w fz ft op (A : option (hnd T)) c_ok,
  let run := syrk O is_real w fz ft op A c_ok in
  (A = None \/ c_ok = false -> run = Some (invalid_pointer, None)) /\
  (forall A', A = Some A' -> c_ok = true ->
    (valid_op op = false -> run = Some (invalid_value, None)) /\
    (valid_op op = true ->
      (is_real = false -> op = op_transpose -> run = Some (not_implemented, None)) /\
      (is_real = true \/ op <> op_transpose -> forall a, holds A' a ->
         stored_rows op a = true -> H_sort A' <> fully_sorted -> run = Some (unsorted_input, None)))).
Proof.
  intros T O is_real w fz ft op A c_ok run. unfold run, syrk. split.
  { intros H. destruct A; [|reflexivity]. destruct H as [H|H]; [discriminate|]. rewrite H. reflexivity. }
  intros A' -> ->. cbn [negb]. split.
  { intros ->. reflexivity. }
  intros Ho. rewrite Ho. cbn [negb]. split.
  { intros -> ->. reflexivity. }
  intros Hc a HA Hs Hn. replace (negb is_real && match op with op_transpose => true | _ => false end) with false by (destruct is_real; [reflexivity|]; destruct op; try reflexivity; destruct Hc; congruence).
  assert (DA : c_doid a = gn \/ c_doid a = gt) by (destruct HA as ((_ & _ & _ & _ & ?) & _); intuition).
  assert (MA : get_mtx (H_mats A') = Some a) by (destruct HA as (_ & rest & ->); reflexivity).
  rewrite MA. replace (negb (c_doid a =? gt) && negb (c_doid a =? gn)) with false by (destruct DA as [-> | ->]; reflexivity). cbv zeta.
  unfold stored_rows in Hs. destruct DA as [D|D]; rewrite D in *; destruct op; try discriminate; cbn [gt gn Z.eqb negb andb]; destruct (H_sort A'); try reflexivity; congruence.
Qed.
Print Assumptions C51_rejects.

(** The matrices of C49: 3x2 with rows (1+i, 2), (0, 3i) and (4, 0), as CSR in base one and
    as CSC in base zero; and a 2x4 one for the kernel with a dense row. *)
Definition C51_fz (k : Z) : list Z := zrep k 77.
Definition C51_fg (k : Z) : list G := zrep k (7, 7).
Definition C51_d : cmat G := mkCmat 2 4 4 gn 0 [0;2;4] [3;0;0;2] [(1,1);(2,0);(0,3);(4,0)] None None false dg_non_unit None.
Definition C51_D : hnd G := mkHnd 2 4 4 [Some C51_d] unsorted false false false [].
Definition C51_show {T} (r : option (status * option (hnd T))) : option (Z * option (cmat T)) :=
  match r with Some (success, Some h) => match H_mats h with c :: _ => Some (H_nnz h, c) | _ => None end | _ => None end.
Example C51_hyps : (forall k, 0 <= k -> zlen (C51_fz k) = k) /\ (forall k, 0 <= k -> zlen (C51_fg k) = k) /\
  holds C51_D C51_d /\ rows_distinct 2 0 (c_ptr C51_d) (c_ind C51_d) /\ stored_rows op_none C51_d = false.
Proof.
  split; [intros; now apply zlen_zrep|]. split; [intros; now apply zlen_zrep|].
  split; [exact (holds_case G 2 4 4 gn 0 [0;2;4] [3;0;0;2] [(1,1);(2,0);(0,3);(4,0)] eq_refl eq_refl eq_refl eq_refl eq_refl)|].
  split; [apply rows_distinctb_ok; reflexivity|reflexivity].
Qed.
Example C51_case_dense : C51_show (syrk Gops false 31 C51_fz C51_fg op_none (Some C51_D) true)
  = Some (3, Some (mkCmat 2 2 4 gn 0 [0;2;3] [0;1;1;77] [(6,0);(0,-6);(25,0);(7,7)] None None false dg_non_unit None)).
Proof. vm_compute. reflexivity. Qed.
Example C51_case_none : C51_show (syrk Gops false 31 C51_fz C51_fg op_none (Some C49_A) true)
  = Some (5, Some (mkCmat 3 3 6 gn 1 [1;4;5;6] [1;2;3;2;3;77] [(6,0);(0,-6);(4,4);(9,0);(16,0);(7,7)] None None false dg_non_unit None)).
Proof. vm_compute. reflexivity. Qed.
Example C51_case_ct : map (fun A => C51_show (syrk Gops false 31 C51_fz C51_fg op_conjugate_transpose (Some A) true)) [C49_A; C49_B]
  = [Some (3, Some (mkCmat 2 2 4 gn 1 [1;3;4] [1;2;2;77] [(18,0);(2,-2);(13,0);(7,7)] None None false dg_non_unit None));
     Some (3, Some (mkCmat 2 2 4 gn 0 [0;2;3] [0;1;1;77] [(18,0);(2,-2);(13,0);(7,7)] None None false dg_non_unit None))].
Proof. vm_compute. reflexivity. Qed.

(** C51 refuted for infinite values: the call writes outside of its arrays.  The size is
    estimated from the positions; the kernel for a small wide matrix stores every product
    that compares different from zero, and 0 * infinity is NaN.  Here A is 2x3 with
    infinity at (0, 0) and (1, 1): room for two elements, three are written. *)
Theorem C51_infinite_values_refuted : ~ (forall (A : hnd spec_float) a, holds A a ->
  sort_says (H_sort A) (c_m a) (c_b a) (c_ptr a) (c_ind a) -> rows_distinct (c_m a) (c_b a) (c_ptr a) (c_ind a) -> c_nnz a <= int_max 31 ->
  syrk F64ops true 31 (fun k => zrep k 0) (fun k => zrep k (o0 F64ops)) op_none (Some A) true <> None).
Proof.
  intros H. set (inf := S754_infinity false).
  set (a := mkCmat 2 3 2 gn 0 [0;1;2] [0;1] [inf;inf] None None false dg_non_unit None). set (A := mkHnd 2 3 2 [Some a] fully_sorted false false false []).
  apply (H A a).
  - exact (holds_case spec_float 2 3 2 gn 0 [0;1;2] [0;1] [inf;inf] eq_refl eq_refl eq_refl eq_refl eq_refl).
  - apply rows_sortedb_ok. reflexivity.
  - apply rows_distinctb_ok. reflexivity.
  - vm_compute. discriminate.
  - vm_compute. reflexivity.
Qed.
Print Assumptions C51_infinite_values_refuted.

(** C51 refuted for matrices that store a position twice (accepted off the diagonal): the
    row A = (0, 1+1, 1) gives A^T A with 4, 2 and 1; the library reports success and returns
    2 and 1: the rest of the row is lost. *)
Theorem C51_repeated_columns_refuted : ~ (forall (A : hnd Z) a op,
  holds A a -> valid_op op = true -> sort_says (H_sort A) (c_m a) (c_b a) (c_ptr a) (c_ind a) -> H_sort A = fully_sorted -> c_nnz a <= int_max 31 ->
  exists C c, syrk Zops true 31 C51_fz C51_fz op (Some A) true = Some (success, Some C) /\ upper_result Zops (rows_of op A) (c_b a) (gram Zops op (cols_of op A) a) C c).
Proof.
  intros H.
  set (a := mkCmat 1 3 3 gn 0 [0;3] [1;1;2] [1;1;1] None None false dg_non_unit None : cmat Z). set (A := mkHnd 1 3 3 [Some a] fully_sorted false false false []).
  destruct (H A a op_transpose) as (C & c & E & R); try reflexivity.
  - exact (holds_case Z 1 3 3 gn 0 [0;3] [1;1;2] [1;1;1] eq_refl eq_refl eq_refl eq_refl eq_refl).
  - apply rows_sortedb_ok. reflexivity.
  - vm_compute. discriminate.
  - pose proof (ur_mats _ _ _ _ _ _ R) as M. pose proof (ur_mat _ _ _ _ _ _ R 1 1 ltac:(lia)) as V. specialize (V ltac:(vm_compute; reflexivity)).
    assert (X : exists C0 c0, syrk Zops true 31 C51_fz C51_fz op_transpose (Some A) true = Some (success, Some C0) /\ H_mats C0 = [Some c0] /\
      csr_mat Zops (c_b a) (c_ptr c0) (prefix (H_nnz C0) (c_ind c0)) (prefix (H_nnz C0) (c_val c0)) 1 1 = 2) by (vm_compute; do 2 eexists; repeat split; reflexivity).
    destruct X as (C0 & c0 & X1 & X2 & X3). rewrite X1 in E. inversion E; subst C0. rewrite X2 in M. inversion M; subst c0. rewrite X3 in V. vm_compute in V. discriminate.
Qed.
Print Assumptions C51_repeated_columns_refuted.

(** A valid handle returned by the product cannot be passed to aoclsparse_convert_csr: the
    matrix object keeps the estimated number of elements, the conversion allocates room for
    the stored ones and copies as many as estimated.  Here A is the 3x2 matrix above: five
    elements are stored, six are copied. *)
Theorem C51_convert_refuted : ~ (forall (A : hnd G) a C c,
  holds A a -> rows_distinct (c_m a) (c_b a) (c_ptr a) (c_ind a) ->
  syrk Gops false 31 C51_fz C51_fg op_none (Some A) true = Some (success, Some C) -> upper_result Gops (rows_of op_none A) (c_b a) (gram Gops op_none (cols_of op_none A) a) C c ->
  convert_csr (ocj Gops) true C51_fz C51_fg (Some C) op_none true <> None).
Proof.
  intros H. destruct C49_hyps as ((HA & _) & (SA & _) & (DA & _) & _).
  destruct (C51_syrk_partial G Gops Glaws false ltac:(discriminate) 31 C51_fz C51_fg ltac:(lia) ltac:(intros; now apply zlen_zrep) ltac:(intros; now apply zlen_zrep) op_none C49_A C49_a HA eq_refl ltac:(discriminate) ltac:(discriminate) ltac:(reflexivity) DA ltac:(vm_compute; discriminate)) as [(C & c & E & R)|(E & _)].
  - apply (H C49_A C49_a C c HA DA E R).
    assert (X : exists C0, syrk Gops false 31 C51_fz C51_fg op_none (Some C49_A) true = Some (success, Some C0) /\ convert_csr (ocj Gops) true C51_fz C51_fg (Some C0) op_none true = None) by (vm_compute; eexists; split; reflexivity).
    destruct X as (C0 & X1 & X2). rewrite X1 in E. inversion E; subst C0. exact X2.
  - vm_compute in E. discriminate.
Qed.
Print Assumptions C51_convert_refuted.
