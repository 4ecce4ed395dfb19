(** C49: product of a sparse matrix with its own conjugate transpose. *)
From Coq Require Import ZArith List Bool Lia ZifyBool.
From Verif Require Import Base BaseFacts Algebra UtilModel UtilProof Csr SortSpec CheckModel CheckSpec Decide DoidModel DoidSpec MvModel CsrmvModel HandleModel HandleSpec
  DenseSpec AddSpec Csr2mModel Csr2mSpec Sp2mdSpec OftModel SyrkdModel SyrkdSpec SyrkdProof Csr2mHandleProof Props_Add Props_Csr2m.
Import ListNotations.
Open Scope Z_scope.

(** C49.  For CSR and CSC matrices in either base, any operation (op = transpose for real
    values only, the call documents that), both layouts, any leading dimension: the call
    succeeds, the upper triangle of C holds beta*C + alpha*op(A)*op(A)^H, and nothing else
    of the array changes.  When the library walks the stored rows themselves they have to
    be sorted and the handle has to say so.
    Missing (refuted below): matrices that store a position more than once. *)
Theorem C49_syrkd_partial : forall T (O : ops T), laws O -> forall is_real, (is_real = true -> forall x, ocj O x = x) ->
  forall w op (A : hnd T) a alpha beta (C : list T) layout ldc,
  holds A a -> valid_op op = true -> (is_real = false -> op <> op_transpose) ->
  sort_says (H_sort A) (c_m a) (c_b a) (c_ptr a) (c_ind a) -> (stored_rows op a = true -> H_sort A = fully_sorted) ->
  rows_distinct (c_m a) (c_b a) (c_ptr a) (c_ind a) -> dense_ok w layout ldc (rows_of op A) (rows_of op A) C ->
  exists C', syrkd O is_real w op (Some A) alpha beta (Some C) layout ldc = Some (success, Some C') /\
    holds_window (o0 O) layout ldc (rows_of op A) (rows_of op A) (upper_update O layout ldc alpha beta (gram O op (cols_of op A) a) C) C C'.
Proof.
  intros T O L is_real HR w op A a alpha beta C layout ldc H1 H2 H3 H4 H5 H6 H7.
  exact (syrkd_ok O is_real HR L w op A a alpha beta C layout ldc H1 H2 H3 H4 H5 H6 H7).
Qed.
Print Assumptions C49_syrkd_partial.

(** C49.  When beta compares equal to zero the old content of the upper triangle is not
    used.  No algebraic law is assumed, so this covers NaN and infinity in C. *)
Theorem C49_beta_zero_ignores_C : forall T (O : ops T) is_real, (is_real = true -> forall x, ocj O x = x) ->
  forall w op (A : hnd T) a alpha beta (C1 C2 : list T) layout ldc, oeqb O beta (o0 O) = true ->
  holds A a -> valid_op op = true -> (is_real = false -> op <> op_transpose) ->
  sort_says (H_sort A) (c_m a) (c_b a) (c_ptr a) (c_ind a) -> (stored_rows op a = true -> H_sort A = fully_sorted) ->
  rows_distinct (c_m a) (c_b a) (c_ptr a) (c_ind a) ->
  dense_ok w layout ldc (rows_of op A) (rows_of op A) C1 -> dense_ok w layout ldc (rows_of op A) (rows_of op A) C2 ->
  exists C1' C2',
    syrkd O is_real w op (Some A) alpha beta (Some C1) layout ldc = Some (success, Some C1') /\
    syrkd O is_real w op (Some A) alpha beta (Some C2) layout ldc = Some (success, Some C2') /\
    forall i j, 0 <= i <= j -> j < rows_of op A -> nthZ (o0 O) C1' (dense_at layout ldc i j) = nthZ (o0 O) C2' (dense_at layout ldc i j).
Proof.
  intros T O is_real HR w op A a alpha beta C1 C2 layout ldc E0 H1 H2 H3 H4 H5 H6 D1 D2.
  destruct (syrkd_run O is_real HR w op A a alpha beta layout ldc H1 H2 H3 H4 H5 H6) as (F & _ & R).
  destruct (R C1 D1) as (C1' & X1 & _ & Y1 & _). destruct (R C2 D2) as (C2' & X2 & _ & Y2 & _). exists C1', C2'. split; [exact X1|]. split; [exact X2|].
  intros i j Hij Hj. rewrite Y1, Y2 by lia. cbv zeta. replace (i <=? j) with true by lia. rewrite E0. reflexivity.
Qed.
Print Assumptions C49_beta_zero_ignores_C.

(** C49.  Rejected calls leave C as it was: null handle or array, unknown operation or
    layout, plain transpose of complex values, stored rows that are not sorted although
    the library would walk them, a leading dimension that is too small, a window whose
    extent is no aoclsparse_int. *)
Theorem C49_rejects : forall T (O : ops T) is_real w op (A : option (hnd T)) alpha beta (C : option (list T)) layout ldc, 0 < w ->
  let run := syrkd O is_real w op A alpha beta C layout ldc in
  (A = None \/ C = None -> run = Some (invalid_pointer, C)) /\
  (A <> None -> C <> None ->
     (valid_op op = false \/ layout <> 0 /\ layout <> 1 -> run = Some (invalid_value, C)) /\
     (valid_op op = true -> layout = 0 \/ layout = 1 ->
        (is_real = false -> op = op_transpose -> run = Some (not_implemented, C)) /\
        (is_real = true \/ op <> op_transpose -> forall A' a, A = Some A' -> holds A' a ->
           (stored_rows op a = true -> H_sort A' <> fully_sorted -> run = Some (unsorted_input, C)) /\
           (stored_rows op a = false \/ H_sort A' = fully_sorted ->
              0 <= rows_of op A' <= int_max w -> in_int w ldc = true ->
              (ldc < rows_of op A' -> run = Some (invalid_value, C)) /\
              (rows_of op A' <= ldc -> int_max w < rows_of op A' * ldc -> run = Some (invalid_size, C)))))).
Proof.
  intros T O is_real w op A alpha beta C layout ldc Hw run. unfold run, syrkd. split.
  { intros H. destruct A; [|reflexivity]. destruct C; [|reflexivity]. destruct H; discriminate. }
  intros NA NC. destruct A as [A|]; [|congruence]. destruct C as [C|]; [|congruence]. split.
  { intros [H|H]; [rewrite H; reflexivity|]. destruct (valid_op op); [|reflexivity]. cbn [negb]. replace (negb (layout =? 0) && negb (layout =? 1)) with true by lia. reflexivity. }
  intros Ho Hl. rewrite Ho. cbn [negb]. replace (negb (layout =? 0) && negb (layout =? 1)) with false by lia. split.
  { intros -> ->. reflexivity. }
  intros Hc A' a EA HA. inversion EA; subst A'. clear EA NA NC.
  replace (negb is_real && match op with op_transpose => true | _ => false end) with false by (destruct is_real; [reflexivity|]; destruct op; try reflexivity; destruct Hc; congruence).
  destruct (dims_of op A a HA Ho) as (RA & _).
  assert (DA : c_doid a = gn \/ c_doid a = gt) by (destruct HA as ((_ & _ & _ & _ & ?) & _); intuition).
  assert (MA : get_mtx (H_mats A) = Some a) by (destruct HA as (_ & rest & ->); reflexivity).
  assert (SW : stored_rows op a = swp op (c_doid a)) by (unfold stored_rows, swp; destruct DA as [-> | ->], op; try discriminate; reflexivity). rewrite SW.
  rewrite MA. replace (negb (c_doid a =? gt) && negb (c_doid a =? gn)) with false by (destruct DA as [-> | ->]; reflexivity). cbv zeta.
  replace (if c_doid a =? gt then negb (match op with op_none => true | _ => false end) else match op with op_none => true | _ => false end) with (negb (swp op (c_doid a))) by (unfold swp; destruct DA as [-> | ->], op; try discriminate; reflexivity).
  replace (if negb (swp op (c_doid a)) then c_m a else c_n a) with (rows_of op A) by (rewrite RA; destruct (swp op (c_doid a)); reflexivity).
  split.
  { intros -> Hs. destruct (H_sort A); try reflexivity. congruence. }
  intros Hs Hr Hld. replace (negb match H_sort A with fully_sorted => true | _ => false end && negb (negb (swp op (c_doid a)))) with false by (destruct Hs as [-> | ->]; [rewrite andb_false_r|]; reflexivity).
  split.
  { intros H. replace (ldc <? rows_of op A) with true by lia. reflexivity. }
  intros H1 H2. replace (ldc <? rows_of op A) with false by lia. pose proof (pow_w w Hw) as Hp.
  rewrite int_product_overflow_spec by (auto; unfold in_int, int_min, int_max in *; lia).
  replace (in_int w (rows_of op A * ldc)) with false; [reflexivity|]. unfold in_int, int_min, int_max in *. set (P := rows_of op A * ldc) in *. clearbody P. lia.
Qed.
Print Assumptions C49_rejects.

(** Concrete cases over the Gaussian integers.  A is 3x2 with rows (1+i, 2), (0, 3i) and
    (4, 0), once as CSR in base one, once as CSC in base zero. *)
Definition C49_h (m n nnz : Z) (c : cmat G) : hnd G := mkHnd m n nnz [Some c] fully_sorted false false false [].
Definition C49_a : cmat G := mkCmat 3 2 4 gn 1 [1;3;4;5] [1;2;2;1] [(1,1);(2,0);(0,3);(4,0)] None None false dg_non_unit None.
Definition C49_A : hnd G := C49_h 3 2 4 C49_a.
Definition C49_b : cmat G := mkCmat 2 3 4 gt 0 [0;2;4] [0;2;0;1] [(1,1);(4,0);(2,0);(0,3)] None None false dg_non_unit None.
Definition C49_B : hnd G := C49_h 3 2 4 C49_b.
Example C49_hyps : (holds C49_A C49_a /\ holds C49_B C49_b) /\
  (sort_says (H_sort C49_A) 3 1 (c_ptr C49_a) (c_ind C49_a) /\ sort_says (H_sort C49_B) 2 0 (c_ptr C49_b) (c_ind C49_b)) /\
  (rows_distinct 3 1 (c_ptr C49_a) (c_ind C49_a) /\ rows_distinct 2 0 (c_ptr C49_b) (c_ind C49_b)) /\
  dense_ok 31 0 3 3 3 (zrep 9 (1,0)) /\ dense_ok 31 1 3 2 2 (zrep 5 (1,0)).
Proof.
  split; [split|].
  - exact (holds_case G 3 2 4 gn 1 [1;3;4;5] [1;2;2;1] [(1,1);(2,0);(0,3);(4,0)] eq_refl eq_refl eq_refl eq_refl eq_refl).
  - exact (holds_case G 2 3 4 gt 0 [0;2;4] [0;2;0;1] [(1,1);(4,0);(2,0);(0,3)] eq_refl eq_refl eq_refl eq_refl eq_refl).
  - split; [split; apply rows_sortedb_ok; reflexivity|]. split; [split; apply rows_distinctb_ok; reflexivity|]. split; constructor; vm_compute; intuition discriminate.
Qed.
Example C49_case_none : map (fun A => syrkd Gops false 31 op_none (Some A) (1,0) (2,0) (Some (zrep 9 (1,0))) 0 3) [C49_A; C49_B]
  = let r := Some (success, Some [(8,0);(2,-6);(6,4);(1,0);(11,0);(2,0);(1,0);(1,0);(18,0)]) in [r; r].
Proof. vm_compute. reflexivity. Qed.
Example C49_case_ct : map (fun A => syrkd Gops false 31 op_conjugate_transpose (Some A) (1,0) (0,0) (Some (zrep 5 (1,1))) 1 3) [C49_A; C49_B]
  = let r := Some (success, Some [(18,0);(1,1);(1,1);(2,-2);(13,0)]) in [r; r].
Proof. vm_compute. reflexivity. Qed.

(** C49 refuted for matrices that store a position twice (the library accepts them off the
    diagonal and calls them sorted): the row A = (0, 1+1, 1) gives A^T A with 4, 2 and 1
    in rows 1 and 2 of the upper triangle; the library reports success and returns 2, 1
    and 0: after the first copy of the position the rest of the row is lost. *)
Theorem C49_repeated_columns_refuted : ~ (forall (A : hnd Z) a C op,
  holds A a -> valid_op op = true -> sort_says (H_sort A) (c_m a) (c_b a) (c_ptr a) (c_ind a) -> H_sort A = fully_sorted ->
  dense_ok 31 0 3 (rows_of op A) (rows_of op A) C ->
  exists C', syrkd Zops true 31 op (Some A) 1 0 (Some C) 0 3 = Some (success, Some C') /\
    holds_window 0 0 3 (rows_of op A) (rows_of op A) (upper_update Zops 0 3 1 0 (gram Zops op (cols_of op A) a) C) C C').
Proof.
  intros H.
  set (a := mkCmat 1 3 3 gn 0 [0;3] [1;1;2] [1;1;1] None None false dg_non_unit None : cmat Z). set (A := mkHnd 1 3 3 [Some a] fully_sorted false false false []).
  destruct (H A a (zrep 9 0) op_transpose) as (C' & E & _ & W & _); try reflexivity.
  - exact (holds_case Z 1 3 3 gn 0 [0;3] [1;1;2] [1;1;1] eq_refl eq_refl eq_refl eq_refl eq_refl).
  - apply rows_sortedb_ok. reflexivity.
  - constructor; vm_compute; intuition discriminate.
  - assert (X : syrkd Zops true 31 op_transpose (Some A) 1 0 (Some (zrep 9 0)) 0 3 = Some (success, Some [0;0;0;0;2;1;0;0;0])) by (vm_compute; reflexivity).
    rewrite X in E. inversion E; subst C'. specialize (W 1 1). cbn in W. specialize (W ltac:(lia) ltac:(lia)). vm_compute in W. discriminate.
Qed.
Print Assumptions C49_repeated_columns_refuted.
