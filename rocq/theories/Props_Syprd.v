(** C50: symmetric triple product with a dense matrix. *)
From Coq Require Import ZArith List Bool Lia ZifyBool.
From Verif Require Import Base BaseFacts Algebra UtilModel UtilProof Csr SortSpec CheckModel CheckSpec Decide DoidModel DoidSpec MvModel CsrmvModel HandleModel HandleSpec
  DenseSpec AddSpec Csr2mModel Csr2mSpec Csr2mHandleProof Sp2mdSpec SyrkdModel SyrkdSpec SyprdModel SyprdSpec SyprdProof Props_Add Props_Csr2m Props_Syrkd.
Import ListNotations.
Open Scope Z_scope.

(** C50.  For CSR and CSC matrices in either base, repeated positions allowed, any
    operation (op = transpose for real values only), both layouts and any leading
    dimensions: the call succeeds, the upper triangle of C holds
    beta*C + alpha*op(A)*B*op(A)^H where B is the Hermitian matrix given by its upper
    triangle, and nothing else of the array changes.
    Missing (refuted below): matrices without rows when op is not none. *)
Theorem C50_syprd_partial : forall T (O : ops T), laws O -> forall is_real, (is_real = true -> forall x, ocj O x = x) ->
  forall w op (A : hnd T) a (B : list T) alpha beta (C : list T) order ldb ldc,
  holds A a -> valid_op op = true -> (is_real = false -> op <> op_transpose) -> H_m A <> 0 \/ op = op_none ->
  dense_ok w order ldb (cols_of op A) (cols_of op A) B -> 1 <= ldb -> 1 <= ldc -> dense_ok w order ldc (rows_of op A) (rows_of op A) C ->
  exists C', syprd O is_real w op (Some A) (Some B) order ldb alpha beta (Some C) order ldc = Some (success, Some C') /\
    holds_window (o0 O) order ldc (rows_of op A) (rows_of op A) (upper_update O order ldc alpha beta (triple O op (cols_of op A) a (dense_herm O order ldb B)) C) C C'.
Proof.
  intros T O L is_real HR w op A a B alpha beta C order ldb ldc H1 H2 H3 H4 H5 H6 H7 H8.
  exact (syprd_ok O is_real HR L w op A a B alpha beta C order ldb ldc H1 H2 H3 H4 H5 H6 H7 H8).
Qed.
Print Assumptions C50_syprd_partial.

(** C50.  When beta compares equal to zero (and not to one) the old content of the upper
    triangle is not used.  No algebraic law is assumed, so this covers NaN and infinity
    in C. *)
Theorem C50_beta_zero_ignores_C : forall T (O : ops T) is_real, (is_real = true -> forall x, ocj O x = x) ->
  forall w op (A : hnd T) a (B : list T) alpha beta (C1 C2 : list T) order ldb ldc, oeqb O beta (o0 O) = true -> oeqb O beta (o1 O) = false ->
  holds A a -> valid_op op = true -> (is_real = false -> op <> op_transpose) -> H_m A <> 0 ->
  dense_ok w order ldb (cols_of op A) (cols_of op A) B -> 1 <= ldb -> 1 <= ldc ->
  dense_ok w order ldc (rows_of op A) (rows_of op A) C1 -> dense_ok w order ldc (rows_of op A) (rows_of op A) C2 ->
  exists C1' C2',
    syprd O is_real w op (Some A) (Some B) order ldb alpha beta (Some C1) order ldc = Some (success, Some C1') /\
    syprd O is_real w op (Some A) (Some B) order ldb alpha beta (Some C2) order ldc = Some (success, Some C2') /\
    forall i j, 0 <= i <= j -> j < rows_of op A -> nthZ (o0 O) C1' (dense_at order ldc i j) = nthZ (o0 O) C2' (dense_at order ldc i j).
Proof.
  intros T O is_real HR w op A a B alpha beta C1 C2 order ldb ldc E0 E1 H1 H2 H3 H4 H5 H6 H7 D1 D2.
  destruct (syprd_run O is_real HR w op A a B alpha beta order ldb ldc H1 H2 H3 H4 ltac:(rewrite E1; apply andb_false_r) H5 H6 H7) as (F & _ & R).
  destruct (R C1 D1) as (C1' & X1 & _ & Y1 & _). destruct (R C2 D2) as (C2' & X2 & _ & Y2 & _). exists C1', C2'. split; [exact X1|]. split; [exact X2|].
  intros i j Hij Hj. rewrite Y1, Y2 by lia. cbv zeta. replace (i <=? j) with true by lia. rewrite E0. reflexivity.
Qed.
Print Assumptions C50_beta_zero_ignores_C.

(** C50.  Rejected calls leave C as it was: null arguments, unknown operation or layout,
    differing layouts, plain transpose of complex values, and - unless the call has
    nothing to do - leading dimensions that are too small or an extent that is no
    aoclsparse_int. *)
Theorem C50_rejects : forall T (O : ops T) is_real w op (A : option (hnd T)) (B C : option (list T)) alpha beta orderB orderC ldb ldc, 0 < w ->
  let run := syprd O is_real w op A B orderB ldb alpha beta C orderC ldc in
  (A = None \/ B = None \/ C = None -> run = Some (invalid_pointer, C)) /\
  (A <> None -> B <> None -> C <> None ->
     (valid_op op = false \/ orderB <> 0 /\ orderB <> 1 \/ orderC <> 0 /\ orderC <> 1 -> run = Some (invalid_value, C)) /\
     (valid_op op = true -> orderB = 0 \/ orderB = 1 -> orderC = 0 \/ orderC = 1 ->
        (orderB <> orderC -> run = Some (invalid_operation, C)) /\
        (orderB = orderC -> forall A' a, A = Some A' -> holds A' a ->
           (is_real = false -> op = op_transpose -> run = Some (not_implemented, C)) /\
           (is_real = true \/ op <> op_transpose -> H_m A' <> 0 -> oeqb O alpha (o0 O) && oeqb O beta (o1 O) = false ->
              rows_of op A' <= int_max w -> cols_of op A' <= int_max w -> in_int w ldb = true -> in_int w ldc = true ->
              ldb < Z.max 1 (cols_of op A') \/ ldc < Z.max 1 (rows_of op A') \/ int_max w < cols_of op A' * ldb \/ int_max w < rows_of op A' * ldc ->
              run = Some (invalid_size, C))))).
Proof.
  intros T O is_real w op A B C alpha beta orderB orderC ldb ldc Hw run. unfold run, syprd. split.
  { intros H. destruct A; [|reflexivity]. destruct B; [|reflexivity]. destruct C; [|reflexivity]. destruct H as [H|[H|H]]; discriminate. }
  intros NA NB NC. destruct A as [A|]; [|congruence]. destruct B as [B|]; [|congruence]. destruct C as [C|]; [|congruence]. split.
  { intros H. destruct (valid_op op); [|reflexivity]. cbn [negb]. destruct (negb (orderB =? 0) && negb (orderB =? 1)) eqn:Q; [reflexivity|].
    destruct H as [H|[H|H]]; [discriminate|lia|]. replace (negb (orderC =? 0) && negb (orderC =? 1)) with true by lia. reflexivity. }
  intros Ho HB HC. rewrite Ho. cbn [negb]. replace (negb (orderB =? 0) && negb (orderB =? 1)) with false by lia. replace (negb (orderC =? 0) && negb (orderC =? 1)) with false by lia. split.
  { intros H. replace (orderB =? orderC) with false by lia. reflexivity. }
  intros -> A' a EA HA. inversion EA; subst A'. clear EA NA NB NC. rewrite Z.eqb_refl. cbn [negb].
  assert (DA : c_doid a = gn \/ c_doid a = gt) by (destruct HA as ((_ & _ & _ & _ & ?) & _); intuition).
  assert (DIM : 0 <= H_m A /\ 0 <= H_n A).
  { destruct HA as (((WA & _) & _ & _ & _ & Hd) & _). pose proof (wf_m _ _ _ _ _ _ WA). pose proof (wf_n _ _ _ _ _ _ WA). lia. }
  assert (MA : get_mtx (H_mats A) = Some a) by (destruct HA as (_ & rest & ->); reflexivity). rewrite MA. cbv zeta.
  replace (negb (c_doid a =? gt) && negb (c_doid a =? gn)) with false by (destruct DA as [-> | ->]; reflexivity). split.
  { intros -> ->. reflexivity. }
  intros Hc Hm E01 Hr Hk Hlb Hlc H.
  replace (negb is_real && match op with op_transpose => true | _ => false end) with false by (destruct is_real; [reflexivity|]; destruct op; try reflexivity; destruct Hc; congruence).
  replace ((H_m A <? 0) || (H_n A <? 0)) with false by lia. replace (H_m A =? 0) with false by lia. rewrite E01.
  replace (if match op with op_none => true | _ => false end then H_n A else H_m A) with (cols_of op A) by (destruct op; reflexivity).
  replace (if match op with op_none => true | _ => false end then H_m A else H_n A) with (rows_of op A) by (destruct op; reflexivity).
  assert (D2 : 0 <= rows_of op A /\ 0 <= cols_of op A) by (destruct op; cbn [rows_of cols_of]; lia).
  destruct (Z.ltb_spec ldb (Z.max 1 (cols_of op A))) as [|G1]; [reflexivity|]. destruct (Z.ltb_spec ldc (Z.max 1 (rows_of op A))) as [|G2]; [reflexivity|].
  pose proof (pow_w w Hw) as Hp.
  assert (OV : forall r l, 0 <= r <= int_max w -> 1 <= l -> in_int w l = true -> int_product_overflow w r l = Some (int_max w <? r * l)).
  { clear - Hw Hp. intros r l Hr Hl Il. rewrite int_product_overflow_spec by (auto; unfold in_int, int_min, int_max in *; lia). f_equal. assert (0 <= r * l) by nia.
    unfold in_int, int_min, int_max in *. set (P := r * l) in *. clearbody P. lia. }
  rewrite !OV by (auto; lia). destruct (Z.ltb_spec (int_max w) (rows_of op A * ldc)); [reflexivity|]. replace (int_max w <? cols_of op A * ldb) with true by lia. reflexivity.
Qed.
Print Assumptions C50_rejects.

(** Concrete cases over the Gaussian integers, with the matrices of C49 (3x2, CSR and
    CSC) and a matrix with a position that is stored twice.  The lower triangle of B
    holds values that must not be used. *)
Definition C50_b2 : list G := [(1,0);(2,1); (77,77);(3,0)].
Definition C50_b3 : list G := [(1,0);(0,1);(0,0); (77,77);(2,0);(1,1); (88,88);(99,99);(1,0)].
Example C50_hyps : (holds C49_A C49_a /\ holds C49_B C49_b) /\ H_m C49_A <> 0 /\
  dense_ok 31 0 2 2 2 C50_b2 /\ dense_ok 31 0 3 3 3 (zrep 9 (1,0)) /\ dense_ok 31 0 3 3 3 C50_b3 /\ dense_ok 31 0 2 2 2 (zrep 4 (1,0)).
Proof. split; [exact (proj1 C49_hyps)|]. split; [cbn; lia|]. repeat split; vm_compute; intuition discriminate. Qed.
Example C50_case_none : map (fun A => syprd Gops false 31 op_none (Some A) (Some C50_b2) 0 2 (1,0) (2,0) (Some (zrep 9 (1,0))) 0 3) [C49_A; C49_B]
  = let r := Some (success, Some [(20,0);(11,-21);(22,-4);(1,0);(29,0);(14,24);(1,0);(1,0);(18,0)]) in [r; r].
Proof. vm_compute. reflexivity. Qed.
Example C50_case_ct : map (fun A => syprd Gops false 31 op_conjugate_transpose (Some A) (Some C50_b3) 0 3 (0,1) (0,0) (Some (zrep 4 (1,1))) 0 2) [C49_A; C49_B]
  = let r := Some (success, Some [(0,18);(-13,11);(1,1);(0,10)]) in [r; r].
Proof. vm_compute. reflexivity. Qed.
(** one row (1+1, 2) with its first position stored twice, by columns: (2, 2) B (2, 2)^T
    with B = ((1, 5), (5, 1)) is 48 *)
Example C50_case_repeated : syprd Zops true 31 op_none (Some (mkHnd 2 2 3 [Some (mkCmat 2 2 3 gn 0 [0;0;3] [0;0;1] [1;1;2] None None false dg_non_unit None)] fully_sorted false false false []))
    (Some [1;77;5;1]) 1 2 1 1 (Some [0;0;0;0]) 1 2 = Some (success, Some [0;0;0;48]).
Proof. vm_compute. reflexivity. Qed.

(** C50 refuted for matrices without rows and op other than none: C is k x k and has to
    become beta*C, but the call reports success and leaves it as it is. *)
Theorem C50_no_rows_refuted : ~ (forall (A : hnd Z) a (B C : list Z) op beta order ldb ldc,
  holds A a -> valid_op op = true -> dense_ok 31 order ldb (cols_of op A) (cols_of op A) B -> 1 <= ldb -> 1 <= ldc -> dense_ok 31 order ldc (rows_of op A) (rows_of op A) C ->
  exists C', syprd Zops true 31 op (Some A) (Some B) order ldb 1 beta (Some C) order ldc = Some (success, Some C') /\
    holds_window 0 order ldc (rows_of op A) (rows_of op A) (upper_update Zops order ldc 1 beta (triple Zops op (cols_of op A) a (dense_herm Zops order ldb B)) C) C C').
Proof.
  intros H. set (a := mkCmat 0 1 0 gn 0 [0] [] [] None None false dg_non_unit None : cmat Z). set (A := mkHnd 0 1 0 [Some a] fully_sorted false false false []).
  destruct (H A a [7] [3] op_transpose 2 0 1 1) as (C' & E & _ & W & _); try reflexivity; try lia.
  - exact (holds_case Z 0 1 0 gn 0 [0] [] [] eq_refl eq_refl eq_refl eq_refl eq_refl).
  - constructor; vm_compute; intuition discriminate.
  - constructor; vm_compute; intuition discriminate.
  - assert (X : syprd Zops true 31 op_transpose (Some A) (Some [7]) 0 1 1 2 (Some [3]) 0 1 = Some (success, Some [3])) by (vm_compute; reflexivity).
    rewrite X in E. inversion E; subst C'. specialize (W 0 0). cbn in W. specialize (W ltac:(lia) ltac:(lia)). vm_compute in W. discriminate.
Qed.
Print Assumptions C50_no_rows_refuted.
