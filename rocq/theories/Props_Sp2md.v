(** C25: products of sparse matrices into a dense one. *)
From Coq Require Import ZArith List Bool Lia.
From Coq Require Import ZifyBool.
From Verif Require Import Base BaseFacts Algebra UtilModel UtilProof Csr SortSpec CheckModel Decide DoidModel DoidSpec MvModel CsrmvModel HandleModel HandleSpec
  DenseSpec AddSpec Csr2mModel Csr2mSpec Sp2mdModel Sp2mdSpec Sp2mdProof Props_Add Props_Csr2m.
Import ListNotations.
Open Scope Z_scope.

(** C25.  For all operations, both layouts, any leading dimension, CSR or CSC operands
    in either base: the call succeeds, the window of C holds
    beta*C + alpha*op(A)*op(B), and nothing outside the window changes. *)
Theorem C25_sp2md : forall T (O : ops T), laws O -> forall is_real, (is_real = true -> forall x, ocj O x = x) ->
  forall opA opB dA dB (A B : hnd T) a b alpha beta (C : list T) layout ldc fz ft w,
  (forall k, 0 <= k -> zlen (fz k : list Z) = k) -> (forall k, 0 <= k -> zlen (ft k : list T) = k) ->
  sp2m_pre opA opB dA dB A B a b -> dense_ok w layout ldc (rows_of opA A) (cols_of opB B) C ->
  exists C', sp2md O is_real fz ft w opA (Some dA) (Some A) opB (Some dB) (Some B) alpha beta (Some C) layout ldc = Some (success, Some C') /\
    holds_window (o0 O) layout ldc (rows_of opA A) (cols_of opB B)
      (fun i j => oadd O (omul O beta (nthZ (o0 O) C (dense_at layout ldc i j))) (omul O alpha (mat_prod O opA opB (cols_of opA A) a b i j))) C C'.
Proof.
  intros T O L is_real HR opA opB dA dB A B a b alpha beta C layout ldc fz ft w Hz Ht PRE D.
  exact (sp2md_ok O is_real HR L fz ft w opA opB dA dB A B a b alpha beta C layout ldc Hz Ht PRE D).
Qed.
Print Assumptions C25_sp2md.

(** C25.  When beta compares equal to zero the old content of the window is not used.
    No algebraic law is assumed, so this covers NaN and infinity in C. *)
Theorem C25_beta_zero_ignores_C : forall T (O : ops T) is_real, (is_real = true -> forall x, ocj O x = x) ->
  forall opA opB dA dB (A B : hnd T) a b alpha beta (C1 C2 : list T) layout ldc fz ft w, oeqb O beta (o0 O) = true ->
  (forall k, 0 <= k -> zlen (fz k : list Z) = k) -> (forall k, 0 <= k -> zlen (ft k : list T) = k) ->
  sp2m_pre opA opB dA dB A B a b -> dense_ok w layout ldc (rows_of opA A) (cols_of opB B) C1 -> dense_ok w layout ldc (rows_of opA A) (cols_of opB B) C2 ->
  exists C1' C2',
    sp2md O is_real fz ft w opA (Some dA) (Some A) opB (Some dB) (Some B) alpha beta (Some C1) layout ldc = Some (success, Some C1') /\
    sp2md O is_real fz ft w opA (Some dA) (Some A) opB (Some dB) (Some B) alpha beta (Some C2) layout ldc = Some (success, Some C2') /\
    forall i j, 0 <= i < rows_of opA A -> 0 <= j < cols_of opB B -> nthZ (o0 O) C1' (dense_at layout ldc i j) = nthZ (o0 O) C2' (dense_at layout ldc i j).
Proof.
  intros T O is_real HR opA opB dA dB A B a b alpha beta C1 C2 layout ldc fz ft w E0 Hz Ht PRE D1 D2.
  exact (sp2md_beta0 O is_real HR fz ft w opA opB dA dB A B a b alpha beta C1 C2 layout ldc E0 Hz Ht PRE D1 D2).
Qed.
Print Assumptions C25_beta_zero_ignores_C.

(** C25.  aoclsparse_?spmmd overwrites the window with op(A)*B. *)
Theorem C25_spmmd : forall T (O : ops T), laws O -> forall is_real, (is_real = true -> forall x, ocj O x = x) ->
  forall op (A B : hnd T) a b (C : list T) layout ldc fz ft w,
  (forall k, 0 <= k -> zlen (fz k : list Z) = k) -> (forall k, 0 <= k -> zlen (ft k : list T) = k) ->
  holds A a -> holds B b -> valid_op op = true -> cols_of op A = H_m B -> dense_ok w layout ldc (rows_of op A) (H_n B) C ->
  exists C', spmmd O is_real fz ft w op (Some A) (Some B) layout (Some C) ldc = Some (success, Some C') /\
    holds_window (o0 O) layout ldc (rows_of op A) (H_n B) (mat_prod O op op_none (cols_of op A) a b) C C'.
Proof.
  intros T O L is_real HR op A B a b C layout ldc fz ft w Hz Ht HA HB Ho Hd D. rewrite (spmmd_is O is_real fz ft w op A B a b) by auto.
  destruct (C25_sp2md T O L is_real HR op op_none (mkDescr mt_general fm_lower dg_non_unit (c_b a)) (mkDescr mt_general fm_lower dg_non_unit (c_b b)) A B a b (o1 O) (o0 O) C layout ldc fz ft w Hz Ht) as (C' & E & H); auto.
  { constructor; auto. }
  exists C'. split; auto. revert H. apply (WinFacts.hw_ext O). intros i j Hi Hj. pose proof (l_ring L) as R. rewrite (alpha_zero O L). destruct R. rewrite Radd_0_l. apply Rmul_1_l.
Qed.
Print Assumptions C25_spmmd.

(** C25.  Rejected calls leave C as it was: a descriptor that is not general, an unknown
    layout, a null handle or array, operands that do not conform, a leading dimension
    that is too small, a window whose extent overflows, a descriptor with the wrong base. *)
Theorem C25_rejects : forall T (O : ops T) is_real opA opB dA dB (A B : option (hnd T)) alpha beta (C : option (list T)) layout ldc fz ft w, 0 < w ->
  let run := sp2md O is_real fz ft w opA (Some dA) A opB (Some dB) B alpha beta C layout ldc in
  (d_type dA <> mt_general \/ d_type dB <> mt_general -> run = Some (not_implemented, C)) /\
  (d_type dA = mt_general -> d_type dB = mt_general ->
     (layout <> 0 /\ layout <> 1 -> run = Some (invalid_value, C)) /\
     (layout = 0 \/ layout = 1 ->
        (A = None \/ B = None \/ C = None -> run = Some (invalid_pointer, C)) /\
        forall A' B' a b C0, A = Some A' -> B = Some B' -> C = Some C0 -> holds A' a -> holds B' b -> valid_op opA = true -> valid_op opB = true ->
        0 <= rows_of opA A' <= int_max w -> 0 <= cols_of opB B' <= int_max w -> in_int w ldc = true ->
        let size_ok := cols_of opA A' = rows_of opB B' /\ (if layout =? 1 then rows_of opA A' else cols_of opB B') <= ldc /\
                       (if layout =? 1 then cols_of opB B' else rows_of opA A') * ldc <= int_max w in
        (~ size_ok -> run = Some (invalid_size, C)) /\
        (size_ok -> d_base dA <> c_b a \/ d_base dB <> c_b b -> run = Some (invalid_value, C)))).
Proof.
  intros T O is_real opA opB dA dB A B alpha beta C layout ldc fz ft w Hw run. unfold run, sp2md. split.
  { intros H. destruct (d_type dA), (d_type dB); cbn; try reflexivity. destruct H; congruence. }
  intros -> ->. cbn [negb]. split.
  { intros (H1 & H2). replace (negb (layout =? 0) && negb (layout =? 1)) with true by lia. reflexivity. }
  intros Hl. replace (negb (layout =? 0) && negb (layout =? 1)) with false by lia. split.
  { intros H. destruct A, B, C; try reflexivity. destruct H as [H|[H|H]]; discriminate. }
  intros A' B' a b C0 -> -> -> HA HB OA OB Hm Hn Hld.
  assert (UA : (c_b a = 0 \/ c_b a = 1) /\ (c_doid a = gn \/ c_doid a = gt)) by (destruct HA as (((_ & _ & _ & ?) & _ & _ & _ & ?) & _); intuition).
  assert (UB : (c_b b = 0 \/ c_b b = 1) /\ (c_doid b = gn \/ c_doid b = gt)) by (destruct HB as (((_ & _ & _ & ?) & _ & _ & _ & ?) & _); intuition).
  destruct UA as (_ & DA). destruct UB as (_ & DB).
  assert (MA : get_mtx (H_mats A') = Some a) by (destruct HA as (_ & rest & ->); reflexivity). assert (MB : get_mtx (H_mats B') = Some b) by (destruct HB as (_ & rest & ->); reflexivity).
  rewrite MA, MB.
  replace (negb ((c_doid a =? gn) || (c_doid a =? gt)) || negb ((c_doid b =? gn) || (c_doid b =? gt))) with false by (destruct DA as [-> | ->], DB as [-> | ->]; reflexivity).
  assert (E1 : (if match opA with op_none => false | _ => true end then H_n A' else H_m A') = rows_of opA A') by (destruct opA; reflexivity).
  assert (E2 : (if match opA with op_none => false | _ => true end then H_m A' else H_n A') = cols_of opA A') by (destruct opA; reflexivity).
  assert (E3 : (if match opB with op_none => false | _ => true end then H_n B' else H_m B') = rows_of opB B') by (destruct opB; reflexivity).
  assert (E4 : (if match opB with op_none => false | _ => true end then H_m B' else H_n B') = cols_of opB B') by (destruct opB; reflexivity).
  cbv zeta. rewrite E1, E2, E3, E4.
  assert (OV : (if layout =? 0 then cols_of opB B' else rows_of opA A') <= ldc ->
     int_product_overflow w (if layout =? 0 then rows_of opA A' else cols_of opB B') ldc = Some (negb ((if layout =? 0 then rows_of opA A' else cols_of opB B') * ldc <=? int_max w))).
  { intros Hle. set (r := if layout =? 0 then rows_of opA A' else cols_of opB B') in *. assert (Hr : 0 <= r <= int_max w) by (unfold r; destruct (layout =? 0); lia).
    assert (0 <= ldc) by (destruct (layout =? 0); lia). pose proof (pow_w w Hw) as Hp. rewrite int_product_overflow_spec by (auto; unfold in_int, int_min, int_max in *; lia). f_equal.
    assert (0 <= r * ldc) by nia. unfold in_int, int_min, int_max in *. set (P := r * ldc) in *. clearbody P. lia. }
  replace (if layout =? 1 then rows_of opA A' else cols_of opB B') with (if layout =? 0 then cols_of opB B' else rows_of opA A') by (destruct Hl as [-> | ->]; reflexivity).
  replace (if layout =? 1 then cols_of opB B' else rows_of opA A') with (if layout =? 0 then rows_of opA A' else cols_of opB B') by (destruct Hl as [-> | ->]; reflexivity).
  set (r := if layout =? 0 then rows_of opA A' else cols_of opB B') in *. set (s := if layout =? 0 then cols_of opB B' else rows_of opA A') in *. clearbody r s.
  split.
  - intros H. destruct (Z.eqb_spec (cols_of opA A') (rows_of opB B')) as [E|E]; cbn [negb]; [|reflexivity].
    destruct (Z.ltb_spec ldc s); [reflexivity|]. rewrite OV by lia. destruct (Z.leb_spec (r * ldc) (int_max w)); cbn [negb]; [|reflexivity]. exfalso. apply H. lia.
  - intros (E & Hs & Hp) Hb. replace (cols_of opA A' =? rows_of opB B') with true by lia. cbn [negb]. replace (ldc <? s) with false by lia. rewrite OV by lia.
    replace (r * ldc <=? int_max w) with true by lia. cbn [negb]. replace (negb (c_b a =? d_base dA) || negb (c_b b =? d_base dB)) with true by lia. reflexivity.
Qed.
Print Assumptions C25_rejects.

(** Concrete cases over the Gaussian integers: A is 2x3 (CSR, base one, repeated
    position), B is 3x2 (CSC); A*B by rows with leading dimension 3, and A^H * B^T by
    columns with leading dimension 4. *)
Definition C25_fz (n : Z) : list Z := zrep n 77.
Definition C25_ft (n : Z) : list G := zrep n (7, 7).
Definition C25_C : list G := [(1,0);(2,0);(9,9);(3,0);(4,0)].
Example C25_hyps : sp2m_pre op_none op_none C24_d1 C24_d0 C24_A C24_B C24_a C24_b /\ dense_ok 31 0 3 2 2 C25_C /\
  sp2m_pre op_conjugate_transpose op_transpose C24_d1 C24_d0 C24_A C24_B C24_a C24_b /\ dense_ok 31 1 4 3 3 (zrep 12 (1, 1)).
Proof.
  destruct C24_hyps as (H1 & H2 & _). split; [exact H1|]. split; [|split; [exact H2|]]; constructor; vm_compute; intuition discriminate.
Qed.
Example C25_case : sp2md Gops false C25_fz C25_ft 31 op_none (Some C24_d1) (Some C24_A) op_none (Some C24_d0) (Some C24_B) (0,1) (10,0) (Some C25_C) 0 3
  = Some (success, Some [(1,12);(20,0);(9,9);(30,0);(5,0)]).
Proof. vm_compute. reflexivity. Qed.
Example C25_case_ct : sp2md Gops false C25_fz C25_ft 31 op_conjugate_transpose (Some C24_d1) (Some C24_A) op_transpose (Some C24_d0) (Some C24_B) (1,0) (0,0) (Some (zrep 12 (1,1))) 1 4
  = Some (success, Some [(8,8);(0,0);(20,12);(1,1); (0,0);(0,-35);(0,0);(1,1); (2,0);(0,0);(4,-1);(1,1)]).
Proof. vm_compute. reflexivity. Qed.
Example C25_case_spmmd : spmmd Gops false C25_fz C25_ft 31 op_none (Some C24_A) (Some C24_B) 1 (Some C25_C) 2 = Some (success, Some [(12,9);(0,0);(0,0);(0,35);(4,0)]).
Proof. vm_compute. reflexivity. Qed.
