(** C56: matrix handles made from BSR arrays. *)
From Coq Require Import ZArith List Bool Lia ZifyBool.
From Verif Require Import Base BaseFacts Algebra UtilModel DoidModel DoidSpec MvModel MvSpec Csr SortSpec CheckModel CheckSpec CheckProof CsrmvModel HandleModel BsrModel BsrSpec BsrProof ConvertModel ConvertSpec ConvertProof BsrmvModel BsrmvSpec BsrmvProof Props_Bsr Props_Bsrmv BsrHandleModel BsrHandle Decide.
Import ListNotations.
Open Scope Z_scope.

(** C56.  Creation from arrays of the advertised lengths reads nothing out of bounds; it
    succeeds exactly for a positive block dimension and a valid block structure, reports
    the documented code of the first defect otherwise, and stores a handle only on success:
    then the handle has the dimensions of the expanded matrix, the user's arrays and the
    classification of the blocks.  Missing (refuted below): arrays whose expanded sizes
    exceed the integer type. *)
Theorem C56_create_partial : forall T w b row bM bN bd ptr ind (val : list T),
  (0 <= bM -> zlen ptr = bM + 1) ->
  let nz := zn ptr bM - b in
  (0 <= bM -> 0 <= nz -> zlen ind = nz) ->
  - 2 ^ w <= nz <= int_max w ->
  (0 < bd -> 0 <= bM -> 0 <= bN -> 0 <= nz -> bM * bd <= int_max w /\ bN * bd <= int_max w /\ nz * bd * bd <= int_max w) ->
  let sizes := 0 <= bM /\ 0 <= bN /\ 0 <= nz in
  let bad := bad_index shape_general bM bN b ptr ind in
  let dup := dup_diag bM b ptr ind in
  exists st h, create_bsr w false true b row bM bN bd (Some ptr) (Some ind) (Some val) false = Some (st, h) /\
   (st = success <-> 0 < bd /\ sizes /\ csr_wf bM bN nz b ptr ind /\ diag_unique bM b ptr ind) /\
   (st = invalid_size <-> 0 < bd /\ ~ sizes) /\
   (st = invalid_value <-> bd <= 0 \/ 0 < bd /\ sizes /\ (~ ptr_ok bM nz b ptr \/
       ptr_ok bM nz b ptr /\ exists k, dup k /\ ~ bad k /\ forall k', k' < k -> ~ bad k' /\ ~ dup k')) /\
   (st = invalid_index_value <-> 0 < bd /\ sizes /\ ptr_ok bM nz b ptr /\
       exists k, bad k /\ forall k', k' < k -> ~ bad k' /\ ~ dup k') /\
   (st = success \/ st = invalid_size \/ st = invalid_value \/ st = invalid_index_value) /\
   (st <> success -> h = None) /\
   (st = success -> exists so,
      h = Some (mkBhnd (bM * bd) (bN * bd) (nz * bd * bd)
                  (mkBmat (bM * bd) (bN * bd) (nz * bd * bd) gn b bd row ptr ind val bM bN nz) so false) /\
      sort_says so bM b ptr ind).
Proof.
  intros T w b row bM bN bd ptr ind val LP nz LI NI FIT sizes bad dup.
  destruct (create_bsr_ok w b row bM bN bd ptr ind val LP LI NI FIT) as (st & h & E & C). exists st, h. split; [exact E|].
  fold nz in C. fold bad dup in C. fold sizes in C.
  assert (WFP : csr_wf bM bN nz b ptr ind -> diag_unique bM b ptr ind -> sizes -> ptr_ok bM nz b ptr /\ (forall k, ~ bad k) /\ (forall k, ~ dup k)).
  { intros W D (s1 & s2 & s3). apply (structure_ok_wf bM bN nz b ptr ind) in D as _ || idtac.
    destruct (structure_ok_wf bM bN nz b ptr ind s1 s2 s3 (LP s1) (LI s1 s3)) as (_ & H). exact (H (conj W D)). }
  assert (NB : forall k, bad k -> (forall k', k' < k -> ~ bad k' /\ ~ dup k') -> forall k2, dup k2 -> ~ bad k2 -> (forall k', k' < k2 -> ~ bad k' /\ ~ dup k') -> False).
  { intros k B1 B2 k2 D1 D2 D3. destruct (Z.lt_total k k2) as [H|[H|H]]; [destruct (D3 k H); auto|subst; auto|destruct (B2 k2 H); auto]. }
  destruct C as [C|[C|[C|[C|[C|C]]]]].
  - destruct C as (-> & HB & HS & W & D & so & -> & SS). destruct (WFP W D HS) as (P1 & P2 & P3).
    split; [tauto|]. split; [split; [discriminate|tauto]|].
    split; [split; [discriminate|intros [?|(_ & _ & [?|(_ & k & Hk & _)])]; [lia|tauto|destruct (P3 k Hk)]]|].
    split; [split; [discriminate|intros (_ & _ & _ & k & Hk & _); destruct (P2 k Hk)]|].
    split; [auto|]. split; [congruence|]. intros _. exists so. split; [reflexivity|exact SS].
  - destruct C as (-> & -> & HB). split; [split; [discriminate|lia]|]. split; [split; [discriminate|lia]|].
    split; [tauto|]. split; [split; [discriminate|lia]|]. split; [auto|]. split; [auto|discriminate].
  - destruct C as (-> & -> & HB & HS). split; [split; [discriminate|tauto]|]. split; [tauto|].
    split; [split; [discriminate|intros [?|?]; [lia|tauto]]|]. split; [split; [discriminate|tauto]|]. split; [auto|]. split; [auto|discriminate].
  - destruct C as (-> & -> & HB & HS & HP). split; [split; [discriminate|intros (_ & _ & W & D); destruct (WFP W D HS); tauto]|].
    split; [split; [discriminate|tauto]|]. split; [tauto|]. split; [split; [discriminate|tauto]|]. split; [auto|]. split; [auto|discriminate].
  - destruct C as (-> & -> & HB & HS & HP & k & B1 & B2).
    split; [split; [discriminate|intros (_ & _ & W & D); destruct (WFP W D HS) as (_ & H & _); destruct (H k B1)]|].
    split; [split; [discriminate|tauto]|].
    split; [split; [discriminate|intros [?|(_ & _ & [?|(_ & k2 & D1 & D2 & D3)])]; [lia|tauto|destruct (NB k B1 B2 k2 D1 D2 D3)]]|].
    split; [split; [intros _; split; [exact HB|split; [exact HS|split; [exact HP|eauto]]]|reflexivity]|]. split; [auto|]. split; [auto|discriminate].
  - destruct C as (-> & -> & HB & HS & HP & k & D1 & D2 & D3).
    split; [split; [discriminate|intros (_ & _ & W & D); destruct (WFP W D HS) as (_ & _ & H); destruct (H k D1)]|].
    split; [split; [discriminate|tauto]|].
    split; [split; [intros _; right; split; [exact HB|split; [exact HS|right; split; [exact HP|eauto]]]|reflexivity]|].
    split; [split; [discriminate|intros (_ & _ & _ & k1 & B1 & B2); destruct (NB k1 B1 B2 k D1 D2 D3)]|].
    split; [auto|]. split; [auto|discriminate].
Qed.
Print Assumptions C56_create_partial.

(** A handle creation returned and a general descriptor of its base: y becomes
    alpha * op(A) * x + beta * y, A being the matrix the blocks denote, for the operation
    none on column-ordered blocks and for every operation and block order when the matrix
    has no rows, columns or blocks. *)
Theorem C56_mv : forall T (O : ops T), laws O -> forall sup w dt a512 b row bM bN bd ptr ind val h d op x y alpha beta,
  sup 1 = true -> w = 31 \/ w = 63 -> b = 0 \/ b = 1 ->
  zlen ptr = bM + 1 -> let nz := zn ptr bM - b in zlen ind = nz -> zlen val = nz * bd * bd ->
  create_bsr w false true b row bM bN bd (Some ptr) (Some ind) (Some val) false = Some (success, Some h) ->
  d_base d = b -> d_type d = mt_general -> valid_op op = true ->
  let rows := match op with op_none => bM * bd | _ => bN * bd end in
  let cols := match op with op_none => bN * bd | _ => bM * bd end in
  zlen x = cols -> zlen y = rows ->
  (op = op_none /\ row = false) \/ bM = 0 \/ bN = 0 \/ nz = 0 ->
  exists y', bsr_mv O sup w dt a512 op (Some alpha) (Some h) (Some d) (Some x) (Some beta) (Some y) = Some (success, Some y') /\
    mv_spec O rows cols alpha beta (op_sem O op (bsr_elem O row b bd ptr ind val)) x y y'.
Proof.
  intros T O L sup w dt a512 b row bM bN bd ptr ind val h d op x y alpha beta S1 Hw Hb LP nz LI LV E Db Dt Vop rows cols LX LY CASES.
  destruct (create_bsr_inv w b row bM bN bd ptr ind val h LP LI E) as (H1 & H2 & H3 & H4 & WF & F1 & F2 & F3 & so & ->).
  apply (bsr_mv_ok O L); auto.
Qed.
Print Assumptions C56_mv.

(** Every other request on a created handle is refused with a status that names the
    defect, and y is not written. *)
Theorem C56_mv_refuses : forall T (O : ops T) sup w dt a512 b row bM bN bd ptr ind val h d op x y alpha beta,
  zlen ptr = bM + 1 -> let nz := zn ptr bM - b in zlen ind = nz ->
  create_bsr w false true b row bM bN bd (Some ptr) (Some ind) (Some val) false = Some (success, Some h) ->
  let r := bsr_mv O sup w dt a512 op (Some alpha) (Some h) (Some d) (Some x) (Some beta) (Some y) in
  (d_base d <> b \/ valid_op op = false -> r = Some (invalid_value, None)) /\
  (d_base d = b -> valid_op op = true -> (d_type d = mt_symmetric \/ d_type d = mt_hermitian) -> bM <> bN -> r = Some (invalid_size, None)) /\
  (d_base d = b -> valid_op op = true -> bM <> 0 -> bN <> 0 ->
     (d_type d = mt_general -> nz <> 0 /\ (op <> op_none \/ row = true)) ->
     (d_type d = mt_symmetric \/ d_type d = mt_hermitian -> bM = bN) ->
     r = Some (not_implemented, None)).
Proof.
  intros T O sup w dt a512 b row bM bN bd ptr ind val h d op x y alpha beta LP nz LI E.
  destruct (create_bsr_inv w b row bM bN bd ptr ind val h LP LI E) as (H1 & H2 & H3 & H4 & WF & F1 & F2 & F3 & so & ->).
  apply bsr_mv_unserved; auto.
Qed.
Print Assumptions C56_mv_refuses.

(** Converting a CSR or CSC handle (no position stored twice) to column-ordered blocks and
    multiplying with the new handle: y becomes alpha * op(A) * x + beta * y, op being the
    operation of the conversion; the padding columns do not matter and the padding rows of
    y are scaled by beta. *)
Theorem C56_convert_mv : forall T (O : ops T), laws O -> forall sup w dt a512 fz ft h u bd op d x y alpha beta,
  (forall k, 0 <= k -> zlen (fz k) = k) -> (forall k, 0 <= k -> zlen (ft k) = k) -> sup 1 = true -> (w = 31 \/ w = 63) ->
  made_from h u -> (forall i j, 0 <= i < H_m h -> 0 <= j < H_n h -> (length (user_ents u i j) <= 1)%nat) ->
  valid_op op = true -> (c_doid u = gt -> op <> op_none) -> (is_cplx dt = false -> op <> op_conjugate_transpose) ->
  0 < bd -> 0 < H_m h -> 0 < H_n h ->
  let m' := op_rows op (H_m h) (H_n h) in let n' := op_cols op (H_m h) (H_n h) in
  nblocks m' bd * bd <= int_max w -> nblocks n' bd * bd <= int_max w -> H_m h + bd - 1 <= int_max w -> H_n h + bd - 1 <= int_max w ->
  c_b u + c_nnz u <= int_max w -> c_nnz u * bd * bd <= int_max w ->
  d_base d = c_b u -> d_type d = mt_general -> zlen x = nblocks n' bd * bd -> zlen y = nblocks m' bd * bd ->
  exists B y', convert_bsr (ocj O) (is_cplx dt) fz ft w (o0 O) (Some h) bd false op true = Some (success, Some B) /\
    bsr_mv O sup w dt a512 op_none (Some alpha) (Some (converted_handle B)) (Some d) (Some x) (Some beta) (Some y) = Some (success, Some y') /\
    mv_spec O (nblocks m' bd * bd) n' alpha beta
      (fun i j => if i <? m' then op_sem O op (fun i j => suml O (fun v => v) (user_ents u i j)) i j else o0 O) x y y'.
Proof.
  intros T O L sup w dt a512 fz ft h u bd op d x y alpha beta LZ LT S1 Hw MF DI VO CS CR Hbd Hm Hn m' n' F1 F2 F3 F4 F5 F6 Db Dt LX LY.
  destruct (C10_convert_bsr T (ocj O) (is_cplx dt) fz ft w (o0 O) h u bd false op LZ LT Hw MF VO CS Hbd Hm Hn F3 F4 F5 F6)
    as (B & E & E1 & E2 & E3 & E4 & E5 & WF & LV & LE & SO & G). fold m' n' in E1, E2, WF, SO, G.
  assert (PM : 0 < m') by (unfold m'; destruct op; cbn; lia). assert (PN : 0 < n') by (unfold n'; destruct op; cbn; lia).
  pose proof (nblocks_pos m' n' bd Hbd m' PM) as NM. pose proof (nblocks_pos m' n' bd Hbd n' PN) as NN.
  pose proof MF as (_ & W & _ & B01 & _). pose proof (wf_nnz _ _ _ _ _ _ WF) as Z0. destruct (wf_ptr _ _ _ _ _ _ WF) as (P1 & P2 & _).
  assert (NZ : bs_nnz B = zn (bs_ptr B) (nblocks m' bd) - c_b u) by lia.
  assert (HD : converted_handle B = bsr_handle (c_b u) false (nblocks m' bd) (nblocks n' bd) bd (bs_ptr B) (bs_ind B) (bs_val B) unknown_sort).
  { unfold converted_handle, bsr_handle. rewrite E1, E2, E3, E4, E5, <- NZ. rewrite !Z.div_mul by lia. reflexivity. }
  destruct (bsr_mv_ok O L sup w dt a512 (c_b u) false (nblocks m' bd) (nblocks n' bd) bd (bs_ptr B) (bs_ind B) (bs_val B) unknown_sort d op_none x y alpha beta)
    as (y' & Ey & Ly & Hy); auto; try lia; try (rewrite <- NZ; auto; nia).
  exists B, y'. split; [exact E|]. split; [rewrite HD; exact Ey|]. split; [exact Ly|].
  intros i Hi. rewrite Hy by exact Hi. f_equal. f_equal. cbn [op_sem].
  assert (EL : forall j, 0 <= j < nblocks n' bd * bd -> bsr_elem O false (c_b u) bd (bs_ptr B) (bs_ind B) (bs_val B) i j =
    if (i <? m') && (j <? n') then last (op_ents (ocj O) (is_cplx dt) (user_ents u) op i j) (o0 O) else o0 O).
  { intros j Hj. rewrite (elem_get O L false (c_b u) bd (nblocks m' bd)) by auto. apply G; lia. }
  assert (LS : forall l : list T, (length l <= 1)%nat -> last l (o0 O) = suml O (fun v => v) l).
  { intros [|a [|c l]] Hl; cbn in *; [reflexivity| |lia]. destruct (l_ring L). rewrite Radd_comm. symmetry. apply Radd_0_l. }
  rewrite (sumz_split O L 0 n' (nblocks n' bd * bd)) by lia. rewrite (sumz_zero O L n' (nblocks n' bd * bd)).
  - rewrite (sumz_ext O 0 n' _ (fun j => omul O (if i <? m' then op_sem O op (fun i j => suml O (fun v => v) (user_ents u i j)) i j else o0 O) (nthZ (o0 O) x j))).
    + destruct (l_ring L). rewrite Radd_comm. apply Radd_0_l.
    + intros j Hj. f_equal. rewrite EL by lia. replace (j <? n') with true by lia. rewrite andb_true_r. destruct (i <? m') eqn:Ei; [|reflexivity].
      assert (Hi' : 0 <= i < m') by lia. unfold m', n', op_rows, op_cols in Hi', Hj.
      unfold op_ents, op_sem, mC, mT. destruct op; cbn in VO; try discriminate VO.
      * apply LS. apply DI; assumption.
      * apply LS. apply DI; assumption.
      * destruct (is_cplx dt) eqn:C; [|now destruct (CR eq_refl)].
        pose proof (DI j i Hj Hi') as D1. destruct (user_ents u j i) as [|a [|c l]]; cbn in D1 |- *; [symmetry; apply (cj_0 O L)| |lia].
        destruct (l_ring L). f_equal. rewrite Radd_comm. symmetry. apply Radd_0_l.
  - intros j Hj. rewrite EL by lia. replace (j <? n') with false by lia. rewrite andb_false_r. apply (mul_zero O L).
Qed.
Print Assumptions C56_convert_mv.

(** Null arguments of creation and of the product. *)
Theorem C56_null : forall T (O : ops T) sup w dt a512 mn al b row bM bN bd ptr ind val fast op alpha A d x beta y,
  (mn = true \/ ptr = None -> create_bsr w mn al b row bM bN bd ptr ind (val : option (list T)) fast = Some (invalid_pointer, None)) /\
  (forall p, ptr = Some p -> 0 < bd -> 0 <= bM -> zlen p = bM + 1 -> - 2 ^ w <= zn p bM - b <= int_max w -> ind = None \/ val = None ->
   create_bsr w mn al b row bM bN bd ptr ind val fast = Some (invalid_pointer, None)) /\
  (alpha = None \/ beta = None \/ A = None \/ d = None \/ x = None \/ y = None ->
   bsr_mv O sup w dt a512 op alpha A d x beta y = Some (invalid_pointer, None)).
Proof.
  intros T O sup w dt a512 mn al b row bM bN bd ptr ind val fast op alpha A d x beta y. split; [|split].
  - unfold create_bsr. intros [-> | ->]; [reflexivity|destruct mn; reflexivity].
  - intros p -> Hbd HM LP NI HN. unfold create_bsr. destruct mn; [reflexivity|].
    replace (bd <=? 0) with false by lia. replace (bM <? 0) with false by lia.
    rewrite (rd_nthZ _ 0) by lia. rewrite chk_in by exact NI. unfold mat_check.
    destruct HN as [-> | ->]; [|destruct ind]; reflexivity.
  - unfold bsr_mv. intros [-> |[-> |[-> |[-> |[-> | ->]]]]]; repeat match goal with |- context [match ?a with Some _ => _ | None => _ end] => destruct a end; reflexivity.
Qed.
Print Assumptions C56_null.

(** One block row of 2^20 empty block columns with blocks of 65536 x 65536: the arrays
    are valid and tiny, but the number of columns of the expanded matrix exceeds a 32-bit
    aoclsparse_int and creation overflows (finding B66). *)
Theorem C56_size_refuted : ~ (forall b row bM bN bd ptr ind (val : list Z),
  0 < bd -> csr_wf bM bN (zn ptr bM - b) b ptr ind -> diag_unique bM b ptr ind -> bd <= int_max 31 -> bM <= int_max 31 -> bN <= int_max 31 ->
  zlen val = (zn ptr bM - b) * bd * bd ->
  create_bsr 31 false true b row bM bN bd (Some ptr) (Some ind) (Some val) false <> None).
Proof.
  intros H. apply (H 0 false 1 1048576 65536 [0; 0] [] []); try (vm_compute; congruence); try reflexivity.
  - apply csr_wfb_ok. vm_compute. reflexivity.
  - intros i k k' Hi Hk. assert (i = 0) by lia. subst i. change (0 <= k < 0) in Hk. lia.
Qed.
Print Assumptions C56_size_refuted.

(** The 4 x 6 matrix of C48 as a handle *)
Example C56_case_create : exists h, create_bsr 31 false true 1 false 2 3 2 (Some bm_ptr) (Some bm_ind) (Some bm_val) false = Some (success, Some h) /\
  B_m h = 4 /\ B_n h = 6 /\ B_nnz h = 12 /\ B_sort h = unsorted.
Proof. eexists. split; [vm_compute; reflexivity|]. vm_compute. auto. Qed.
Example C56_case_mv : exists h, create_bsr 31 false true 1 false 2 3 2 (Some bm_ptr) (Some bm_ind) (Some bm_val) false = Some (success, Some h) /\
  bsr_mv Zops (fun i => i <=? 2) 31 dt_d false op_none (Some 2) (Some h) (Some (mkDescr mt_general fm_lower dg_non_unit 1))
    (Some [1; 2; 3; 4; 5; 6]) (Some 10) (Some [1; 1; 1; 1]) = Some (success, Some [94; 122; 152; 166]) /\
  bsr_mv Zops (fun i => i <=? 2) 31 dt_d false op_transpose (Some 2) (Some h) (Some (mkDescr mt_general fm_lower dg_non_unit 1))
    (Some [1; 2; 3; 4]) (Some 10) (Some [1; 1; 1; 1; 1; 1]) = Some (not_implemented, None).
Proof. eexists. split; [vm_compute; reflexivity|]. split; vm_compute; reflexivity. Qed.
Example C56_case_no_columns : exists h, create_bsr 31 false true 0 true 1 0 2 (Some [0; 0]) (Some []) (Some []) false = Some (success, Some h) /\
  bsr_mv Zops (fun i => i <=? 2) 31 dt_d false op_none (Some 2) (Some h) (Some (mkDescr mt_general fm_lower dg_non_unit 0))
    (Some []) (Some 10) (Some [1; 2]) = Some (success, Some [10; 20]).
Proof. eexists. split; [vm_compute; reflexivity|]. vm_compute; reflexivity. Qed.

(** The 3 x 5 matrix of C10 converted to 2 x 2 blocks and multiplied *)
Example C56_convert_case_hyps : made_from (bsr_hnd 3 5 (bsr_user gn 3 5)) (bsr_user gn 3 5) /\
  (forall i j, 0 <= i < 3 -> 0 <= j < 5 -> (length (user_ents (bsr_user gn 3 5) i j) <= 1)%nat).
Proof.
  split.
  - split; [eexists; reflexivity|]. split; [apply csr_wfb_ok; reflexivity|]. split; [reflexivity|]. split; [auto|]. split; [reflexivity|]. left. repeat split; reflexivity.
  - intros i j Hi Hj.
    assert (C : forallb (fun i => forallb (fun j => Nat.leb (length (user_ents (bsr_user gn 3 5) i j)) 1) (zrange 0 5)) (zrange 0 3) = true) by reflexivity.
    rewrite forallb_forall in C. specialize (C i ltac:(apply in_zrange; lia)). rewrite forallb_forall in C. specialize (C j ltac:(apply in_zrange; lia)).
    apply PeanoNat.Nat.leb_le. exact C.
Qed.
Example C56_convert_case : exists B, convert_bsr (ocj Zops) false junk7 junk7 31 0 (Some (bsr_hnd 3 5 (bsr_user gn 3 5))) 2 false op_transpose true = Some (success, Some B) /\
  exists y, bsr_mv Zops (fun i => i <=? 2) 31 dt_d false op_none (Some 1) (Some (converted_handle B)) (Some (mkDescr mt_general fm_lower dg_non_unit 1))
    (Some [1; 10; 100; 7]) (Some 2) (Some [0; 0; 0; 0; 0; 9]) = Some (success, Some y) /\ nthZ 0 y 5 = 18.
Proof. eexists. split; [vm_compute; reflexivity|]. eexists. split; vm_compute; reflexivity. Qed.
