(** C10: CSR to BSR; C45: conversion of a handle to CSR. *)
From Coq Require Import ZArith List Bool Lia.
From Verif Require Import Base BaseFacts Algebra UtilModel DoidModel CheckModel MvModel CsrmvModel Csr CsrFacts Csr2CscProof SortSpec HandleModel BsrModel BsrSpec BsrProof BsrPubProof ConvertModel ConvertSpec ConvertProof Decide.
Import ListNotations.
Open Scope Z_scope.

(** C10.  The number of non-empty blocks, in total and per block row. *)
Theorem C10_csr2bsr_nnz : forall w m n nnz b bd ptr ind bptr0,
  csr_wf m n nnz b ptr ind -> 0 < bd -> 0 < m -> 0 < n -> (b = 0 \/ b = 1) -> (w = 31 \/ w = 63) ->
  m + bd - 1 <= int_max w -> n + bd - 1 <= int_max w -> b + nnz <= int_max w ->
  zlen bptr0 = nblocks m bd + 1 ->
  exists bptr bnnz,
    csr2bsr_nnz w m n (Some b) (Some ptr) (Some ind) bd (Some bptr0) true = Some (success, Some bptr, Some bnnz) /\
    zlen bptr = nblocks m bd + 1 /\ ptr_ok (nblocks m bd) bnnz b bptr /\
    (forall L, NoDup L -> (forall I J, In (I, J) L <-> 0 <= I < nblocks m bd /\ occupied m b bd ptr ind I J) -> bnnz = zlen L) /\
    (forall I L, 0 <= I < nblocks m bd -> NoDup L -> (forall J, In J L <-> occupied m b bd ptr ind I J) -> zn bptr (I + 1) - zn bptr I = zlen L).
Proof.
  intros w m n nnz b bd ptr ind bptr0 W Hbd Hm Hn B01 Hw Fm Fn Fz LB.
  destruct (nnz_ok w m n nnz b bd ptr ind W Hbd Hm Hn B01 Hw Fm Fn Fz bptr0 LB) as (bp & z & E & L1 & PB & R & C & CO).
  exists bp, z. do 4 (split; [auto|]). intros I L HI ND F. rewrite C by auto. rewrite (cnt_eq m n nnz b bd ptr ind W Hbd Hm I L HI ND); [lia|].
  intros J. rewrite F. symmetry. exact (has_occupied m n nnz b bd ptr ind W Hbd Hm I J HI).
Qed.
Print Assumptions C10_csr2bsr_nnz.

(** The two calls in sequence, on a zeroed value buffer: a valid block structure that
    holds the stored elements at their places and zero elsewhere.  Of several elements
    stored at one place the last one is kept. *)
Theorem C10_csr2bsr : forall T (zero : T) w m n nnz b bd ptr ind (val : list T) row_order bptr0,
  csr_wf m n nnz b ptr ind -> zlen val = nnz -> 0 < bd -> 0 < m -> 0 < n -> (b = 0 \/ b = 1) -> (w = 31 \/ w = 63) ->
  m + bd - 1 <= int_max w -> n + bd - 1 <= int_max w -> b + nnz <= int_max w ->
  zlen bptr0 = nblocks m bd + 1 ->
  exists bptr bnnz,
    csr2bsr_nnz w m n (Some b) (Some ptr) (Some ind) bd (Some bptr0) true = Some (success, Some bptr, Some bnnz) /\
    forall bind0, zlen bind0 = bnnz -> bnnz * bd * bd <= int_max w ->
    exists bval bind,
      csr2bsr w m n (Some b) row_order (Some val) (Some ptr) (Some ind) bd (Some (zrep (bnnz * bd * bd) zero)) (Some bptr) (Some bind0)
        = Some (success, Some bval, Some bind) /\
      bsr_of m n b bd ptr ind bnnz bptr bind bval /\
      forall i j, 0 <= i < nblocks m bd * bd -> 0 <= j < nblocks n bd * bd ->
        bsr_get zero row_order b bd bptr bind bval i j = if (i <? m) && (j <? n) then last (ents b ptr ind val i j) zero else zero.
Proof.
  intros T zero w m n nnz b bd ptr ind val row_order bptr0 W LV Hbd Hm Hn B01 Hw Fm Fn Fz LB.
  destruct (nnz_ok w m n nnz b bd ptr ind W Hbd Hm Hn B01 Hw Fm Fn Fz bptr0 LB) as (bp & z & E & L1 & PB & R & C & CO).
  exists bp, z. split; [exact E|]. intros bind0 LI FIT. assert (Z0 : 0 <= z * bd * bd) by (apply Z.mul_nonneg_nonneg; [apply Z.mul_nonneg_nonneg; lia|lia]).
  destruct (fill_ok w m n nnz b bd ptr ind W Hbd Hm Hn B01 Hw Fm Fn Fz zero val row_order bp z LV L1 PB C FIT (eq zero) bind0 (zrep (z * bd * bd) zero)) as (bv & bi & E2 & BO & V); [auto|now rewrite zlen_zrep by lia|intros x Hx; now rewrite nthZ_zrep by lia|].
  exists bv, bi. split; [exact E2|]. split; [exact BO|]. intros i j Hi Hj.
  rewrite (get_ok m n b bd ptr ind Hbd zero val row_order bp z C bi bv BO V) by auto. unfold held. destruct (i <? m) eqn:Ei; [|reflexivity]. destruct (j <? n) eqn:Ej; [reflexivity|]. cbn [andb].
  rewrite (ents_nil T m n nnz) by (auto; lia). reflexivity.
Qed.
Print Assumptions C10_csr2bsr.

(** On an arbitrary value buffer: the stored elements are at their places, every other
    element of a block is one the buffer held before (the routine does not clear it) *)
Theorem C10_csr2bsr_buffer : forall T (d : T) w m n nnz b bd ptr ind (val : list T) row_order bptr0,
  csr_wf m n nnz b ptr ind -> zlen val = nnz -> 0 < bd -> 0 < m -> 0 < n -> (b = 0 \/ b = 1) -> (w = 31 \/ w = 63) ->
  m + bd - 1 <= int_max w -> n + bd - 1 <= int_max w -> b + nnz <= int_max w ->
  zlen bptr0 = nblocks m bd + 1 ->
  exists bptr bnnz,
    csr2bsr_nnz w m n (Some b) (Some ptr) (Some ind) bd (Some bptr0) true = Some (success, Some bptr, Some bnnz) /\
    forall bind0 bval0, zlen bind0 = bnnz -> zlen bval0 = bnnz * bd * bd -> bnnz * bd * bd <= int_max w ->
    exists bval bind,
      csr2bsr w m n (Some b) row_order (Some val) (Some ptr) (Some ind) bd (Some bval0) (Some bptr) (Some bind0)
        = Some (success, Some bval, Some bind) /\
      bsr_of m n b bd ptr ind bnnz bptr bind bval /\
      forall I k r c, 0 <= I < nblocks m bd -> in_row bptr b I k -> 0 <= r < bd -> 0 <= c < bd ->
        let i := I * bd + r in let j := (zn bind k - b) * bd + c in
        let v := block_elt d row_order bd bval k r c in
        (i < m /\ ents b ptr ind val i j <> [] -> v = last (ents b ptr ind val i j) d) /\
        (m <= i \/ ents b ptr ind val i j = [] -> In v bval0).
Proof.
  intros T d w m n nnz b bd ptr ind val row_order bptr0 W LV Hbd Hm Hn B01 Hw Fm Fn Fz LB.
  destruct (nnz_ok w m n nnz b bd ptr ind W Hbd Hm Hn B01 Hw Fm Fn Fz bptr0 LB) as (bp & z & E & L1 & PB & R & C & CO).
  exists bp, z. split; [exact E|]. intros bind0 bval0 LI LV0 FIT.
  destruct (fill_ok w m n nnz b bd ptr ind W Hbd Hm Hn B01 Hw Fm Fn Fz d val row_order bp z LV L1 PB C FIT (fun v => In v bval0) bind0 bval0 LI LV0) as (bv & bi & E2 & BO & V).
  { intros x Hx. unfold nthZ. apply nth_In. unfold zlen in LV0. lia. }
  exists bv, bi. split; [exact E2|]. split; [exact BO|]. intros I k r c HI IR Hr Hc. specialize (V I k r c HI IR Hr Hc). cbv zeta in *. unfold held in V.
  destruct (I * bd + r <? m) eqn:Em; destruct V as [(V1 & V2) | (V1 & V2)]; split; intros H; try contradiction; auto; try tauto.
  - destruct H; [lia|contradiction].
  - lia.
Qed.
Print Assumptions C10_csr2bsr_buffer.

(** Without duplicates the block matrix is the CSR matrix *)
Theorem C10_same_matrix : forall T (O : ops T), laws O -> forall w m n nnz b bd ptr ind (val : list T) row_order bptr0,
  csr_wf m n nnz b ptr ind -> zlen val = nnz -> rows_distinct m b ptr ind -> 0 < bd -> 0 < m -> 0 < n -> (b = 0 \/ b = 1) -> (w = 31 \/ w = 63) ->
  m + bd - 1 <= int_max w -> n + bd - 1 <= int_max w -> b + nnz <= int_max w ->
  zlen bptr0 = nblocks m bd + 1 ->
  exists bptr bnnz,
    csr2bsr_nnz w m n (Some b) (Some ptr) (Some ind) bd (Some bptr0) true = Some (success, Some bptr, Some bnnz) /\
    forall bind0, zlen bind0 = bnnz -> bnnz * bd * bd <= int_max w ->
    exists bval bind,
      csr2bsr w m n (Some b) row_order (Some val) (Some ptr) (Some ind) bd (Some (zrep (bnnz * bd * bd) (o0 O))) (Some bptr) (Some bind0)
        = Some (success, Some bval, Some bind) /\
      forall i j, 0 <= i < m -> 0 <= j < n ->
        bsr_get (o0 O) row_order b bd bptr bind bval i j = csr_mat O b ptr ind val i j.
Proof.
  intros T O L w m n nnz b bd ptr ind val row_order bptr0 W LV D Hbd Hm Hn B01 Hw Fm Fn Fz LB.
  destruct (C10_csr2bsr T (o0 O) w m n nnz b bd ptr ind val row_order bptr0 W LV Hbd Hm Hn B01 Hw Fm Fn Fz LB) as (bp & z & E & H). exists bp, z. split; [exact E|]. intros bind0 LI FIT.
  destruct (H bind0 LI FIT) as (bv & bi & E2 & _ & V). exists bv, bi. split; [exact E2|]. intros i j Hi Hj.
  pose proof (nblocks_pos m n bd Hbd m Hm). pose proof (nblocks_pos m n bd Hbd n Hn). rewrite V by lia. replace ((i <? m) && (j <? n)) with true by lia.
  unfold csr_mat. assert (S : ents b ptr ind val i j = [] \/ exists v, ents b ptr ind val i j = [v]); [|destruct S as [-> | (v & ->)]; cbn; [reflexivity|destruct L as [R]; rewrite (Radd_comm R), (Radd_0_l R); reflexivity]].
  unfold ents. assert (G : forall l, NoDup l -> (forall k, In k l -> in_row ptr b i k) -> let r := flat_map (fun k => if zn ind k =? j + b then olist (rd val k) else []) l in r = [] \/ exists v, r = [v]).
  { induction l as [|k l IH]; intros ND F; cbn; [now left|]. inversion ND; subst. destruct IH as [X | (v & X)]; auto. { intros; apply F; now right. }
    - rewrite X. destruct (zn ind k =? j + b); [|now left]. destruct (rd val k); cbn; [right; eauto|now left].
    - destruct (zn ind k =? j + b) eqn:Ek; [|right; eauto]. exfalso.
      assert (Y : In v (flat_map (fun k => if zn ind k =? j + b then olist (rd val k) else []) l)) by (rewrite X; now left). apply in_flat_map in Y. destruct Y as (k' & Hk' & Y).
      destruct (zn ind k' =? j + b) eqn:Ek'; [|destruct Y]. apply (D i k k'); auto; try lia; [apply F; now left|apply F; now right|intros ->; contradiction]. }
  apply G; [apply (nodup_zrange m n bd)|]. intros k Hk. apply in_zrange in Hk. exact Hk.
Qed.
Print Assumptions C10_same_matrix.

(** A 3 x 5 matrix in 2 x 2 blocks *)
Definition bsr_ptr := [1; 3; 5; 6].
Definition bsr_ind := [4; 1; 2; 1; 5].
Definition bsr_vals := [10; 20; 30; 40; 50].
Example C10_case_wf : csr_wf 3 5 5 1 bsr_ptr bsr_ind.
Proof. apply csr_wfb_ok. reflexivity. Qed.
Example C10_case_distinct : rows_distinct 3 1 bsr_ptr bsr_ind.
Proof. apply rows_distinctb_ok. reflexivity. Qed.
Example C10_case_nnz : csr2bsr_nnz 31 3 5 (Some 1) (Some bsr_ptr) (Some bsr_ind) 2 (Some [9; 9; 9]) true = Some (success, Some [1; 3; 4], Some 3).
Proof. reflexivity. Qed.
Example C10_case : csr2bsr 31 3 5 (Some 1) false (Some bsr_vals) (Some bsr_ptr) (Some bsr_ind) 2 (Some (zrep 12 0)) (Some [1; 3; 4]) (Some [7; 7; 7])
  = Some (success, Some [20; 40; 0; 30; 0; 0; 10; 0; 50; 0; 0; 0], Some [1; 2; 3]).
Proof. reflexivity. Qed.

(** Rejected calls *)
Theorem C10_rejected : forall T w m n (d : option Z) ptr ind bd bptr ok row_order (val bval : option (list T)) bind,
  (m < 0 \/ n < 0 \/ bd <= 0 -> csr2bsr_nnz w m n d ptr ind bd bptr ok = Some (invalid_size, bptr, None)) /\
  (0 <= m -> 0 <= n -> 0 < bd -> ptr = None \/ ind = None \/ bptr = None \/ ok = false -> csr2bsr_nnz w m n d ptr ind bd bptr ok = Some (invalid_pointer, bptr, None)) /\
  (m < 0 \/ n < 0 -> csr2bsr w m n d row_order val ptr ind bd bval bptr bind = Some (invalid_size, bval, bind)) /\
  (0 < m -> 0 < n -> bd <= 0 -> csr2bsr w m n d row_order val ptr ind bd bval bptr bind = Some (invalid_value, bval, bind)) /\
  (0 < m -> 0 < n -> 0 < bd -> d = Some 0 \/ d = Some 1 -> val = None \/ ptr = None \/ ind = None \/ bval = None \/ bptr = None \/ bind = None ->
     csr2bsr w m n d row_order val ptr ind bd bval bptr bind = Some (invalid_pointer, bval, bind)).
Proof.
  intros. unfold csr2bsr_nnz, csr2bsr. repeat split; intros.
  - now replace ((m <? 0) || (n <? 0) || (bd <=? 0)) with true by lia.
  - replace ((m <? 0) || (n <? 0) || (bd <=? 0)) with false by lia. destruct ptr; [|reflexivity]. destruct ind; [|reflexivity]. destruct bptr; [|reflexivity]. destruct ok; [|reflexivity]. intuition discriminate.
  - now replace ((m <? 0) || (n <? 0)) with true by lia.
  - replace ((m <? 0) || (n <? 0)) with false by lia. replace ((m =? 0) || (n =? 0)) with false by lia. now replace (bd <=? 0) with true by lia.
  - replace ((m <? 0) || (n <? 0)) with false by lia. replace ((m =? 0) || (n =? 0)) with false by lia. replace (bd <=? 0) with false by lia.
    assert (X : exists b, d = Some b /\ negb (b =? 0) && negb (b =? 1) = false) by (destruct H2 as [-> | ->]; eexists; split; reflexivity). destruct X as (b & -> & ->).
    destruct val; [|reflexivity]. destruct ptr; [|reflexivity]. destruct ind; [|reflexivity]. destruct bval; [|reflexivity]. destruct bptr; [|reflexivity]. destruct bind; [|reflexivity]. intuition discriminate.
Qed.
Print Assumptions C10_rejected.

(** From a handle: CSR input with any operation, CSC input with a transposition *)
Theorem C10_convert_bsr : forall T (cj : T -> T) cplx fz ft w (zero : T) h u bd row_order op,
  (forall k, 0 <= k -> zlen (fz k) = k) -> (forall k, 0 <= k -> zlen (ft k) = k) -> (w = 31 \/ w = 63) ->
  made_from h u -> valid_op op = true -> (c_doid u = gt -> op <> op_none) -> 0 < bd -> 0 < H_m h -> 0 < H_n h ->
  H_m h + bd - 1 <= int_max w -> H_n h + bd - 1 <= int_max w -> c_b u + c_nnz u <= int_max w -> c_nnz u * bd * bd <= int_max w ->
  let m' := op_rows op (H_m h) (H_n h) in let n' := op_cols op (H_m h) (H_n h) in
  exists B, convert_bsr cj cplx fz ft w zero (Some h) bd row_order op true = Some (success, Some B) /\
    bs_m B = nblocks m' bd * bd /\ bs_n B = nblocks n' bd * bd /\ bs_base B = c_b u /\ bs_bd B = bd /\ bs_row B = row_order /\
    csr_wf (nblocks m' bd) (nblocks n' bd) (bs_nnz B) (c_b u) (bs_ptr B) (bs_ind B) /\ zlen (bs_val B) = bs_nnz B * bd * bd /\
    bs_nnz B <= c_nnz u /\ (forall I k k', 0 <= I < nblocks m' bd -> in_row (bs_ptr B) (c_b u) I k -> in_row (bs_ptr B) (c_b u) I k' -> k < k' -> zn (bs_ind B) k < zn (bs_ind B) k') /\
    forall i j, 0 <= i < bs_m B -> 0 <= j < bs_n B ->
      bsr_get zero row_order (c_b u) bd (bs_ptr B) (bs_ind B) (bs_val B) i j =
        if (i <? m') && (j <? n') then last (op_ents cj cplx (user_ents u) op i j) zero else zero.
Proof. intros T cj cplx fz ft w zero h u bd row_order op LZ LT Hw. exact (convert_bsr_ok zero cj cplx fz ft LZ LT w zero Hw h u bd row_order op). Qed.
Print Assumptions C10_convert_bsr.

Definition bsr_user (d m n : Z) : cmat Z := mkCmat m n 5 d 1 bsr_ptr bsr_ind bsr_vals None None false dg_non_unit None.
Definition bsr_hnd (m n : Z) (u : cmat Z) : hnd Z := mkHnd m n (c_nnz u) [Some u] unknown_sort false false false [].
Definition junk7 (k : Z) : list Z := zrep k 7.
Example C10_handle_case : made_from (bsr_hnd 3 5 (bsr_user gn 3 5)) (bsr_user gn 3 5).
Proof. split; [eexists; reflexivity|]. split; [exact C10_case_wf|]. split; [reflexivity|]. split; [now right|]. split; [reflexivity|]. left. repeat split. Qed.
Example C10_handle_csc_case : made_from (bsr_hnd 5 3 (bsr_user gt 3 5)) (bsr_user gt 3 5).
Proof. split; [eexists; reflexivity|]. split; [exact C10_case_wf|]. split; [reflexivity|]. split; [now right|]. split; [reflexivity|]. right. repeat split. Qed.
Example C10_handle_result : convert_bsr (fun x => x) false junk7 junk7 31 0 (Some (bsr_hnd 3 5 (bsr_user gn 3 5))) 2 true op_transpose true
  = Some (success, Some (mkBsr 6 4 3 1 2 true [1; 2; 3; 4] [1; 1; 2] [20; 40; 0; 30; 0; 0; 10; 0; 50; 0; 0; 0])).
Proof. reflexivity. Qed.

(** Finding: aoclsparse_csr2bsr does not clear the values, so with a fresh buffer the
    blocks contain whatever it held. *)
Theorem C10_unzeroed_buffer_refuted :
  csr2bsr 31 2 2 (Some 0) true (Some [5]) (Some [0; 1; 1]) (Some [0]) 2 (Some [7; 7; 7; 7]) (Some [0; 1]) (Some [9])
    = Some (success, Some [5; 7; 7; 7], Some [0]) /\
  bsr_get 0 true 0 2 [0; 1] [0] [5; 7; 7; 7] 1 1 <> last (ents 0 [0; 1; 1] [0] [5] 1 1) 0.
Proof. split; [reflexivity|]. vm_compute. discriminate. Qed.
Print Assumptions C10_unzeroed_buffer_refuted.

(** Finding: elements stored twice are added by the products but not here. *)
Theorem C10_duplicates_refuted :
  csr2bsr 31 1 1 (Some 0) true (Some [3; 4]) (Some [0; 2]) (Some [0; 0]) 1 (Some [0]) (Some [0; 1]) (Some [9]) = Some (success, Some [4], Some [0]) /\
  csr_mat Zops 0 [0; 2] [0; 0] [3; 4] 0 0 = 7.
Proof. split; reflexivity. Qed.
Print Assumptions C10_duplicates_refuted.

(** Finding: converting a matrix without columns succeeds and leaves the row pointers of
    the new matrix unset. *)
Theorem C10_empty_matrix_refuted : forall p, zlen p = 3 ->
  convert_bsr (fun x => x) false (fun k => if k =? 3 then p else junk7 k) junk7 31 0
    (Some (mkHnd 4 0 0 [Some (mkCmat 4 0 0 gn 0 [0; 0; 0; 0; 0] [] [] None None false dg_non_unit None)] unknown_sort false false false [])) 2 true op_none true
  = Some (success, Some (mkBsr (T := Z) 4 0 0 0 2 true p [] [])).
Proof. reflexivity. Qed.
Print Assumptions C10_empty_matrix_refuted.

(** Finding: for a CSC handle and no operation the columns are taken for rows: a 2 x 2
    matrix is returned transposed ... *)
Theorem C10_csc_refuted :
  let u := mkCmat 2 2 1 gt 0 [0; 1; 1] [1] [5] None None false dg_non_unit None in
  user_ents u 1 0 = [5] /\
  exists B, convert_bsr (fun x => x) false junk7 junk7 31 0 (Some (bsr_hnd 2 2 u)) 1 true op_none true = Some (success, Some B) /\
    bsr_get 0 true 0 1 (bs_ptr B) (bs_ind B) (bs_val B) 1 0 = 0 /\ bsr_get 0 true 0 1 (bs_ptr B) (bs_ind B) (bs_val B) 0 1 = 5.
Proof. split; [reflexivity|]. eexists. split; [reflexivity|]. split; reflexivity. Qed.
Print Assumptions C10_csc_refuted.
(** ... and one with more rows than columns is read beyond its end. *)
Theorem C10_csc_overrun_refuted :
  convert_bsr (fun x => x) false junk7 junk7 31 0 (Some (bsr_hnd 5 3 (bsr_user gt 3 5))) 2 true op_none true = None.
Proof. reflexivity. Qed.
Print Assumptions C10_csc_overrun_refuted.

(** Finding: value offsets are aoclsparse_int products; two blocks of dimension 50000
    overflow with 32-bit integers although both sizes are representable. *)
Theorem C10_offset_overflow_refuted : forall a (l : list Z) bind, zlen bind = 2 ->
  csr2bsr 31 1 50001 (Some 0) true (Some [1; 2]) (Some [0; 2]) (Some [0; 50000]) 50000 (Some (a :: l)) (Some [0; 2]) (Some bind) = None.
Proof.
  assert (ONE : forall S (f : Z -> S -> option S) s, block_rows 1 50000 0 f s = f 0 s).
  { intros S f s. unfold block_rows, forc. rewrite (zrange_first 0), (zrange_first 1) by lia. cbn [loopM]. replace (1 - 0 <=? 0) with false by reflexivity. destruct (f 0 s); [|reflexivity]. cbn [loopM]. now replace (1 - 0 <=? 0 + 1) with true by reflexivity. }
  intros a l bind H. destruct bind as [|x [|y [|z r]]]; try discriminate; [|exfalso; unfold zlen in H; cbn [length] in H; lia].
  assert (F : fill_block_row 31 1 0 [0; 2] [0; 50000] [1; 2] 50000 true [0; 2] 0 ([-1; -1], [x; y], a :: l) = None).
  { unfold fill_block_row. change (rd [0; 2] 0) with (Some 0). cbv beta iota zeta. change (rd [0; 2] (0 + 1)) with (Some 2). cbv beta iota zeta. rewrite ONE. reflexivity. }
  unfold csr2bsr, csr2bsr_core. revert F. generalize (fill_block_row 31 1 0 [0; 2] [0; 50000] [1; 2] 50000 true [0; 2]). intros f F. unfold for_. change (zrange 0 ((1 + 50000 - 1) / 50000)) with [0].
  vm_compute. vm_compute in F. rewrite F. reflexivity.
Qed.
Print Assumptions C10_offset_overflow_refuted.

(** Finding: the descriptor is read without a check. *)
Theorem C10_null_descriptor_refuted :
  csr2bsr_nnz 31 1 1 None (Some [0; 1]) (Some [0]) 1 (Some [0; 0]) true = None.
Proof. reflexivity. Qed.
Print Assumptions C10_null_descriptor_refuted.

(** C45.  Converting a CSR or CSC handle to CSR, optionally transposed or conjugate
    transposed, keeps every stored element; the new handle is independent of the
    source's arrays (it is a value of its own here) and is general CSR. *)
Theorem C45_convert_csr : forall T (d0 : T) (cj : T -> T) cplx fz ft h u op,
  (forall k, 0 <= k -> zlen (fz k) = k) -> (forall k, 0 <= k -> zlen (ft k) = k) -> made_from h u ->
  let m' := op_rows op (H_m h) (H_n h) in let n' := op_cols op (H_m h) (H_n h) in
  exists p i v, convert_csr cj cplx fz ft (Some h) op true = Some (success, Some (new_handle m' n' (c_nnz u) (c_b u) p i v)) /\
    csr_wf m' n' (c_nnz u) (c_b u) p i /\ zlen v = c_nnz u /\
    (forall r c, 0 <= r < m' -> 0 <= c < n' -> ents (c_b u) p i v r c = op_ents cj cplx (user_ents u) op r c).
Proof. intros T d0 cj cplx fz ft h u op LZ LT. exact (convert_csr_ok d0 cj cplx fz ft LZ LT h u op). Qed.
Print Assumptions C45_convert_csr.

Example C45_case : convert_csr (fun x => - x) true junk7 junk7 (Some (bsr_hnd 3 5 (bsr_user gn 3 5))) op_conjugate_transpose true
  = Some (success, Some (new_handle 5 3 5 1 [1; 3; 4; 4; 5; 6] [1; 2; 2; 1; 3] [-20; -40; -30; -10; -50])).
Proof. reflexivity. Qed.

(** The same for a coordinate handle *)
Theorem C45_convert_coo : forall T (d0 : T) (cj : T -> T) cplx fz ft m n nnz b row col (val : list T) op,
  (forall k, 0 <= k -> zlen (fz k) = k) -> (forall k, 0 <= k -> zlen (ft k) = k) -> coo_wf m n nnz b row col -> zlen val = nnz ->
  let m' := op_rows op m n in let n' := op_cols op m n in
  exists p i v, convert_coo cj cplx fz ft m n nnz b row col val op = Some (success, Some (new_handle m' n' nnz b p i v)) /\
    csr_wf m' n' nnz b p i /\ zlen v = nnz /\
    (forall r c, 0 <= r < m' -> 0 <= c < n' -> ents b p i v r c = op_ents cj cplx (coo_ents b nnz row col val) op r c).
Proof. intros T d0 cj cplx fz ft m n nnz b row col val op LZ LT. exact (convert_coo_ok d0 cj cplx fz ft LZ LT m n nnz b row col val op). Qed.
Print Assumptions C45_convert_coo.

Example C45_coo_case : coo_wf 3 5 4 0 [2; 0; 2; 1] [4; 1; 0; 1].
Proof. unfold coo_wf. repeat split; try lia; assert (X : k = 0 \/ k = 1 \/ k = 2 \/ k = 3) by lia; destruct X as [-> | [-> | [-> | ->]]]; vm_compute; congruence. Qed.
Example C45_coo_result : convert_coo (fun x => x) false junk7 junk7 3 5 4 0 [2; 0; 2; 1] [4; 1; 0; 1] [1; 2; 3; 4] op_transpose
  = Some (success, Some (new_handle 5 3 4 0 [0; 1; 3; 3; 3; 4] [2; 0; 1; 2] [3; 2; 4; 1])).
Proof. reflexivity. Qed.

Theorem C45_rejected : forall T (cj : T -> T) cplx fz ft A op ok, A = None \/ ok = false ->
  convert_csr cj cplx fz ft A op ok = Some (invalid_pointer, None).
Proof. intros. unfold convert_csr. destruct A; [|reflexivity]. destruct H; [discriminate|]. subst ok. reflexivity. Qed.
Print Assumptions C45_rejected.
