(** C45, C10: conversion of handles. *)
From Coq Require Import ZArith List Bool Lia.
From Verif Require Import Base BaseFacts UtilModel DoidModel CheckModel MvModel CsrmvModel Csr CsrFacts Csr2CscModel Csr2CscProof HandleModel BsrModel BsrSpec BsrProof BsrPubProof ConvertModel ConvertSpec.
Import ListNotations.
Open Scope Z_scope.

  Lemma ents_nil : forall T m n nnz b ptr ind (val : list T) i j, csr_wf m n nnz b ptr ind -> 0 <= i < m -> ~ 0 <= j < n -> ents b ptr ind val i j = [].
  Proof.
    intros T m n nnz b ptr ind val i j W Hi Hj. unfold ents.
    match goal with |- flat_map ?f ?l = [] => assert (Z : forall l', (forall k, In k l' -> f k = []) -> flat_map f l' = []) end.
    { induction l' as [|x l' IH]; intros H; cbn; [reflexivity|]. rewrite H by now left. cbn. apply IH. intros. apply H. now right. }
    apply Z. intros k Hk. apply in_zrange in Hk. destruct (in_row_range m nnz b ptr (wf_ptr _ _ _ _ _ _ W) i k) as (K1 & K2); [lia|unfold in_row; lia|].
    pose proof (wf_ind _ _ _ _ _ _ W k ltac:(lia)). now replace (zn ind k =? j + b) with false by lia.
  Qed.

Section C.
  Context {T : Type} (d0 : T) (cj : T -> T) (cplx : bool) (fz : Z -> list Z) (ft : Z -> list T).
  Hypothesis (LZ : forall k, 0 <= k -> zlen (fz k) = k) (LT : forall k, 0 <= k -> zlen (ft k) = k).

  Lemma copy_n_ok : forall X (d : X) n (src dst : list X), zlen src = n -> zlen dst = n -> copy_n n src dst = Some src.
  Proof.
    intros X d n src dst L1 L2. unfold copy_n. pose proof (zlen_nonneg _ src). replace (n <? 0) with false by lia.
    match goal with |- for_ ?l ?h ?f ?s = _ => destruct (for_inv _ (fun t x => zlen x = n /\ forall i, 0 <= i < t -> nthZ d x i = nthZ d src i) l h f s ltac:(lia)) as (x & E & A & B) end.
    - split; auto. intros; lia.
    - intros i x Hi (A & B). rewrite (rd_nthZ _ d) by lia. rewrite wr_upd by lia. eexists. split; [reflexivity|]. rewrite zlen_upd. split; auto. intros k Hk. rewrite nthZ_upd by lia.
      destruct (k =? i) eqn:E; [replace k with i by lia; reflexivity|apply B; lia].
    - rewrite E. f_equal. apply (nthZ_ext _ d); [lia|]. intros. apply B. lia.
  Qed.

  Lemma ents_map : forall (f : T -> T) b ptr ind (val : list T) i j, ents b ptr ind (map f val) i j = map f (ents b ptr ind val i j).
  Proof.
    intros f b ptr ind val i j. unfold ents. induction (zrange (zn ptr i - b) (zn ptr (i + 1) - b)) as [|k l IH]; [reflexivity|]. cbn [flat_map]. rewrite map_app, IH. f_equal.
    destruct (zn ind k =? j + b); [|reflexivity]. unfold rd. destruct (k <? 0); [reflexivity|]. rewrite nth_error_map. destruct (nth_error val (Z.to_nat k)); reflexivity.
  Qed.
  Lemma conj_result_ok : forall op nnz (v : list T), zlen v = nnz ->
    conj_result cj cplx op nnz v = Some (match op with op_conjugate_transpose => if cplx then map cj v else v | _ => v end).
  Proof.
    intros op nnz v L. pose proof (zlen_nonneg _ v). unfold conj_result. destruct op; auto. destruct cplx; auto.
    match goal with |- for_ ?l ?h ?f ?s = _ => destruct (for_inv _ (fun t x => zlen x = nnz /\ forall i, 0 <= i < nnz -> nthZ d0 x i = if i <? t then cj (nthZ d0 v i) else nthZ d0 v i) l h f s ltac:(lia)) as (x & E & A & B) end.
    - split; auto. intros i Hi. now replace (i <? 0) with false by lia.
    - intros i x Hi (A & B). rewrite (rd_nthZ _ d0) by lia. rewrite wr_upd by lia. eexists. split; [reflexivity|]. rewrite zlen_upd. split; auto. intros k Hk. rewrite nthZ_upd by lia.
      destruct (k =? i) eqn:E; [assert (k = i) by lia; subst k; replace (i <? i + 1) with true by lia; rewrite B by lia; now replace (i <? i) with false by lia|].
      rewrite B by auto. now replace (k <? i + 1) with (k <? i) by lia.
    - rewrite E. f_equal. apply (nthZ_ext _ d0); [rewrite zlen_map; lia|]. intros i Hi. rewrite B by lia. replace (i <? nnz) with true by lia. rewrite (nthZ_map _ _ _ d0); auto. lia.
  Qed.

  Lemma fresh_ptr_len : forall m nnz b, 0 <= m -> zlen (fresh_ptr fz m nnz b) = m + 1.
  Proof. intros. unfold fresh_ptr. destruct (nnz =? 0); [apply zlen_zrep; lia|apply LZ; lia]. Qed.

  Lemma convert_csr_ok : forall h u op, made_from h u ->
    let m' := op_rows op (H_m h) (H_n h) in let n' := op_cols op (H_m h) (H_n h) in
    exists p i v, convert_csr cj cplx fz ft (Some h) op true = Some (success, Some (new_handle m' n' (c_nnz u) (c_b u) p i v)) /\
      csr_wf m' n' (c_nnz u) (c_b u) p i /\ zlen v = c_nnz u /\
      (forall r c, 0 <= r < m' -> 0 <= c < n' -> ents (c_b u) p i v r c = op_ents cj cplx (user_ents u) op r c).
  Proof.
    intros h u op ((rest & EM) & W & LV & B01 & EN & DIM) m' n'. pose proof (wf_m _ _ _ _ _ _ W). pose proof (wf_n _ _ _ _ _ _ W). pose proof (wf_nnz _ _ _ _ _ _ W). destruct (wf_len _ _ _ _ _ _ W) as (L1 & L2).
    unfold convert_csr. rewrite EM. cbn [negb]. rewrite EN.
    assert (EM' : (if is_none op then H_m h else H_n h) = m') by (destruct op; reflexivity). assert (EN' : (if is_none op then H_n h else H_m h) = n') by (destruct op; reflexivity). rewrite EM', EN'.
    assert (CASE : (c_doid u =? gt = negb (is_none op) /\ c_m u = m' /\ c_n u = n') \/ (c_doid u =? gt = is_none op /\ c_m u = n' /\ c_n u = m')).
    { destruct DIM as [(D1 & D2 & D3)|(D1 & D2 & D3)]; rewrite D1; subst m' n'; destruct op; cbn [is_none op_rows op_cols]; [left|right|right|right|right|left|left|left]; repeat split; auto. }
    destruct CASE as [(C1 & C2 & C3)|(C1 & C2 & C3)].
    - replace (negb (c_doid u =? gt) && is_none op || (c_doid u =? gt) && negb (is_none op)) with true by (rewrite C1; destruct op; reflexivity).
      rewrite (copy_n_ok _ 0) by (rewrite ?fresh_ptr_len; lia). rewrite (copy_n_ok _ 0) by (rewrite ?LZ; lia). rewrite (copy_n_ok _ d0) by (rewrite ?LT; lia).
      rewrite conj_result_ok by auto. eexists. eexists. eexists. split; [reflexivity|]. rewrite <- C2, <- C3. split; [exact W|]. split; [destruct op; auto; destruct cplx; auto; now rewrite zlen_map|].
      intros r c Hr Hc. unfold op_ents, user_ents. rewrite C1. destruct op; cbn [is_none negb]; auto. destruct cplx; auto. now rewrite ents_map.
    - replace (negb (c_doid u =? gt) && is_none op || (c_doid u =? gt) && negb (is_none op)) with false by (rewrite C1; destruct op; reflexivity).
      destruct (csr2csc_ok _ _ _ _ _ _ _ _ (c_val u) (fresh_ptr fz m' (c_nnz u) (c_b u)) (fz (c_nnz u)) (ft (c_nnz u)) B01 B01 W LV) as (cp & ri & cv & E & W' & L' & _ & EQ); [rewrite fresh_ptr_len; lia|rewrite LZ; lia|rewrite LT; lia|].
      rewrite E. rewrite conj_result_ok by auto. eexists. eexists. eexists. split; [reflexivity|]. rewrite C2, C3 in *. split; [exact W'|]. split; [destruct op; auto; destruct cplx; auto; now rewrite zlen_map|].
      intros r c Hr Hc. unfold op_ents, user_ents. rewrite C1. destruct op; cbn [is_none]; auto. destruct cplx; auto. rewrite ents_map. f_equal. auto.
  Qed.

  Lemma convert_coo_ok : forall m n nnz b row col (val : list T) op, coo_wf m n nnz b row col -> zlen val = nnz ->
    let m' := op_rows op m n in let n' := op_cols op m n in
    exists p i v, convert_coo cj cplx fz ft m n nnz b row col val op = Some (success, Some (new_handle m' n' nnz b p i v)) /\
      csr_wf m' n' nnz b p i /\ zlen v = nnz /\
      (forall r c, 0 <= r < m' -> 0 <= c < n' -> ents b p i v r c = op_ents cj cplx (coo_ents b nnz row col val) op r c).
  Proof.
    intros m n nnz b row col val op (M0 & N0 & Z0 & R1 & R2 & R3) LV m' n'. unfold convert_coo.
    assert (EM' : (if is_none op then m else n) = m') by (destruct op; reflexivity). assert (EN' : (if is_none op then n else m) = n') by (destruct op; reflexivity). rewrite EM', EN'.
    set (row' := if is_none op then row else col). set (col' := if is_none op then col else row).
    assert (W : coo_wf m' n' nnz b row' col'). { unfold coo_wf, row', col', m', n'. destruct op; cbn [is_none op_rows op_cols]; do 5 (split; [auto; fail|]); intros x Hx; specialize (R3 x Hx); tauto. }
    assert (P0 : 0 <= m') by (unfold m'; destruct op; auto).
    destruct (coo2csr_ok _ m' n' nnz b row' col' val (fresh_ptr fz m' nnz b) (fz nnz) (ft nnz) W LV) as (p & c & v & E & W' & L' & EQ); [now apply fresh_ptr_len|now apply LZ|now apply LT|].
    rewrite E. rewrite conj_result_ok by auto. eexists. eexists. eexists. split; [reflexivity|]. split; [exact W'|]. split; [destruct op; auto; destruct cplx; auto; now rewrite zlen_map|].
    assert (SW : forall r c, coo_ents b nnz col row val r c = coo_ents b nnz row col val c r). { intros. unfold coo_ents. apply flat_map_ext_in. intros k _. now rewrite andb_comm. }
    intros r q Hr Hq. assert (EQ' : ents b p c v r q = if is_none op then coo_ents b nnz row col val r q else coo_ents b nnz row col val q r).
    { rewrite EQ by auto. unfold row', col'. destruct op; cbn [is_none]; auto. }
    unfold op_ents. destruct op; cbn [is_none] in EQ'; auto. destruct cplx; auto. rewrite ents_map. now f_equal.
  Qed.

  Variables (w : Z) (zero : T).
  Hypothesis Hw : w = 31 \/ w = 63.

  (** One conversion of CSR arrays *)
  Lemma bsr_arrays_ok : forall m n nnz b ptr ind (val : list T) bd row_order, csr_wf m n nnz b ptr ind -> zlen val = nnz -> (b = 0 \/ b = 1) -> 0 < bd -> 0 < m -> 0 < n ->
    m + bd - 1 <= int_max w -> n + bd - 1 <= int_max w -> b + nnz <= int_max w -> nnz * bd * bd <= int_max w ->
    exists B, convert_bsr_arrays w zero fz m n b ptr ind val bd row_order = Some (success, Some B) /\
      bs_m B = nblocks m bd * bd /\ bs_n B = nblocks n bd * bd /\ bs_base B = b /\ bs_bd B = bd /\ bs_row B = row_order /\
      bsr_of m n b bd ptr ind (bs_nnz B) (bs_ptr B) (bs_ind B) (bs_val B) /\
      (forall L, NoDup L -> (forall I J, In (I, J) L <-> 0 <= I < nblocks m bd /\ occupied m b bd ptr ind I J) -> bs_nnz B = zlen L) /\
      bs_nnz B <= nnz /\
      forall i j, 0 <= i < bs_m B -> 0 <= j < bs_n B ->
        bsr_get zero row_order b bd (bs_ptr B) (bs_ind B) (bs_val B) i j = if (i <? m) && (j <? n) then last (ents b ptr ind val i j) zero else zero.
  Proof.
    intros m n nnz b ptr ind val bd row_order W LV B01 Hbd Hm Hn Fm Fn Fz FT. unfold convert_bsr_arrays. replace (bd =? 0) with false by lia.
    rewrite !(chk_ok w m n nnz b bd Hw Fm Fn Fz) by lia. rewrite !Z.quot_div_nonneg by lia. fold (nblocks m bd) (nblocks n bd). pose proof (nblocks_pos m n bd Hbd m Hm) as (MP & _).
    destruct (nnz_ok w m n nnz b bd ptr ind W Hbd Hm Hn B01 Hw Fm Fn Fz (fz (nblocks m bd + 1)) ltac:(apply LZ; lia)) as (bptr & z & E & L1 & PB & RZ & CN & CO). rewrite E.
    assert (FZ : z * bd * bd <= int_max w). { apply Z.le_trans with (nnz * bd * bd); auto. apply Z.mul_le_mono_nonneg_r; [lia|]. apply Z.mul_le_mono_nonneg_r; lia. }
    assert (Z0 : 0 <= z * bd * bd) by (apply Z.mul_nonneg_nonneg; [apply Z.mul_nonneg_nonneg; lia|lia]).
    rewrite (chk_ok w m n nnz b bd Hw Fm Fn Fz) by lia.
    destruct (fill_ok w m n nnz b bd ptr ind W Hbd Hm Hn B01 Hw Fm Fn Fz zero val row_order bptr z LV L1 PB CN FZ (eq zero) (fz z) (zrep (z * bd * bd) zero)) as (bv & bi & E2 & BO & V); [apply LZ; lia|now rewrite zlen_zrep by lia|intros x Hx; now rewrite nthZ_zrep by lia|].
    rewrite E2. eexists. split; [reflexivity|]. cbn [bs_m bs_n bs_nnz bs_base bs_bd bs_row bs_ptr bs_ind bs_val]. do 5 (split; [reflexivity|]). split; [exact BO|]. split; [exact CO|]. split; [lia|].
    intros i j Hi Hj. rewrite (get_ok m n b bd ptr ind Hbd zero val row_order bptr z CN bi bv BO V) by auto. unfold held. destruct (i <? m) eqn:Ei; [|reflexivity]. destruct (j <? n) eqn:Ej; [reflexivity|]. cbn [andb].
    replace (ents b ptr ind val i j) with (@nil T); [reflexivity|]. symmetry. unfold ents.
    match goal with |- flat_map ?f ?l = [] => assert (Z : forall l', (forall k, In k l' -> f k = []) -> flat_map f l' = []) end.
    { induction l' as [|x l' IH]; intros H; cbn; [reflexivity|]. rewrite H by now left. cbn. apply IH. intros. apply H. now right. }
    apply Z. intros k Hk. apply in_zrange in Hk. destruct (in_row_range m nnz b ptr (wf_ptr _ _ _ _ _ _ W) i k) as (K1 & K2); [lia|unfold in_row; lia|].
    pose proof (wf_ind _ _ _ _ _ _ W k ltac:(lia)). now replace (zn ind k =? j + b) with false by lia.
  Qed.

  (** The BSR handle made from a CSR handle, or from a CSC handle with a transposition *)
  Lemma convert_bsr_ok : forall h u bd row_order op, made_from h u -> valid_op op = true -> (c_doid u = gt -> op <> op_none) -> 0 < bd -> 0 < H_m h -> 0 < H_n h ->
    H_m h + bd - 1 <= int_max w -> H_n h + bd - 1 <= int_max w -> c_b u + c_nnz u <= int_max w -> c_nnz u * bd * bd <= int_max w ->
    let m' := op_rows op (H_m h) (H_n h) in let n' := op_cols op (H_m h) (H_n h) in
    exists B, convert_bsr cj cplx fz ft w zero (Some h) bd row_order op true = Some (success, Some B) /\
      bs_m B = nblocks m' bd * bd /\ bs_n B = nblocks n' bd * bd /\ bs_base B = c_b u /\ bs_bd B = bd /\ bs_row B = row_order /\
      csr_wf (nblocks m' bd) (nblocks n' bd) (bs_nnz B) (c_b u) (bs_ptr B) (bs_ind B) /\ zlen (bs_val B) = bs_nnz B * bd * bd /\
      bs_nnz B <= c_nnz u /\ (forall I k k', 0 <= I < nblocks m' bd -> in_row (bs_ptr B) (c_b u) I k -> in_row (bs_ptr B) (c_b u) I k' -> k < k' -> zn (bs_ind B) k < zn (bs_ind B) k') /\
      forall i j, 0 <= i < bs_m B -> 0 <= j < bs_n B ->
        bsr_get zero row_order (c_b u) bd (bs_ptr B) (bs_ind B) (bs_val B) i j =
          if (i <? m') && (j <? n') then last (op_ents cj cplx (user_ents u) op i j) zero else zero.
  Proof.
    intros h u bd row_order op MF VO CS Hbd Hm Hn Fm Fn Fz FT m' n'. pose proof MF as ((rest & EM) & W & LV & B01 & EN & DIM).
    assert (Pm : 0 < m' /\ 0 < n' /\ m' + bd - 1 <= int_max w /\ n' + bd - 1 <= int_max w) by (unfold m', n'; destruct op; cbn [op_rows op_cols]; lia). destruct Pm as (Pm & Pn & Fm' & Fn').
    assert (GEN : forall p i v, csr_wf m' n' (c_nnz u) (c_b u) p i -> zlen v = c_nnz u -> (forall r c, 0 <= r < m' -> 0 <= c < n' -> ents (c_b u) p i v r c = op_ents cj cplx (user_ents u) op r c) ->
      exists B, convert_bsr_arrays w zero fz m' n' (c_b u) p i v bd row_order = Some (success, Some B) /\
      bs_m B = nblocks m' bd * bd /\ bs_n B = nblocks n' bd * bd /\ bs_base B = c_b u /\ bs_bd B = bd /\ bs_row B = row_order /\
      csr_wf (nblocks m' bd) (nblocks n' bd) (bs_nnz B) (c_b u) (bs_ptr B) (bs_ind B) /\ zlen (bs_val B) = bs_nnz B * bd * bd /\
      bs_nnz B <= c_nnz u /\ (forall I k k', 0 <= I < nblocks m' bd -> in_row (bs_ptr B) (c_b u) I k -> in_row (bs_ptr B) (c_b u) I k' -> k < k' -> zn (bs_ind B) k < zn (bs_ind B) k') /\
      forall i j, 0 <= i < bs_m B -> 0 <= j < bs_n B ->
        bsr_get zero row_order (c_b u) bd (bs_ptr B) (bs_ind B) (bs_val B) i j =
          if (i <? m') && (j <? n') then last (op_ents cj cplx (user_ents u) op i j) zero else zero).
    { intros p i v W' L' EQ. destruct (bsr_arrays_ok m' n' (c_nnz u) (c_b u) p i v bd row_order W' L' B01 Hbd Pm Pn Fm' Fn' Fz FT) as (B & E & E1 & E2 & E3 & E4 & E5 & BO & _ & LE & G).
      exists B. do 6 (split; [auto|]). destruct BO as [BO1 BO2 BO3 _]. split; [auto|]. split; [auto|]. split; [exact LE|]. split; [exact BO3|]. intros x y Hx Hy. rewrite G by auto. destruct ((x <? m') && (y <? n')) eqn:C; [|reflexivity]. rewrite EQ by lia. reflexivity. }
    unfold convert_bsr. rewrite EM. cbn [negb]. destruct op; cbn in VO; try discriminate.
    - destruct DIM as [(D1 & D2 & D3)|(D1 & _)]; [|exfalso; now apply CS]. change (H_m h) with m'. change (H_n h) with n'. apply GEN; auto.
      + unfold m', n'. cbn [op_rows op_cols]. rewrite <- D2, <- D3. exact W.
      + intros r c _ _. cbn [op_ents]. unfold user_ents. now rewrite D1.
    - destruct (convert_csr_ok h u op_transpose MF) as (p & i & v & E & W' & L' & EQ). rewrite E. cbn [new_handle H_mats c_m c_n c_ptr c_ind c_val]. apply GEN; auto.
    - destruct (convert_csr_ok h u op_conjugate_transpose MF) as (p & i & v & E & W' & L' & EQ). rewrite E. cbn [new_handle H_mats c_m c_n c_ptr c_ind c_val]. apply GEN; auto.
  Qed.
End C.
