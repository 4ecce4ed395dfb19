(** Symmetric triple product with a dense matrix. *)
From Coq Require Import ZArith List Bool Lia ZifyBool Ring.
From Verif Require Import Base BaseFacts Algebra UtilModel UtilProof Csr CsrFacts Csr2CscModel Csr2CscProof CheckModel CheckSpec SortSpec DoidModel DoidSpec MvModel MvFacts MvProof HandleModel HandleSpec
  DenseSpec DenseProof WinFacts CsrmvModel AddSpec AddProof Csr2mModel Csr2mSpec Csr2mHandleProof Sp2mdModel Sp2mdSpec Sp2mdProof SyrkdModel SyrkdSpec SyrkdProof SyprdModel SyprdSpec.
Import ListNotations.
Open Scope Z_scope.

Lemma flat_map_single : forall X lo hi i (f : Z -> list X), lo <= i < hi -> (forall q, lo <= q < hi -> q <> i -> f q = []) -> flat_map f (zrange lo hi) = f i.
Proof.
  intros X lo hi i f Hi H. rewrite (zrange_app lo i hi) by lia. rewrite flat_map_app. rewrite (zrange_first i hi) by lia. cbn [flat_map].
  assert (N : forall l, (forall q, In q l -> f q = []) -> flat_map f l = []) by (intros l Hl; apply flat_map_nil; exact Hl).
  rewrite !N; [now rewrite app_nil_r| |]; intros q Hq; apply in_zrange in Hq; apply H; lia.
Qed.

Section P.
  Context {T : Type} (O : ops T).
  Local Notation z := (o0 O).
  Local Notation tn := (nthZ (o0 O)).
  Local Infix "+!" := (oadd O) (at level 50, left associativity).
  Local Infix "*!" := (omul O) (at level 40, left associativity).

  (** A loop that adds to the elements of a vector in a range. *)
  Lemma add_range : forall n lo hi (f : Z -> T) (body : Z -> list T -> option (list T)) (t : list T), 0 <= lo <= hi -> hi <= n -> zlen t = n ->
    (forall j t, lo <= j < hi -> zlen t = n -> body j t = Some (upd t j (tn t j +! f j))) ->
    exists t', for_ lo hi body t = Some t' /\ zlen t' = n /\ forall j, 0 <= j < n -> tn t' j = if (lo <=? j) && (j <? hi) then tn t j +! f j else tn t j.
  Proof.
    intros n lo hi f body t Hlo Hhi Lt Hb.
    destruct (for_inv _ (fun e t' => zlen t' = n /\ forall j, 0 <= j < n -> tn t' j = if (lo <=? j) && (j <? e) then tn t j +! f j else tn t j) lo hi body t) as (t' & E & L' & R); [lia| | |].
    - split; [exact Lt|]. intros j Hj. replace ((lo <=? j) && (j <? lo)) with false by lia. reflexivity.
    - intros e t1 He (L1 & R1). rewrite Hb by auto. eexists. split; [reflexivity|]. split; [rewrite zlen_upd; auto|]. intros j Hj. rewrite nthZ_upd by lia.
      destruct (Z.eqb_spec j e) as [ -> |Ne].
      + replace ((lo <=? e) && (e <? e + 1)) with true by lia. rewrite R1 by lia. replace ((lo <=? e) && (e <? e)) with false by lia. reflexivity.
      + rewrite R1 by lia. replace ((lo <=? j) && (j <? e + 1)) with ((lo <=? j) && (j <? e)) by lia. reflexivity.
    - exists t'. auto.
  Qed.

  Lemma temp_row_ok : forall w cl b n ldb ind (val : list T) alpha B s e, dense_ok w 0 ldb n n B -> 0 <= s <= e -> e <= zlen ind -> e <= zlen val ->
    (forall k, s <= k < e -> 0 <= zn ind k - b < n) ->
    exists temp, temp_row O w cl b n ldb ind val alpha B s e = Some temp /\ zlen temp = n /\
      (laws O -> forall j, 0 <= j < n -> tn temp j = alpha *! sumz O s e (fun k => cj_if O cl (tn val k) *! dense_herm O 0 ldb B (zn ind k - b) j)).
  Proof.
    intros w cl b n ldb ind val alpha B s e D Hs Li Lv Hc. pose proof D as [_ _ Hn _ _ F _]. unfold temp_row.
    match goal with |- context [for_ s e ?f ?t0] => destruct (for_inv _ (fun q t => zlen t = n /\ (laws O -> forall j, 0 <= j < n -> tn t j = alpha *! sumz O s q (fun k => cj_if O cl (tn val k) *! dense_herm O 0 ldb B (zn ind k - b) j))) s e f t0) as (t' & E & L' & R) end; [lia| | |].
    - split; [apply zlen_zrep; lia|]. intros L j Hj. rewrite nthZ_zrep by lia. rewrite (sumz_nil O s s) by lia. destruct (l_ring L). rewrite Rmul_comm. symmetry. apply (alpha_zero O L).
    - intros k t Hk (L1 & R1). rewrite (rd_nthZ _ 0 ind) by lia. rewrite (rd_nthZ _ z val) by lia. pose proof (Hc k Hk) as Hk'. set (cm := zn ind k - b) in *.
      set (vm := alpha *! (if cl then ocj O (tn val k) else tn val k)).
      match goal with |- context [for_ 0 cm ?f t] => destruct (add_range n 0 cm (fun j => ocj O (tn B (dense_at 0 ldb j cm)) *! vm) f t) as (t1 & E1 & L2 & R2) end; try lia.
      { intros j t0 Hj L0. rewrite (addr_ok0 w 0 ldb n n B) by (auto; lia). pose proof (fits_range 0 ldb n n B j cm F ltac:(lia) ltac:(lia)). rewrite (rd_nthZ _ z B) by lia. rewrite (rd_nthZ _ z t0) by lia. rewrite wr_upd by lia. reflexivity. }
      rewrite E1.
      match goal with |- context [for_ cm n ?f t1] => destruct (add_range n cm n (fun j => tn B (dense_at 0 ldb cm j) *! vm) f t1) as (t2 & E2 & L3 & R3) end; try lia.
      { intros j t0 Hj L0. rewrite (addr_ok0 w 0 ldb n n B) by (auto; lia). pose proof (fits_range 0 ldb n n B cm j F ltac:(lia) ltac:(lia)). rewrite (rd_nthZ _ z B) by lia. rewrite (rd_nthZ _ z t0) by lia. rewrite wr_upd by lia. reflexivity. }
      exists t2. split; [exact E2|]. split; [exact L3|]. intros L j Hj. rewrite R3, R2 by auto. rewrite (R1 L) by auto. rewrite (sumz_last O L) by lia.
      fold cm. pose proof (l_ring L) as RT. destruct RT.
      assert (X : forall u v : T, u *! vm = alpha *! (cj_if O cl (tn val k) *! u)).
      { intros u v. unfold vm, cj_if. rewrite (Rmul_comm u). rewrite <- Rmul_assoc. destruct cl; reflexivity. }
      destruct (Z.leb_spec cm j) as [Le|Gt].
      + replace (dense_herm O 0 ldb B cm j) with (tn B (dense_at 0 ldb cm j)) by (unfold dense_herm; replace (cm <=? j) with true by lia; reflexivity).
        replace ((0 <=? j) && (j <? cm)) with false by lia. replace (j <? n) with true by lia. cbn [andb]. rewrite (X _ z). rewrite (Rmul_comm alpha (_ +! _)), Rdistr_l. f_equal; apply Rmul_comm.
      + replace (dense_herm O 0 ldb B cm j) with (ocj O (tn B (dense_at 0 ldb j cm))) by (unfold dense_herm; replace (cm <=? j) with false by lia; reflexivity).
        replace ((0 <=? j) && (j <? cm)) with true by lia. cbn [andb]. rewrite (X _ z). rewrite (Rmul_comm alpha (_ +! _)), Rdistr_l. f_equal; apply Rmul_comm.
    - exists t'. auto.
  Qed.

  Lemma temp_col_ok : forall w cl b n ldb ind (val : list T) alpha B s e, dense_ok w 1 ldb n n B -> 0 <= s <= e -> e <= zlen ind -> e <= zlen val ->
    (forall k, s <= k < e -> 0 <= zn ind k - b < n) ->
    exists temp, temp_col O w cl b n ldb ind val alpha B s e = Some temp /\ zlen temp = n /\
      (laws O -> forall j, 0 <= j < n -> tn temp j = alpha *! sumz O s e (fun k => cj_if O cl (tn val k) *! dense_herm O 1 ldb B (zn ind k - b) j)).
  Proof.
    intros w cl b n ldb ind val alpha B s e D Hs Li Lv Hc. pose proof D as [_ _ Hn _ _ F _]. unfold temp_col.
    match goal with |- context [for_ 0 n ?f ?t0] => destruct (for_inv _ (fun q t => zlen t = n /\ (laws O -> forall j, 0 <= j < q -> tn t j = alpha *! sumz O s e (fun k => cj_if O cl (tn val k) *! dense_herm O 1 ldb B (zn ind k - b) j))) 0 n f t0) as (t' & E & L' & R) end; [lia| | |].
    - split; [apply zlen_zrep; lia|]. intros; lia.
    - intros j t Hj (L1 & R1). rewrite wr_upd by lia. cbv beta iota.
      match goal with |- context [for_ s e ?f ?t0] => destruct (for_inv _ (fun q t' => zlen t' = n /\ (forall j', 0 <= j' < n -> j' <> j -> tn t' j' = tn t j') /\ (laws O -> tn t' j = sumz O s q (fun k => cj_if O cl (tn val k) *! dense_herm O 1 ldb B (zn ind k - b) j))) s e f t0) as (t1 & E1 & L2 & R2 & R3) end; [lia| | |].
      + split; [rewrite zlen_upd; auto|]. split.
        * intros j' Hj' Ne. rewrite nthZ_upd by lia. replace (j' =? j) with false by lia. reflexivity.
        * intros L. rewrite nthZ_upd_same by lia. rewrite (sumz_nil O s s) by lia. reflexivity.
      + intros k t0 Hk (L0 & R0 & S0). rewrite (rd_nthZ _ 0 ind) by lia. pose proof (Hc k Hk) as Hk'. set (cm := zn ind k - b) in *.
        assert (X : (if j <? cm then let* p := addr w 1 ldb j cm 0 in let* x := rd B p in Some (ocj O x) else let* p := addr w 1 ldb cm j 0 in rd B p) = Some (dense_herm O 1 ldb B cm j)).
        { unfold dense_herm. destruct (Z.ltb_spec j cm).
          - rewrite (addr_ok0 w 1 ldb n n B) by (auto; lia). pose proof (fits_range 1 ldb n n B j cm F ltac:(lia) ltac:(lia)). rewrite (rd_nthZ _ z B) by lia. replace (cm <=? j) with false by lia. reflexivity.
          - rewrite (addr_ok0 w 1 ldb n n B) by (auto; lia). pose proof (fits_range 1 ldb n n B cm j F ltac:(lia) ltac:(lia)). rewrite (rd_nthZ _ z B) by lia. replace (cm <=? j) with true by lia. reflexivity. }
        rewrite X. rewrite (rd_nthZ _ z val) by lia. rewrite (rd_nthZ _ z t0) by lia. rewrite wr_upd by lia. eexists. split; [reflexivity|]. split; [rewrite zlen_upd; auto|]. split.
        * intros j' Hj' Ne. rewrite nthZ_upd by lia. replace (j' =? j) with false by lia. auto.
        * intros L. rewrite nthZ_upd_same by lia. rewrite (S0 L). rewrite (sumz_last O L) by lia. reflexivity.
      + rewrite E1. rewrite (rd_nthZ _ z t1) by lia. rewrite wr_upd by lia. eexists. split; [reflexivity|]. split; [rewrite zlen_upd; auto|]. intros L j' Hj'. rewrite nthZ_upd by lia.
        destruct (Z.eqb_spec j' j) as [ -> |Ne]; [rewrite (R3 L); destruct (l_ring L); apply Rmul_comm|]. rewrite R2 by lia. apply (R1 L). lia.
    - exists t'. split; [exact E|]. split; [exact L'|]. exact R.
  Qed.

  (** The work vector of row [i], and the terms of cell (i, j). *)
  Definition work_row (w : Z) (cl : bool) (order b n : Z) (ptr ind : list Z) (val : list T) (B : list T) (ldb : Z) (alpha : T) (i : Z) : list T :=
    match (if order =? 1 then temp_col O w cl b n ldb ind val alpha B (zn ptr i - b) (zn ptr (i + 1) - b) else temp_row O w cl b n ldb ind val alpha B (zn ptr i - b) (zn ptr (i + 1) - b)) with Some t => t | None => [] end.
  Lemma work_row_ok : forall w cl order b m n nnz ptr ind (val : list T) B ldb alpha i, dense_ok w order ldb n n B -> csr_wf m n nnz b ptr ind -> zlen val = nnz -> 0 <= i < m ->
    (if order =? 1 then temp_col O w cl b n ldb ind val alpha B (zn ptr i - b) (zn ptr (i + 1) - b) else temp_row O w cl b n ldb ind val alpha B (zn ptr i - b) (zn ptr (i + 1) - b)) = Some (work_row w cl order b n ptr ind val B ldb alpha i) /\
    zlen (work_row w cl order b n ptr ind val B ldb alpha i) = n /\
    (laws O -> forall j, 0 <= j < n -> tn (work_row w cl order b n ptr ind val B ldb alpha i) j = alpha *! sumz O 0 n (fun l => cj_if O cl (csr_mat O b ptr ind val i l) *! dense_herm O order ldb B l j)).
  Proof.
    intros w cl order b m n nnz ptr ind val B ldb alpha i D W Lv Hi. destruct (wf_len _ _ _ _ _ _ W) as (Lp & Li). destruct (row_bounds _ _ _ _ _ _ i W Hi) as (Q1 & Q2 & B1 & B2 & B3).
    pose proof D as [_ Hl _ _ _ _ _]. unfold work_row.
    assert (Hc : forall k, zn ptr i - b <= k < zn ptr (i + 1) - b -> 0 <= zn ind k - b < n) by (intros k Hk; pose proof (wf_ind _ _ _ _ _ _ W k ltac:(lia)); lia).
    assert (AD : laws O -> additive O (cj_if O cl)).
    { intros L. unfold additive, cj_if. destruct cl; cbn [negb]; auto; apply (l_cj_add L). }
    destruct Hl as [ -> | -> ]; cbn [Z.eqb Pos.eqb].
    - destruct (temp_row_ok w cl b n ldb ind val alpha B (zn ptr i - b) (zn ptr (i + 1) - b) D) as (t & E & L1 & R); try lia; auto. rewrite E. split; [reflexivity|]. split; [exact L1|].
      intros L j Hj. rewrite (R L) by auto. f_equal. apply (full_row_sum O L m n nnz b ptr ind val i (cj_if O cl) (fun l => dense_herm O 0 ldb B l j)); auto.
    - destruct (temp_col_ok w cl b n ldb ind val alpha B (zn ptr i - b) (zn ptr (i + 1) - b) D) as (t & E & L1 & R); try lia; auto. rewrite E. split; [reflexivity|]. split; [exact L1|].
      intros L j Hj. rewrite (R L) by auto. f_equal. apply (full_row_sum O L m n nnz b ptr ind val i (cj_if O cl) (fun l => dense_herm O 1 ldb B l j)); auto.
  Qed.
  Definition pr_terms (w : Z) (cl : bool) (order b n : Z) (ptr ind : list Z) (val : list T) (B : list T) (ldb : Z) (alpha : T) (i j : Z) : list T :=
    if oeqb O alpha z then [] else if i <=? j then map (fun k => tn (work_row w cl order b n ptr ind val B ldb alpha i) (zn ind k - b) *! cj_if O (negb cl) (tn val k)) (zrange (zn ptr j - b) (zn ptr (j + 1) - b)) else [].

  Lemma syprd_ref_ok : forall w cl order b m n nnz ptr ind (val : list T) B ldb alpha beta C ldc, dense_ok w order ldb n n B -> dense_ok w order ldc m m C ->
    csr_wf m n nnz b ptr ind -> zlen val = nnz ->
    exists C', syprd_ref O w cl order b m n ptr ind val B ldb alpha beta C ldc = Some C' /\
      holds_window z order ldc m m (fun i j => let c := tn C (dense_at order ldc i j) in
        if i <=? j then fold_left (oadd O) (pr_terms w cl order b n ptr ind val B ldb alpha i j) (if oeqb O beta z then z else omul O beta c) else c) C C'.
  Proof.
    intros w cl order b m n nnz ptr ind val B ldb alpha beta C ldc DB DC W Lv. unfold syprd_ref.
    destruct (upper_scale_ok O w order ldc m beta C DC) as (C1 & -> & H1). pose proof (hw_len O _ _ _ _ _ _ _ H1) as L1.
    destruct (oeqb O alpha z) eqn:EA.
    { exists C1. split; [reflexivity|]. eapply (hw_ext O); [|exact H1]. intros i j Hi Hj. cbv zeta. unfold pr_terms. rewrite EA. cbn [fold_left]. reflexivity. }
    destruct (wf_len _ _ _ _ _ _ W) as (Lp & Li). assert (DC1 : dense_ok w order ldc m m C1) by (apply (dense_ok_len w order ldc m m C); auto). pose proof DC1 as [_ _ Hm _ _ F _].
    set (wk := work_row w cl order b n ptr ind val B ldb alpha).
    destruct (wacc_for O order ldc m m 0 m (fun i0 i j => flat_map (fun j0 => flat_map (fun k => if (i =? i0) && (j =? j0) then [tn (wk i0) (zn ind k - b) *! cj_if O (negb cl) (tn val k)] else []) (zrange (zn ptr j0 - b) (zn ptr (j0 + 1) - b))) (zrange i0 m))
      (fun i C =>
        let* s := rd ptr i in
        let* e := rd ptr (i + 1) in
        let* temp := if order =? 1 then temp_col O w cl b n ldb ind val alpha B (s - b) (e - b) else temp_row O w cl b n ldb ind val alpha B (s - b) (e - b) in
        for_ i m (fun j C =>
          let* s := rd ptr j in
          let* e := rd ptr (j + 1) in
          let* p := addr w order ldc i j 0 in
          for_ (s - b) (e - b) (fun k C =>
            let* c := rd ind k in
            let* t := rd temp (c - b) in
            let* v := rd val k in
            let* x := rd C p in
            wr C p (oadd O x (omul O t (if cl then v else ocj O v)))) C) C) C1 F ltac:(lia)) as (C2 & E2 & H2).
    { intros i0 X Hi0 FX LX. rewrite !(rd_nthZ _ 0) by lia. destruct (work_row_ok w cl order b m n nnz ptr ind val B ldb alpha i0 DB W Lv Hi0) as (-> & LW & _). fold wk in LW |- *.
      apply (wacc_for O order ldc m m); [exact FX|lia|]. intros j0 Y Hj0 FY LY. rewrite !(rd_nthZ _ 0) by lia.
      rewrite (addr_ok0 w order ldc m m C1) by (auto; lia). destruct (row_bounds _ _ _ _ _ _ j0 W ltac:(lia)) as (Q1 & Q2 & B1 & B2 & B3).
      apply (wacc_for O order ldc m m); [exact FY|lia|]. intros k Z Hk FZ LZ. pose proof (wf_ind _ _ _ _ _ _ W k ltac:(lia)) as Hc.
      rewrite (rd_nthZ _ 0 ind) by lia. rewrite (rd_nthZ _ z (wk i0)) by lia. rewrite (rd_nthZ _ z val) by lia. pose proof (fits_range order ldc m m Z i0 j0 FZ Hi0 ltac:(lia)) as R. rewrite (rd_nthZ _ z Z) by lia. rewrite wr_upd by lia.
      eexists. split; [reflexivity|]. replace (if cl then tn val k else ocj O (tn val k)) with (cj_if O (negb cl) (tn val k)) by (destruct cl; reflexivity). apply (wacc_one O); auto; lia. }
    exists C2. split; [exact E2|].
    eapply (hw_ext O); [|exact (hw_trans O _ _ _ _ _ _ _ _ _ H1 H2)]. intros i j Hi Hj. cbv beta zeta. destruct H1 as (_ & H1 & _). rewrite H1 by auto. cbv zeta. unfold pr_terms. rewrite EA.
    rewrite (flat_map_single _ 0 m i).
    2: lia. 2:{ intros q Hq Ne. apply flat_map_nil. intros j0 _. apply flat_map_nil. intros k _. replace (i =? q) with false by lia. reflexivity. }
    destruct (Z.leb_spec i j) as [Le|Gt].
    - rewrite (flat_map_single _ i m j).
      2: lia. 2:{ intros q Hq Ne. apply flat_map_nil. intros k _. replace (j =? q) with false by lia. rewrite andb_false_r. reflexivity. }
      rewrite !Z.eqb_refl. cbn [andb]. reflexivity.
    - rewrite flat_map_nil; [reflexivity|]. intros q Hq. apply in_zrange in Hq. apply flat_map_nil. intros k _. replace (j =? q) with false by lia. rewrite andb_false_r. reflexivity.
  Qed.

  Lemma pr_sum : laws O -> forall w cl order b m n nnz ptr ind (val : list T) B ldb alpha i j, dense_ok w order ldb n n B -> csr_wf m n nnz b ptr ind -> zlen val = nnz -> 0 <= i <= j -> j < m ->
    suml O (fun v => v) (pr_terms w cl order b n ptr ind val B ldb alpha i j) =
    alpha *! sumz O 0 n (fun q => sumz O 0 n (fun l => cj_if O cl (csr_mat O b ptr ind val i l) *! dense_herm O order ldb B l q) *! cj_if O (negb cl) (csr_mat O b ptr ind val j q)).
  Proof.
    intros L w cl order b m n nnz ptr ind val B ldb alpha i j DB W Lv Hij Hj. unfold pr_terms. destruct (oeqb O alpha z) eqn:EA.
    { apply (l_eqb L) in EA. subst alpha. rewrite (alpha_zero O L). reflexivity. }
    replace (i <=? j) with true by lia. rewrite (suml_map O). destruct (work_row_ok w cl order b m n nnz ptr ind val B ldb alpha i DB W Lv ltac:(lia)) as (_ & LW & R). specialize (R L). set (wk := work_row w cl order b n ptr ind val B ldb alpha i) in *.
    assert (AD : additive O (cj_if O (negb cl))).
    { unfold additive, cj_if. destruct cl; cbn [negb]; auto; apply (l_cj_add L). }
    change (sumz O (zn ptr j - b) (zn ptr (j + 1) - b) (fun k => tn wk (zn ind k - b) *! cj_if O (negb cl) (tn val k)) = alpha *! sumz O 0 n (fun q => sumz O 0 n (fun l => cj_if O cl (csr_mat O b ptr ind val i l) *! dense_herm O order ldb B l q) *! cj_if O (negb cl) (csr_mat O b ptr ind val j q))).
    pose proof (l_ring L) as RT. destruct RT.
    rewrite (sumz_ext O _ _ _ (fun k => cj_if O (negb cl) (tn val k) *! tn wk (zn ind k - b))) by (intros; apply Rmul_comm).
    rewrite (full_row_sum O L m n nnz b ptr ind val j (cj_if O (negb cl)) (tn wk)) by (auto; lia).
    rewrite <- (sumz_mul_l O L). apply (sumz_ext O). intros q Hq. rewrite R by auto. rewrite Rmul_comm. rewrite Rmul_assoc. reflexivity.
  Qed.
End P.

Section R.
  Context {T : Type} (O : ops T) (is_real : bool) (HR : is_real = true -> forall v : T, ocj O v = v).
  Local Notation z := (o0 O).
  Local Notation tn := (nthZ (o0 O)).

  (** The effective left factor: op(A). *)
  Lemma left_direct : forall op (a : cmat T) i l, (c_doid a = gn \/ c_doid a = gt) -> valid_op op = true -> (is_real = false -> op <> op_transpose) -> laws O -> swp op (c_doid a) = false ->
    cj_if O (negb is_real && match op with op_conjugate_transpose => true | _ => false end) (csr_mat O (c_b a) (c_ptr a) (c_ind a) (c_val a) i l) = op_sem O op (hnd_mat O a) i l /\
    cj_if O (negb (negb is_real && match op with op_conjugate_transpose => true | _ => false end)) (csr_mat O (c_b a) (c_ptr a) (c_ind a) (c_val a) i l) = ocj O (op_sem O op (hnd_mat O a) i l).
  Proof.
    intros op a i l Hd Ho Hc L Hs. unfold hnd_mat, stored_as. destruct Hd as [E|E]; rewrite E in *; destruct op; try discriminate; cbn [op_sem gt gn Z.eqb]; unfold mT, mC, cj_if; destruct is_real; cbn [negb andb]; rewrite ?(HR eq_refl), ?(l_cj_cj L); auto; exfalso; apply (Hc eq_refl eq_refl).
  Qed.
  Lemma left_transposed : forall op (a : cmat T) i l (M : Z -> Z -> T), (c_doid a = gn \/ c_doid a = gt) -> valid_op op = true -> (is_real = false -> op <> op_transpose) -> laws O -> swp op (c_doid a) = true ->
    M i l = csr_mat O (c_b a) (c_ptr a) (c_ind a) (c_val a) l i ->
    cj_if O (negb is_real && match op with op_conjugate_transpose => true | _ => false end) (M i l) = op_sem O op (hnd_mat O a) i l /\
    cj_if O (negb (negb is_real && match op with op_conjugate_transpose => true | _ => false end)) (M i l) = ocj O (op_sem O op (hnd_mat O a) i l).
  Proof.
    intros op a i l M Hd Ho Hc L Hs ->. unfold hnd_mat, stored_as. destruct Hd as [E|E]; rewrite E in *; destruct op; try discriminate; cbn [op_sem gt gn Z.eqb]; unfold mT, mC, cj_if; destruct is_real; cbn [negb andb]; rewrite ?(HR eq_refl), ?(l_cj_cj L); auto; exfalso; apply (Hc eq_refl eq_refl).
  Qed.

  Lemma syprd_run : forall w op (A : hnd T) a B alpha beta order ldb ldc, holds A a -> valid_op op = true -> (is_real = false -> op <> op_transpose) ->
    H_m A <> 0 -> oeqb O alpha z && oeqb O beta (o1 O) = false -> dense_ok w order ldb (cols_of op A) (cols_of op A) B -> 1 <= ldb -> 1 <= ldc ->
    exists F : Z -> Z -> list T,
      (laws O -> forall i j, 0 <= i <= j -> j < rows_of op A -> suml O (fun v => v) (F i j) = omul O alpha (triple O op (cols_of op A) a (dense_herm O order ldb B) i j)) /\
      forall C, dense_ok w order ldc (rows_of op A) (rows_of op A) C ->
      exists C', syprd O is_real w op (Some A) (Some B) order ldb alpha beta (Some C) order ldc = Some (success, Some C') /\
        holds_window z order ldc (rows_of op A) (rows_of op A) (fun i j => let c := tn C (dense_at order ldc i j) in
          if i <=? j then fold_left (oadd O) (F i j) (if oeqb O beta z then z else omul O beta c) else c) C C'.
  Proof.
    intros w op A a B alpha beta order ldb ldc HA Ho Hc Hm E01 DB Hb1 Hc1.
    destruct (dims_of op A a HA Ho) as (RA & CA).
    assert (UA : arrays_ok a /\ H_nnz A = c_nnz a /\ (c_doid a = gn \/ c_doid a = gt)) by (destruct HA as ((? & ? & _ & _ & ?) & _); intuition). destruct UA as ((WA & _ & LA & BA) & NZ & DA).
    assert (DIM : 0 <= H_m A /\ 0 <= H_n A) by (pose proof (wf_m _ _ _ _ _ _ WA); pose proof (wf_n _ _ _ _ _ _ WA); destruct HA as ((_ & _ & _ & _ & Hd) & _); lia).
    assert (MA : get_mtx (H_mats A) = Some a) by (destruct HA as (_ & rest & ->); reflexivity).
    set (cl := negb is_real && match op with op_conjugate_transpose => true | _ => false end).
    assert (K : exists F : Z -> Z -> list T,
      (laws O -> forall i j, 0 <= i <= j -> j < rows_of op A -> suml O (fun v => v) (F i j) = omul O alpha (triple O op (cols_of op A) a (dense_herm O order ldb B) i j)) /\
      forall C, dense_ok w order ldc (rows_of op A) (rows_of op A) C -> exists C',
        (if negb (swp op (c_doid a)) then
           let* C := syprd_ref O w cl order (c_b a) (c_m a) (c_n a) (c_ptr a) (c_ind a) (c_val a) B ldb alpha beta C ldc in Some (success, Some C)
         else
           let nnz := H_nnz A in
           let* r := csr2csc (c_m a) (c_n a) nnz (c_b a) (c_b a) (Some (c_ptr a)) (Some (c_ind a)) (Some (c_val a)) (Some (zrep nnz 0)) (Some (zrep (c_n a + 1) 0)) (Some (zrep nnz (o0 O))) in
           match r with
           | (success, Some cp, Some ri, Some cv) => let* C := syprd_ref O w cl order (c_b a) (c_n a) (c_m a) cp ri cv B ldb alpha beta C ldc in Some (success, Some C)
           | _ => Some (internal_error, Some C)
           end) = Some (success, Some C') /\
        holds_window z order ldc (rows_of op A) (rows_of op A) (fun i j => let c := tn C (dense_at order ldc i j) in
          if i <=? j then fold_left (oadd O) (F i j) (if oeqb O beta z then z else omul O beta c) else c) C C').
    { destruct (swp op (c_doid a)) eqn:ES; cbn [negb]; rewrite RA, CA in *.
      - rewrite NZ. pose proof (wf_nnz _ _ _ _ _ _ WA). pose proof (wf_n _ _ _ _ _ _ WA).
        destruct (csr2csc_ok _ (c_m a) (c_n a) (c_nnz a) (c_b a) (c_b a) (c_ptr a) (c_ind a) (c_val a) (zrep (c_n a + 1) 0) (zrep (c_nnz a) 0) (zrep (c_nnz a) z) BA BA WA LA) as (cp & ri & cv & E1 & W1 & L1 & S1 & X1); try (rewrite zlen_zrep; lia).
        exists (pr_terms O w cl order (c_b a) (c_m a) cp ri cv B ldb alpha). split.
        + intros L i j Hij Hj. rewrite (pr_sum O L w cl order (c_b a) (c_n a) (c_m a) (c_nnz a)); auto. f_equal. unfold triple. apply (sumz_ext O). intros q Hq.
          destruct (left_transposed op a j q (csr_mat O (c_b a) cp ri cv) DA Ho Hc L ES) as (_ & Y2); [unfold csr_mat; rewrite X1 by lia; reflexivity|]. fold cl in Y2. rewrite Y2. f_equal. apply (sumz_ext O). intros l Hl. f_equal.
          destruct (left_transposed op a i l (csr_mat O (c_b a) cp ri cv) DA Ho Hc L ES) as (Y1 & _); [unfold csr_mat; rewrite X1 by lia; reflexivity|]. exact Y1.
        + intros C DC. destruct (syprd_ref_ok O w cl order (c_b a) (c_n a) (c_m a) (c_nnz a) cp ri cv B ldb alpha beta C ldc DB DC W1 L1) as (C' & E & H1). exists C'. cbv zeta. rewrite E1, E. auto.
      - exists (pr_terms O w cl order (c_b a) (c_n a) (c_ptr a) (c_ind a) (c_val a) B ldb alpha). split.
        + intros L i j Hij Hj. rewrite (pr_sum O L w cl order (c_b a) (c_m a) (c_n a) (c_nnz a)); auto. f_equal. unfold triple. apply (sumz_ext O). intros q Hq.
          destruct (left_direct op a j q DA Ho Hc L ES) as (_ & Y2). fold cl in Y2. rewrite Y2. f_equal. apply (sumz_ext O). intros l Hl. f_equal. destruct (left_direct op a i l DA Ho Hc L ES) as (Y1 & _). exact Y1.
        + intros C DC. destruct (syprd_ref_ok O w cl order (c_b a) (c_m a) (c_n a) (c_nnz a) (c_ptr a) (c_ind a) (c_val a) B ldb alpha beta C ldc DB DC WA LA) as (C' & E & H1). exists C'. rewrite E. auto. }
    destruct K as (F & FS & K). exists F. split; [exact FS|]. intros C D. destruct (K C D) as (C' & E & H). exists C'. split; [|exact H].
    pose proof D as [Hw Hl Hm1 _ Hd1 Ff1 Fx1]. pose proof DB as [_ _ Hm2 _ Hd2 Ff2 Fx2].
    unfold syprd. rewrite Ho. cbn [negb]. replace (negb (order =? 0) && negb (order =? 1)) with false by lia. rewrite Z.eqb_refl. cbn [negb]. rewrite MA. cbv zeta.
    replace (negb (c_doid a =? gt) && negb (c_doid a =? gn)) with false by (destruct DA as [-> | ->]; reflexivity).
    replace (negb is_real && match op with op_transpose => true | _ => false end) with false by (destruct is_real; [reflexivity|]; destruct op; try reflexivity; exfalso; apply (Hc eq_refl eq_refl)).
    replace ((H_m A <? 0) || (H_n A <? 0)) with false by lia. replace (H_m A =? 0) with false by lia. rewrite E01.
    replace (if match op with op_none => true | _ => false end then H_n A else H_m A) with (cols_of op A) by (destruct op; reflexivity).
    replace (if match op with op_none => true | _ => false end then H_m A else H_n A) with (rows_of op A) by (destruct op; reflexivity).
    assert (F1 : rows_of op A <= ldc /\ rows_of op A * ldc <= int_max w) by (unfold window_fits in Ff1; destruct Hl as [-> | ->]; cbn in Ff1, Fx1 |- *; lia).
    assert (F2 : cols_of op A <= ldb /\ cols_of op A * ldb <= int_max w) by (unfold window_fits in Ff2; destruct Hl as [-> | ->]; cbn in Ff2, Fx2 |- *; lia).
    replace (ldb <? Z.max 1 (cols_of op A)) with false by lia. replace (ldc <? Z.max 1 (rows_of op A)) with false by lia.
    assert (OV : forall r l, 0 <= r <= int_max w -> 0 <= l <= int_max w -> r * l <= int_max w -> int_product_overflow w r l = Some false).
    { clear - Hw. intros r l Hr Hl Hp0. pose proof (pow_w w Hw) as Hp. rewrite int_product_overflow_spec by (auto; unfold in_int, int_min, int_max in *; lia). f_equal.
      assert (0 <= r * l) by nia. unfold in_int, int_min, int_max in *. set (P := r * l) in *. clearbody P. lia. }
    rewrite (OV (rows_of op A) ldc) by (auto; lia). rewrite (OV (cols_of op A) ldb) by (auto; lia). fold cl.
    replace (if c_doid a =? gt then negb (match op with op_none => true | _ => false end) else match op with op_none => true | _ => false end) with (negb (swp op (c_doid a))) by (unfold swp; destruct DA as [-> | ->], op; try discriminate; reflexivity).
    exact E.
  Qed.

  Lemma syprd_ok : laws O -> forall w op (A : hnd T) a B alpha beta (C : list T) order ldb ldc, holds A a -> valid_op op = true -> (is_real = false -> op <> op_transpose) ->
    H_m A <> 0 \/ op = op_none -> dense_ok w order ldb (cols_of op A) (cols_of op A) B -> 1 <= ldb -> 1 <= ldc -> dense_ok w order ldc (rows_of op A) (rows_of op A) C ->
    exists C', syprd O is_real w op (Some A) (Some B) order ldb alpha beta (Some C) order ldc = Some (success, Some C') /\
      holds_window z order ldc (rows_of op A) (rows_of op A) (upper_update O order ldc alpha beta (triple O op (cols_of op A) a (dense_herm O order ldb B)) C) C C'.
  Proof.
    intros L w op A a B alpha beta C order ldb ldc HA Ho Hc Hm DB Hb1 Hc1 DC.
    assert (DIM : (c_doid a = gn \/ c_doid a = gt) /\ 0 <= H_m A /\ 0 <= H_n A).
    { destruct HA as (((WA & _) & _ & _ & _ & Hd) & _). pose proof (wf_m _ _ _ _ _ _ WA). pose proof (wf_n _ _ _ _ _ _ WA). intuition lia. }
    assert (MA : get_mtx (H_mats A) = Some a) by (destruct HA as (_ & rest & ->); reflexivity).
    destruct (Z.eq_dec (H_m A) 0) as [Z0|NZ].
    { destruct Hm as [?| ->]; [contradiction|]. exists C. split.
      - unfold syprd. pose proof DC as [_ Hl _ _ _ _ _]. cbn [valid_op negb]. replace (negb (order =? 0) && negb (order =? 1)) with false by lia. rewrite Z.eqb_refl. cbn [negb]. rewrite MA. cbv zeta.
        replace (negb (c_doid a =? gt) && negb (c_doid a =? gn)) with false by (destruct DIM as ([-> | ->] & _); reflexivity). rewrite andb_false_r. replace ((H_m A <? 0) || (H_n A <? 0)) with false by lia. rewrite Z0. reflexivity.
      - cbn [rows_of]. rewrite Z0. split; [reflexivity|]. split; [intros; lia|reflexivity]. }
    destruct (oeqb O alpha z && oeqb O beta (o1 O)) eqn:E01.
    { exists C. split.
      - unfold syprd. pose proof DC as [_ Hl _ _ _ _ _]. rewrite Ho. cbn [negb]. replace (negb (order =? 0) && negb (order =? 1)) with false by lia. rewrite Z.eqb_refl. cbn [negb]. rewrite MA. cbv zeta.
        replace (negb (c_doid a =? gt) && negb (c_doid a =? gn)) with false by (destruct DIM as ([-> | ->] & _); reflexivity).
        replace (negb is_real && match op with op_transpose => true | _ => false end) with false by (destruct is_real; [reflexivity|]; destruct op; try reflexivity; exfalso; apply (Hc eq_refl eq_refl)).
        replace ((H_m A <? 0) || (H_n A <? 0)) with false by lia. replace (H_m A =? 0) with false by lia. rewrite E01. reflexivity.
      - apply andb_true_iff in E01. destruct E01 as (E0 & E1). apply (l_eqb L) in E0. apply (l_eqb L) in E1. subst. split; [reflexivity|]. split; [|reflexivity]. intros i j Hi Hj. unfold upper_update. cbv zeta. destruct (i <=? j); [|reflexivity].
        destruct (l_ring L). rewrite (alpha_zero O L), Rmul_1_l, Radd_comm, Radd_0_l. reflexivity. }
    destruct (syprd_run w op A a B alpha beta order ldb ldc HA Ho Hc NZ E01 DB Hb1 Hc1) as (F & FS & R).
    destruct (R C DC) as (C' & E & H). exists C'. split; [exact E|]. revert H. apply (hw_ext O). intros i j Hi Hj. cbv zeta. unfold upper_update. destruct (i <=? j) eqn:Q; [|reflexivity].
    rewrite (fold_sum O L), (FS L) by lia. f_equal. destruct (oeqb O beta z) eqn:E0; [|reflexivity]. apply (l_eqb L) in E0. subst beta. symmetry. apply (alpha_zero O L).
  Qed.
End R.
