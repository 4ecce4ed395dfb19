(** The dense product of two sparse matrices. *)
From Coq Require Import ZArith List Bool Lia.
From Coq Require Import ZifyBool.
From Verif Require Import Base BaseFacts Algebra UtilModel UtilProof Csr CsrFacts Csr2CscModel Csr2CscProof DoidModel DoidSpec CheckModel MvModel MvFacts HandleModel HandleSpec
  DenseSpec DenseProof WinFacts CsrmvModel AddSpec Csr2mModel Csr2mSpec Csr2mHandleProof Sp2mdModel Sp2mdSpec.
Import ListNotations.
Open Scope Z_scope.

Section P.
  Context {T : Type} (O : ops T).
  Local Notation z := (o0 O).

  Lemma addr_ok : forall w layout ldc m n (C : list T) i j b, dense_ok w layout ldc m n C -> 0 <= i < m -> 0 <= j < n -> b = 0 \/ b = 1 ->
    addr w layout ldc i (j + b) b = Some (dense_at layout ldc i j).
  Proof.
    intros w layout ldc m n C i j b [Hw Hl Hm Hn Hd F X] Hi Hj Hb. unfold addr, dense_at, chk, in_int, window_fits in *. pose proof (pow_w w Hw) as Hp. unfold int_min, int_max in *. set (M := 2 ^ w) in *. clearbody M.
    destruct (layout =? 1) eqn:E.
    - replace (j + b - b) with j by lia. replace ((- M <=? j) && (j <=? M - 1)) with true by lia.
      replace ((- M <=? j * ldc) && (j * ldc <=? M - 1)) with true by nia.
      replace ((- M <=? i + j * ldc) && (i + j * ldc <=? M - 1)) with true by nia. f_equal. lia.
    - replace ((- M <=? i * ldc) && (i * ldc <=? M - 1)) with true by nia.
      replace ((- M <=? i * ldc + (j + b)) && (i * ldc + (j + b) <=? M - 1)) with true by nia.
      replace ((- M <=? i * ldc + (j + b) - b) && (i * ldc + (j + b) - b <=? M - 1)) with true by nia. f_equal. lia.
  Qed.
  Lemma addr_ok0 : forall w layout ldc m n (C : list T) i j, dense_ok w layout ldc m n C -> 0 <= i < m -> 0 <= j < n ->
    addr w layout ldc i j 0 = Some (dense_at layout ldc i j).
  Proof. intros w layout ldc m n C i j D Hi Hj. rewrite <- (addr_ok w layout ldc m n C i j 0) by auto. f_equal. lia. Qed.
  Lemma dense_ok_len : forall w layout ldc m n (A B : list T), zlen B = zlen A -> dense_ok w layout ldc m n A -> dense_ok w layout ldc m n B.
  Proof. intros w layout ldc m n A B E [? ? ? ? ? F ?]. constructor; auto. now apply (fits_len layout ldc m n A). Qed.

  (** What the scaling leaves in a cell. *)
  Definition scaled (beta c : T) : T := if oeqb O beta z then z else if oeqb O beta (o1 O) then c else omul O beta c.
  Lemma dense_scale_ok : forall w layout ldc m n beta (C : list T), dense_ok w layout ldc m n C ->
    exists C', dense_scale O w layout ldc m n beta C = Some C' /\ holds_window z layout ldc m n (fun i j => scaled beta (nthZ z C (dense_at layout ldc i j))) C C'.
  Proof.
    intros w layout ldc m n beta C D. pose proof D as [_ _ Hm Hn _ F _]. unfold dense_scale, scaled.
    destruct (oeqb O beta z) eqn:E0; cbn [negb andb].
    - destruct (hw_rows O layout ldc m n (fun _ => z) (negb (layout =? 1)) (fun i j C => match addr w layout ldc i j 0 with Some p => wr C p z | None => None end) C F) as (C' & E & R); try lia.
      + intros i j B Hi Hj FB. pose proof (fits_range layout ldc m n B i j FB Hi Hj). rewrite (addr_ok0 w layout ldc m n C) by auto. rewrite wr_upd by lia. reflexivity.
      + exists C'. split; auto. destruct (layout =? 1); exact E.
    - destruct (oeqb O beta (o1 O)) eqn:E1; cbn [andb].
      + exists C. split; auto. split; [reflexivity|]. split; reflexivity.
      + destruct (hw_rows O layout ldc m n (fun c => omul O beta c) (negb (layout =? 1)) (fun i j C => match addr w layout ldc i j 0 with Some p => match rd C p with Some c => wr C p (omul O beta c) | None => None end | None => None end) C F) as (C' & E & R); try lia.
        * intros i j B Hi Hj FB. pose proof (fits_range layout ldc m n B i j FB Hi Hj). rewrite (addr_ok0 w layout ldc m n C) by auto. rewrite (rd_nthZ _ z) by lia. rewrite wr_upd by lia. reflexivity.
        * exists C'. split; auto. destruct (layout =? 1); exact E.
  Qed.

  (** The terms one row of B contributes to cell (i, j). *)
  Definition row_terms (bB : Z) (Bptr Bind : list Z) (Bval : list T) (v : T) (i0 r i j : Z) : list T :=
    if i =? i0 then map (omul O v) (ents bB Bptr Bind Bval r j) else [].
  Lemma add_row_ok : forall w layout ldc m n kk nnz bB Bptr Bind (Bval : list T) v i0 r (C : list T), dense_ok w layout ldc m n C ->
    csr_wf kk n nnz bB Bptr Bind -> zlen Bval = nnz -> bB = 0 \/ bB = 1 -> 0 <= i0 < m -> 0 <= r < kk ->
    exists C', add_row O w layout ldc bB Bptr Bind Bval v i0 r C = Some C' /\ wacc O layout ldc m n (row_terms bB Bptr Bind Bval v i0 r) C C'.
  Proof.
    intros w layout ldc m n kk nnz bB Bptr Bind Bval v i0 r C D W Lv Hb Hi0 Hr. unfold add_row. pose proof D as [_ _ _ _ _ F _].
    destruct (wf_len _ _ _ _ _ _ W) as (Lp & Li). pose proof (ptr_range _ _ _ _ (wf_ptr _ _ _ _ _ _ W)) as PR. pose proof (ptr_mono _ _ _ _ (wf_ptr _ _ _ _ _ _ W) r (r + 1) ltac:(lia) ltac:(lia)) as PM.
    rewrite !(rd_nthZ _ 0) by lia.
    match goal with |- context [for_ ?lo ?hi ?f ?s] => destruct (wacc_for O layout ldc m n lo hi (fun k i j => if (i =? i0) && (j =? zn Bind k - bB) then [omul O v (nthZ z Bval k)] else []) f s F ltac:(lia)) as (C' & E & R) end.
    - intros k B Hk FB LB. pose proof (PR r ltac:(lia)). pose proof (PR (r + 1) ltac:(lia)). pose proof (wf_ind _ _ _ _ _ _ W k ltac:(lia)) as Hc.
      rewrite (rd_nthZ _ 0 Bind) by lia. rewrite (rd_nthZ _ z Bval) by lia.
      replace (addr w layout ldc i0 (zn Bind k) bB) with (Some (dense_at layout ldc i0 (zn Bind k - bB))) by (rewrite <- (addr_ok w layout ldc m n C i0 (zn Bind k - bB) bB D) by lia; f_equal; lia).
      pose proof (fits_range layout ldc m n B i0 (zn Bind k - bB) FB Hi0 ltac:(lia)) as R. rewrite (rd_nthZ _ z B) by lia. rewrite wr_upd by lia. eexists. split; [reflexivity|].
      apply wacc_one; auto. lia.
    - exists C'. split; auto. revert R. apply wacc_ext. intros i j Hi Hj. unfold row_terms, ents. destruct (Z.eqb_spec i i0) as [-> |Ne]; cbn [andb].
      + rewrite map_flat_map. apply flat_map_ext_in. intros k Hk. apply in_zrange in Hk. pose proof (PR r ltac:(lia)). pose proof (PR (r + 1) ltac:(lia)).
        destruct (Z.eqb_spec (zn Bind k) (j + bB)) as [E'|E'].
        * replace (j =? zn Bind k - bB) with true by lia. rewrite (rd_nthZ _ z Bval) by lia. reflexivity.
        * replace (j =? zn Bind k - bB) with false by lia. reflexivity.
      + induction (zrange (zn Bptr r - bB) (zn Bptr (r + 1) - bB)); cbn; auto.
  Qed.

  (** All the terms of cell (i, j), in the order in which they are added. *)
  Definition all_terms (tA cA : bool) (m_a bA bB : Z) (Aptr Aind : list Z) (Aval : list T) (Bptr Bind : list Z) (Bval : list T) (alpha : T) (i j : Z) : list T :=
    flat_map (fun i' => flat_map (fun q =>
        let v := omul O alpha (cjh O cA (nthZ z Aval q)) in
        if tA then row_terms bB Bptr Bind Bval v (zn Aind q - bA) i' i j else row_terms bB Bptr Bind Bval v i' (zn Aind q - bA) i j)
      (zrange (zn Aptr i' - bA) (zn Aptr (i' + 1) - bA))) (zrange 0 m_a).
  Lemma sp2md_ref_ok : forall w layout ldc m n (tA cA : bool) m_a n_a kk nA nB bA bB Aptr Aind (Aval : list T) Bptr Bind (Bval : list T) alpha (C : list T), dense_ok w layout ldc m n C ->
    csr_wf m_a n_a nA bA Aptr Aind -> zlen Aval = nA -> csr_wf kk n nB bB Bptr Bind -> zlen Bval = nB -> bB = 0 \/ bB = 1 ->
    (if tA then n_a = m /\ m_a = kk else m_a = m /\ n_a = kk) ->
    exists C', sp2md_ref O w tA cA layout ldc m_a bA bB Aptr Aind Aval Bptr Bind Bval alpha C = Some C' /\
      wacc O layout ldc m n (all_terms tA cA m_a bA bB Aptr Aind Aval Bptr Bind Bval alpha) C C'.
  Proof.
    intros w layout ldc m n tA cA m_a n_a kk nA nB bA bB Aptr Aind Aval Bptr Bind Bval alpha C D WA LA WB LB Hb Dim. unfold sp2md_ref, all_terms. pose proof D as [_ _ _ _ _ F _].
    destruct (wf_len _ _ _ _ _ _ WA) as (Lp & Li). pose proof (ptr_range _ _ _ _ (wf_ptr _ _ _ _ _ _ WA)) as PR. pose proof (wf_m _ _ _ _ _ _ WA) as Hm.
    apply (wacc_for O layout ldc m n 0 m_a (fun i' i j => flat_map (fun q =>
        let v := omul O alpha (cjh O cA (nthZ z Aval q)) in
        if tA then row_terms bB Bptr Bind Bval v (zn Aind q - bA) i' i j else row_terms bB Bptr Bind Bval v i' (zn Aind q - bA) i j)
      (zrange (zn Aptr i' - bA) (zn Aptr (i' + 1) - bA)))); auto.
    intros i' B Hi' FB LB'. pose proof (PR i' ltac:(lia)). pose proof (PR (i' + 1) ltac:(lia)). pose proof (ptr_mono _ _ _ _ (wf_ptr _ _ _ _ _ _ WA) i' (i' + 1) ltac:(lia) ltac:(lia)) as PM.
    rewrite !(rd_nthZ _ 0) by lia. apply wacc_for; auto; [lia|].
    intros q B' Hq FB' LB2. pose proof (wf_ind _ _ _ _ _ _ WA q ltac:(lia)) as Hc. rewrite (rd_nthZ _ 0 Aind) by lia. rewrite (rd_nthZ _ z Aval) by lia.
    assert (DB : dense_ok w layout ldc m n B') by (apply (dense_ok_len w layout ldc m n C); auto; lia).
    destruct tA; cbn [cjh]; apply (add_row_ok w layout ldc m n kk nB); auto; lia.
  Qed.

  Lemma conj_vals : forall k (src v : list T), zlen v = k -> zlen src = k -> 
    for_ 0 k (fun i v => let* x := rd src i in wr v i (ocj O x)) v = Some (map (ocj O) src).
  Proof.
    intros k src v Lv Ls. assert (Hk : 0 <= k) by (rewrite <- Lv; apply zlen_nonneg).
    destruct (for_inv _ (fun i v => zlen v = k /\ forall p, 0 <= p < i -> nthZ z v p = nthZ z (map (ocj O) src) p) 0 k (fun i v => let* x := rd src i in wr v i (ocj O x)) v Hk) as (v' & E & L' & R).
    - split; auto. intros; lia.
    - intros i v0 Hi (L0 & R0). rewrite (rd_nthZ _ z) by lia. rewrite wr_upd by lia. eexists. split; [reflexivity|]. rewrite zlen_upd. split; auto.
      intros p Hp. rewrite nthZ_upd by lia. destruct (Z.eqb_spec p i) as [-> |Ne]; [|apply R0; lia]. rewrite (nthZ_map _ _ _ z) by lia. reflexivity.
    - rewrite E. f_equal. apply (nthZ_ext _ z); [rewrite zlen_map; lia|]. intros p Hp. apply R. lia.
  Qed.
  Lemma conj_in_place : forall k (src : list T), zlen src = k ->
    for_ 0 k (fun i v => let* x := rd v i in wr v i (ocj O x)) src = Some (map (ocj O) src).
  Proof.
    intros k src Ls. assert (Hk : 0 <= k) by (rewrite <- Ls; apply zlen_nonneg).
    destruct (for_inv _ (fun i v => zlen v = k /\ (forall p, 0 <= p < i -> nthZ z v p = nthZ z (map (ocj O) src) p) /\ forall p, i <= p < k -> nthZ z v p = nthZ z src p) 0 k (fun i v => let* x := rd v i in wr v i (ocj O x)) src Hk) as (v' & E & L' & R & _).
    - ands; auto. intros; lia.
    - intros i v0 Hi (L0 & R0 & R1). rewrite (rd_nthZ _ z) by lia. rewrite wr_upd by lia. eexists. split; [reflexivity|]. rewrite zlen_upd. ands; auto.
      + intros p Hp. rewrite nthZ_upd by lia. destruct (Z.eqb_spec p i) as [-> |Ne]; [|apply R0; lia]. rewrite (nthZ_map _ _ _ z) by lia. rewrite R1 by lia. reflexivity.
      + intros p Hp. rewrite nthZ_upd by lia. replace (p =? i) with false by lia. apply R1. lia.
    - rewrite E. f_equal. apply (nthZ_ext _ z); [rewrite zlen_map; lia|]. intros p Hp. apply R. lia.
  Qed.
  Lemma ents_map : forall (f : T -> T) b ptr ind val i j, ents b ptr ind (map f val) i j = map f (ents b ptr ind val i j).
  Proof.
    intros f b ptr ind val i j. unfold ents. rewrite map_flat_map. apply flat_map_ext_in. intros k _. destruct (zn ind k =? j + b); [|reflexivity].
    assert (E : rd (map f val) k = option_map f (rd val k)) by (unfold rd; destruct (k <? 0); [reflexivity|apply nth_error_map]).
    rewrite E. destruct (rd val k); reflexivity.
  Qed.

  (** Both operands of an accepted call. *)
  Lemma b_operand_ok : forall is_real fz ft op (X : hnd T) (x : cmat T), (is_real = true -> forall v, ocj O v = v) ->
    (forall k, 0 <= k -> zlen (fz k) = k) -> (forall k, 0 <= k -> zlen (ft k : list T) = k) -> holds X x -> valid_op op = true ->
    exists x', b_operand O fz ft x (swp op (c_doid x)) (cjf is_real op) = Some (success, x') /\ c_b x' = c_b x /\
      csr_wf (rows_of op X) (cols_of op X) (c_nnz x) (c_b x) (c_ptr x') (c_ind x') /\ zlen (c_val x') = c_nnz x /\
      (laws O -> forall i j, 0 <= i < rows_of op X -> 0 <= j < cols_of op X -> csr_mat O (c_b x) (c_ptr x') (c_ind x') (c_val x') i j = op_sem O op (hnd_mat O x) i j).
  Proof.
    intros is_real fz ft op X x HR Hz Ht HX Ho. destruct (operand O is_real HR fz ft op X x Hz Ht HX Ho) as (x' & E & M & N & B & W & Lv & _ & S).
    assert (CM : laws O -> forall ptr ind (val : list T) i j, csr_mat O (c_b x) ptr ind (map (ocj O) val) i j = ocj O (csr_mat O (c_b x) ptr ind val i j)).
    { intros L ptr ind val i j. unfold csr_mat. rewrite ents_map, (suml_map O), (suml_cj O L). reflexivity. }
    destruct HX as (((Wx & _ & Lx & Hb) & _) & _).
    unfold b_operand. destruct (swp op (c_doid x)); cbn [negb andb].
    - rewrite E. destruct (cjf is_real op).
      + rewrite conj_in_place by auto. eexists. split; [reflexivity|]. cbn. ands; auto.
        * rewrite zlen_map. auto.
        * intros L i j Hi Hj. rewrite <- S by auto. rewrite CM by auto. reflexivity.
      + eexists. split; [reflexivity|]. cbn. ands; auto. 
    - injection E as <-. destruct (cjf is_real op); cbn [negb].
      + rewrite conj_vals by (auto; apply Ht; exact (wf_nnz _ _ _ _ _ _ Wx)). eexists. split; [reflexivity|]. cbn. ands; auto.
        * rewrite zlen_map. auto.
        * intros L i j Hi Hj. rewrite <- S by auto. rewrite CM by auto. reflexivity.
      + eexists. split; [reflexivity|]. ands; auto.
  Qed.

End P.

Section Q.
  Context {T : Type} (O : ops T) (L : laws O).
  Local Notation z := (o0 O).
  Add Ring TR : (l_ring L).

  (** The sum of all terms is the product. *)
  Lemma all_terms_sum : forall (tA cA : bool) m_a n_a m kk n nA nB bA bB Aptr Aind (Aval : list T) Bptr Bind (Bval : list T) alpha i j,
    csr_wf m_a n_a nA bA Aptr Aind -> zlen Aval = nA -> csr_wf kk n nB bB Bptr Bind -> zlen Bval = nB ->
    (if tA then n_a = m /\ m_a = kk else m_a = m /\ n_a = kk) -> 0 <= i < m -> 0 <= j < n ->
    suml O (fun v => v) (all_terms O tA cA m_a bA bB Aptr Aind Aval Bptr Bind Bval alpha i j) =
    omul O alpha (sumz O 0 kk (fun l => omul O (cjh O cA (if tA then csr_mat O bA Aptr Aind Aval l i else csr_mat O bA Aptr Aind Aval i l)) (csr_mat O bB Bptr Bind Bval l j))).
  Proof.
    intros tA cA m_a n_a m kk n nA nB bA bB Aptr Aind Aval Bptr Bind Bval alpha i j WA LA WB LB Dim Hi Hj. unfold all_terms.
    pose proof (ptr_range _ _ _ _ (wf_ptr _ _ _ _ _ _ WA)) as PR.
    assert (RT : forall v i0 r, suml O (fun v => v) (row_terms O bB Bptr Bind Bval v i0 r i j) = if i =? i0 then omul O v (csr_mat O bB Bptr Bind Bval r j) else z).
    { intros v i0 r. unfold row_terms. destruct (i =? i0); [|reflexivity]. rewrite (suml_map O). unfold csr_mat. rewrite <- (suml_mul_l O L). reflexivity. }
    rewrite (suml_flat_map O L). fold (sumz O 0 m_a).
    set (F := fun i' : Z => suml O (fun v => v) (flat_map (fun q => let v := omul O alpha (cjh O cA (nthZ z Aval q)) in
        if tA then row_terms O bB Bptr Bind Bval v (zn Aind q - bA) i' i j else row_terms O bB Bptr Bind Bval v i' (zn Aind q - bA) i j) (zrange (zn Aptr i' - bA) (zn Aptr (i' + 1) - bA)))).
    change (sumz O 0 m_a F = omul O alpha (sumz O 0 kk (fun l => omul O (cjh O cA (if tA then csr_mat O bA Aptr Aind Aval l i else csr_mat O bA Aptr Aind Aval i l)) (csr_mat O bB Bptr Bind Bval l j)))).
    assert (FE : forall i', F i' = sumz O (zn Aptr i' - bA) (zn Aptr (i' + 1) - bA) (fun q => let v := omul O alpha (cjh O cA (nthZ z Aval q)) in
        if tA then (if i =? zn Aind q - bA then omul O v (csr_mat O bB Bptr Bind Bval i' j) else z) else (if i =? i' then omul O v (csr_mat O bB Bptr Bind Bval (zn Aind q - bA) j) else z))).
    { intros i'. unfold F. rewrite (suml_flat_map O L). unfold sumz. apply (suml_ext O). intros q _. cbv zeta. destruct tA; apply RT. }
    assert (PM : forall i', 0 <= i' < m_a -> zn Aptr i' - bA <= zn Aptr (i' + 1) - bA) by (intros i' Hi'; pose proof (ptr_mono _ _ _ _ (wf_ptr _ _ _ _ _ _ WA) i' (i' + 1) ltac:(lia) ltac:(lia)); lia).
    assert (AH : additive O (fun v => omul O alpha (cjh O cA v))) by (intros a b; rewrite (additive_cjh O L cA); ring).
    rewrite <- (sumz_mul_l O L). destruct tA; destruct Dim as (D1 & D2).
    - subst n_a m_a. apply (sumz_ext O). intros l Hl. rewrite FE.
      transitivity (omul O (omul O alpha (cjh O cA (csr_mat O bA Aptr Aind Aval l i))) (csr_mat O bB Bptr Bind Bval l j)); [|ring].
      rewrite (csr_mat_sum O L bA Aptr Aind Aval l i) by (intros k Hk; rewrite LA; eapply in_row_range; eauto using wf_ptr).
      rewrite (additive_sumz O L (cjh O cA)) by apply (additive_cjh O L). rewrite <- (sumz_mul_l O L), <- (sumz_mul_r O L). apply (sumz_ext O). intros k Hk. cbv zeta.
      destruct (Z.eqb_spec i (zn Aind k - bA)).
      + replace (zn Aind k =? i + bA) with true by lia. reflexivity.
      + replace (zn Aind k =? i + bA) with false by lia. rewrite (additive_0 O L) by apply (additive_cjh O L). ring.
    - subst n_a m_a. rewrite (sumz_delta O L 0 m i) by (lia || (intros i' Hi' Ne; rewrite FE; apply (sumz_zero O L); intros q _; cbv zeta; replace (i =? i') with false by lia; reflexivity)).
      rewrite FE. rewrite Z.eqb_refl. cbv zeta.
      rewrite (row_sum_cols O L m kk nA bA Aptr Aind Aval i _ _ (fun _ => true) (fun v => omul O alpha (cjh O cA v)) (fun l => csr_mat O bB Bptr Bind Bval l j)); auto; try lia.
      + apply (sumz_ext O). intros l Hl. ring.
      + intros k Hk. unfold in_row in Hk. split; auto.
  Qed.
  Lemma scaled_ring : forall beta c, scaled O beta c = omul O beta c.
  Proof.
    intros beta c. unfold scaled. destruct (oeqb O beta z) eqn:E0; [apply (l_eqb L) in E0; subst; ring|]. destruct (oeqb O beta (o1 O)) eqn:E1; [apply (l_eqb L) in E1; subst; ring|reflexivity].
  Qed.
  Lemma alpha_zero : forall c, omul O z c = z. Proof. intros; ring. Qed.
End Q.

Section H.
  Context {T : Type} (O : ops T) (is_real : bool) (HR : is_real = true -> forall x, ocj O x = x).
  Local Notation z := (o0 O).

  (** An accepted call, without any algebraic law: each cell ends with the scaled old
      content plus a list of terms that depends on the operands only. *)
  Lemma sp2md_run : forall fz ft w opA opB dA dB (A B : hnd T) a b alpha beta (C : list T) layout ldc,
    (forall k, 0 <= k -> zlen (fz k) = k) -> (forall k, 0 <= k -> zlen (ft k : list T) = k) -> sp2m_pre opA opB dA dB A B a b ->
    dense_ok w layout ldc (rows_of opA A) (cols_of opB B) C ->
    exists b', csr_wf (rows_of opB B) (cols_of opB B) (c_nnz b) (c_b b) (c_ptr b') (c_ind b') /\ zlen (c_val b') = c_nnz b /\
      (laws O -> forall i j, 0 <= i < rows_of opB B -> 0 <= j < cols_of opB B -> csr_mat O (c_b b) (c_ptr b') (c_ind b') (c_val b') i j = op_sem O opB (hnd_mat O b) i j) /\
      forall C, dense_ok w layout ldc (rows_of opA A) (cols_of opB B) C ->
      exists C', sp2md O is_real fz ft w opA (Some dA) (Some A) opB (Some dB) (Some B) alpha beta (Some C) layout ldc = Some (success, Some C') /\
        holds_window z layout ldc (rows_of opA A) (cols_of opB B) (fun i j =>
          fold_left (oadd O) (if oeqb O alpha z then [] else all_terms O (swp opA (c_doid a)) (cjf is_real opA) (c_m a) (c_b a) (c_b b) (c_ptr a) (c_ind a) (c_val a) (c_ptr b') (c_ind b') (c_val b') alpha i j)
            (scaled O beta (nthZ z C (dense_at layout ldc i j)))) C C'.
  Proof.
    intros fz ft w opA opB dA dB A B a b alpha beta C0 layout ldc Hz Ht PRE D0. pose proof PRE as [HA HB OA OB TA TB bA bB Dim].
    destruct (b_operand_ok O is_real fz ft opB B b HR Hz Ht HB OB) as (b' & EB & Bb & WB & LB & SB).
    exists b'. split; auto. split; auto. split; auto. intros C D.
    assert (UA : arrays_ok a /\ (c_doid a = gn \/ c_doid a = gt)) by (destruct HA as ((? & _ & _ & _ & ?) & _); intuition).
    assert (UB : arrays_ok b /\ (c_doid b = gn \/ c_doid b = gt)) by (destruct HB as ((? & _ & _ & _ & ?) & _); intuition).
    destruct UA as ((WA & _ & LA & BA) & DA). destruct UB as ((_ & _ & _ & BB) & DB).
    destruct (dims_of opA A a HA OA) as (RA & CA).
    destruct (eff_bits is_real (d_fill dA) opA (c_doid a) OA DA) as (rA & eA & GA & FA & SA & JA). destruct (eff_bits is_real (d_fill dB) opB (c_doid b) OB DB) as (rB & eB & GB & FB & SB' & JB).
    assert (MA : get_mtx (H_mats A) = Some a) by (destruct HA as (_ & rest & ->); reflexivity). assert (MB : get_mtx (H_mats B) = Some b) by (destruct HB as (_ & rest & ->); reflexivity).
    unfold sp2md. rewrite MA, MB, TA, TB, bA, bB. pose proof D as [Hw Hl Hm Hn Hd F X].
    replace (negb (layout =? 0) && negb (layout =? 1)) with false by lia. cbn [negb].
    replace (negb ((c_doid a =? gn) || (c_doid a =? gt)) || negb ((c_doid b =? gn) || (c_doid b =? gt))) with false by (destruct DA as [-> | ->], DB as [-> | ->]; reflexivity).
    assert (E1 : (if match opA with op_none => false | _ => true end then H_n A else H_m A) = rows_of opA A) by (destruct opA; reflexivity).
    assert (E2 : (if match opA with op_none => false | _ => true end then H_m A else H_n A) = cols_of opA A) by (destruct opA; reflexivity).
    assert (E3 : (if match opB with op_none => false | _ => true end then H_n B else H_m B) = rows_of opB B) by (destruct opB; reflexivity).
    assert (E4 : (if match opB with op_none => false | _ => true end then H_m B else H_n B) = cols_of opB B) by (destruct opB; reflexivity).
    cbv zeta. rewrite E1, E2, E3, E4, Dim, Z.eqb_refl. cbn [negb].
    assert (F' : (if layout =? 0 then cols_of opB B else rows_of opA A) <= ldc /\ (if layout =? 0 then rows_of opA A else cols_of opB B) * ldc <= int_max w) by (unfold window_fits in F; destruct Hl as [-> | ->]; cbn in F, X |- *; lia).
    destruct F' as (F1 & F2). replace (ldc <? _) with false by lia.
    assert (OV : int_product_overflow w (if layout =? 0 then rows_of opA A else cols_of opB B) ldc = Some false).
    { set (r := if layout =? 0 then rows_of opA A else cols_of opB B) in *. assert (Hr : 0 <= r <= int_max w) by (unfold r; destruct (layout =? 0); lia).
      pose proof (pow_w w Hw) as Hp. rewrite int_product_overflow_spec by (auto; unfold in_int, int_min, int_max in *; lia). f_equal.
      assert (0 <= r * ldc) by nia. unfold in_int, int_min, int_max in *. set (P := r * ldc) in *. clearbody P. lia. }
    rewrite OV, !Z.eqb_refl. cbn [negb orb]. rewrite GA, FA, GB, FB, SA, JA, SB', JB, EB.
    destruct (dense_scale_ok O w layout ldc (rows_of opA A) (cols_of opB B) beta C D) as (C1 & -> & H1).
    destruct (oeqb O alpha z).
    - exists C1. split; auto.
    - destruct (sp2md_ref_ok O w layout ldc (rows_of opA A) (cols_of opB B) (swp opA (c_doid a)) (cjf is_real opA) (c_m a) (c_n a) (cols_of opA A) (c_nnz a) (c_nnz b) (c_b a) (c_b b)
                 (c_ptr a) (c_ind a) (c_val a) (c_ptr b') (c_ind b') (c_val b') alpha C1) as (C2 & E & H2); auto.
      + exact (dense_ok_len w layout ldc _ _ C C1 (hw_len O _ _ _ _ _ _ _ H1) D).
      + rewrite Dim. exact WB.
      + destruct (swp opA (c_doid a)); lia.
      + rewrite Bb, E. exists C2. split; auto. pose proof (hw_trans O _ _ _ _ _ _ _ _ _ H1 H2) as H3. revert H3. apply hw_ext. intros i j Hi Hj. f_equal. now apply H1.
  Qed.

  Lemma sp2md_ok : laws O -> forall fz ft w opA opB dA dB (A B : hnd T) a b alpha beta (C : list T) layout ldc,
    (forall k, 0 <= k -> zlen (fz k) = k) -> (forall k, 0 <= k -> zlen (ft k : list T) = k) -> sp2m_pre opA opB dA dB A B a b ->
    dense_ok w layout ldc (rows_of opA A) (cols_of opB B) C ->
    exists C', sp2md O is_real fz ft w opA (Some dA) (Some A) opB (Some dB) (Some B) alpha beta (Some C) layout ldc = Some (success, Some C') /\
      holds_window z layout ldc (rows_of opA A) (cols_of opB B)
        (fun i j => oadd O (omul O beta (nthZ z C (dense_at layout ldc i j))) (omul O alpha (mat_prod O opA opB (cols_of opA A) a b i j))) C C'.
  Proof.
    intros L fz ft w opA opB dA dB A B a b alpha beta C layout ldc Hz Ht PRE D.
    destruct (sp2md_run fz ft w opA opB dA dB A B a b alpha beta C layout ldc Hz Ht PRE D) as (b' & WB & LB & SB & R). destruct (R C D) as (C' & E & H). exists C'. split; auto. revert H.
    pose proof PRE as [HA HB OA OB TA TB bA bB Dim]. destruct (dims_of opA A a HA OA) as (RA & CA). 
    assert (UA : arrays_ok a /\ (c_doid a = gn \/ c_doid a = gt)) by (destruct HA as ((? & _ & _ & _ & ?) & _); intuition). destruct UA as ((WA & _ & LA & BA) & DA).
    apply hw_ext. intros i j Hi Hj. rewrite (fold_sum O L), (scaled_ring O L). f_equal.
    destruct (oeqb O alpha z) eqn:E0.
    - apply (l_eqb L) in E0. subst alpha. rewrite (alpha_zero O L). reflexivity.
    - rewrite (all_terms_sum O L (swp opA (c_doid a)) (cjf is_real opA) (c_m a) (c_n a) (rows_of opA A) (cols_of opA A) (cols_of opB B) (c_nnz a) (c_nnz b)); auto.
      + f_equal. unfold mat_prod. apply (sumz_ext O). intros l Hl. rewrite (SB L) by lia. f_equal. rewrite <- (sem_of O is_real HR opA a i l DA OA). destruct (swp opA (c_doid a)); reflexivity.
      + rewrite Dim. exact WB.
      + destruct (swp opA (c_doid a)); lia.
  Qed.

  (** With beta equal to zero the old content of the window is not used. *)
  Lemma sp2md_beta0 : forall fz ft w opA opB dA dB (A B : hnd T) a b alpha beta (C1 C2 : list T) layout ldc, oeqb O beta z = true ->
    (forall k, 0 <= k -> zlen (fz k) = k) -> (forall k, 0 <= k -> zlen (ft k : list T) = k) -> sp2m_pre opA opB dA dB A B a b ->
    dense_ok w layout ldc (rows_of opA A) (cols_of opB B) C1 -> dense_ok w layout ldc (rows_of opA A) (cols_of opB B) C2 ->
    exists C1' C2', 
      sp2md O is_real fz ft w opA (Some dA) (Some A) opB (Some dB) (Some B) alpha beta (Some C1) layout ldc = Some (success, Some C1') /\
      sp2md O is_real fz ft w opA (Some dA) (Some A) opB (Some dB) (Some B) alpha beta (Some C2) layout ldc = Some (success, Some C2') /\
      forall i j, 0 <= i < rows_of opA A -> 0 <= j < cols_of opB B -> nthZ z C1' (dense_at layout ldc i j) = nthZ z C2' (dense_at layout ldc i j).
  Proof.
    intros fz ft w opA opB dA dB A B a b alpha beta C1 C2 layout ldc E0 Hz Ht PRE D1 D2.
    destruct (sp2md_run fz ft w opA opB dA dB A B a b alpha beta C1 layout ldc Hz Ht PRE D1) as (b' & WB & LB & SB & R).
    destruct (R C1 D1) as (C1' & X1 & H1). destruct (R C2 D2) as (C2' & X2 & H2). exists C1', C2'. split; auto. split; auto. intros i j Hi Hj.
    destruct H1 as (_ & H1 & _). destruct H2 as (_ & H2 & _). rewrite H1, H2 by auto. unfold scaled. rewrite E0. reflexivity.
  Qed.

  Lemma spmmd_is : forall fz ft w op (A B : hnd T) a b C layout ldc, holds A a -> holds B b ->
    spmmd O is_real fz ft w op (Some A) (Some B) layout C ldc =
    sp2md O is_real fz ft w op (Some (mkDescr mt_general fm_lower dg_non_unit (c_b a))) (Some A) op_none (Some (mkDescr mt_general fm_lower dg_non_unit (c_b b))) (Some B) (o1 O) z C layout ldc.
  Proof.
    intros fz ft w op A B a b C layout ldc HA HB. assert (MA : get_mtx (H_mats A) = Some a) by (destruct HA as (_ & rest & ->); reflexivity). assert (MB : get_mtx (H_mats B) = Some b) by (destruct HB as (_ & rest & ->); reflexivity).
    unfold spmmd. rewrite MA, MB. reflexivity.
  Qed.
End H.
