(** The symmetric / Hermitian kernels of the sparse-dense product, the scaling of C and
    the diagonal rewriting of stored copies. *)
From Coq Require Import ZArith List Bool Lia Permutation.
From Coq Require Import ZifyBool.
From Verif Require Import Base BaseFacts Algebra UtilModel UtilProof Csr CsrFacts DoidModel DoidSpec DoidProof Vec MvModel MvSpec MvFacts HandleModel
  DenseSpec DenseProof WinFacts RowProg Tiles Sp2mdModel Sp2mdSpec Sp2mdProof CsrmmModel CsrmmKernProof.
Import ListNotations.
Open Scope Z_scope.

(** Whether an element in row [r], column [c] belongs to the stored triangle, without
    the diagonal. *)
Definition inside (fill : fill_mode) (r c : Z) : bool := match fill with fm_lower => c <? r | fm_upper => r <? c end.

Section Y.
  Context {T : Type} (O : ops T) (L : laws O).
  Local Notation z := (o0 O).
  Add Ring YR : (l_ring L).
  Local Notation "a +! b" := (oadd O a b) (at level 50, left associativity).
  Local Notation "a *! b" := (omul O a b) (at level 40, left associativity).

  (** ** Scaling *)
  Lemma scale_dense_ok : forall w (ord : Z -> list Z) order ldc m n beta (C : list T), (forall k, 0 <= k -> Permutation (ord k) (zrange 0 k)) -> dense_ok w order ldc m n C ->
    exists C', scale_dense O w ord order ldc m n beta C = Some C' /\ tile O order ldc m n (fun _ _ x => beta *! x) C C'.
  Proof.
    intros w ord order ldc m n beta C HO D. pose proof D as [_ _ Hm Hn _ F _]. unfold scale_dense.
    assert (CELL : forall i j A, 0 <= i < m -> 0 <= j < n -> window_fits order ldc m n A -> 
      (if oeqb O beta z then let* p := addr w order ldc i j 0 in wr A p z else let* p := addr w order ldc i j 0 in let* c := rd A p in wr A p (beta *! c)) = Some (upd A (dense_at order ldc i j) (beta *! nthZ z A (dense_at order ldc i j)))).
    { intros i j A Hi Hj FA. rewrite (addr_ok0 w order ldc m n C) by auto. pose proof (fits_range order ldc m n A i j FA Hi Hj). destruct (oeqb O beta z) eqn:E.
      - apply (l_eqb L) in E. subst beta. rewrite wr_upd by lia. f_equal. f_equal. ring.
      - rewrite (rd_nthZ _ z) by lia. rewrite wr_upd by lia. reflexivity. }
    destruct (order =? 1) eqn:E1.
    - pose proof (HO n ltac:(lia)) as P.
      match goal with |- context [foldM ?f (ord n) C] => destruct (tile_foldM O order ldc m n Z (fun j i j' x => if j' =? j then beta *! x else x) f (ord n) C F) as (C' & E & R) end.
      + intros j A Ij FA LA. apply (perm_in _ _ _ P) in Ij. apply (tile_col O order ldc m n (fun _ x => beta *! x)); auto. 
      + exists C'. split; auto. revert R. apply (tile_once O order ldc m n Z (fun j i j' => j' =? j) (fun _ _ x => beta *! x)); [exact (perm_nodup _ _ P)|].
        intros i j Hi Hj. exists j. split; [apply (perm_in _ _ _ P); auto|]. split; [lia|intros; lia].
    - pose proof (HO m ltac:(lia)) as P.
      match goal with |- context [foldM ?f (ord m) C] => destruct (tile_foldM O order ldc m n Z (fun i i' j x => if i' =? i then beta *! x else x) f (ord m) C F) as (C' & E & R) end.
      + intros i A Ii FA LA. apply (perm_in _ _ _ P) in Ii.
        match goal with |- context [for_ 0 n ?f A] => destruct (tile_row O order ldc m n (fun _ x => beta *! x) f i 0 n A FA Ii ltac:(lia) ltac:(lia)) as (A' & E' & R') end.
        * intros. apply CELL; auto.
        * exists A'. split; auto. revert R'. apply tile_ext. intros i' j x Hi' Hj. replace ((0 <=? j) && (j <? n)) with true by lia. rewrite andb_true_r. reflexivity.
      + exists C'. split; auto. revert R. apply (tile_once O order ldc m n Z (fun i i' j => i' =? i) (fun _ _ x => beta *! x)); [exact (perm_nodup _ _ P)|].
        intros i j Hi Hj. exists i. split; [apply (perm_in _ _ _ P); auto|]. split; [lia|intros; lia].
  Qed.

  (** ** The kernel *)
  Section Sym.
  Variables (w order b m n nnz ldb ldc : Z) (ptr ind : list Z) (val B : list T) (alpha : T) (herm cj : bool) (fill : fill_mode) (dg : diag_type).
  Hypothesis W : csr_wf m m nnz b ptr ind.
  Hypothesis Lv : zlen val = nnz.
  Hypothesis Hb : b = 0 \/ b = 1.
  Hypothesis DB : dense_ok w order ldb m n B.
  Local Notation M := (csr_mat O b ptr ind val).
  Local Notation bm := (bm O order ldb B).
  Local Notation h1 := (cval O cj).
  Definition h2 (v : T) : T := if herm then ocj O (cval O cj v) else cval O cj v.
  Definition isnon : bool := match dg with dg_non_unit => true | _ => false end.
  Definition isunit : bool := match dg with dg_unit => true | _ => false end.
  Definition sym_elem (i l : Z) : T :=
    (if inside fill i l || ((i =? l) && isnon) then h1 (M i l) else z) +! (if inside fill l i then h2 (M l i) else z) +! (if isunit && (i =? l) then o1 O else z).

  Lemma h2_add : additive O h2.
  Proof. unfold h2. destruct herm; [|exact (additive_cjh O L cj)]. intros x y. rewrite (additive_cjh O L cj x y : h1 (x +! y) = h1 x +! h1 y). apply (l_cj_add L). Qed.
  Lemma baddr0_ok : forall l j, 0 <= l < m -> 0 <= j < n -> exists p, baddr w order ldb 0 l j = Some p /\ rd B p = Some (bm l j).
  Proof.
    intros l j Hl Hj. destruct DB as [Hw Ho Hm' Hn' Hld F X]. pose proof (fits_range order ldb m n B l j F Hl Hj) as R. exists (dense_at order ldb l j).
    split; [|unfold CsrmmKernProof.bm; apply rd_nthZ; exact R].
    unfold baddr, dense_at, window_fits, chk, in_int, int_min, int_max in *. pose proof (pow_w w Hw) as Hp. set (P := 2 ^ w) in *. clearbody P. destruct (order =? 1) eqn:E.
    - replace ((- P <=? j * ldb) && (j * ldb <=? P - 1)) with true by nia. replace ((- P <=? l + j * ldb) && (l + j * ldb <=? P - 1)) with true by nia. f_equal. lia.
    - replace ((- P <=? l * ldb) && (l * ldb <=? P - 1)) with true by nia. replace ((- P <=? l * ldb + j) && (l * ldb + j <=? P - 1)) with true by nia. f_equal. lia.
  Qed.

  Lemma sym_ref_ok : forall C, dense_ok w order ldc m n C ->
    exists C', sym_ref O w herm cj fill dg order alpha b m ptr ind val B n ldb ldc C = Some C' /\
      tadd O order ldc m n (fun i j => alpha *! sumz O 0 m (fun l => sym_elem i l *! bm l j)) C C'.
  Proof.
    intros C DC. unfold sym_ref. pose proof DC as [_ _ Hm Hn _ F _]. destruct (wf_len _ _ _ _ _ _ W) as (Lp & Li). pose proof (ptr_range _ _ _ _ (wf_ptr _ _ _ _ _ _ W)) as PR.
    cbv beta iota zeta. set (upd1 := add_cell O w order alpha B ldb ldc).
    assert (U1 : forall v i r j A, 0 <= i < m -> 0 <= r < m -> 0 <= j < n -> window_fits order ldc m n A -> upd1 v i r j A = Some (upd A (dense_at order ldc i j) (nthZ z A (dense_at order ldc i j) +! v *! bm r j *! alpha))).
    { intros v i r j A Hi Hr Hj FA. unfold upd1, add_cell. rewrite (addr_ok0 w order ldc m n C) by auto. destruct (baddr0_ok r j Hr Hj) as (p & -> & ->). pose proof (fits_range order ldc m n A i j FA Hi Hj). rewrite (rd_nthZ _ z) by lia. rewrite wr_upd by lia. reflexivity. }
    clearbody upd1.
    assert (UR : forall v i r A, 0 <= i < m -> 0 <= r < m -> window_fits order ldc m n A -> exists A', for_ 0 n (fun j C => upd1 v i r j C) A = Some A' /\ tadd O order ldc m n (fun i' j => if i' =? i then v *! bm r j *! alpha else z) A A').
    { intros v i r A Hi Hr FA. destruct (tadd_row O order ldc m n L (fun j => v *! bm r j *! alpha) (fun j C => upd1 v i r j C) i 0 n A FA Hi ltac:(lia) ltac:(lia)) as (A' & E & R).
      - intros. apply U1; auto.
      - exists A'. split; auto. revert R. apply tadd_ext. intros i' j Hi' Hj. replace ((0 <=? j) && (j <? n)) with true by lia. rewrite andb_true_r. reflexivity. }
    set (E := fun r k i j => let v := h1 (nthZ z val k) in let c := zn ind k - b in
      (if i =? r then h1 (nthZ z val k) *! (if inside fill r c || ((r =? c) && isnon) then bm c j else z) else z) +! h2 (nthZ z val k) *! (if inside fill r c && (c =? i) then bm r j else z)).
    match goal with |- context [for_ 0 m ?f C] => destruct (tadd_for O order ldc m n L 0 m (fun r i j => ((if isunit && (i =? r) then bm r j else z) +! sumz O (zn ptr r - b) (zn ptr (r + 1) - b) (fun k => E r k i j)) *! alpha) f C F ltac:(lia)) as (C' & EC & R) end.
    - intros r A Hr FA LA. pose proof (PR r ltac:(lia)). pose proof (PR (r + 1) ltac:(lia)). pose proof (ptr_mono _ _ _ _ (wf_ptr _ _ _ _ _ _ W) r (r + 1) ltac:(lia) ltac:(lia)) as PM. rewrite !(rd_nthZ _ 0) by lia.
      assert (UU : exists A1, (if match dg with dg_unit => true | _ => false end then for_ 0 n (fun j C => upd1 (o1 O) r r j C) A else Some A) = Some A1 /\ tadd O order ldc m n (fun i j => (if isunit && (i =? r) then bm r j else z) *! alpha) A A1).
      { unfold isunit. destruct dg; cbn [andb].
        - exists A. split; auto. apply (tadd_nil O order ldc m n L). intros; ring.
        - destruct (UR (o1 O) r r A Hr Hr FA) as (A1 & E1 & R1). exists A1. split; auto. revert R1. apply tadd_ext. intros i j _ _. destruct (i =? r); ring.
        - exists A. split; auto. apply (tadd_nil O order ldc m n L). intros; ring. }
      destruct UU as (A1 & -> & R1). assert (F1 : window_fits order ldc m n A1) by (apply (fits_len order ldc m n A); auto; exact (proj1 R1)).
      match goal with |- context [for_ ?lo ?hi ?f A1] => destruct (tadd_for O order ldc m n L lo hi (fun k i j => E r k i j *! alpha) f A1 F1 ltac:(lia)) as (A2 & E2 & R2) end.
      + intros k A2 Hk F2 L2. rewrite (rd_nthZ _ z val) by lia. rewrite (rd_nthZ _ 0 ind) by lia. pose proof (wf_ind _ _ _ _ _ _ W k ltac:(lia)) as Hc. set (c := zn ind k - b) in *. assert (Hc' : 0 <= c < m) by (unfold c; lia).
        change (if cj then ocj O (nthZ z val k) else nthZ z val k) with (h1 (nthZ z val k)). change (match dg with dg_non_unit => true | _ => false end) with isnon.
        change (match fill with fm_lower => c <? r | fm_upper => r <? c end) with (inside fill r c).
        destruct ((r =? c) && isnon) eqn:Ed.
        * destruct (UR (h1 (nthZ z val k)) r c A2 Hr Hc' F2) as (A3 & E3 & R3). exists A3. split; auto. revert R3. apply tadd_ext. intros i j _ _. unfold E. fold c. rewrite Ed, orb_true_r.
          replace (inside fill r c) with false by (unfold inside; destruct fill; lia). cbn [andb]. destruct (i =? r); ring.
        * destruct (inside fill r c) eqn:Ei.
          -- match goal with |- context [for_ 0 n ?f A2] => destruct (tadd_for O order ldc m n L 0 n (fun j0 i j => if j =? j0 then ((if i =? r then h1 (nthZ z val k) *! bm c j else z) +! (if i =? c then h2 (nthZ z val k) *! bm r j else z)) *! alpha else z) f A2 F2 ltac:(lia)) as (A3 & E3 & R3) end.
             ++ intros j A3 Hj F3 L3. rewrite U1 by auto. set (A4 := upd A3 _ _).
                pose proof (tile_cell O order ldc m n (fun x => x +! h1 (nthZ z val k) *! bm c j *! alpha) A3 r j F3 Hr Hj) as T3. fold A4 in T3. assert (F4 : window_fits order ldc m n A4) by (apply (fits_len order ldc m n A3); auto; exact (proj1 T3)).
                rewrite U1 by auto. eexists. split; [reflexivity|]. change (if herm then ocj O (h1 (nthZ z val k)) else h1 (nthZ z val k)) with (h2 (nthZ z val k)).
                pose proof (tile_cell O order ldc m n (fun x => x +! h2 (nthZ z val k) *! bm r j *! alpha) A4 c j F4 Hc' Hj) as T4. generalize (tile_comp O order ldc m n _ _ _ _ _ T3 T4). apply tile_ext. intros i j' x _ _. cbv beta.
                destruct (Z.eqb_spec j' j) as [-> |]; [|rewrite !andb_false_r; ring]. rewrite !andb_true_r. destruct (i =? r), (i =? c); ring.
             ++ exists A3. split; auto. revert R3. apply tadd_ext. intros i j _ Hj. rewrite (sumz_delta O L 0 n j); [|lia|intros j0 Hj0 Ne; replace (j =? j0) with false by lia; reflexivity]. rewrite Z.eqb_refl. unfold E. fold c. rewrite Ei. cbn [orb andb].
                replace (c =? i) with (i =? c) by lia. destruct (i =? r), (i =? c); ring.
          -- match goal with |- context [for_ 0 n ?f A2] => destruct (tadd_for O order ldc m n L 0 n (fun j0 i j => z) f A2 F2 ltac:(lia)) as (A3 & E3 & R3) end.
             ++ intros j A3 Hj F3 L3. eexists. split; [reflexivity|]. apply (tadd_nil O order ldc m n L). reflexivity.
             ++ exists A3. split; auto. revert R3. apply tadd_ext. intros i j _ _. rewrite (sumz_zero O L) by reflexivity. unfold E. fold c. rewrite Ei, Ed. cbn [orb andb]. destruct (i =? r); ring.
      + exists A2. split; auto. generalize (tadd_comp O order ldc m n L _ _ _ _ _ R1 R2). apply tadd_ext. intros i j _ _. rewrite (sumz_mul_r O L). ring.
    - exists C'. split; auto. revert R. apply tadd_ext. intros i j Hi Hj. rewrite (sumz_mul_r O L).
      assert (G : sumz O 0 m (fun r => (if isunit && (i =? r) then bm r j else z) +! sumz O (zn ptr r - b) (zn ptr (r + 1) - b) (fun k => E r k i j)) = sumz O 0 m (fun l => sym_elem i l *! bm l j)).
      { transitivity (sumz O 0 m (fun r => (if isunit && (i =? r) then bm r j else z) +! ((if i =? r then sumz O 0 m (fun c => h1 (M r c) *! (if inside fill r c || ((r =? c) && isnon) then bm c j else z)) else z) +! (if inside fill r i then h2 (M r i) *! bm r j else z)))).
        - apply (sumz_ext O). intros r Hr. f_equal. unfold E. cbv zeta. rewrite (sumz_add O L). pose proof (PR r ltac:(lia)). pose proof (PR (r + 1) ltac:(lia)). pose proof (ptr_mono _ _ _ _ (wf_ptr _ _ _ _ _ _ W) r (r + 1) ltac:(lia) ltac:(lia)) as PM. f_equal.
          + destruct (i =? r); [|apply (sumz_zero O L); reflexivity].
            etransitivity; [apply (row_sum_cols O L m m nnz b ptr ind val r (zn ptr r - b) (zn ptr (r + 1) - b) (fun _ => true) (cjh O cj) (fun c => if inside fill r c || ((r =? c) && isnon) then bm c j else z)); auto; try lia; [apply (additive_cjh O L)|intros k Hk; unfold in_row in Hk; split; auto]|reflexivity].
          + etransitivity; [apply (row_sum_cols O L m m nnz b ptr ind val r (zn ptr r - b) (zn ptr (r + 1) - b) (fun _ => true) h2 (fun c => if inside fill r c && (c =? i) then bm r j else z)); auto; try lia; [apply h2_add|intros k Hk; unfold in_row in Hk; split; auto]|].
            cbv beta iota. rewrite (sumz_delta O L 0 m i); [|lia|intros c Hc Ne; replace (c =? i) with false by lia; rewrite andb_false_r; ring]. rewrite Z.eqb_refl, andb_true_r. destruct (inside fill r i); ring.
        - rewrite (sumz_add O L), (sumz_add O L). rewrite (sumz_delta O L 0 m i (fun r => if i =? r then _ else z)); [|lia|intros r Hr Ne; replace (i =? r) with false by lia; reflexivity]. rewrite Z.eqb_refl.
          rewrite <- !(sumz_add O L). apply (sumz_ext O). intros l Hl. unfold sym_elem.
          destruct (i =? l), isunit, isnon, (inside fill i l), (inside fill l i); cbn [andb orb]; ring. }
      rewrite G. ring.
  Qed.
  End Sym.
End Y.
