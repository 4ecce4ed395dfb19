(** The kernels of the sparse-dense product. *)
From Coq Require Import ZArith List Bool Lia Permutation.
From Coq Require Import ZifyBool.
From Verif Require Import Base BaseFacts Algebra UtilModel UtilProof Csr CsrFacts DoidModel DoidSpec Vec MvModel MvFacts MvVecProof HandleModel
  DenseSpec DenseProof WinFacts RowProg Tiles Sp2mdModel Sp2mdSpec Sp2mdProof CsrmmModel.
Import ListNotations.
Open Scope Z_scope.

Lemma team_perm : forall m nt team, 0 <= m -> 0 < nt -> Permutation team (zrange 0 nt) ->
  Permutation (flat_map (fun t => zrange (blo m nt t) (blo m nt (t + 1))) team) (zrange 0 m).
Proof.
  intros m nt team Hm Hn HP. replace (zrange 0 m) with (zrange 0 (blo m nt nt)) by (rewrite (blo_nt m nt Hn); reflexivity). rewrite <- (blocks_all m nt nt Hm Hn ltac:(lia)). apply Permutation_flat_map. exact HP.
Qed.
Lemma team_foldM : forall S m nt team (body : Z -> S -> option S) s,
  foldM (fun t s => for_ (blo m nt t) (blo m nt (t + 1)) body s) team s = foldM body (flat_map (fun t => zrange (blo m nt t) (blo m nt (t + 1))) team) s.
Proof. intros. rewrite foldM_flat_map. reflexivity. Qed.
Lemma perm_nodup : forall l m, Permutation l (zrange 0 m) -> NoDup l.
Proof. intros l m H. apply (Permutation_NoDup (Permutation_sym H)). apply zrange_nodup. Qed.
Lemma perm_in : forall l m x, Permutation l (zrange 0 m) -> (In x l <-> 0 <= x < m).
Proof. intros l m x H. rewrite <- in_zrange. split; apply Permutation_in; auto. now apply Permutation_sym. Qed.

Lemma rup_bounds : forall n x, 0 <= x <= n -> x <= rup n x <= n /\ (rup n x mod 4 = 0 \/ rup n x = n).
Proof.
  intros n x H. unfold rup. rewrite Z.rem_mod_nonneg by lia. pose proof (Z.mod_pos_bound x 4 ltac:(lia)) as B. pose proof (Z.div_mod x 4 ltac:(lia)) as D.
  destruct (Z.eqb_spec (x mod 4) 0) as [E|E].
  - replace (Z.min x n) with x by lia. lia.
  - split; [lia|]. destruct (Z_le_gt_dec n (x + 4 - x mod 4)); [right; lia|left]. replace (Z.min (x + 4 - x mod 4) n) with ((x / 4 + 1) * 4) by lia. apply Z.mod_mul. lia.
Qed.
Lemma rup_mono : forall n x y, 0 <= x <= y -> y <= n -> rup n x <= rup n y.
Proof.
  intros n x y H H'. unfold rup. rewrite !Z.rem_mod_nonneg by lia.
  pose proof (Z.mod_pos_bound x 4 ltac:(lia)). pose proof (Z.div_mod x 4 ltac:(lia)). pose proof (Z.mod_pos_bound y 4 ltac:(lia)). pose proof (Z.div_mod y 4 ltac:(lia)).
  pose proof (Z.div_le_mono x y 4 ltac:(lia) ltac:(lia)). destruct (Z.eqb_spec (x mod 4) 0), (Z.eqb_spec (y mod 4) 0); lia.
Qed.

Lemma rd_skipn : forall A (d : A) k l i, 0 <= k -> 0 <= i -> nthZ d (skipn (Z.to_nat k) l) i = nthZ d l (k + i).
Proof.
  intros A d k l i Hk Hi. unfold nthZ. replace (Z.to_nat (k + i)) with (Z.to_nat k + Z.to_nat i)%nat by lia. generalize (Z.to_nat k) (Z.to_nat i). clear.
  intros a c. revert l. induction a as [|a IH]; intros l; cbn [skipn Nat.add]; auto. destruct l; [destruct c; reflexivity|]. cbn [nth]. apply IH.
Qed.
Lemma zlen_skipn : forall A k (l : list A), 0 <= k <= zlen l -> zlen (skipn (Z.to_nat k) l) = zlen l - k.
Proof. intros A k l H. unfold zlen in *. rewrite skipn_length. lia. Qed.

Section K.
  Context {T : Type} (O : ops T) (L : laws O).
  Local Notation z := (o0 O).
  Add Ring KR : (l_ring L).
  Local Notation "a +! b" := (oadd O a b) (at level 50, left associativity).
  Local Notation "a *! b" := (omul O a b) (at level 40, left associativity).

  Lemma cval_cjh : forall cj v, cval O cj v = cjh O cj v. Proof. reflexivity. Qed.
  Lemma cval_map : forall (cj : bool) (val : list T) k, 0 <= k < zlen val -> nthZ z (if cj then map (ocj O) val else val) k = cval O cj (nthZ z val k).
  Proof. intros cj val k H. destruct cj; [|reflexivity]. rewrite (nthZ_map _ _ (ocj O) z) by lia. reflexivity. Qed.

  Variables (w : Z) (team : list Z).
  Local Notation nt := (zlen team).
  Hypothesis HT : Permutation team (zrange 0 nt).
  Hypothesis HN : 0 < nt.
  Variables (order b m n kk nnz ldb ldc : Z) (ptr ind : list Z) (val B C : list T) (alpha beta : T) (cj : bool).
  Hypothesis W : csr_wf m kk nnz b ptr ind.
  Hypothesis Lv : zlen val = nnz.
  Hypothesis Hb : b = 0 \/ b = 1.
  Hypothesis DB : dense_ok w order ldb kk n B.
  Hypothesis OV : order = 1 \/ (b + kk - 1) * ldb + n - 1 <= int_max w.
  Hypothesis DC : dense_ok w order ldc m n C.

  Definition bm (l j : Z) : T := nthZ z B (dense_at order ldb l j).
  Local Notation M := (csr_mat O b ptr ind val).
  Definition prod (i j : Z) : T := sumz O 0 kk (fun l => cval O cj (M i l) *! bm l j).
  Definition goal (i j : Z) (x : T) : T := alpha *! prod i j +! beta *! x.
  Local Notation tile_ := (tile O order ldc m n).
  Local Notation tadd_ := (tadd O order ldc m n).
  Local Notation fits := (window_fits order ldc m n).

  Lemma baddr_ok : forall l j, 0 <= l < kk -> 0 <= j < n -> baddr w order ldb b (l + b) j = Some (dense_at order ldb l j) /\ 0 <= dense_at order ldb l j < zlen B.
  Proof.
    intros l j Hl Hj. destruct DB as [Hw Ho Hm' Hn' Hld F X]. pose proof (fits_range order ldb kk n B l j F Hl Hj) as R. split; auto.
    unfold baddr, dense_at, window_fits, chk, in_int, int_min, int_max in *. pose proof (pow_w w Hw) as Hp. set (P := 2 ^ w) in *. clearbody P. destruct (order =? 1) eqn:E.
    - replace ((- P <=? j * ldb) && (j * ldb <=? P - 1)) with true by nia. replace ((- P <=? l + b + j * ldb) && (l + b + j * ldb <=? P - 1)) with true by nia. f_equal. lia.
    - destruct OV as [V|V]; [lia|]. replace ((- P <=? (l + b) * ldb) && ((l + b) * ldb <=? P - 1)) with true by nia. replace ((- P <=? (l + b) * ldb + j) && ((l + b) * ldb + j <=? P - 1)) with true by nia. f_equal. lia.
  Qed.
  Lemma caddr_ok : forall i j, 0 <= i < m -> 0 <= j < n -> addr w order ldc i j 0 = Some (dense_at order ldc i j).
  Proof. intros i j Hi Hj. exact (addr_ok0 w order ldc m n C i j DC Hi Hj). Qed.
  Lemma rows_at : forall i, 0 <= i < m -> rd ptr i = Some (zn ptr i) /\ rd ptr (i + 1) = Some (zn ptr (i + 1)) /\ 0 <= zn ptr i - b <= zn ptr (i + 1) - b /\ zn ptr (i + 1) - b <= nnz.
  Proof.
    intros i Hi. destruct (wf_len _ _ _ _ _ _ W) as (Lp & Li). pose proof (ptr_range _ _ _ _ (wf_ptr _ _ _ _ _ _ W)) as PR.
    pose proof (ptr_mono _ _ _ _ (wf_ptr _ _ _ _ _ _ W) i (i + 1) ltac:(lia) ltac:(lia)) as PM. pose proof (PR i ltac:(lia)). pose proof (PR (i + 1) ltac:(lia)).
    rewrite !(rd_nthZ _ 0) by lia. ands; auto; lia.
  Qed.
  Lemma elem_at : forall k, 0 <= k < nnz -> rd ind k = Some (zn ind k) /\ rd val k = Some (nthZ z val k) /\ 0 <= zn ind k - b < kk.
  Proof.
    intros k Hk. destruct (wf_len _ _ _ _ _ _ W) as (Lp & Li). pose proof (wf_ind _ _ _ _ _ _ W k ltac:(lia)) as Hc.
    rewrite (rd_nthZ _ 0 ind), (rd_nthZ _ z val) by lia. ands; auto; lia.
  Qed.
  Lemma bread : forall k j, 0 <= k < nnz -> 0 <= j < n -> exists p, baddr w order ldb b (zn ind k) j = Some p /\ rd B p = Some (bm (zn ind k - b) j).
  Proof.
    intros k j Hk Hj. destruct (elem_at k Hk) as (_ & _ & Hc). destruct (baddr_ok (zn ind k - b) j Hc Hj) as (E & R). replace (zn ind k - b + b) with (zn ind k) in E by lia.
    eexists. split; [exact E|]. unfold bm. apply rd_nthZ. exact R.
  Qed.
  Lemma prod_row : forall i j, 0 <= i < m -> sumz O (zn ptr i - b) (zn ptr (i + 1) - b) (fun k => cval O cj (nthZ z val k) *! bm (zn ind k - b) j) = prod i j.
  Proof.
    intros i j Hi. destruct (rows_at i Hi) as (_ & _ & R & _).
    etransitivity; [apply (row_sum_cols O L m kk nnz b ptr ind val i (zn ptr i - b) (zn ptr (i + 1) - b) (fun _ => true) (cjh O cj) (fun l => bm l j)); auto; try lia|reflexivity].
    - apply (additive_cjh O L).
    - intros k Hk. unfold in_row in Hk. split; auto.
  Qed.
  Lemma fitsC : fits C. Proof. exact (do_fits _ _ _ _ _ _ DC). Qed.
  Lemma mnk : 0 <= m /\ 0 <= n /\ 0 <= kk. Proof. destruct DB, DC; lia. Qed.

  (** ** By columns *)
  Section Col.
    Hypothesis HO : order = 1.
    Lemma col_ref_ok : exists C', col_ref O w team cj alpha b m ptr ind val B n ldb beta ldc C = Some C' /\ tile_ goal C C'.
    Proof.
      unfold col_ref. rewrite team_foldM. pose proof mnk as (Hm & Hn & Hk). pose proof (team_perm n nt team Hn HN HT) as P. set (l := flat_map _ team) in *. clearbody l.
      match goal with |- context [foldM ?f l C] => destruct (tile_foldM O order ldc m n Z (fun j i j' x => if j' =? j then goal i j' x else x) f l C fitsC) as (C' & E & R) end.
      - intros j A Ij F LA. apply (perm_in _ _ _ P) in Ij.
        match goal with |- context [for_ 0 m ?f A] => destruct (tile_col O order ldc m n (fun i x => goal i j x) f j A F Ij) as (A' & E & R) end.
        + intros i A2 Hi F2 L2. destruct (rows_at i Hi) as (-> & -> & Hr & Hr2). pose proof (caddr_ok i j Hi Ij) as EA. rewrite HO in EA at 1. rewrite EA. clear EA.
          match goal with |- context [for_ ?lo ?hi ?f ?s] => destruct (for_inv _ (fun k sum => sum = sumz O lo k (fun k => cval O cj (nthZ z val k) *! bm (zn ind k - b) j)) lo hi f s) as (sum & E & R) end.
          * lia.
          * symmetry. apply (sumz_nil O). lia.
          * intros k sum Hk' Hs. destruct (elem_at k ltac:(lia)) as (-> & -> & _). destruct (bread k j ltac:(lia) Ij) as (p & Ep & Er). rewrite HO in Ep. rewrite Ep, Er. eexists. split; [reflexivity|].
            rewrite (sumz_last O L) by lia. rewrite Hs. ring.
          * rewrite E. pose proof (fits_range order ldc m n A2 i j F2 Hi Ij) as RA. rewrite (rd_nthZ _ z) by lia. rewrite wr_upd by lia. f_equal. f_equal. unfold goal. rewrite R, (prod_row i j Hi). ring.
        + exists A'. split; auto. revert R. apply tile_ext. intros i j' x _ _. destruct (Z.eqb_spec j' j) as [-> |]; reflexivity.
      - exists C'. split; auto. revert R. apply (tile_once O order ldc m n Z (fun j i j' => j' =? j) goal l).
        + exact (perm_nodup _ _ P).
        + intros i j Hi Hj. exists j. split; [apply (perm_in _ _ _ P); auto|]. split; [lia|]. intros; lia.
    Qed.

    (** *** Four columns at a time *)
    Lemma kt_dot_ok : forall psz i j, 0 < psz -> 0 <= i < m -> 0 <= j < n ->
      kt_dot O psz cj b (zn ptr i) (zn ptr (i + 1)) val ind (skipn (Z.to_nat (j * ldb)) B) = Some (prod i j).
    Proof.
      intros psz i j Hp Hi Hj. unfold kt_dot. destruct (rows_at i Hi) as (_ & _ & Hr & Hr2). set (s := zn ptr i) in *. set (e := zn ptr (i + 1)) in *.
      pose proof (Z.quot_rem (e - s) psz ltac:(lia)) as QR. rewrite Z.quot_div_nonneg in * by lia. rewrite Z.rem_mod_nonneg in QR by lia.
      pose proof (Z.mod_pos_bound (e - s) psz Hp) as MB. set (q := (e - s) / psz) in *. set (r := (e - s) mod psz) in *. assert (q0 : 0 <= q) by (apply Z.div_pos; lia).
      replace (e - s - psz * q) with r by lia.
      destruct DB as [Hw Ho Hm' Hn' Hld F X]. unfold window_fits in F. replace (order =? 1) with true in F, X by lia.
      assert (LX : zlen (skipn (Z.to_nat (j * ldb)) B) = zlen B - j * ldb) by (apply zlen_skipn; nia).
      assert (XV : forall k, 0 <= k < nnz -> 0 <= zn ind k - b < zlen (skipn (Z.to_nat (j * ldb)) B) /\ nthZ z (skipn (Z.to_nat (j * ldb)) B) (zn ind k - b) = bm (zn ind k - b) j).
      { intros k Hk. destruct (elem_at k Hk) as (_ & _ & Hc). split; [rewrite LX; nia|]. rewrite rd_skipn by nia. unfold bm, dense_at. replace (order =? 1) with true by lia. f_equal. lia. }
      set (x := skipn (Z.to_nat (j * ldb)) B) in *. clearbody x. clear LX.
      set (vals := if cj then map (ocj O) val else val). assert (LV : zlen vals = nnz) by (unfold vals; destruct cj; rewrite ?zlen_map; auto).
      destruct (wf_len _ _ _ _ _ _ W) as (Lp & Li).
      assert (SUM : forall lo hi, 0 <= lo -> hi <= nnz -> sumz O lo hi (fun q => nthZ z vals q *! nthZ z x (zn ind q - b)) = sumz O lo hi (fun k => cval O cj (nthZ z val k) *! bm (zn ind k - b) j)).
      { intros lo hi H1 H2. apply (sumz_ext O). intros k Hk. unfold vals. rewrite cval_map by lia. destruct (XV k ltac:(lia)) as (_ & ->). reflexivity. }
      assert (V : exists v, (if negb (q =? 0) then match vec_loop O psz b s (e - r) vals ind x (zrep psz z) with Some v => Some (z +! hsum_kt O v) | None => None end else Some z) = Some v /\
        v = sumz O (s - b) (e - r - b) (fun k => cval O cj (nthZ z val k) *! bm (zn ind k - b) j)).
      { destruct (Z.eqb_spec q 0) as [E|E]; cbn [negb].
        - eexists. split; [reflexivity|]. rewrite (sumz_nil O); auto. nia.
        - destruct (vec_loop_ok O L psz b s (e - r) vals ind x (zrep psz z)) as (v & Ev & Lvv & R); [lia|lia| |lia|lia|lia| | |].
          + replace (e - r - s) with (q * psz) by lia. apply Z.mod_mul. lia.
          + intros k Hk. apply XV. lia.
          + pose proof (zlen_zrep _ psz z ltac:(lia)). unfold zlen in *. lia.
          + rewrite Ev. eexists. split; [reflexivity|]. unfold hsum_kt. rewrite R, (total_zrep O L psz), SUM by lia. ring. }
      destruct V as (v & -> & ->).
      assert (FIN : sumz O (s - b) (e - b) (fun k => cval O cj (nthZ z val k) *! bm (zn ind k - b) j) = prod i j) by (apply prod_row; auto).
      destruct (Z.eqb_spec r 0) as [E|E]; cbn [negb].
      - f_equal. rewrite <- FIN. f_equal. lia.
      - rewrite (dot_row_ok O L) by (try lia; intros; apply XV; lia). f_equal. rewrite SUM by lia. rewrite <- FIN. symmetry. apply (sumz_split O L). lia.
    Qed.

    Lemma col_block_ok : forall j, 0 <= j < n -> exists blkr cols, col_block n j 4 = (blkr, cols) /\ blkr = Z.min 4 (n - j) /\ 1 <= blkr <= 4 /\ zlen cols = 4 /\
      (forall c, In c cols -> 0 <= c < n) /\ forall q, 0 <= q < blkr -> nthZ 0 cols q = j + q.
    Proof.
      intros j Hj. unfold col_block.
      assert (Q : forall q, 0 <= q < 4 -> q = 0 \/ q = 1 \/ q = 2 \/ q = 3) by (intros; lia).
      destruct (Z.eqb_spec j (n - 1)); [|destruct (Z.eqb_spec j (n - 2)); [|destruct (Z.eqb_spec j (n - 3))]]; eexists; eexists; (split; [reflexivity|]); (split; [lia|]); (split; [lia|]); (split; [reflexivity|]);
        (split; [intros c [<- | [<- | [<- | [<- | []]]]]; lia|]); intros q Hq; destruct (Q q ltac:(lia)) as [-> | [-> | [-> | ->]]]; try lia; cbv [nthZ Z.to_nat Pos.to_nat Pos.iter_op nth Nat.add]; lia.
    Qed.

    Lemma col_kt_ok : forall psz, 0 < psz -> exists C', col_kt O w team psz cj alpha b m ptr ind val B n ldb beta ldc C = Some C' /\ tile_ goal C C'.
    Proof.
      intros psz Hp. unfold col_kt. pose proof mnk as (Hm & Hn & Hk). set (bd := fun t => rup n (blo n nt t)).
      assert (BD : forall t, 0 <= t < nt -> 0 <= bd t <= bd (t + 1) /\ bd (t + 1) <= n /\ (bd t mod 4 = 0 \/ bd t = n) /\ (bd (t + 1) mod 4 = 0 \/ bd (t + 1) = n)).
      { intros t Ht. unfold bd. pose proof (blo_mono n nt 0 t Hn HN ltac:(lia)). pose proof (blo_mono n nt t (t + 1) Hn HN ltac:(lia)). pose proof (blo_mono n nt (t + 1) nt Hn HN ltac:(lia)). rewrite (blo_nt n nt HN) in *.
        pose proof (rup_bounds n (blo n nt t) ltac:(lia)). pose proof (rup_bounds n (blo n nt (t + 1)) ltac:(lia)). pose proof (rup_mono n (blo n nt t) (blo n nt (t + 1)) ltac:(lia) ltac:(lia)). lia. }
      match goal with |- context [foldM ?f team C] => destruct (tile_foldM O order ldc m n Z (fun t i j x => if (bd t <=? j) && (j <? bd (t + 1)) then goal i j x else x) f team C fitsC) as (C' & E & R) end.
      - intros t A It F LA. apply (perm_in _ _ _ HT) in It. fold (bd t) (bd (t + 1)). destruct (BD t It) as (B1 & B2 & B3 & B4).
        match goal with |- context [for_step ?lo ?hi 4 ?f ?s] => destruct (for_step_min _ (fun j (st : Z * list T) => ((fst st = 4 /\ j mod 4 = 0) \/ j = hi) /\ tile_ (fun i j' x => if (lo <=? j') && (j' <? j) then goal i j' x else x) A (snd st)) lo hi 4 f s) as ((bl & A') & E & R1 & R2) end.
        + lia. + lia.
        + cbn [fst snd]. split; [destruct B3; [left; split; [reflexivity|assumption]|right; lia]|]. apply (tile_ext O order ldc m n (fun _ _ x => x)); [|apply tile_id]. intros i j x _ _. replace ((bd t <=? j) && (j <? bd t)) with false by lia. reflexivity.
        + intros j (bl & A1) Hj (H1 & H2). cbn [fst snd] in *. destruct H1 as [(-> & J4) |H1]; [|lia].
          destruct (col_block_ok j ltac:(lia)) as (blkr & cols & -> & Hbl & Hbl2 & Lc & Hc & Hq).
          assert (CH : exists v, chk w (j * ldb) = Some v).
          { destruct DB as [Hw Ho Hm' Hn' Hld FB X]. rewrite HO in X. change (1 =? 1) with true in X. cbv iota in X. unfold chk, in_int, int_min, int_max in *. pose proof (pow_w w Hw). set (PP := 2 ^ w) in *. clearbody PP. replace ((- PP <=? j * ldb) && (j * ldb <=? PP - 1)) with true by nia. eauto. }
          assert (NX : Z.min (j + 4) (bd (t + 1)) = j + blkr).
          { pose proof (Z.div_mod j 4 ltac:(lia)) as D1. pose proof (Z.div_mod (bd (t + 1)) 4 ltac:(lia)) as D2. destruct B4 as [B4|B4]; lia. }
          assert (NM : (j + blkr) mod 4 = 0 \/ j + blkr = bd (t + 1)).
          { pose proof (Z.div_mod j 4 ltac:(lia)) as D1. destruct (Z.eq_dec blkr 4) as [-> |]; [left|right; lia]. replace (j + 4) with ((j / 4 + 1) * 4) by lia. apply Z.mod_mul. lia. }
          destruct CH as (v & ->).
          assert (F1 : fits A1) by (apply (fits_len order ldc m n A); auto; exact (proj1 H2)).
          match goal with |- context [for_ 0 m ?f A1] => destruct (tile_for O order ldc m n 0 m (fun i0 i j' x => if (i =? i0) && ((j <=? j') && (j' <? j + blkr)) then goal i j' x else x) f A1 F1) as (A2 & E & R) end.
          * intros i A3 Hi F3 L3. destruct (rows_at i Hi) as (-> & -> & _).
            assert (DD : mapM (fun q => kt_dot O psz cj b (zn ptr i) (zn ptr (i + 1)) val ind (skipn (Z.to_nat (q * ldb)) B)) cols = Some (map (prod i) cols)).
            { apply mapM_map. intros c Ic. apply kt_dot_ok; auto. }
            rewrite DD. assert (LD : zlen (map (prod i) cols) = 4) by (rewrite zlen_map; exact Lc).
            match goal with |- context [for_down 0 blkr ?f A3] => destruct (for_down_inv _ (fun q A4 => tile_ (fun i' j' x => if (i' =? i) && ((j + q <=? j') && (j' <? j + blkr)) then goal i' j' x else x) A3 A4) 0 blkr f A3) as (A4 & E4 & R4) end.
            -- lia.
            -- apply (tile_ext O order ldc m n (fun _ _ x => x)); [|apply tile_id]. intros i' j' x _ _. replace ((j + blkr <=? j') && (j' <? j + blkr)) with false by lia. rewrite andb_false_r. reflexivity.
            -- intros q A4 Hq4 T4. assert (Hjq : 0 <= j + q < n) by lia. pose proof (caddr_ok i (j + q) Hi Hjq) as EA. rewrite HO in EA at 1. rewrite EA. clear EA.
               rewrite (rd_nthZ _ z (map _ _)) by lia. assert (F4 : fits A4) by (apply (fits_len order ldc m n A3); auto; exact (proj1 T4)).
               pose proof (fits_range order ldc m n A4 i (j + q) F4 Hi Hjq) as RA. rewrite (rd_nthZ _ z A4) by lia. rewrite wr_upd by lia. eexists. split; [reflexivity|].
               rewrite (nthZ_map _ _ (prod i) 0) by lia. rewrite Hq by lia.
               pose proof (tile_cell O order ldc m n (fun x => beta *! x +! prod i (j + q) *! alpha) A4 i (j + q) F4 Hi Hjq) as TC.
               generalize (tile_comp O order ldc m n _ _ _ _ _ T4 TC). apply tile_ext. intros i' j' x Hi' Hj'. cbv beta.
               destruct (Z.eqb_spec i' i) as [-> |]; cbn [andb]; auto. destruct (Z.eqb_spec j' (j + q)) as [-> |Ne].
               ++ replace (j + (q + 1) <=? j + q) with false by lia. replace ((j + q <=? j + q) && (j + q <? j + blkr)) with true by lia. cbn [andb]. unfold goal. ring.
               ++ replace (j + (q + 1) <=? j') with (j + q <=? j') by lia. reflexivity.
            -- exists A4. split; auto. revert R4. apply tile_ext. intros i' j' x _ _. rewrite Z.add_0_r. reflexivity.
          * rewrite E. eexists. split; [reflexivity|]. cbn [fst snd]. split; [rewrite NX; destruct NM; [left; split; [lia|assumption]|right; assumption]|].
            generalize (tile_comp O order ldc m n _ _ _ _ _ H2 R). apply tile_ext. intros i j' x Hi Hj'. cbv beta.
            rewrite NX. destruct ((j <=? j') && (j' <? j + blkr)) eqn:E'.
            -- replace ((bd t <=? j') && (j' <? j)) with false by lia. replace ((bd t <=? j') && (j' <? j + blkr)) with true by lia.
               apply (fold_once _ _ (fun i0 => (i =? i0) && true) (fun _ => goal i j') (zrange 0 m) x i); [apply zrange_nodup|apply in_zrange; lia|lia|intros; lia].
            -- replace ((bd t <=? j') && (j' <? j + blkr)) with ((bd t <=? j') && (j' <? j)) by lia.
               apply (fold_none _ _ (fun i0 => (i =? i0) && false) (fun _ => goal i j')). intros; lia.
        + rewrite E. eexists. split; [reflexivity|]. exact R2.
      - exists C'. split; auto. revert R. apply (tile_once O order ldc m n Z (fun t i j => (bd t <=? j) && (j <? bd (t + 1))) goal team).
        + exact (perm_nodup _ _ HT).
        + intros i j Hi Hj. assert (B0 : bd 0 = 0) by (unfold bd; rewrite blo_0 by lia; unfold rup; cbn; lia).
          assert (BN : bd nt = n) by (unfold bd; rewrite blo_nt by lia; pose proof (rup_bounds n n ltac:(lia)); lia).
          destruct (blocks_owner bd nt j ltac:(lia) B0) as (t & Ht & Hf & U). { intros t Ht. apply (BD t Ht). } { rewrite BN. auto. }
          exists t. split; [apply (perm_in _ _ _ HT); auto|]. split; [lia|]. intros t' It' Ho. apply (perm_in _ _ _ HT) in It'. apply U; auto. lia.
    Qed.
  End Col.

  (** ** By rows *)
  Section Row.
    Hypothesis HO : order = 0.
    Lemma scale_row_ok : forall i (A : list T), 0 <= i < m -> fits A ->
      exists A', for_ 0 n (fun k C => let* p := addr w 0 ldc i k 0 in let* c := rd C p in wr C p (c *! beta)) A = Some A' /\ tile_ (fun i' j x => if i' =? i then x *! beta else x) A A'.
    Proof.
      intros i A Hi F. match goal with |- context [for_ 0 n ?f A] => destruct (tile_row O order ldc m n (fun _ x => x *! beta) f i 0 n A F Hi ltac:(lia) ltac:(lia)) as (A' & E & R) end.
      - intros j A2 Hj F2 L2. pose proof (caddr_ok i j Hi Hj) as EA. rewrite HO in EA at 1. rewrite EA. pose proof (fits_range order ldc m n A2 i j F2 Hi Hj) as RA. rewrite (rd_nthZ _ z) by lia. rewrite wr_upd by lia. reflexivity.
      - exists A'. split; auto. revert R. apply tile_ext. intros i' j x Hi' Hj. replace ((0 <=? j) && (j <? n)) with true by lia. rewrite andb_true_r. reflexivity.
    Qed.
    (** A row program that scales row [i] and then adds the products of its elements. *)
    Lemma row_done : forall i (A A1 A2 : list T), 0 <= i < m -> tile_ (fun i' j x => if i' =? i then x *! beta else x) A A1 ->
      tadd_ (fun i' j => if i' =? i then sumz O (zn ptr i - b) (zn ptr (i + 1) - b) (fun k => cval O cj (nthZ z val k) *! bm (zn ind k - b) j *! alpha) else z) A1 A2 ->
      tile_ (fun i' j x => if i' =? i then goal i' j x else x) A A2.
    Proof.
      intros i A A1 A2 Hi H1 H2. generalize (tile_comp O order ldc m n _ (fun i' j x => x +! (if i' =? i then sumz O (zn ptr i - b) (zn ptr (i + 1) - b) (fun k => cval O cj (nthZ z val k) *! bm (zn ind k - b) j *! alpha) else z)) _ _ _ H1 H2).
      apply tile_ext. intros i' j x Hi' Hj. cbv beta. destruct (Z.eqb_spec i' i) as [-> |]; [|ring]. unfold goal. rewrite <- (prod_row i j Hi). rewrite (sumz_mul_r O L). ring.
    Qed.
    Lemma rows_team : forall body, (forall i A, 0 <= i < m -> fits A -> zlen A = zlen C -> exists A', body i A = Some A' /\ tile_ (fun i' j x => if i' =? i then goal i' j x else x) A A') ->
      exists C', foldM (fun t C => for_ (blo m nt t) (blo m nt (t + 1)) body C) team C = Some C' /\ tile_ goal C C'.
    Proof.
      intros body Hbody. rewrite team_foldM. pose proof mnk as (Hm & Hn & Hk). pose proof (team_perm m nt team Hm HN HT) as P. set (l := flat_map _ team) in *. clearbody l.
      destruct (tile_foldM O order ldc m n Z (fun i i' j x => if i' =? i then goal i' j x else x) body l C fitsC) as (C' & E & R).
      - intros i A Ii F LA. apply (perm_in _ _ _ P) in Ii. apply Hbody; auto.
      - exists C'. split; auto. revert R. apply (tile_once O order ldc m n Z (fun i i' j => i' =? i) goal l).
        + exact (perm_nodup _ _ P).
        + intros i j Hi Hj. exists i. split; [apply (perm_in _ _ _ P); auto|]. split; [lia|]. intros; lia.
    Qed.

    Lemma row_ref_ok : exists C', row_ref O w team cj alpha b m ptr ind val B n ldb beta ldc C = Some C' /\ tile_ goal C C'.
    Proof.
      apply rows_team. intros i A Hi F LA. destruct (rows_at i Hi) as (-> & -> & Hr & Hr2). destruct (scale_row_ok i A Hi F) as (A1 & E1 & R1). rewrite E1.
      assert (F1 : fits A1) by (apply (fits_len order ldc m n A); auto; exact (proj1 R1)).
      match goal with |- context [for_ ?lo ?hi ?f A1] => destruct (tadd_for O order ldc m n L lo hi (fun q i' j => if i' =? i then cval O cj (nthZ z val q) *! bm (zn ind q - b) j *! alpha else z) f A1 F1) as (A2 & E2 & R2) end.
      - lia.
      - intros q A2 Hq F2 L2. destruct (elem_at q ltac:(lia)) as (-> & -> & Hc).
        match goal with |- context [for_ 0 n ?f A2] => destruct (tadd_row O order ldc m n L (fun j => cval O cj (nthZ z val q) *! bm (zn ind q - b) j *! alpha) f i 0 n A2 F2 Hi ltac:(lia) ltac:(lia)) as (A3 & E3 & R3) end.
        + intros j A3 Hj F3 L3. pose proof (caddr_ok i j Hi Hj) as EA. rewrite HO in EA at 1. rewrite EA. destruct (bread q j ltac:(lia) Hj) as (p & Ep & Er). rewrite HO in Ep. rewrite Ep, Er.
          pose proof (fits_range order ldc m n A3 i j F3 Hi Hj) as RA. rewrite (rd_nthZ _ z A3) by lia. rewrite wr_upd by lia. reflexivity.
        + exists A3. split; auto. revert R3. apply tadd_ext. intros i' j Hi' Hj. replace ((0 <=? j) && (j <? n)) with true by lia. rewrite andb_true_r. reflexivity.
      - exists A2. split; auto. apply (row_done i A A1 A2 Hi R1). revert R2. apply tadd_ext. intros i' j Hi' Hj. destruct (i' =? i); [reflexivity|]. apply (sumz_zero O L). reflexivity.
    Qed.

    (** *** Four elements of the row at a time *)
    Lemma row_block_len_ok : forall e idx, idx < e -> row_block_len e idx = Z.min 4 (e - idx).
    Proof. intros e idx H. unfold row_block_len. destruct (Z.eqb_spec idx (e - 1)), (Z.eqb_spec idx (e - 2)), (Z.eqb_spec idx (e - 3)); lia. Qed.

    Lemma row_kt_ok : forall psz, 0 < psz -> exists C', row_kt O w team psz cj alpha b m ptr ind val B n ldb beta ldc C = Some C' /\ tile_ goal C C'.
    Proof.
      intros psz Hp. apply rows_team. intros i A Hi F LA. destruct (scale_row_ok i A Hi F) as (A1 & E1 & R1). rewrite E1. destruct (rows_at i Hi) as (-> & -> & Hr & Hr2).
      assert (F1 : fits A1) by (apply (fits_len order ldc m n A); auto; exact (proj1 R1)). pose proof mnk as (Hm & Hn & Hk).
      set (tm := fun k j => cval O cj (nthZ z val k) *! bm (zn ind k - b) j *! alpha). set (s := zn ptr i) in *. set (e := zn ptr (i + 1)) in *.
      match goal with |- context [for_step s e 4 ?f A1] => destruct (for_step_min _ (fun idx A2 => tadd_ (fun i' j => if i' =? i then sumz O (s - b) (idx - b) (fun k => tm k j) else z) A1 A2) s e 4 f A1) as (A2 & E2 & R2) end.
      - lia. - lia.
      - apply (tadd_nil O order ldc m n L). intros i' j _ _. destruct (i' =? i); auto. apply (sumz_nil O). lia.
      - intros idx A2 Hidx H2. rewrite row_block_len_ok by lia. set (nb := Z.min 4 (e - idx)). replace (Z.min (idx + 4) e) with (idx + nb) by lia. assert (Hnb : 0 < nb /\ idx + nb <= e) by lia.
        assert (F2 : fits A2) by (apply (fits_len order ldc m n A1); auto; exact (proj1 H2)). clearbody nb.
        rewrite (mapM_map _ _ _ (fun q => (zn ind (q - b), cval O cj (nthZ z val (q - b))))).
        2: { intros q Iq. apply in_zrange in Iq. destruct (elem_at (q - b) ltac:(lia)) as (-> & -> & _). reflexivity. }
        cbv beta iota zeta. pose proof (Z.quot_rem n psz ltac:(lia)) as QR. rewrite Z.quot_div_nonneg in * by lia. rewrite Z.rem_mod_nonneg in QR by lia. pose proof (Z.mod_pos_bound n psz Hp) as MB.
        set (qq := n / psz) in *. set (r := n mod psz) in *. replace (n - psz * qq) with r by lia. assert (q0 : 0 <= qq) by (apply Z.div_pos; lia).
        set (bs := fun j => sumz O (idx - b) (idx + nb - b) (fun k => tm k j)).
        (* vector part *)
        match goal with |- context [for_step 0 (n - r) psz ?f A2] => destruct (for_step_inv _ (fun j A3 => tadd_ (fun i' j' => if (i' =? i) && (j' <? j) then bs j' else z) A2 A3) 0 (n - r) psz f A2) as (A3 & E3 & R3) end.
        + lia. + nia. + replace (n - r - 0) with (qq * psz) by lia. apply Z.mod_mul. lia.
        + apply (tadd_nil O order ldc m n L). intros i' j' _ Hj'. replace (j' <? 0) with false by lia. rewrite andb_false_r. reflexivity.
        + intros j A3 Hj0 Hj1 H3. assert (F3 : fits A3) by (apply (fits_len order ldc m n A2); auto; exact (proj1 H3)).
          match goal with |- context [for_ 0 psz ?f A3] => destruct (for_inv _ (fun l A4 => tadd_ (fun i' j' => if (i' =? i) && ((j <=? j') && (j' <? j + l)) then bs j' else z) A3 A4) 0 psz f A3) as (A4 & E4 & R4) end.
          * lia.
          * apply (tadd_nil O order ldc m n L). intros i' j' _ _. replace ((j <=? j') && (j' <? j + 0)) with false by lia. rewrite andb_false_r. reflexivity.
          * intros l A4 Hl H4. assert (Hjl : 0 <= j + l < n) by lia. pose proof (caddr_ok i (j + l) Hi Hjl) as EA. rewrite HO in EA at 1. rewrite EA.
            assert (F4 : fits A4) by (apply (fits_len order ldc m n A3); auto; exact (proj1 H4)). pose proof (fits_range order ldc m n A4 i (j + l) F4 Hi Hjl) as RA. rewrite (rd_nthZ _ z A4) by lia.
            rewrite foldM_map. match goal with |- context [foldM ?f (zrange idx (idx + nb)) ?x0] => destruct (for_inv _ (fun k x => x = x0 +! sumz O (idx - b) (k - b) (fun k => tm k (j + l))) idx (idx + nb) f x0) as (x & Ex & Rx) end.
            -- lia.
            -- rewrite (sumz_nil O) by lia. ring.
            -- intros k x Hk' Hx. destruct (bread (k - b) (j + l) ltac:(lia) Hjl) as (p & Ep & Er). rewrite HO in Ep. rewrite Ep, Er. eexists. split; [reflexivity|]. rewrite Hx.
               replace (k + 1 - b) with (k - b + 1) by lia. rewrite (sumz_last O L) by lia. unfold tm. ring.
            -- unfold for_ in Ex. rewrite Ex. rewrite wr_upd by lia. eexists. split; [reflexivity|]. rewrite Rx. fold (bs (j + l)).
               pose proof (tile_cell O order ldc m n (fun x => x +! bs (j + l)) A4 i (j + l) F4 Hi Hjl) as TC.
               generalize (tile_comp O order ldc m n (fun i' j' x => x +! (if (i' =? i) && ((j <=? j') && (j' <? j + l)) then bs j' else z)) _ _ _ _ H4 TC). apply tile_ext. intros i' j' x0 Hi' Hj'. cbv beta.
               destruct (Z.eqb_spec i' i) as [-> |]; cbn [andb]; [|ring]. destruct (Z.eqb_spec j' (j + l)) as [-> |Ne].
               ++ replace ((j <=? j + l) && (j + l <? j + l)) with false by lia. replace ((j <=? j + l) && (j + l <? j + (l + 1))) with true by lia. ring.
               ++ replace (j' <? j + (l + 1)) with (j' <? j + l) by lia. ring.
          * exists A4. split; auto. generalize (tadd_comp O order ldc m n L _ _ _ _ _ H3 R4). apply tadd_ext. intros i' j' Hi' Hj'. destruct (i' =? i); cbn [andb]; [|ring].
            destruct (Z_lt_dec j' j). { replace (j' <? j) with true by lia. replace (j <=? j') with false by lia. replace (j' <? j + psz) with true by lia. cbn [andb]. ring. }
            replace (j' <? j) with false by lia. replace (j <=? j') with true by lia. cbn [andb]. destruct (j' <? j + psz); ring.
        + rewrite E3. assert (F3 : fits A3) by (apply (fits_len order ldc m n A2); auto; exact (proj1 R3)).
          assert (FIN : exists A4, (if negb (r =? 0) then for_ (n - r) n (fun j C0 => foldM (fun '(cb, sv) C1 => let* p := addr w 0 ldc i j 0 in let* x := baddr w 0 ldb b cb j in let* bv := rd B x in let* c := rd C1 p in wr C1 p (c +! sv *! bv *! alpha))
              (map (fun q => (zn ind (q - b), cval O cj (nthZ z val (q - b)))) (zrange idx (idx + nb))) C0) A3 else Some A3) = Some A4 /\ tadd_ (fun i' j' => if (i' =? i) && (n - r <=? j') then bs j' else z) A3 A4).
          { destruct (Z.eqb_spec r 0) as [E|E]; cbn [negb].
            - exists A3. split; auto. apply (tadd_nil O order ldc m n L). intros i' j' _ Hj'. replace (n - r <=? j') with false by lia. rewrite andb_false_r. reflexivity.
            - match goal with |- context [for_ (n - r) n ?f A3] => destruct (tadd_for O order ldc m n L (n - r) n (fun j i' j' => if (i' =? i) && (j' =? j) then bs j else z) f A3 F3) as (A4 & E4 & R4) end.
              + lia.
              + intros j A4 Hj F4 L4. assert (Hj' : 0 <= j < n) by lia. rewrite foldM_map.
                match goal with |- context [foldM ?f (zrange idx (idx + nb)) A4] => destruct (for_inv _ (fun k A5 => tadd_ (fun i' j' => if (i' =? i) && (j' =? j) then sumz O (idx - b) (k - b) (fun k => tm k j) else z) A4 A5) idx (idx + nb) f A4) as (A5 & E5 & R5) end.
                * lia.
                * apply (tadd_nil O order ldc m n L). intros i' j' _ _. rewrite (sumz_nil O) by lia. destruct (_ && _); reflexivity.
                * intros k A5 Hk' H5. pose proof (caddr_ok i j Hi Hj') as EA. rewrite HO in EA at 1. rewrite EA. destruct (bread (k - b) j ltac:(lia) Hj') as (p & Ep & Er). rewrite HO in Ep. rewrite Ep, Er.
                  assert (F5 : fits A5) by (apply (fits_len order ldc m n A4); auto; exact (proj1 H5)). pose proof (fits_range order ldc m n A5 i j F5 Hi Hj') as RA. rewrite (rd_nthZ _ z A5) by lia. rewrite wr_upd by lia. eexists. split; [reflexivity|].
                  pose proof (tile_cell O order ldc m n (fun x => x +! tm (k - b) j) A5 i j F5 Hi Hj') as TC.
                  generalize (tile_comp O order ldc m n (fun i' j' x => x +! (if (i' =? i) && (j' =? j) then sumz O (idx - b) (k - b) (fun k => tm k j) else z)) _ _ _ _ H5 TC). apply tile_ext. intros i' j' x0 Hi' Hj2. cbv beta.
                  replace (k + 1 - b) with (k - b + 1) by lia. rewrite (sumz_last O L) by lia. destruct (_ && _); ring.
                * exists A5. split; auto.
              + exists A4. split; auto. revert R4. apply tadd_ext. intros i' j' Hi' Hj'. destruct (i' =? i); cbn [andb]; [|apply (sumz_zero O L); reflexivity].
                destruct (n - r <=? j') eqn:E'.
                * rewrite (sumz_delta O L (n - r) n j'); [rewrite Z.eqb_refl; reflexivity|lia|]. intros j Hj Ne. destruct (Z.eqb_spec j' j); [lia|reflexivity].
                * apply (sumz_zero O L). intros j Hj. destruct (Z.eqb_spec j' j); [lia|reflexivity]. }
          destruct FIN as (A4 & E4 & R4). exists A4. split; [exact E4|].
          generalize (tadd_comp O order ldc m n L _ _ _ _ _ (tadd_comp O order ldc m n L _ _ _ _ _ H2 R3) R4). apply tadd_ext. intros i' j' Hi' Hj'. cbv beta.
          destruct (i' =? i); cbn [andb]; [|ring]. rewrite (sumz_split O L (s - b) (idx - b) (idx + nb - b)) by lia. fold (bs j').
          destruct (Z_lt_dec j' (n - r)). { replace (j' <? n - r) with true by lia. replace (n - r <=? j') with false by lia. ring. }
          replace (j' <? n - r) with false by lia. replace (n - r <=? j') with true by lia. ring.
      - exists A2. split; auto. apply (row_done i A A1 A2 Hi R1). exact R2.
    Qed.
  End Row.

  Lemma run_kernel_ok : forall kr, match kr with mk_ref => True | mk_kt psz => 0 < psz end ->
    exists C', run_kernel O w team kr order cj alpha b m ptr ind val B n ldb beta ldc C = Some C' /\ tile_ goal C C'.
  Proof.
    intros kr Hk. pose proof (do_layout _ _ _ _ _ _ DC) as Ho. unfold run_kernel. destruct Ho as [Ho | Ho]; destruct kr as [|psz].
    - replace (order =? 1) with false by lia. now apply row_ref_ok.
    - replace (order =? 1) with false by lia. now apply row_kt_ok.
    - replace (order =? 1) with true by lia. now apply col_ref_ok.
    - replace (order =? 1) with true by lia. now apply col_kt_ok.
  Qed.
End K.
