(** The triangular-solve kernels return a solution. *)
From Coq Require Import ZArith List Bool Lia ZifyBool Ring.
From Verif Require Import Base BaseFacts Algebra Vec UtilModel UtilProof DoidModel DoidSpec Csr CsrFacts CheckSpec
  MvModel MvSpec MvFacts MvProof CsrmvModel HandleModel HandleSpec TrsvModel TrsvSpec.
Import ListNotations.
Open Scope Z_scope.

Lemma stride_inj : forall inc i j, 0 < inc -> i * inc = j * inc -> i = j.
Proof. intros inc i j H E. apply Z.mul_reg_r in E; lia. Qed.
Lemma stride_rng : forall m inc n i, 0 < inc -> (m - 1) * inc < n -> 0 <= i < m -> 0 <= i * inc < n.
Proof. intros. nia. Qed.

Section P.
  Context {T : Type} (O : ops T) (L : laws O).
  Local Notation zero := (o0 O).
  Local Notation tn := (nthZ (o0 O)).
  Local Infix "+!" := (oadd O) (at level 50, left associativity).
  Local Infix "-!" := (osub O) (at level 50, left associativity).
  Local Infix "*!" := (omul O) (at level 40, left associativity).
  Let rth := l_ring L.
  Add Ring Tring_trsv : rth.

  Section Arr.
    Variables (m b : Z) (a : list T) (icol : list Z) (cj : bool) (incx : Z).
    Hypothesis Hinc : 0 < incx.
    Local Notation fv q := (cjh O cj (tn a q)).
    Local Notation col q := (zn icol q - b).

    Definition rng (lo hi : Z) : Prop := lo <= hi /\ 0 <= lo - b /\ hi - b <= zlen a /\ hi - b <= zlen icol /\
      forall q, lo - b <= q < hi - b -> 0 <= col q < m.
    Definition cols_distinct (lo hi : Z) : Prop :=
      forall q q', lo - b <= q < hi - b -> lo - b <= q' < hi - b -> zn icol q = zn icol q' -> q = q'.

    Lemma sub_dot_ok : forall lo hi x xi, rng lo hi -> (m - 1) * incx < zlen x ->
      sub_dot O cj b lo hi a icol incx x xi =
      Some (xi -! sumz O (lo - b) (hi - b) (fun q => fv q *! tn x (col q * incx))).
    Proof.
      intros lo hi x xi (H & H1 & H2 & H3 & Hc) Lx. unfold sub_dot.
      match goal with |- for_ lo hi ?f xi = _ =>
        destruct (for_inv _ (fun e st => st = xi -! sumz O (lo - b) (e - b) (fun q => fv q *! tn x (col q * incx))) lo hi f xi H) as (st & E & R) end.
      - rewrite (sumz_nil O) by lia. ring.
      - intros e st He R. rewrite (rd_nthZ _ zero) by lia. rewrite (rd_nthZ _ 0) by lia.
        rewrite (rd_nthZ _ zero) by (apply (stride_rng m); auto; apply Hc; lia). eexists; split; [reflexivity|].
        rewrite R. replace (e + 1 - b) with (e - b + 1) by lia. rewrite (sumz_last O L) by lia. ring.
      - rewrite E, R. reflexivity.
    Qed.

    (** Effect of a column update with factor [xi]. *)
    Definition col_effect (lo hi : Z) (xi : T) (x x' : list T) : Prop :=
      only_strided O m incx x x' /\
      forall c, 0 <= c < m -> comp O x' incx c =
        comp O x incx c -! sumz O (lo - b) (hi - b) (fun q => if col q =? c then fv q else zero) *! xi.

    Lemma only_strided_refl : forall x : list T, only_strided O m incx x x.
    Proof. intros; split; auto. Qed.
    Lemma only_strided_trans : forall x y z : list T, only_strided O m incx x y -> only_strided O m incx y z -> only_strided O m incx x z.
    Proof. intros x y z [L1 F1] [L2 F2]. split; [congruence|]. intros p Hp Hn. rewrite F2, F1; auto; lia. Qed.
    Lemma only_strided_upd : forall (x : list T) i v, (m - 1) * incx < zlen x -> 0 <= i < m -> only_strided O m incx x (upd x (i * incx) v).
    Proof.
      intros x i v Lx Hi. split; [apply zlen_upd|]. intros p Hp Hn. specialize (Hn i Hi). pose proof (stride_rng m incx _ i Hinc Lx Hi). apply nthZ_upd_other; lia.
    Qed.
    Lemma comp_upd : forall (x : list T) i v j, (m - 1) * incx < zlen x -> 0 <= i < m -> 0 <= j < m ->
      comp O (upd x (i * incx) v) incx j = if j =? i then v else comp O x incx j.
    Proof.
      intros x i v j Lx Hi Hj. unfold comp. pose proof (stride_rng m incx _ i Hinc Lx Hi). pose proof (stride_rng m incx _ j Hinc Lx Hj).
      rewrite nthZ_upd by lia. destruct (Z.eqb_spec j i) as [->|Hne].
      - rewrite Z.eqb_refl. reflexivity.
      - replace (j * incx =? i * incx) with false; [reflexivity|]. symmetry. apply Z.eqb_neq. intros E. apply Hne. eapply stride_inj; eauto.
    Qed.

    Lemma col_effect_one : forall q x xi, (m - 1) * incx < zlen x -> 0 <= col q < m ->
      col_effect (q + b) (q + 1 + b) xi x (upd x (col q * incx) (comp O x incx (col q) -! fv q *! xi)).
    Proof.
      intros q x xi Lx Hc. split; [apply only_strided_upd; auto; lia|]. intros c Hcm. rewrite comp_upd by auto.
      replace (q + b - b) with q by lia. replace (q + 1 + b - b) with (q + 1) by lia.
      rewrite (sumz_last O L) by lia. rewrite (sumz_nil O) by lia. destruct (Z.eqb_spec c (col q)) as [->|Hne].
      - rewrite Z.eqb_refl. ring.
      - replace (col q =? c) with false by lia. ring.
    Qed.
    Lemma col_effect_trans : forall lo mid hi xi x y z, lo <= mid <= hi ->
      col_effect lo mid xi x y -> col_effect mid hi xi y z -> col_effect lo hi xi x z.
    Proof.
      intros lo mid hi xi x y z H [S1 E1] [S2 E2]. split; [eapply only_strided_trans; eauto|].
      intros c Hc. rewrite E2, E1 by auto. rewrite (sumz_split O L (lo - b) (mid - b) (hi - b)) by lia. ring.
    Qed.
    Lemma col_effect_nil : forall lo hi xi x, hi <= lo -> col_effect lo hi xi x x.
    Proof. intros. split; [apply only_strided_refl|]. intros. rewrite (sumz_nil O) by lia. ring. Qed.

    Lemma sub_col_ok : forall lo hi x xi, rng lo hi -> (m - 1) * incx < zlen x ->
      exists x', sub_col O cj b lo hi a icol incx xi x = Some x' /\ col_effect lo hi xi x x'.
    Proof.
      intros lo hi x xi (H & H1 & H2 & H3 & Hc) Lx. unfold sub_col.
      match goal with |- context [for_ lo hi ?f x] =>
        destruct (for_inv _ (fun e st => col_effect lo e xi x st) lo hi f x H) as (st & E & R) end.
      - apply col_effect_nil; lia.
      - intros e st He R. assert (Ls : zlen st = zlen x) by apply R. rewrite (rd_nthZ _ 0) by lia. rewrite (rd_nthZ _ zero) by lia.
        pose proof (Hc (e - b) ltac:(lia)) as Hq. pose proof (stride_rng m incx (zlen st) _ Hinc ltac:(lia) Hq) as Hp.
        rewrite (rd_nthZ _ zero) by auto. rewrite wr_upd by auto. eexists; split; [reflexivity|].
        eapply col_effect_trans; [|exact R|]; [lia|].
        pose proof (col_effect_one (e - b) st xi ltac:(lia) Hq) as C. replace (e - b + b) with e in C by lia.
        replace (e - b + 1 + b) with (e + 1) in C by lia. exact C.
      - exists st. auto.
    Qed.

    Lemma sub_col_re_ok : forall lo hi x i, rng lo hi -> (m - 1) * incx < zlen x -> 0 <= i < m ->
      (forall q, lo - b <= q < hi - b -> col q <> i) ->
      exists x', sub_col_re O cj b lo hi a icol incx (i * incx) x = Some x' /\ col_effect lo hi (comp O x incx i) x x'.
    Proof.
      intros lo hi x i (H & H1 & H2 & H3 & Hc) Lx Hi Hne. unfold sub_col_re.
      match goal with |- context [for_ lo hi ?f x] =>
        destruct (for_inv _ (fun e st => col_effect lo e (comp O x incx i) x st) lo hi f x H) as (st & E & R) end.
      - apply col_effect_nil; lia.
      - intros e st He R. assert (Ls : zlen st = zlen x) by apply R. rewrite (rd_nthZ _ 0) by lia. rewrite (rd_nthZ _ zero) by lia.
        pose proof (Hc (e - b) ltac:(lia)) as Hq. pose proof (stride_rng m incx (zlen st) _ Hinc ltac:(lia) Hq) as Hp.
        rewrite (rd_nthZ _ zero) by (apply (stride_rng m); auto; lia).
        rewrite (rd_nthZ _ zero) by auto. rewrite wr_upd by auto. eexists; split; [reflexivity|].
        eapply col_effect_trans; [|exact R|]; [lia|].
        assert (X : tn st (i * incx) = comp O x incx i).
        { destruct R as [_ R]. change (tn st (i * incx)) with (comp O st incx i). rewrite R by auto.
          rewrite (sumz_zero O L); [ring|]. intros q Hq'. replace (col q =? i) with false; auto. symmetry; apply Z.eqb_neq. apply Hne. lia. }
        rewrite X.
        pose proof (col_effect_one (e - b) st (comp O x incx i) ltac:(lia) Hq) as C. replace (e - b + b) with e in C by lia.
        replace (e - b + 1 + b) with (e + 1) in C by lia. exact C.
      - exists st. auto.
    Qed.

    (** Vector pieces. *)
    Lemma gather_ok : forall k idx x, 0 <= k -> rng idx (idx + k) -> (m - 1) * incx < zlen x ->
      gather k b icol incx x idx = Some (map (fun t => tn x (col (idx - b + t) * incx)) (zrange 0 k)).
    Proof.
      intros k idx x Hk (H & H1 & H2 & H3 & Hc) Lx. unfold gather. apply mapM_map. intros t Ht. apply in_zrange in Ht.
      rewrite (rd_nthZ _ 0) by lia. replace (idx + t - b) with (idx - b + t) by lia. apply rd_nthZ. apply (stride_rng m); auto. apply Hc. lia.
    Qed.
    Lemma loada_ok : forall k idx, 0 <= k -> rng idx (idx + k) ->
      loada O cj k b a idx = Some (map (fun t => fv (idx - b + t)) (zrange 0 k)).
    Proof.
      intros k idx Hk (H & H1 & H2 & H3 & Hc). unfold loada. rewrite (vload_ok O) by lia. rewrite map_map. reflexivity.
    Qed.

    Lemma suml_app_zero : forall l, suml O (fun v => v) (l ++ [zero]) = suml O (fun v => v) l.
    Proof. intros. rewrite (suml_app O L). cbn. ring. Qed.
    Lemma map2_app : forall X Y W (f : X -> Y -> W) l1 l2 r1 r2, length l1 = length r1 ->
      map2 f (l1 ++ l2) (r1 ++ r2) = map2 f l1 r1 ++ map2 f l2 r2.
    Proof. induction l1 as [|x l1 IH]; intros l2 [|y r1] r2 H; cbn in *; try discriminate; auto. f_equal. auto. Qed.

    Lemma kt_sub_dot_ok : forall tsz lo hi x xi, 1 < tsz -> rng lo hi -> (m - 1) * incx < zlen x ->
      kt_sub_dot O cj tsz b lo hi a icol incx x xi =
      Some (xi -! sumz O (lo - b) (hi - b) (fun q => fv q *! tn x (col q * incx))).
    Proof.
      intros tsz lo hi x xi Ht Hr Lx. pose proof Hr as (H & H1 & H2 & H3 & Hc). unfold kt_sub_dot. cbv zeta.
      assert (Hrem : 0 <= Z.rem (hi - lo) tsz < tsz) by (apply Z.rem_bound_pos; lia).
      assert (Hmod : (hi - Z.rem (hi - lo) tsz - lo) mod tsz = 0).
      { rewrite Z.rem_mod_nonneg by lia. replace (hi - (hi - lo) mod tsz - lo) with ((hi - lo) - (hi - lo) mod tsz) by lia.
        rewrite Zminus_mod, Z.mod_mod by lia. rewrite Z.sub_diag. apply Z.mod_0_l. lia. }
      assert (Hle : Z.rem (hi - lo) tsz <= hi - lo) by (rewrite Z.rem_mod_nonneg by lia; apply Z.mod_le; lia).
      assert (Hsmall : 0 <= hi - lo - tsz \/ Z.rem (hi - lo) tsz = hi - lo).
      { destruct (Z.le_gt_cases 0 (hi - lo - tsz)); [left; auto|right]. apply Z.rem_small. lia. }
      set (rem := Z.rem (hi - lo) tsz) in *.
      set (F := fun q => fv q *! tn x (col q * incx)).
      assert (Rsub : forall lo' hi', lo <= lo' -> lo' <= hi' -> hi' <= hi -> rng lo' hi').
      { intros lo' hi' A1 A2 A3. unfold rng. repeat (split; [lia|]). intros q Hq. apply Hc; lia. }
      match goal with |- context [for_step lo (hi - rem) tsz ?f ?s] =>
        destruct (for_step_inv _ (fun e (st : list T) => length st = Z.to_nat tsz /\ suml O (fun v => v) st = sumz O (lo - b) (e - b) F)
          lo (hi - rem) tsz f s) as (st & E & Ls & R) end; try lia; auto.
      - split; [unfold zrep; apply repeat_length|]. rewrite (sumz_nil O) by lia. apply (suml_zero O L). intros v Hv. unfold zrep in Hv. apply repeat_spec in Hv. auto.
      - intros e st He1 He2 (Ls & R). rewrite loada_ok by (first [lia | apply Rsub; lia]). rewrite gather_ok by (first [lia | apply Rsub; lia]).
        eexists; split; [reflexivity|]. rewrite map2_map.
        match goal with |- context [map ?g (zrange 0 tsz)] => set (g0 := g); assert (Lg : length (map g0 (zrange 0 tsz)) = length st) by
          (rewrite map_length, Ls; unfold zrange; rewrite map_length, seq_length; f_equal; lia) end.
        rewrite map2_length by auto. split; [auto|].
        rewrite (suml_map2_add O L) by auto. rewrite R. subst g0.
        change (map _ (zrange 0 tsz)) with (map (fun t => F (e - b + t)) (zrange 0 tsz)).
        rewrite (suml_lanes O tsz (e - b) F). replace (e + tsz - b) with (e - b + tsz) by lia. rewrite (sumz_split O L (lo - b) (e - b) (e - b + tsz)) by lia. ring.
      - rewrite E. unfold hsum_kt.
        assert (X1 : (if 0 <=? hi - lo - tsz then xi -! suml O (fun v => v) st else xi) = xi -! sumz O (lo - b) (hi - rem - b) F).
        { destruct (0 <=? hi - lo - tsz) eqn:E0; [rewrite R; reflexivity|]. rewrite (sumz_nil O) by lia. ring. }
        rewrite X1. rewrite (sumz_split O L (lo - b) (hi - rem - b) (hi - b)) by lia.
        destruct (rem =? tsz - 1) eqn:Er.
        + rewrite loada_ok by (first [lia | apply Rsub; lia]). rewrite gather_ok by (first [lia | apply Rsub; lia]).
          f_equal. unfold pad. rewrite map2_app by (rewrite !map_length; reflexivity). cbn [map2].
          rewrite (suml_app O L). rewrite map2_map. change (map _ (zrange 0 (tsz - 1))) with (map (fun t => F (hi - rem - b + t)) (zrange 0 (tsz - 1))). rewrite (suml_lanes O (tsz - 1) (hi - rem - b) F).
          replace (hi - rem - b + (tsz - 1)) with (hi - b) by lia. cbn [suml fold_right]. ring.
        + rewrite sub_dot_ok by (auto; apply Rsub; lia). f_equal. subst F. ring.
    Qed.

    Lemma scatter_ok : forall k idx (v x : list T) (W : Z -> T), 0 <= k -> rng idx (idx + k) -> cols_distinct idx (idx + k) ->
      (m - 1) * incx < zlen x -> k <= zlen v -> (forall t, 0 <= t < k -> tn v t = W (idx - b + t)) ->
      exists x', scatter k b icol incx idx v x = Some x' /\ only_strided O m incx x x' /\
        forall c, 0 <= c < m -> comp O x' incx c =
          comp O x incx c +! sumz O (idx - b) (idx - b + k) (fun q => if col q =? c then W q -! comp O x incx c else zero).
    Proof.
      intros k idx v x W Hk (H & H1 & H2 & H3 & Hc) HD Lx Lv HW. unfold scatter.
      match goal with |- context [for_ 0 k ?f x] =>
        destruct (for_inv _ (fun e st => only_strided O m incx x st /\
          forall c, 0 <= c < m -> comp O st incx c =
          comp O x incx c +! sumz O (idx - b) (idx - b + e) (fun q => if col q =? c then W q -! comp O x incx c else zero)) 0 k f x Hk) as (st & E & R) end.
      - split; [apply only_strided_refl|]. intros c Hcm. rewrite (sumz_nil O) by lia. ring.
      - intros e st He (S1 & R). assert (Ls : zlen st = zlen x) by apply S1. rewrite (rd_nthZ _ 0) by lia. rewrite (rd_nthZ _ zero) by lia.
        replace (idx + e - b) with (idx - b + e) by lia.
        pose proof (Hc (idx - b + e) ltac:(lia)) as Hq. rewrite wr_upd by (apply (stride_rng m); auto; lia).
        eexists; split; [reflexivity|]. split; [eapply only_strided_trans; [exact S1|apply only_strided_upd; auto; lia]|].
        intros c Hcm. rewrite comp_upd by (auto; lia). replace (idx - b + (e + 1)) with (idx - b + e + 1) by lia.
        rewrite (sumz_last O L) by lia. rewrite HW by lia. destruct (Z.eqb_spec c (col (idx - b + e))) as [Ec|Hne].
        + replace (col (idx - b + e) =? c) with true by lia.
          rewrite (sumz_zero O L); [ring|]. intros q Hq'. replace (col q =? c) with false; auto. symmetry; apply Z.eqb_neq. intros Ec'.
          pose proof (HD q (idx - b + e) ltac:(lia) ltac:(lia) ltac:(lia)). lia.
        + replace (col (idx - b + e) =? c) with false by lia. rewrite R by auto. ring.
      - exists st. auto.
    Qed.

    Lemma block_ok : forall k idx x xi v, 0 <= k -> rng idx (idx + k) -> cols_distinct idx (idx + k) -> (m - 1) * incx < zlen x ->
      k <= zlen v -> (forall t, 0 <= t < k -> tn v t = fv (idx - b + t) *! (oopp O xi) +! tn x (col (idx - b + t) * incx)) ->
      exists x', scatter k b icol incx idx v x = Some x' /\ col_effect idx (idx + k) xi x x'.
    Proof.
      intros k idx x xi v Hk Hr HD Lx Lv HW.
      destruct (scatter_ok k idx v x (fun q => fv q *! (oopp O xi) +! comp O x incx (col q)) Hk Hr HD Lx Lv HW) as (x' & E & S & R).
      exists x'. split; [exact E|]. split; [exact S|]. intros c Hc. rewrite R by auto.
      replace (idx + k - b) with (idx - b + k) by lia. rewrite <- (sumz_mul_r O L).
      match goal with |- ?A +! ?B = ?A -! ?C => assert (Z0 : B +! C = zero); [|transitivity (A +! (B +! C) -! C); [ring|rewrite Z0; ring]] end.
      rewrite <- (sumz_add O L). apply (sumz_zero O L). intros q Hq. destruct (Z.eqb_spec (col q) c) as [->|]; ring.
    Qed.

    Lemma nthZ_lanes : forall (F : Z -> T) k t rest, 0 <= t < k -> tn (map F (zrange 0 k) ++ rest) t = F t.
    Proof.
      intros F k t rest Ht. rewrite nthZ_app1 by (rewrite zlen_map, zlen_zrange; lia).
      rewrite (nthZ_map _ _ F 0) by (rewrite zlen_zrange; lia). rewrite nthZ_zrange by lia. f_equal; lia.
    Qed.

    Lemma kt_sub_col_ok : forall tsz lo hi x xi, 1 < tsz -> rng lo hi -> cols_distinct lo hi -> (m - 1) * incx < zlen x ->
      exists x', kt_sub_col O cj tsz b lo hi a icol incx xi x = Some x' /\ col_effect lo hi xi x x'.
    Proof.
      intros tsz lo hi x xi Ht Hr HD Lx. pose proof Hr as (H & H1 & H2 & H3 & Hc). unfold kt_sub_col. cbv zeta.
      assert (Hrem : 0 <= Z.rem (hi - lo) tsz < tsz) by (apply Z.rem_bound_pos; lia).
      assert (Hmod : (hi - Z.rem (hi - lo) tsz - lo) mod tsz = 0).
      { rewrite Z.rem_mod_nonneg by lia. replace (hi - (hi - lo) mod tsz - lo) with ((hi - lo) - (hi - lo) mod tsz) by lia.
        rewrite Zminus_mod, Z.mod_mod by lia. rewrite Z.sub_diag. apply Z.mod_0_l. lia. }
      assert (Hle : Z.rem (hi - lo) tsz <= hi - lo) by (rewrite Z.rem_mod_nonneg by lia; apply Z.mod_le; lia).
      set (rem := Z.rem (hi - lo) tsz) in *.
      assert (Rsub : forall lo' hi', lo <= lo' -> lo' <= hi' -> hi' <= hi -> rng lo' hi').
      { intros lo' hi' A1 A2 A3. unfold rng. repeat (split; [lia|]). intros q Hq. apply Hc; lia. }
      assert (Dsub : forall lo' hi', lo <= lo' -> lo' <= hi' -> hi' <= hi -> cols_distinct lo' hi').
      { intros lo' hi' A1 A2 A3 q q' Hq Hq' E. apply HD; auto; lia. }
      match goal with |- context [for_step lo (hi - rem) tsz ?f ?s] =>
        destruct (for_step_inv _ (fun e (st : list T) => col_effect lo e xi x st) lo (hi - rem) tsz f s) as (st & E & R) end; try lia; auto.
      - apply col_effect_nil; lia.
      - intros e st He1 He2 R. assert (Ls : zlen st = zlen x) by apply R.
        rewrite gather_ok by (first [lia | apply Rsub; lia]). rewrite loada_ok by (first [lia | apply Rsub; lia]).
        destruct (block_ok tsz e st xi (upd_lanes O (map (fun t => fv (e - b + t)) (zrange 0 tsz))
           (map (fun t => tn st (col (e - b + t) * incx)) (zrange 0 tsz)) (oopp O xi))) as (x' & E & C); try lia; try (apply Dsub; lia); try (apply Rsub; lia).
        + unfold upd_lanes. rewrite map_map, map2_map, zlen_map, zlen_zrange; lia.
        + intros t Ht'. unfold upd_lanes. rewrite map_map, map2_map. rewrite <- (app_nil_r (map _ _)). rewrite nthZ_lanes by lia. reflexivity.
        + rewrite E. exists x'. split; [reflexivity|]. eapply col_effect_trans; [|exact R|exact C]. lia.
      - rewrite E. assert (Ls : zlen st = zlen x) by apply R.
        destruct (rem =? tsz - 1) eqn:Er.
        + rewrite gather_ok by (first [lia | apply Rsub; lia]). rewrite loada_ok by (first [lia | apply Rsub; lia]).
          assert (EU : upd_lanes O (pad O (map (fun t => fv (hi - rem - b + t)) (zrange 0 (tsz - 1))))
              (pad O (map (fun t => tn st (col (hi - rem - b + t) * incx)) (zrange 0 (tsz - 1)))) (oopp O xi) =
              map (fun t => fv (hi - rem - b + t) *! oopp O xi +! tn st (col (hi - rem - b + t) * incx)) (zrange 0 (tsz - 1)) ++ [zero *! oopp O xi +! zero]).
          { unfold upd_lanes, pad. rewrite map_app, map2_app by (rewrite !map_length; reflexivity). rewrite map_map, map2_map. reflexivity. }
          rewrite EU.
          match goal with |- context [scatter _ _ _ _ _ ?v _] => destruct (block_ok (tsz - 1) (hi - rem) st xi v) as (x' & E' & C) end; try lia; try (apply Dsub; lia); try (apply Rsub; lia).
          * rewrite zlen_app, zlen_map, zlen_zrange by lia. unfold zlen; cbn; lia.
          * intros t Ht'. rewrite nthZ_lanes by lia. reflexivity.
          * rewrite E'. exists x'. split; [reflexivity|]. eapply col_effect_trans; [|exact R|]; [lia|]. replace (hi - rem + (tsz - 1)) with hi in C by lia. exact C.
        + destruct (sub_col_ok (hi - rem) hi st xi) as (x' & E' & C); [apply Rsub; lia|lia|].
          rewrite E'. exists x'. split; [reflexivity|]. eapply col_effect_trans; [|exact R|exact C]. lia.
    Qed.
  End Arr.
End P.
