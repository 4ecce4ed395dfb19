(** Proofs about the level-1 operations. *)
From Coq Require Import ZArith List Bool Lia ZifyBool Ring.
From Verif Require Import Base BaseFacts Algebra Vec DispatchModel DispatchSpec DispatchProof L1Model L1Spec.
Import ListNotations.
Open Scope Z_scope.

Section P.
  Context {T : Type} (O : ops T) (L : laws O).
  Let rth := l_ring L.
  Add Ring TrL1 : rth.
  Local Notation zero := (o0 O).
  Local Notation tn := (nthZ (o0 O)).
  Local Infix "+!" := (oadd O) (at level 50, left associativity).
  Local Infix "*!" := (omul O) (at level 40, left associativity).
  Local Infix "-!" := (osub O) (at level 50, left associativity).

  Lemma stored_0 : forall at_ newv (y : list T), stored zero 0 at_ newv y y.
  Proof. intros. unfold stored. repeat split; intros; auto; lia. Qed.

  (** One more element. *)
  Lemma stored_step : forall q n at_ newv (y y1 : list T), 0 <= q < n ->
    good_positions n at_ (zlen y) -> stored zero q at_ newv y y1 ->
    wr y1 (at_ q) (newv q) = Some (upd y1 (at_ q) (newv q)) /\ stored zero (q + 1) at_ newv y (upd y1 (at_ q) (newv q)).
  Proof.
    intros q n at_ newv y y1 Hq [G1 G2] (S1 & S2 & S3).
    pose proof (G1 q Hq). split; [apply wr_upd; lia|].
    split; [rewrite zlen_upd; auto|]. split.
    - intros i Hi. rewrite nthZ_upd by lia. destruct (at_ i =? at_ q) eqn:E.
      + f_equal. apply G2; lia.
      + apply S2. assert (i <> q) by (intros ->; lia). lia.
    - intros p Hp N. rewrite nthZ_upd by lia. pose proof (N q ltac:(lia)).
      replace (p =? at_ q) with false by lia. apply S3; auto. intros i Hi. apply N. lia.
  Qed.

  (** Elements not yet stored still have their first value. *)
  Lemma stored_later : forall q n at_ newv (y y1 : list T) i, 0 <= q -> q <= i < n ->
    good_positions n at_ (zlen y) -> stored zero q at_ newv y y1 -> tn y1 (at_ i) = tn y (at_ i).
  Proof.
    intros q n at_ newv y y1 i Hq Hi [G1 G2] (S1 & S2 & S3). apply S3; [apply G1; lia|].
    intros j Hj C. apply G2 in C; lia.
  Qed.

  Lemma vscatter_ok : forall w q n at_ newv (y y1 : list T) ks v, 0 <= w -> 0 <= q -> q + w <= n ->
    good_positions n at_ (zlen y) -> stored zero q at_ newv y y1 ->
    ks = map (fun l => at_ (q + l)) (zrange 0 w) -> v = map (fun l => newv (q + l)) (zrange 0 w) ->
    exists y2, vscatter w v y1 ks = Some y2 /\ stored zero (q + w) at_ newv y y2.
  Proof.
    intros w q n at_ newv y y1 ks v Hw Hq Hn G S Hk Hv. unfold vscatter.
    match goal with |- context [for_ 0 w ?f y1] =>
      destruct (for_inv (list T) (fun l y2 => stored zero (q + l) at_ newv y y2) 0 w f y1 Hw) as (st & E & R) end.
    - rewrite Z.add_0_r. exact S.
    - intros l y2 Hl S2. subst ks v.
      assert (A1 : rd (map (fun l => at_ (q + l)) (zrange 0 w)) l = Some (at_ (q + l))).
      { rewrite (rd_nthZ _ 0) by (rewrite zlen_map, zlen_zrange; lia).
        rewrite (nthZ_map _ _ _ 0) by (rewrite zlen_zrange; lia). rewrite nthZ_zrange by lia. reflexivity. }
      assert (A2 : rd (map (fun l => newv (q + l)) (zrange 0 w)) l = Some (newv (q + l))).
      { rewrite (rd_nthZ _ zero) by (rewrite zlen_map, zlen_zrange; lia).
        rewrite (nthZ_map _ _ _ 0) by (rewrite zlen_zrange; lia). rewrite nthZ_zrange by lia. reflexivity. }
      rewrite A1, A2. destruct (stored_step (q + l) n at_ newv y y2 ltac:(lia) G S2) as [E1 E2].
      rewrite E1. eexists. split; [reflexivity|]. replace (q + (l + 1)) with (q + l + 1) by lia. exact E2.
    - eauto.
  Qed.

  (** A consecutive store is a scatter to consecutive positions. *)
  Lemma vstore_scatter : forall w (v x : list T) p, 0 <= w ->
    vstore w v x p = vscatter w v x (map (fun l => p + l) (zrange 0 w)).
  Proof.
    intros w v x p Hw. unfold vstore, vscatter. apply for_ext. intros l x1 Hl.
    rewrite (rd_nthZ _ 0) by (rewrite zlen_map, zlen_zrange; lia).
    rewrite (nthZ_map _ _ _ 0) by (rewrite zlen_zrange; lia). rewrite nthZ_zrange by lia. rewrite Z.add_0_l. reflexivity.
  Qed.
  Lemma good_id : forall n len, n <= len -> good_positions n (fun i => i) len.
  Proof. intros. split; intros; lia. Qed.

  Lemma vload_z : forall k (l : list Z) p, 0 <= p -> p + k <= zlen l ->
    vload k l p = Some (map (fun t => zn l (p + t)) (zrange 0 k)).
  Proof. intros k l p H1 H2. unfold vload. apply mapM_map. intros t Ht. apply in_zrange in Ht. apply rd_nthZ. lia. Qed.
  Lemma vgather_ok : forall (y : list T) I (f : I -> Z) l, (forall i, In i l -> 0 <= f i < zlen y) ->
    vgather y (map f l) = Some (map (fun i => tn y (f i)) l).
  Proof.
    intros y I f l H. unfold vgather. induction l as [|a l IH]; cbn [map mapM]; [reflexivity|].
    rewrite (rd_nthZ _ zero) by (apply H; left; auto). rewrite IH by (intros; apply H; right; auto). reflexivity.
  Qed.
  Lemma map_ext_zr : forall X (f g : Z -> X) lo hi, (forall k, lo <= k < hi -> f k = g k) -> map f (zrange lo hi) = map g (zrange lo hi).
  Proof. intros. apply map_ext_in. intros k Hk. apply in_zrange in Hk. auto. Qed.

  Lemma divw : forall nnz w, 0 <= nnz -> 0 < w ->
    0 <= nnz / w /\ nnz - nnz mod w = nnz / w * w /\ 0 <= nnz / w * w <= nnz /\
    (forall t, 0 <= t < nnz / w -> t * w + w <= nnz).
  Proof.
    intros nnz w H1 H2. pose proof (Z.div_mod nnz w ltac:(lia)). pose proof (Z.mod_pos_bound nnz w H2).
    assert (0 <= nnz / w) by (apply Z.div_pos; lia). repeat split; try lia; try nia.
  Qed.

  (** ** axpyi *)
  Lemma axpyi_ref_ok : forall q nnz a x indx (y : list T), 0 <= q <= nnz -> q <= zlen x -> q <= zlen indx ->
    good_positions q (zn indx) (zlen y) -> (q = nnz \/ q < zlen indx /\ zn indx q < 0) ->
    exists y', axpyi_ref O nnz a x indx y = Some ((if q <? nnz then invalid_index_value else success), y') /\
      stored zero q (zn indx) (fun i => a *! tn x i +! tn y (zn indx i)) y y'.
  Proof.
    intros q nnz a x indx y Hq Hx Hi G Hn. unfold axpyi_ref.
    set (newv := fun i => a *! tn x i +! tn y (zn indx i)).
    match goal with |- context [forc 0 nnz ?f y] =>
      destruct (forc_inv (list T) (status * list T)
        (fun i y1 => i <= q /\ stored zero i (zn indx) newv y y1) (fun _ => False)
        (fun r => q < nnz /\ fst r = invalid_index_value /\ stored zero q (zn indx) newv y (snd r)) 0 nnz f y ltac:(lia))
        as [(y1 & E & [(R1 & R2)|[]])|(r & E & R1 & R2 & R3)] end.
    - split; [lia|]. apply stored_0.
    - intros i y1 Hin [Hiq S]. destruct (Z.eq_dec i q) as [->|Ne].
      + right; right. destruct Hn as [Hn|Hn]; [lia|]. rewrite (rd_nthZ _ 0) by lia.
        replace (zn indx q <? 0) with true by lia. eexists. split; [reflexivity|]. cbn. auto with zarith.
      + left. rewrite (rd_nthZ _ 0) by lia. destruct G as [G1 G2]. pose proof (G1 i ltac:(lia)).
        replace (zn indx i <? 0) with false by lia. rewrite (rd_nthZ _ zero) by lia.
        pose proof S as (SL & _). rewrite (rd_nthZ _ zero y1) by lia.
        rewrite (stored_later i q (zn indx) newv y y1 i) by (auto; try lia; split; auto).
        destruct (stored_step i q (zn indx) newv y y1 ltac:(lia) (conj G1 G2) S) as [E1 E2].
        fold (newv i). rewrite E1. eexists. split; [reflexivity|]. split; [lia|exact E2].
    - rewrite E. assert (q = nnz) by lia. subst q. replace (nnz <? nnz) with false by lia. eauto.
    - rewrite E. destruct r as [st y']. cbn in *. subst st. replace (q <? nnz) with true by lia. eauto.
  Qed.

  Lemma axpyi_kt_ok : forall w nnz a x indx (y : list T), 0 < w -> 0 <= nnz -> nnz <= zlen x -> nnz <= zlen indx ->
    good_positions nnz (zn indx) (zlen y) ->
    exists y', axpyi_kt O w nnz a x indx y = Some (success, y') /\
      stored zero nnz (zn indx) (fun i => a *! tn x i +! tn y (zn indx i)) y y'.
  Proof.
    intros w nnz a x indx y Hw Hn Hx Hi G. unfold axpyi_kt.
    set (newv := fun i => a *! tn x i +! tn y (zn indx i)).
    destruct (divw nnz w Hn Hw) as (D1 & D2 & D3 & D4).
    match goal with |- context [for_ 0 (nnz / w) ?f y] =>
      destruct (for_inv (list T) (fun t y1 => stored zero (t * w) (zn indx) newv y y1) 0 (nnz / w) f y D1) as (y1 & E & R) end.
    - apply stored_0.
    - intros t y1 Ht S. pose proof (D4 t Ht). rewrite (vload_ok O) by lia. rewrite vload_z by lia.
      pose proof S as (SL & _). destruct G as [G1 G2].
      rewrite vgather_ok by (intros l Hl; apply in_zrange in Hl; rewrite SL; apply G1; nia).
      rewrite map2_map.
      destruct (vscatter_ok w (t * w) nnz (zn indx) newv y y1 (map (fun l => zn indx (t * w + l)) (zrange 0 w))
        (map (fun i => a *! tn x (t * w + i) +! tn y1 (zn indx (t * w + i))) (zrange 0 w)))
        as (y2 & E2 & S2); auto; try nia; [split; auto| |].
      { apply map_ext_zr. intros l Hl. unfold newv. f_equal. apply (stored_later (t * w) nnz (zn indx) newv y y1); auto; try nia. split; auto. }
      exists y2. split; auto. replace ((t + 1) * w) with (t * w + w) by lia. exact S2.
    - rewrite E.
      match goal with |- context [for_ (nnz / w * w) nnz ?f y1] =>
        destruct (for_inv (list T) (fun i y1 => stored zero i (zn indx) newv y y1) (nnz / w * w) nnz f y1 ltac:(lia) R) as (y2 & E2 & R2) end.
      + intros i y2 Hin S. destruct G as [G1 G2]. pose proof (G1 i ltac:(lia)). pose proof S as (SL & _).
        rewrite (rd_nthZ _ 0) by lia. rewrite (rd_nthZ _ zero) by lia. rewrite (rd_nthZ _ zero y2) by lia.
        rewrite (stored_later i nnz (zn indx) newv y y2 i) by (auto; try lia; split; auto).
        destruct (stored_step i nnz (zn indx) newv y y2 ltac:(lia) (conj G1 G2) S) as [E1 E3].
        fold (newv i). rewrite E1. eauto.
      + rewrite E2. eauto.
  Qed.

  (** ** roti *)
  Section Rot.
    Variables (c s : T) (x y : list T) (indx : list Z).
    Let nx := fun i => c *! tn x i +! s *! tn y (zn indx i).
    Let ny := fun i => c *! tn y (zn indx i) -! s *! tn x i.

    Lemma roti_ref_ok : forall q nnz, 0 <= q <= nnz -> q <= zlen x -> q <= zlen indx ->
      good_positions q (zn indx) (zlen y) -> (q = nnz \/ q < zlen indx /\ zn indx q < 0) ->
      exists x' y', roti_ref O nnz x indx y c s = Some ((if q <? nnz then invalid_index_value else success), (x', y')) /\
        stored zero q (fun i => i) nx x x' /\ stored zero q (zn indx) ny y y'.
    Proof.
      intros q nnz Hq Hx Hi G Hn. unfold roti_ref.
      match goal with |- context [forc 0 nnz ?f (x, y)] =>
        destruct (forc_inv (list T * list T) (status * (list T * list T))
          (fun i st => i <= q /\ stored zero i (fun i => i) nx x (fst st) /\ stored zero i (zn indx) ny y (snd st)) (fun _ => False)
          (fun r => q < nnz /\ fst r = invalid_index_value /\
             stored zero q (fun i => i) nx x (fst (snd r)) /\ stored zero q (zn indx) ny y (snd (snd r))) 0 nnz f (x, y) ltac:(lia))
          as [([x1 y1] & E & [(R1 & R2 & R3)|[]])|([st [x1 y1]] & E & R1 & R2 & R3 & R4)] end.
      - split; [lia|]. split; apply stored_0.
      - intros i [x1 y1] Hin (Hiq & SX & SY). cbn [fst snd] in *. destruct (Z.eq_dec i q) as [->|Ne].
        + right; right. destruct Hn as [Hn|Hn]; [lia|]. rewrite (rd_nthZ _ 0) by lia.
          replace (zn indx q <? 0) with true by lia. eexists. split; [reflexivity|]. cbn. auto with zarith.
        + left. rewrite (rd_nthZ _ 0) by lia. pose proof (proj1 G i ltac:(lia)).
          replace (zn indx i <? 0) with false by lia.
          pose proof SX as (SLx & _). pose proof SY as (SLy & _).
          rewrite (rd_nthZ _ zero x1) by lia. rewrite (rd_nthZ _ zero y1) by lia.
          rewrite (stored_later i q (zn indx) ny y y1 i) by (auto; lia).
          rewrite (stored_later i q (fun i => i) nx x x1 i) by (auto; try lia; apply good_id; lia).
          destruct (stored_step i q (zn indx) ny y y1 ltac:(lia) G SY) as [E1 E2].
          destruct (stored_step i q (fun i => i) nx x x1 ltac:(lia) (good_id _ _ Hx) SX) as [E3 E4].
          fold (nx i). fold (ny i). cbv beta in E3. rewrite E3, E1. eexists. split; [reflexivity|]. cbn. auto with zarith.
      - rewrite E. cbn [fst snd] in *. assert (q = nnz) by lia. subst q. replace (nnz <? nnz) with false by lia. eauto.
      - rewrite E. cbn [fst snd] in *. subst st. replace (q <? nnz) with true by lia. eauto.
    Qed.

    Lemma roti_kt_ok : forall w nnz, 0 < w -> 0 <= nnz -> nnz <= zlen x -> nnz <= zlen indx ->
      good_positions nnz (zn indx) (zlen y) ->
      exists x' y', roti_kt O w nnz x indx y c s = Some (success, (x', y')) /\
        stored zero nnz (fun i => i) nx x x' /\ stored zero nnz (zn indx) ny y y'.
    Proof.
      intros w nnz Hw Hn Hx Hi G. unfold roti_kt.
      destruct (divw nnz w Hn Hw) as (D1 & D2 & D3 & D4). rewrite D2.
      pose proof (good_id nnz (zlen x) Hx) as GX.
      match goal with |- context [for_ 0 (nnz / w) ?f (x, y)] =>
        destruct (for_inv (list T * list T) (fun t st => stored zero (t * w) (fun i => i) nx x (fst st) /\
           stored zero (t * w) (zn indx) ny y (snd st)) 0 (nnz / w) f (x, y) D1) as ([x1 y1] & E & R) end.
      - split; apply stored_0.
      - intros t [x1 y1] Ht [SX SY]. cbn [fst snd] in *. pose proof (D4 t Ht).
        pose proof SX as (SLx & _). pose proof SY as (SLy & _).
        rewrite (vload_ok O) by lia. rewrite vload_z by lia.
        rewrite vgather_ok by (intros l Hl; apply in_zrange in Hl; rewrite SLy; apply (proj1 G); nia).
        rewrite !map_map, !map2_map.
        assert (AX : forall l, 0 <= l < w -> tn x1 (t * w + l) = tn x (t * w + l)).
        { intros l Hl. apply (stored_later (t * w) nnz (fun i => i) nx x x1 (t * w + l)); auto; nia. }
        assert (AY : forall l, 0 <= l < w -> tn y1 (zn indx (t * w + l)) = tn y (zn indx (t * w + l))).
        { intros l Hl. apply (stored_later (t * w) nnz (zn indx) ny y y1 (t * w + l)); auto; nia. }
        rewrite vstore_scatter by lia.
        match goal with |- context [vscatter w ?v x1 ?ks] =>
          destruct (vscatter_ok w (t * w) nnz (fun i => i) nx x x1 ks v) as (x2 & EX & SX2); auto; try nia end.
        { apply map_ext_zr. intros l Hl. rewrite AX, AY by auto. unfold nx. ring. }
        rewrite EX.
        match goal with |- context [vscatter w ?v y1 ?ks] =>
          destruct (vscatter_ok w (t * w) nnz (zn indx) ny y y1 ks v) as (y2 & EY & SY2); auto; try nia end.
        { apply map_ext_zr. intros l Hl. rewrite AX, AY by auto. reflexivity. }
        rewrite EY. exists (x2, y2). split; auto. cbn. replace ((t + 1) * w) with (t * w + w) by lia. auto.
      - rewrite E. destruct R as [RX RY]. cbn [fst snd] in *.
        match goal with |- context [for_ (nnz / w * w) nnz ?f (x1, y1)] =>
          destruct (for_inv (list T * list T) (fun i st => stored zero i (fun i => i) nx x (fst st) /\
             stored zero i (zn indx) ny y (snd st)) (nnz / w * w) nnz f (x1, y1) ltac:(lia)) as ([x2 y2] & E2 & R2) end.
        + cbn. auto.
        + clear E RX RY. intros i [x2 y2] Hin [SX SY]. cbn [fst snd] in *.
          pose proof (proj1 G i ltac:(lia)). pose proof SX as (SLx & _). pose proof SY as (SLy & _).
          rewrite (rd_nthZ _ 0) by lia. rewrite (rd_nthZ _ zero x2) by lia. rewrite (rd_nthZ _ zero y2) by lia.
          rewrite (stored_later i nnz (zn indx) ny y y2 i) by (auto; lia).
          rewrite (stored_later i nnz (fun i => i) nx x x2 i) by (auto; lia).
          destruct (stored_step i nnz (zn indx) ny y y2 ltac:(lia) G SY) as [E1 E3].
          destruct (stored_step i nnz (fun i => i) nx x x2 ltac:(lia) GX SX) as [E4 E5].
          fold (nx i). fold (ny i). cbv beta in E4. rewrite E4, E1. eexists. split; [reflexivity|]. cbn. auto.
        + rewrite E2. eauto.
    Qed.
  End Rot.

  (** ** Addresses *)
  Lemma addr_ok : forall xi n i, index_len xi n -> 0 <= i < n -> addr xi i = Some (pos xi i).
  Proof. intros [l|st] n i H Hi; cbn in *; [apply rd_nthZ; lia|reflexivity]. Qed.
  Lemma lane_addr_ok : forall w xi n t, index_len xi n -> 0 < w -> 0 <= t -> t * w + w <= n ->
    lane_addr w xi t = Some (map (fun l => pos xi (t * w + l)) (zrange 0 w)).
  Proof.
    intros w [l|st] n t H Hw Ht Hn; cbn [lane_addr pos index_len] in *.
    - rewrite vload_z by nia. reflexivity.
    - f_equal. apply map_ext. intros; ring.
  Qed.

  (** ** sctr *)
  Lemma sctr_ref_ok : forall q nnz (x : list T) xi y, 0 <= q <= nnz -> q <= zlen x -> index_len xi q ->
    good_positions q (pos xi) (zlen y) -> (q = nnz \/ exists l, xi = Indexed l /\ q < zlen l /\ zn l q < 0) ->
    exists y', sctr_ref nnz x xi y = Some ((if q <? nnz then invalid_index_value else success), y') /\
      stored zero q (pos xi) (tn x) y y'.
  Proof.
    intros q nnz x xi y Hq Hx Hi G Hn. unfold sctr_ref.
    match goal with |- context [forc 0 nnz ?f y] =>
      destruct (forc_inv (list T) (status * list T)
        (fun i y1 => i <= q /\ stored zero i (pos xi) (tn x) y y1) (fun _ => False)
        (fun r => q < nnz /\ fst r = invalid_index_value /\ stored zero q (pos xi) (tn x) y (snd r)) 0 nnz f y ltac:(lia))
        as [(y1 & E & [(R1 & R2)|[]])|(r & E & R1 & R2 & R3)] end.
    - split; [lia|]. apply stored_0.
    - intros i y1 Hin [Hiq S]. destruct (Z.eq_dec i q) as [->|Ne].
      + right; right. destruct Hn as [Hn|(l & -> & Hl & Hneg)]; [lia|]. cbn [addr]. rewrite (rd_nthZ _ 0) by lia.
        replace (zn l q <? 0) with true by lia. eexists. split; [reflexivity|]. cbn. auto with zarith.
      + left. rewrite (addr_ok xi q) by (auto; lia). pose proof (proj1 G i ltac:(lia)).
        replace (pos xi i <? 0) with false by lia. rewrite andb_false_r. rewrite (rd_nthZ _ zero) by lia.
        destruct (stored_step i q (pos xi) (tn x) y y1 ltac:(lia) G S) as [E1 E2].
        rewrite E1. eexists. split; [reflexivity|]. split; [lia|exact E2].
    - rewrite E. assert (q = nnz) by lia. subst q. replace (nnz <? nnz) with false by lia. eauto.
    - rewrite E. destruct r as [st y']. cbn in *. subst st. replace (q <? nnz) with true by lia. eauto.
  Qed.

  Lemma sctr_kt_ok : forall w nnz (x : list T) xi y, 0 < w -> 0 <= nnz -> nnz <= zlen x -> index_len xi nnz ->
    good_positions nnz (pos xi) (zlen y) ->
    exists y', sctr_kt w nnz x xi y = Some (success, y') /\ stored zero nnz (pos xi) (tn x) y y'.
  Proof.
    intros w nnz x xi y Hw Hn Hx Hi G. unfold sctr_kt.
    destruct (divw nnz w Hn Hw) as (D1 & D2 & D3 & D4). rewrite D2.
    match goal with |- context [for_ 0 (nnz / w) ?f y] =>
      destruct (for_inv (list T) (fun t y1 => stored zero (t * w) (pos xi) (tn x) y y1) 0 (nnz / w) f y D1) as (y1 & E & R) end.
    - apply stored_0.
    - intros t y1 Ht S. pose proof (D4 t Ht). rewrite (vload_ok O) by lia. rewrite (lane_addr_ok w xi nnz) by (auto; lia).
      destruct (vscatter_ok w (t * w) nnz (pos xi) (tn x) y y1 (map (fun l => pos xi (t * w + l)) (zrange 0 w))
        (map (fun l => tn x (t * w + l)) (zrange 0 w))) as (y2 & E2 & S2); auto; try nia.
      exists y2. split; auto. replace ((t + 1) * w) with (t * w + w) by lia. exact S2.
    - rewrite E.
      match goal with |- context [for_ (nnz / w * w) nnz ?f y1] =>
        destruct (for_inv (list T) (fun i y1 => stored zero i (pos xi) (tn x) y y1) (nnz / w * w) nnz f y1 ltac:(lia) R) as (y2 & E2 & R2) end.
      + intros i y2 Hin S. pose proof (proj1 G i ltac:(lia)).
        rewrite (addr_ok xi nnz) by (auto; lia). rewrite (rd_nthZ _ zero) by lia.
        destruct (stored_step i nnz (pos xi) (tn x) y y2 ltac:(lia) G S) as [E1 E3]. rewrite E1. eauto.
      + rewrite E2. eauto.
  Qed.

  (** ** gthr *)
  Definition zapped (zap : bool) (q : Z) (xi : index) (y y' : list T) : Prop :=
    if zap then stored zero q (pos xi) (fun _ => zero) y y' else y' = y.
  Definition gather_ok (zap : bool) (q : Z) (xi : index) (len : Z) : Prop :=
    (forall i, 0 <= i < q -> 0 <= pos xi i < len) /\ (zap = true -> good_positions q (pos xi) len).

  Lemma zapped_len : forall zap q xi y y1, zapped zap q xi y y1 -> zlen y1 = zlen y.
  Proof. intros [] q xi y y1 H; [apply H|unfold zapped in H; subst; auto]. Qed.
  Lemma zapped_later : forall zap q n xi y y1 i, 0 <= q -> q <= i < n -> gather_ok zap n xi (zlen y) ->
    zapped zap q xi y y1 -> tn y1 (pos xi i) = tn y (pos xi i).
  Proof.
    intros [] q n xi y y1 i Hq Hi [G1 G2] Z; [|unfold zapped in Z; subst; auto].
    apply (stored_later q n (pos xi) (fun _ => zero) y y1 i); auto.
  Qed.
  Lemma zapped_step : forall zap q n xi y y1, 0 <= q < n -> gather_ok zap n xi (zlen y) -> zapped zap q xi y y1 ->
    exists y2, (if zap then wr y1 (pos xi q) zero else Some y1) = Some y2 /\ zapped zap (q + 1) xi y y2.
  Proof.
    intros [] q n xi y y1 Hq [G1 G2] Z; [|exists y1; auto].
    destruct (stored_step q n (pos xi) (fun _ => zero) y y1 Hq (G2 eq_refl) Z) as [E S]. eauto.
  Qed.
  Lemma zapped_0 : forall zap xi y, zapped zap 0 xi y y.
  Proof. intros [] xi y; [apply stored_0|reflexivity]. Qed.

  Lemma gthr_ref_ok : forall zap q nnz (y x : list T) xi, 0 <= q <= nnz -> q <= zlen x -> index_len xi q ->
    gather_ok zap q xi (zlen y) -> (q = nnz \/ exists l, xi = Indexed l /\ q < zlen l /\ zn l q < 0) ->
    exists y' x', gthr_ref O zap nnz y x xi = Some ((if q <? nnz then invalid_index_value else success), (y', x')) /\
      stored zero q (fun i => i) (fun i => tn y (pos xi i)) x x' /\ zapped zap q xi y y'.
  Proof.
    intros zap q nnz y x xi Hq Hx Hi G Hn. unfold gthr_ref.
    match goal with |- context [forc 0 nnz ?f (y, x)] =>
      destruct (forc_inv (list T * list T) (status * (list T * list T))
        (fun i st => i <= q /\ stored zero i (fun i => i) (fun i => tn y (pos xi i)) x (snd st) /\ zapped zap i xi y (fst st)) (fun _ => False)
        (fun r => q < nnz /\ fst r = invalid_index_value /\
           stored zero q (fun i => i) (fun i => tn y (pos xi i)) x (snd (snd r)) /\ zapped zap q xi y (fst (snd r))) 0 nnz f (y, x) ltac:(lia))
        as [([y1 x1] & E & [(R1 & R2 & R3)|[]])|([st [y1 x1]] & E & R1 & R2 & R3 & R4)] end.
    - split; [lia|]. split; [apply stored_0|apply zapped_0].
    - intros i [y1 x1] Hin (Hiq & SX & SY). cbn [fst snd] in *. destruct (Z.eq_dec i q) as [->|Ne].
      + right; right. destruct Hn as [Hn|(l & -> & Hl & Hneg)]; [lia|]. cbn [addr]. rewrite (rd_nthZ _ 0) by lia.
        replace (zn l q <? 0) with true by lia. eexists. split; [reflexivity|]. cbn. auto with zarith.
      + left. rewrite (addr_ok xi q) by (auto; lia). pose proof (proj1 G i ltac:(lia)).
        replace (pos xi i <? 0) with false by lia. rewrite andb_false_r.
        pose proof (zapped_len _ _ _ _ _ SY).
        rewrite (rd_nthZ _ zero y1) by lia.
        rewrite (zapped_later zap i q xi y y1 i) by (auto; lia).
        destruct (stored_step i q (fun i => i) (fun i => tn y (pos xi i)) x x1 ltac:(lia) (good_id _ _ Hx) SX) as [E3 E4].
        destruct (zapped_step zap i q xi y y1 ltac:(lia) G SY) as (y2 & E5 & E6).
        cbv beta in E3. rewrite E3, E5. eexists. split; [reflexivity|]. cbn. auto with zarith.
    - rewrite E. cbn [fst snd] in *. assert (q = nnz) by lia. subst q. replace (nnz <? nnz) with false by lia. eauto.
    - rewrite E. cbn [fst snd] in *. subst st. replace (q <? nnz) with true by lia. eauto.
  Qed.

  Lemma gthr_kt_ok : forall w zap nnz (y x : list T) xi, 0 < w -> 0 <= nnz -> nnz <= zlen x -> index_len xi nnz ->
    gather_ok zap nnz xi (zlen y) -> (zap = true -> exists l, xi = Indexed l) ->
    exists y' x', gthr_kt O w zap nnz y x xi = Some (success, (y', x')) /\
      stored zero nnz (fun i => i) (fun i => tn y (pos xi i)) x x' /\ zapped zap nnz xi y y'.
  Proof.
    intros w zap nnz y x xi Hw Hn Hx Hi G Hz. unfold gthr_kt.
    destruct (divw nnz w Hn Hw) as (D1 & D2 & D3 & D4). rewrite D2.
    pose proof (good_id nnz (zlen x) Hx) as GX.
    set (nx := fun i => tn y (pos xi i)).
    match goal with |- context [for_ 0 (nnz / w) ?f (y, x)] =>
      destruct (for_inv (list T * list T) (fun t st => stored zero (t * w) (fun i => i) nx x (snd st) /\
         zapped zap (t * w) xi y (fst st)) 0 (nnz / w) f (y, x) D1) as ([y1 x1] & E & R) end.
    - split; [apply stored_0|apply zapped_0].
    - intros t [y1 x1] Ht [SX SY]. cbn [fst snd] in *. pose proof (D4 t Ht).
      pose proof (zapped_len _ _ _ _ _ SY) as SLy.
      rewrite (lane_addr_ok w xi nnz) by (auto; lia).
      rewrite vgather_ok by (intros l Hl; apply in_zrange in Hl; rewrite SLy; apply (proj1 G); nia).
      rewrite vstore_scatter by lia.
      match goal with |- context [vscatter w ?v x1 ?ks] =>
        destruct (vscatter_ok w (t * w) nnz (fun i => i) nx x x1 ks v) as (x2 & EX & SX2); auto; try nia end.
      { apply map_ext_zr. intros l Hl. apply (zapped_later zap (t * w) nnz); auto; nia. }
      rewrite EX.
      assert (YY : exists y2, (if (match xi with Indexed _ => true | Strided _ => false end) && zap
          then vscatter w (map (fun _ => zero) (zrange 0 w)) y1 (map (fun l => pos xi (t * w + l)) (zrange 0 w)) else Some y1) = Some y2 /\
          zapped zap (t * w + w) xi y y2).
      { destruct zap.
        - destruct (Hz eq_refl) as (l & ->). cbn [andb].
          destruct (vscatter_ok w (t * w) nnz (pos (Indexed l)) (fun _ => zero) y y1 (map (fun q => pos (Indexed l) (t * w + q)) (zrange 0 w))
             (map (fun _ => zero) (zrange 0 w))) as (y2 & EY & SY2); auto; try nia; [apply (proj2 G eq_refl)|eauto].
        - rewrite andb_false_r. exists y1. split; auto. }
      destruct YY as (y2 & EY & SY2). rewrite EY. exists (y2, x2). split; auto. cbn.
      replace ((t + 1) * w) with (t * w + w) by lia. auto.
    - rewrite E. destruct R as [RX RY]. cbn [fst snd] in *.
      match goal with |- context [for_ (nnz / w * w) nnz ?f (y1, x1)] =>
        destruct (for_inv (list T * list T) (fun i st => stored zero i (fun i => i) nx x (snd st) /\
           zapped zap i xi y (fst st)) (nnz / w * w) nnz f (y1, x1) ltac:(lia)) as ([y2 x2] & E2 & R2) end.
      + cbn. auto.
      + clear E RX RY. intros i [y2 x2] Hin [SX SY]. cbn [fst snd] in *.
        pose proof (proj1 G i ltac:(lia)). pose proof (zapped_len _ _ _ _ _ SY).
        rewrite (addr_ok xi nnz) by (auto; lia). rewrite (rd_nthZ _ zero y2) by lia.
        rewrite (zapped_later zap i nnz xi y y2 i) by (auto; lia).
        destruct (stored_step i nnz (fun i => i) nx x x2 ltac:(lia) GX SX) as [E4 E5].
        destruct (zapped_step zap i nnz xi y y2 ltac:(lia) G SY) as (y3 & E6 & E7).
        fold (nx i). cbv beta in E4. rewrite E4, E6. eexists. split; [reflexivity|]. cbn. auto.
      + rewrite E2. destruct R2. eauto.
  Qed.

  (** ** Dot products *)
  Definition cjb (cnj : bool) (v : T) : T := if cnj then ocj O v else v.
  Lemma dot_tail : forall lo hi (F : Z -> T) f d, 0 <= lo <= hi ->
    (forall i d, lo <= i < hi -> f i d = Some (d +! F i)) -> d = sumz O 0 lo F ->
    for_ lo hi f d = Some (sumz O 0 hi F).
  Proof.
    intros lo hi F f d Hl Hf Hd.
    destruct (for_inv T (fun i d => d = sumz O 0 i F) lo hi f d ltac:(lia) Hd) as (d' & E & R).
    - intros i d1 Hi ->. rewrite Hf by auto. eexists. split; [reflexivity|]. rewrite (sumz_last O L) by lia. reflexivity.
    - rewrite E, R. reflexivity.
  Qed.
  Lemma dot_lanes : forall w n (F : Z -> T) f, 0 < w -> 0 <= n ->
    (forall t acc, 0 <= t < n -> length acc = length (zrange 0 w) ->
       f t acc = Some (map2 (oadd O) (map (fun l => F (t * w + l)) (zrange 0 w)) acc)) ->
    exists acc, for_ 0 n f (map (fun _ => zero) (zrange 0 w)) = Some acc /\ hsum O acc = sumz O 0 (n * w) F.
  Proof.
    intros w n F f Hw Hn Hf.
    destruct (for_inv (list T) (fun t acc => length acc = length (zrange 0 w) /\ hsum O acc = sumz O 0 (t * w) F) 0 n f
      (map (fun _ => zero) (zrange 0 w)) Hn) as (acc & E & R1 & R2).
    - rewrite map_length. split; auto. unfold hsum. rewrite (suml_map O). rewrite Z.mul_0_l, sumz_nil by lia.
      apply (suml_zero O L). auto.
    - intros t acc Ht [R1 R2]. rewrite Hf by auto. eexists. split; [reflexivity|]. split.
      + rewrite map2_length; auto. rewrite map_length. auto.
      + unfold hsum in *. rewrite (suml_map2_add O L) by (rewrite map_length; auto). rewrite R2, suml_lanes.
        rewrite (sumz_split O L 0 (t * w) ((t + 1) * w)) by nia. replace ((t + 1) * w) with (t * w + w) by lia. ring.
    - eauto.
  Qed.

  Lemma dotp_ref_ok : forall nnz x indx (y : list T) cnj, 0 <= nnz -> nnz <= zlen x -> nnz <= zlen indx ->
    (forall i, 0 <= i < nnz -> 0 <= zn indx i < zlen y) ->
    dotp_ref O nnz x indx y cnj = Some (success, sumz O 0 nnz (fun i => cjb cnj (tn x i) *! tn y (zn indx i))).
  Proof.
    intros nnz x indx y cnj Hn Hx Hi G. unfold dotp_ref.
    rewrite (dot_tail 0 nnz (fun i => cjb cnj (tn x i) *! tn y (zn indx i))); auto; try lia.
    intros i d H. rewrite (rd_nthZ _ zero) by lia. rewrite (rd_nthZ _ 0) by lia. rewrite (rd_nthZ _ zero) by (apply G; lia). reflexivity.
  Qed.
  Lemma dotp_kt_ok : forall w nnz x indx (y : list T) cnj, 0 < w -> 0 <= nnz -> nnz <= zlen x -> nnz <= zlen indx ->
    (forall i, 0 <= i < nnz -> 0 <= zn indx i < zlen y) ->
    dotp_kt O w nnz x indx y cnj = Some (success, sumz O 0 nnz (fun i => cjb cnj (tn x i) *! tn y (zn indx i))).
  Proof.
    intros w nnz x indx y cnj Hw Hn Hx Hi G. unfold dotp_kt.
    destruct (divw nnz w Hn Hw) as (D1 & D2 & D3 & D4). rewrite D2.
    set (F := fun i => cjb cnj (tn x i) *! tn y (zn indx i)).
    match goal with |- context [for_ 0 (nnz / w) ?f ?s] => destruct (dot_lanes w (nnz / w) F f Hw D1) as (acc & E & R) end.
    - intros t acc Ht La. pose proof (D4 t Ht). rewrite (vload_ok O) by lia. rewrite vload_z by lia.
      rewrite vgather_ok by (intros l Hl; apply in_zrange in Hl; apply G; nia).
      replace (if cnj then map (ocj O) (map (fun t0 => tn x (t * w + t0)) (zrange 0 w)) else map (fun t0 => tn x (t * w + t0)) (zrange 0 w))
        with (map (fun l => cjb cnj (tn x (t * w + l))) (zrange 0 w)) by (destruct cnj; cbn [cjb]; [rewrite map_map|]; reflexivity).
      rewrite map2_map. reflexivity.
    - rewrite E. rewrite (dot_tail (nnz / w * w) nnz F); auto; try lia.
      intros i d H. rewrite (rd_nthZ _ zero) by lia. rewrite (rd_nthZ _ 0) by lia. rewrite (rd_nthZ _ zero) by (apply G; lia). reflexivity.
  Qed.
  Lemma dense_ref_ok : forall n x (y : list T), 0 <= n -> n <= zlen x -> n <= zlen y ->
    dense_dot_ref O n x y = Some (success, sumz O 0 n (fun i => ocj O (tn x i) *! tn y i)).
  Proof.
    intros n x y Hn Hx Hy. unfold dense_dot_ref.
    rewrite (dot_tail 0 n (fun i => ocj O (tn x i) *! tn y i)); auto; try lia.
    intros i d H. rewrite (rd_nthZ _ zero) by lia. rewrite (rd_nthZ _ zero) by lia. reflexivity.
  Qed.
  Lemma dense_kt_ok : forall w n x (y : list T), 0 < w -> 0 <= n -> n <= zlen x -> n <= zlen y ->
    dense_dot_kt O w n x y = Some (success, sumz O 0 n (fun i => ocj O (tn x i) *! tn y i)).
  Proof.
    intros w n x y Hw Hn Hx Hy. unfold dense_dot_kt.
    destruct (divw n w Hn Hw) as (D1 & D2 & D3 & D4). rewrite D2.
    set (F := fun i => ocj O (tn x i) *! tn y i).
    match goal with |- context [for_ 0 (n / w) ?f ?s] => destruct (dot_lanes w (n / w) F f Hw D1) as (acc & E & R) end.
    - intros t acc Ht La. pose proof (D4 t Ht). rewrite !(vload_ok O) by lia. rewrite map_map, map2_map. reflexivity.
    - rewrite E. rewrite (dot_tail (n / w * w) n F); auto; try lia.
      intros i d H. rewrite (rd_nthZ _ zero) by lia. rewrite (rd_nthZ _ zero) by lia. reflexivity.
  Qed.

  (** ** Dispatchers *)
  Lemma pick4_range : forall c kid k, cpu_ok c -> pick4 c kid = Some k -> 0 <= k < 4 /\ (0 <= kid -> k = kid).
  Proof.
    intros c kid k [C1 C2] E. destruct (Z_lt_le_dec kid 0) as [H|H].
    - destruct (csrmv_choice_auto (u_flags c) (u_arch c) (u_hint c) (u_upd c) (u_512 c) kid C1 C2 H) as (k' & E' & K & _).
      unfold pick4 in E. rewrite E' in E. inversion E; subst. lia.
    - unfold pick4, csrmv_choice in E.
      destruct (oracle_requested (u_flags c) (u_arch c) (u_hint c) (u_upd c) (csrmv_table (u_512 c)) None kid 0 4
        (csrmv_table_ok _ _ C1) H) as (r & E' & R1 & R2).
      rewrite E' in E. subst r.
      assert (D : kid < 4 \/ 4 <= kid) by lia. destruct D as [D|D].
      + assert (Q : kid = 0 \/ kid = 1 \/ kid = 2 \/ kid = 3) by lia.
        assert (X : Some k = k_kernel (row (csrmv_table (u_512 c)) (0 + kid))).
        { destruct (supports_ok (u_flags c) (k_flag (row (csrmv_table (u_512 c)) (0 + kid))) C1) as (b & _ & Hb).
          { apply (csrmv_table_ok _ (u_512 c) C1). unfold csrmv_table, zlen. cbn. lia. }
          destruct b.
          - apply R1. repeat split; try lia; [unfold csrmv_table, zlen; cbn; lia|]. apply Hb; auto.
          - exfalso. assert (Some k = None); [|discriminate]. apply R2. intros (_ & _ & _ & C). apply Hb in C. discriminate. }
        rewrite Z.add_0_l in X.
        destruct Q as [->|[->|[->| ->]]]; destruct (u_512 c); inversion X; subst; lia.
      + exfalso. assert (Some k = None) by (apply R2; lia). discriminate.
  Qed.
  Lemma pick4_auto : forall c kid, cpu_ok c -> kid < 0 -> pick4 c kid <> None.
  Proof.
    intros c kid [C1 C2] H. destruct (csrmv_choice_auto (u_flags c) (u_arch c) (u_hint c) (u_upd c) (u_512 c) kid C1 C2 H) as (k' & E' & _).
    unfold pick4. rewrite E'. discriminate.
  Qed.

  Lemma gthr_table_ok : forall flags build, zlen flags = isa_length -> table_ok flags (gthr_table build).
  Proof.
    intros flags build Lf. split; auto. intros k Hk. unfold gthr_table in *.
    assert (E : k = 0 \/ k = 1 \/ k = 2 \/ k = 3) by (change (0 <= k < 4) in Hk; lia).
    destruct E as [->|[->|[->| ->]]]; destruct build; vm_compute; split; split; congruence.
  Qed.
  Lemma pick_gthr_range : forall c kid k, cpu_ok c -> pick_gthr c kid = Some k -> 0 <= k < 4 /\ (0 <= kid -> k = kid).
  Proof.
    intros c kid k [C1 C2] E. unfold pick_gthr in E. pose proof (gthr_table_ok _ (u_512 c) C1) as TO.
    assert (Z4 : zlen (gthr_table (u_512 c)) = 4) by reflexivity.
    assert (KK : forall q, 0 <= q < 4 -> Some k = k_kernel (row (gthr_table (u_512 c)) q) -> k = q).
    { intros q Hq X. assert (Q : q = 0 \/ q = 1 \/ q = 2 \/ q = 3) by lia.
      destruct Q as [->|[->|[->| ->]]]; destruct (u_512 c); inversion X; subst; reflexivity. }
    destruct (Z_lt_le_dec kid 0) as [H|H].
    - destruct (oracle_scan (u_flags c) (u_arch c) (u_hint c) (u_upd c) (gthr_table (u_512 c)) None kid 0 4 TO H ltac:(lia) ltac:(lia)
        ltac:(lia) (or_introl eq_refl)) as (r & E' & R). rewrite E' in E. subst r.
      destruct R as [[_ R]|(q & Q1 & _ & Q2 & _)]; [discriminate|]. apply KK in Q2; auto. subst. lia.
    - destruct (oracle_requested (u_flags c) (u_arch c) (u_hint c) (u_upd c) (gthr_table (u_512 c)) None kid 0 4 TO H) as (r & E' & R1 & R2).
      rewrite E' in E. subst r. rewrite Z.add_0_l in *.
      assert (D : 0 <= kid < 4 /\ runs (u_flags c) (row (gthr_table (u_512 c)) kid)).
      { destruct (Z_lt_le_dec kid 4) as [D|D].
        - split; [lia|]. destruct (supports_ok (u_flags c) (k_flag (row (gthr_table (u_512 c)) kid)) C1) as (b & _ & Hb).
          { apply TO. lia. }
          destruct b; [apply Hb; auto|]. exfalso. assert (Some k = None); [|discriminate]. apply R2.
          intros (_ & _ & _ & C). apply Hb in C. discriminate.
        - exfalso. assert (Some k = None); [|discriminate]. apply R2. lia. }
      destruct D as [D1 D2]. assert (k = kid); [|lia]. apply KK; auto. apply R1. repeat split; try lia; auto.
  Qed.
  Lemma pick_gthr_auto : forall c kid, cpu_ok c -> kid < 0 -> pick_gthr c kid <> None.
  Proof.
    intros c kid [C1 C2] H. unfold pick_gthr.
    destruct (oracle_auto (u_flags c) (u_arch c) (u_hint c) (u_upd c) (gthr_table (u_512 c)) kid 0 4 (gthr_table_ok _ _ C1) H) as (k & K1 & K2 & K3 & K4 & _); try lia.
    - unfold gthr_table, zlen. cbn. lia.
    - exists 0. split; [lia|reflexivity].
    - intros k Hk' R. assert (E : k = 0 \/ k = 1 \/ k = 2 \/ k = 3) by lia.
      destruct E as [->|[->|[->| ->]]]; try discriminate; (destruct (u_512 c); [discriminate|]);
      exfalso; (destruct R as [R|R]; [discriminate R|]); change (nthZ false (u_flags c) isa_unset = true) in R; congruence.
    - rewrite K4. exact K3.
  Qed.

  (** ** The public operations *)
  Variables (w256 w512 : Z).
  Hypotheses (W1 : 0 < w256) (W2 : 0 < w512).

  Lemma axpyi_ok : forall c kid nnz a x indx y, cpu_ok c ->
    0 <= nnz -> nnz <= zlen x -> nnz <= zlen indx -> good_positions nnz (zn indx) (zlen y) ->
    exists st y', axpyi O w256 w512 c nnz a (Some x) (Some indx) (Some y) kid = Some (st, Some y') /\
      (st = success /\ stored zero nnz (zn indx) (fun i => a *! tn x i +! tn y (zn indx i)) y y' \/
       0 <= kid /\ st = invalid_kid /\ y' = y).
  Proof.
    intros c kid nnz a x indx y C Hn Hx Hi G. unfold axpyi.
    destruct (nnz =? 0) eqn:E0.
    { exists success, y. split; auto. left. split; auto. replace nnz with 0 by lia. apply stored_0. }
    replace (nnz <? 0) with false by lia.
    destruct (pick4 c kid) as [k|] eqn:Ek.
    - destruct (pick4_range c kid k C Ek) as [K _].
      assert (R : exists y', (if k =? 0 then axpyi_ref O nnz a x indx y
         else if k <=? 2 then axpyi_kt O w256 nnz a x indx y else axpyi_kt O w512 nnz a x indx y) = Some (success, y') /\
         stored zero nnz (zn indx) (fun i => a *! tn x i +! tn y (zn indx i)) y y').
      { destruct (k =? 0).
        - destruct (axpyi_ref_ok nnz nnz a x indx y) as (y' & E & S); auto; try lia. replace (nnz <? nnz) with false in E by lia. eauto.
        - destruct (k <=? 2); apply axpyi_kt_ok; auto. }
      destruct R as (y' & -> & S). exists success, y'. split; [reflexivity|]. left. auto.
    - exists invalid_kid, y. split; auto. right. repeat split; auto.
      destruct (Z_lt_le_dec kid 0); auto. exfalso. apply (pick4_auto c kid); auto.
  Qed.

  Lemma roti_ok : forall cx kid nnz x indx y c s, cpu_ok cx ->
    0 <= nnz -> nnz <= zlen x -> nnz <= zlen indx -> good_positions nnz (zn indx) (zlen y) ->
    exists st x' y', roti O w256 w512 cx nnz (Some x) (Some indx) (Some y) c s kid = Some (st, (Some x', Some y')) /\
      (st = success /\ stored zero nnz (fun i => i) (fun i => c *! tn x i +! s *! tn y (zn indx i)) x x' /\
                       stored zero nnz (zn indx) (fun i => c *! tn y (zn indx i) -! s *! tn x i) y y' \/
       0 <= kid /\ st = invalid_kid /\ x' = x /\ y' = y).
  Proof.
    intros cx kid nnz x indx y c s C Hn Hx Hi G. unfold roti.
    destruct (nnz =? 0) eqn:E0.
    { exists success, x, y. split; auto. left. split; auto. replace nnz with 0 by lia. split; apply stored_0. }
    replace (nnz <? 0) with false by lia.
    destruct (pick4 cx kid) as [k|] eqn:Ek.
    - assert (R : exists x' y', (if k =? 0 then roti_ref O nnz x indx y c s
         else if k <=? 2 then roti_kt O w256 nnz x indx y c s else roti_kt O w512 nnz x indx y c s) = Some (success, (x', y')) /\
         stored zero nnz (fun i => i) (fun i => c *! tn x i +! s *! tn y (zn indx i)) x x' /\
         stored zero nnz (zn indx) (fun i => c *! tn y (zn indx i) -! s *! tn x i) y y').
      { destruct (k =? 0).
        - destruct (roti_ref_ok c s x y indx nnz nnz) as (x' & y' & E & S); auto; try lia. replace (nnz <? nnz) with false in E by lia. eauto.
        - destruct (k <=? 2); apply roti_kt_ok; auto. }
      destruct R as (x' & y' & -> & S). exists success, x', y'. split; [reflexivity|]. left. auto.
    - exists invalid_kid, x, y. split; auto. right. repeat split; auto.
      destruct (Z_lt_le_dec kid 0); auto. exfalso. apply (pick4_auto cx kid); auto.
  Qed.

  Lemma sctr_ok : forall c kid nnz x xi y, cpu_ok c ->
    0 <= nnz -> nnz <= zlen x -> index_len xi nnz -> good_positions nnz (pos xi) (zlen y) ->
    (forall st, xi = Strided st -> 0 < st) ->
    exists st y', sctr w256 w512 c nnz (Some x) (Some xi) (Some y) kid = Some (st, Some y') /\
      (st = success /\ stored zero nnz (pos xi) (tn x) y y' \/ 0 <= kid /\ st = invalid_kid /\ y' = y).
  Proof.
    intros c kid nnz x xi y C Hn Hx Hi G Hs. unfold sctr.
    destruct (nnz =? 0) eqn:E0.
    { exists success, y. split; auto. left. split; auto. replace nnz with 0 by lia. apply stored_0. }
    replace (nnz <? 0) with false by lia.
    replace (match xi with Indexed _ => false | Strided s => s <=? 0 end) with false
      by (destruct xi; auto; pose proof (Hs _ eq_refl); lia).
    destruct (pick4 c kid) as [k|] eqn:Ek.
    - assert (R : exists y', (if k =? 0 then sctr_ref nnz x xi y
         else if k <=? 2 then sctr_kt w256 nnz x xi y else sctr_kt w512 nnz x xi y) = Some (success, y') /\
         stored zero nnz (pos xi) (tn x) y y').
      { destruct (k =? 0).
        - destruct (sctr_ref_ok nnz nnz x xi y) as (y' & E & S); auto; try lia. replace (nnz <? nnz) with false in E by lia. eauto.
        - destruct (k <=? 2); apply sctr_kt_ok; auto. }
      destruct R as (y' & -> & S). exists success, y'. split; [reflexivity|]. left. auto.
    - exists invalid_kid, y. split; auto. right. repeat split; auto.
      destruct (Z_lt_le_dec kid 0); auto. exfalso. apply (pick4_auto c kid); auto.
  Qed.

  Lemma gthr_ok : forall c kid zap nnz y x xi, cpu_ok c ->
    0 <= nnz -> nnz <= zlen x -> index_len xi nnz ->
    (forall i, 0 <= i < nnz -> 0 <= pos xi i < zlen y) ->
    (forall st, xi = Strided st -> 0 <= st /\ zap = false) ->
    (zap = true -> good_positions nnz (pos xi) (zlen y)) ->
    exists st y' x', gthr O w256 w512 c zap nnz (Some y) (Some x) (Some xi) kid = Some (st, (Some y', Some x')) /\
      (st = success /\ stored zero nnz (fun i => i) (fun i => tn y (pos xi i)) x x' /\
         (if zap then stored zero nnz (pos xi) (fun _ => zero) y y' else y' = y) \/
       0 <= kid /\ st = invalid_kid /\ y' = y /\ x' = x).
  Proof.
    intros c kid zap nnz y x xi C Hn Hx Hi G1 Hs G2. unfold gthr.
    replace (nnz <? 0) with false by lia.
    destruct (nnz =? 0) eqn:E0.
    { exists success, y, x. split; auto. left. split; auto. replace nnz with 0 by lia. split; [apply stored_0|apply (zapped_0 zap)]. }
    replace (match xi with Indexed _ => false | Strided s => s <? 0 end) with false
      by (destruct xi; auto; pose proof (Hs _ eq_refl); lia).
    destruct (pick_gthr c kid) as [k|] eqn:Ek.
    - assert (R : exists y' x', (if k =? 0 then gthr_ref O zap nnz y x xi
         else if k <=? 2 then gthr_kt O w256 zap nnz y x xi else gthr_kt O w512 zap nnz y x xi) = Some (success, (y', x')) /\
         stored zero nnz (fun i => i) (fun i => tn y (pos xi i)) x x' /\ zapped zap nnz xi y y').
      { assert (GO : gather_ok zap nnz xi (zlen y)) by (split; auto).
        assert (IX : zap = true -> exists l, xi = Indexed l).
        { intros ->. destruct xi as [l|st]; [eauto|]. destruct (Hs st eq_refl); discriminate. }
        destruct (k =? 0).
        - destruct (gthr_ref_ok zap nnz nnz y x xi) as (y' & x' & E & S); auto; try lia. replace (nnz <? nnz) with false in E by lia. eauto.
        - destruct (k <=? 2); apply gthr_kt_ok; auto. }
      destruct R as (y' & x' & -> & S1 & S2). exists success, y', x'. split; [reflexivity|]. left. auto.
    - exists invalid_kid, y, x. split; auto. right. repeat split; auto.
      destruct (Z_lt_le_dec kid 0); auto. exfalso. apply (pick_gthr_auto c kid); auto.
  Qed.

  Lemma dotp_ok : forall c kid nnz x indx y cnj, cpu_ok c ->
    0 < nnz -> nnz <= zlen x -> nnz <= zlen indx -> (forall i, 0 <= i < nnz -> 0 <= zn indx i < zlen y) ->
    dotp O w256 w512 c nnz (Some x) (Some indx) (Some y) true cnj kid =
      Some (success, Some (sumz O 0 nnz (fun i => (if cnj then ocj O (tn x i) else tn x i) *! tn y (zn indx i)))) \/
    0 <= kid /\ dotp O w256 w512 c nnz (Some x) (Some indx) (Some y) true cnj kid = Some (invalid_kid, None).
  Proof.
    intros c kid nnz x indx y cnj C Hn Hx Hi G. unfold dotp. cbn [negb]. replace (nnz <=? 0) with false by lia.
    destruct (pick4 c kid) as [k|] eqn:Ek.
    - left. destruct (k =? 0); [|destruct (k <=? 2)]; rewrite ?dotp_ref_ok, ?dotp_kt_ok by (auto; lia); reflexivity.
    - right. split; auto. destruct (Z_lt_le_dec kid 0); auto. exfalso. apply (pick4_auto c kid); auto.
  Qed.
  Lemma dense_dot_ok : forall c kid n x y, cpu_ok c -> 0 <= n -> n <= zlen x -> n <= zlen y ->
    dense_dot O w256 w512 c n x y kid = Some (success, Some (sumz O 0 n (fun i => ocj O (tn x i) *! tn y i))) \/
    0 <= kid /\ dense_dot O w256 w512 c n x y kid = Some (invalid_kid, None).
  Proof.
    intros c kid n x y C Hn Hx Hy. unfold dense_dot. destruct (pick4 c kid) as [k|] eqn:Ek.
    - left. destruct (k =? 0); [|destruct (k <=? 2)]; rewrite ?dense_ref_ok, ?dense_kt_ok by (auto; lia); reflexivity.
    - right. split; auto. destruct (Z_lt_le_dec kid 0); auto. exfalso. apply (pick4_auto c kid); auto.
  Qed.

  (** Negative index, reference kernel. *)
  Lemma axpyi_negative : forall c kid q nnz a x indx y, pick4 c kid = Some 0 ->
    0 <= q < nnz -> q <= zlen x -> q < zlen indx -> good_positions q (zn indx) (zlen y) -> zn indx q < 0 ->
    exists y', axpyi O w256 w512 c nnz a (Some x) (Some indx) (Some y) kid = Some (invalid_index_value, Some y') /\
      stored zero q (zn indx) (fun i => a *! tn x i +! tn y (zn indx i)) y y'.
  Proof.
    intros c kid q nnz a x indx y P Hq Hx Hi G N. unfold axpyi. replace (nnz =? 0) with false by lia.
    replace (nnz <? 0) with false by lia. rewrite P. cbn [Z.eqb].
    destruct (axpyi_ref_ok q nnz a x indx y) as (y' & E & S); auto; try lia. rewrite E. replace (q <? nnz) with true by lia. eauto.
  Qed.
  Lemma roti_negative : forall cx kid q nnz x indx y c s, pick4 cx kid = Some 0 ->
    0 <= q < nnz -> q <= zlen x -> q < zlen indx -> good_positions q (zn indx) (zlen y) -> zn indx q < 0 ->
    exists x' y', roti O w256 w512 cx nnz (Some x) (Some indx) (Some y) c s kid = Some (invalid_index_value, (Some x', Some y')) /\
      stored zero q (fun i => i) (fun i => c *! tn x i +! s *! tn y (zn indx i)) x x' /\
      stored zero q (zn indx) (fun i => c *! tn y (zn indx i) -! s *! tn x i) y y'.
  Proof.
    intros cx kid q nnz x indx y c s P Hq Hx Hi G N. unfold roti. replace (nnz =? 0) with false by lia.
    replace (nnz <? 0) with false by lia. rewrite P. cbn [Z.eqb].
    destruct (roti_ref_ok c s x y indx q nnz) as (x' & y' & E & S); auto; try lia. rewrite E. replace (q <? nnz) with true by lia. eauto.
  Qed.
  Lemma sctr_negative : forall c kid q nnz x indx y, pick4 c kid = Some 0 ->
    0 <= q < nnz -> q <= zlen x -> q < zlen indx -> good_positions q (zn indx) (zlen y) -> zn indx q < 0 ->
    exists y', sctr w256 w512 c nnz (Some x) (Some (Indexed indx)) (Some y) kid = Some (invalid_index_value, Some y') /\
      stored zero q (zn indx) (tn x) y y'.
  Proof.
    intros c kid q nnz x indx y P Hq Hx Hi G N. unfold sctr. replace (nnz =? 0) with false by lia.
    replace (nnz <? 0) with false by lia. rewrite P. cbn [Z.eqb].
    destruct (sctr_ref_ok q nnz x (Indexed indx) y) as (y' & E & S); auto; try (cbn; lia); [right; eauto|].
    rewrite E. replace (q <? nnz) with true by lia. eauto.
  Qed.
  Lemma gthr_negative : forall c kid zap q nnz x indx y, pick_gthr c kid = Some 0 ->
    0 <= q < nnz -> q <= zlen x -> q < zlen indx -> good_positions q (zn indx) (zlen y) -> zn indx q < 0 ->
    exists y' x', gthr O w256 w512 c zap nnz (Some y) (Some x) (Some (Indexed indx)) kid = Some (invalid_index_value, (Some y', Some x')) /\
      stored zero q (fun i => i) (fun i => tn y (zn indx i)) x x' /\
      (if zap then stored zero q (zn indx) (fun _ => zero) y y' else y' = y).
  Proof.
    intros c kid zap q nnz x indx y P Hq Hx Hi G N. unfold gthr. replace (nnz <? 0) with false by lia.
    replace (nnz =? 0) with false by lia. rewrite P. cbn [Z.eqb].
    destruct (gthr_ref_ok zap q nnz y x (Indexed indx)) as (y' & x' & E & S1 & S2); auto; try (cbn; lia); [split; [apply G|auto]|right; eauto|].
    rewrite E. replace (q <? nnz) with true by lia. exists y', x'. auto.
  Qed.
End P.
