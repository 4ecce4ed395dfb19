(** C10: the public CSR to BSR routines. *)
From Coq Require Import ZArith List Bool Lia.
From Verif Require Import Base BaseFacts UtilModel DoidModel Csr CsrFacts BsrModel BsrSpec BsrProof.
Import ListNotations.
Open Scope Z_scope.

Section B.
  Variables (w m n nnz b bd : Z) (ptr ind : list Z).
  Hypothesis (W : csr_wf m n nnz b ptr ind) (Hbd : 0 < bd) (Hm : 0 < m) (Hn : 0 < n).
  Hypothesis (B01 : b = 0 \/ b = 1) (Hw : w = 31 \/ w = 63).
  Hypothesis (Fm : m + bd - 1 <= int_max w) (Fn : n + bd - 1 <= int_max w) (Fz : b + nnz <= int_max w).
  Notation mb := (nblocks m bd).
  Notation nb := (nblocks n bd).
  Notation has := (has m b bd ptr ind).
  Notation cnt := (cnt m n b bd ptr ind).

  Lemma has_occupied : forall I J, 0 <= I < mb -> (has I J = true <-> occupied m b bd ptr ind I J).
  Proof.
    intros I J HI. pose proof (wf_ptr _ _ _ _ _ _ W) as P. rewrite (has_iff m n). split.
    - intros (k & Hk & E). destruct (row_of m nnz b ptr ltac:(lia) P k (lo_range m n nnz b bd ptr ind W Hbd Hm I k HI Hk)) as (i & Hi & IR). exists i, k. split; auto. split; [|auto].
      pose proof (block_of m n bd Hbd m i Hi) as BI. pose proof (Z.mod_pos_bound i bd Hbd) as MI. pose proof (Z.div_mod i bd ltac:(lia)) as DM.
      assert (IR' : in_row ptr b (i / bd * bd + i mod bd) k) by (replace (i / bd * bd + i mod bd) with i by lia; exact IR).
      pose proof (row_lo m n nnz b bd ptr ind W Hbd Hm (i / bd) (i mod bd) k BI MI ltac:(lia) IR') as KR. unfold lo in *.
      destruct (Z.lt_trichotomy (i / bd) I) as [L|[L|L]]; auto; exfalso.
      + assert ((i / bd + 1) * bd <= I * bd) by (apply Z.mul_le_mono_nonneg_r; lia).
        pose proof (ptr_mono m nnz b ptr P (Z.min m ((i / bd + 1) * bd)) (Z.min m (I * bd)) ltac:(lia) ltac:(lia)). lia.
      + assert ((I + 1) * bd <= i / bd * bd) by (apply Z.mul_le_mono_nonneg_r; lia). assert (0 <= (I + 1) * bd) by (apply Z.mul_nonneg_nonneg; lia).
        pose proof (ptr_mono m nnz b ptr P (Z.min m ((I + 1) * bd)) (Z.min m (i / bd * bd)) ltac:(lia) ltac:(lia)). lia.
    - intros (i & k & Hi & <- & IR & E). exists k. split; auto. pose proof (Z.mod_pos_bound i bd Hbd) as MI. pose proof (Z.div_mod i bd ltac:(lia)) as DM.
      apply (row_lo m n nnz b bd ptr ind W Hbd Hm (i / bd) (i mod bd) k HI MI); [lia|]. replace (i / bd * bd + i mod bd) with i by lia. exact IR.
  Qed.

  (** The number of occupied blocks of the first [K] block rows *)
  Lemma blocks_upto : forall (f : Z -> list Z) K, 0 <= K -> (forall I, 0 <= I < K -> NoDup (f I)) ->
    NoDup (flat_map (fun I => map (pair I) (f I)) (zrange 0 K)).
  Proof.
    intros f K HK. refine (natlike_ind (fun K => (forall I, 0 <= I < K -> NoDup (f I)) -> NoDup (flat_map (fun I => map (pair I) (f I)) (zrange 0 K))) _ _ K HK).
    - intros _. rewrite zrange_nil by lia. constructor.
    - intros x Hx IH F. replace (Z.succ x) with (x + 1) by lia. rewrite zrange_last by lia. rewrite flat_map_app. cbn. rewrite app_nil_r.
      assert (N1 : NoDup (map (pair x) (f x))). { apply FinFun.Injective_map_NoDup; [intros p q E; congruence|]. apply F. lia. }
      assert (N2 : NoDup (flat_map (fun I => map (pair I) (f I)) (zrange 0 x))) by (apply IH; intros; apply F; lia).
      assert (DJ : forall p, In p (flat_map (fun I => map (pair I) (f I)) (zrange 0 x)) -> ~ In p (map (pair x) (f x))).
      { intros p H1 H2. apply in_flat_map in H1. destruct H1 as (I & HI & H1). apply in_map_iff in H1, H2. destruct H1 as (p1 & <- & _), H2 as (p2 & E & _). apply in_zrange in HI. assert (x = I) by congruence. lia. }
      revert N2 DJ. generalize (flat_map (fun I => map (pair I) (f I)) (zrange 0 x)). intros l. induction l as [|a l IHl]; intros N2 DJ; cbn; auto.
      inversion N2; subst. constructor; [|apply IHl; auto; intros; apply DJ; now right]. rewrite in_app_iff. intros [X|X]; [auto|]. apply (DJ a); [now left|auto].
  Qed.
  Lemma zlen_blocks : forall (f : Z -> list Z) K (g : Z -> Z), 0 <= K -> (forall I, 0 <= I < K -> g (I + 1) = g I + zlen (f I)) ->
    zlen (flat_map (fun I => map (pair I) (f I)) (zrange 0 K)) = g K - g 0.
  Proof.
    intros f K g HK. refine (natlike_ind (fun K => (forall I, 0 <= I < K -> g (I + 1) = g I + zlen (f I)) -> zlen (flat_map (fun I => map (pair I) (f I)) (zrange 0 K)) = g K - g 0) _ _ K HK).
    - intros _. rewrite zrange_nil by lia. change (zlen (flat_map (fun I => map (pair I) (f I)) [])) with 0. lia.
    - intros x Hx IH F. replace (Z.succ x) with (x + 1) by lia. rewrite zrange_last by lia. rewrite flat_map_app, zlen_app, IH by (intros; apply F; lia). cbn [flat_map]. rewrite app_nil_r, zlen_map, F by lia. lia.
  Qed.

  Lemma count_ok : forall bptr bnnz, zn bptr 0 = b -> zn bptr mb = b + bnnz -> (forall I, 0 <= I < mb -> zn bptr (I + 1) = zn bptr I + cnt I) ->
    forall L, NoDup L -> (forall I J, In (I, J) L <-> 0 <= I < mb /\ occupied m b bd ptr ind I J) -> bnnz = zlen L.
  Proof.
    intros bptr bnnz E0 E1 C L ND F. set (f := fun I => filter (has I) (zrange 0 nb)).
    pose proof (nblocks_pos m n bd Hbd m Hm) as (MP & _).
    set (L' := flat_map (fun I => map (pair I) (f I)) (zrange 0 mb)).
    assert (N' : NoDup L') by (apply blocks_upto; [lia|]; intros; apply NoDup_filter, (nodup_zrange m n bd)).
    assert (Z' : zlen L' = bnnz). { unfold L'. rewrite (zlen_blocks f mb (zn bptr)); [lia|lia|]. intros I HI. rewrite C by auto. reflexivity. }
    rewrite <- Z'. assert (EQ : forall p, In p L' <-> In p L).
    { intros (I & J). rewrite F. unfold L', f. rewrite in_flat_map. split.
      - intros (I' & HI & H). apply in_zrange in HI. apply in_map_iff in H. destruct H as (J' & E & HJ). assert (I' = I /\ J' = J) as (-> & ->) by (split; congruence).
        apply filter_In in HJ. split; [lia|]. apply has_occupied; [lia|]. tauto.
      - intros (HI & H). exists I. split; [apply in_zrange; lia|]. apply in_map. apply has_occupied in H; auto. apply filter_In. split; auto. apply in_zrange.
        pose proof (has_range m n nnz b bd ptr ind W Hbd Hm I J HI H). lia. }
    unfold zlen. f_equal. apply Nat.le_antisymm; apply NoDup_incl_length; auto; intros p Hp; now apply EQ.
  Qed.

  Lemma nnz_ok : forall bptr, zlen bptr = mb + 1 ->
    exists bptr' bnnz, csr2bsr_nnz w m n (Some b) (Some ptr) (Some ind) bd (Some bptr) true = Some (success, Some bptr', Some bnnz) /\
      zlen bptr' = mb + 1 /\ ptr_ok mb bnnz b bptr' /\ 0 <= bnnz <= nnz /\
      (forall I, 0 <= I < mb -> zn bptr' (I + 1) = zn bptr' I + cnt I) /\
      (forall L, NoDup L -> (forall I J, In (I, J) L <-> 0 <= I < mb /\ occupied m b bd ptr ind I J) -> bnnz = zlen L).
  Proof.
    intros bptr LB. destruct (nnz_core_ok w m n nnz b bd ptr ind W Hbd Hm Hn B01 Hw Fm Fn Fz bptr LB) as (bp' & z & E & L1 & E0 & E1 & R & C).
    exists bp', z. unfold csr2bsr_nnz. replace ((m <? 0) || (n <? 0) || (bd <=? 0)) with false by lia. cbn [negb]. replace ((m =? 0) || (n =? 0) || (bd =? 0)) with false by lia.
    replace (negb (b =? 0) && negb (b =? 1)) with false by lia. rewrite E. split; [reflexivity|]. split; [auto|]. split; [|split; [auto|split; [auto|apply (count_ok bp'); auto]]].
    split; [auto|]. split; [lia|]. intros I HI. rewrite C by auto. unfold BsrProof.cnt. pose proof (zlen_nonneg _ (filter (has I) (zrange 0 nb))). lia.
  Qed.

  Section V.
    Context {T : Type} (zero : T) (val : list T) (row_order : bool) (bptr : list Z) (bnnz : Z).
    Hypothesis LV : zlen val = nnz.
    Hypothesis (LB : zlen bptr = mb + 1) (PB : ptr_ok mb bnnz b bptr) (CNT : forall I, 0 <= I < mb -> zn bptr (I + 1) = zn bptr I + cnt I).
    Hypothesis FIT : bnnz * bd * bd <= int_max w.

    (** Element (i, j) of the block matrix, whose padding counts as stored nowhere *)
    Definition held (i j : Z) : list T := if i <? m then ents b ptr ind val i j else [].

    Lemma fill_ok : forall (P : T -> Prop) bind bval, zlen bind = bnnz -> zlen bval = bnnz * bd * bd -> (forall x, 0 <= x < bnnz * bd * bd -> P (nthZ zero bval x)) ->
      exists bval' bind', csr2bsr w m n (Some b) row_order (Some val) (Some ptr) (Some ind) bd (Some bval) (Some bptr) (Some bind) = Some (success, Some bval', Some bind') /\
        bsr_of m n b bd ptr ind bnnz bptr bind' bval' /\
        (forall I k r c, 0 <= I < mb -> in_row bptr b I k -> 0 <= r < bd -> 0 <= c < bd ->
           let l := held (I * bd + r) ((zn bind' k - b) * bd + c) in
           let v := block_elt zero row_order bd bval' k r c in l = [] /\ P v \/ l <> [] /\ v = last l zero).
    Proof.
      intros P bind bval L1 L2 HP.
      destruct (core_ok w m n nnz b bd ptr ind W Hbd Hm Hn Hw Fm Fn Fz zero val row_order bptr bnnz P LV PB LB CNT FIT bind bval (conj L1 L2) HP) as (bv & bi & E & ((A1 & A2) & A3) & S).
      exists bv, bi. unfold csr2bsr. replace ((m <? 0) || (n <? 0)) with false by lia. replace ((m =? 0) || (n =? 0)) with false by lia. replace (bd <=? 0) with false by lia.
      replace (negb (b =? 0) && negb (b =? 1)) with false by lia. rewrite E. split; [reflexivity|]. pose proof (nblocks_pos m n bd Hbd m Hm) as (MP & _). pose proof (nblocks_pos m n bd Hbd n Hn) as (NP & _).
      assert (Z0 : 0 <= bnnz) by (rewrite <- L1; apply zlen_nonneg).
      split; [|].
      - constructor; auto.
        + constructor; auto; try lia. { split; lia. }
          intros k Hk. destruct (row_of mb bnnz b bptr ltac:(lia) PB k Hk) as (I & HI & IR). unfold in_row in IR.
          destruct (A3 I HI) as (X & _). destruct (X k) as (H & _); [unfold bp; lia|]. apply (has_range m n nnz b bd ptr ind W Hbd Hm I) in H; auto. lia.
        + intros I k k' HI IR IR' Hk. apply (S I HI); unfold bp; unfold in_row in *; lia.
        + intros I J HI. rewrite <- has_occupied by auto. destruct (A3 I HI) as (X & _ & Y). split.
          * intros (k & IR & <-). apply (X k). unfold bp; unfold in_row in *; lia.
          * intros H. destruct (Y J H) as (k & Hk & <-). exists k. split; auto.
      - intros I k r c HI IR Hr Hc. cbv zeta. set (l := held (I * bd + r) ((zn bi k - b) * bd + c)). set (v := block_elt zero row_order bd bv k r c). destruct (A3 I HI) as (X & _). destruct (X k) as (_ & G); [unfold bp; unfold in_row in *; lia|]. specialize (G r c Hr Hc).
        assert (EL : ents_at m b ptr ind val (I * bd + r) ((zn bi k - b) * bd + c) nnz = l).
        { unfold l, held. destruct (I * bd + r <? m) eqn:Em.
          - assert (0 <= I * bd) by (apply Z.mul_nonneg_nonneg; lia). rewrite (ents_end m n b bd ptr ind zero val bptr P CNT); auto; [lia|].
            pose proof (ptr_range m nnz b ptr (wf_ptr _ _ _ _ _ _ W) (I * bd + r + 1) ltac:(lia)). lia.
          - unfold ents_at. now rewrite Em. }
        rewrite EL in G. assert (EV : nthZ zero bv (pos bd row_order k r c) = v) by (unfold v, block_elt, pos, cell; f_equal; destruct row_order; lia). rewrite EV in G.
        unfold good in G. destruct l; [left|right]; split; auto; discriminate.
    Qed.

    (** With a zeroed buffer *)
    Lemma get_ok : forall bind bval, bsr_of m n b bd ptr ind bnnz bptr bind bval ->
      (forall I k r c, 0 <= I < mb -> in_row bptr b I k -> 0 <= r < bd -> 0 <= c < bd ->
           let l := held (I * bd + r) ((zn bind k - b) * bd + c) in
           let v := block_elt zero row_order bd bval k r c in l = [] /\ zero = v \/ l <> [] /\ v = last l zero) ->
      forall i j, 0 <= i < mb * bd -> 0 <= j < nb * bd -> bsr_get zero row_order b bd bptr bind bval i j = last (held i j) zero.
    Proof.
      intros bind bval BO V i j Hi Hj. unfold bsr_get. pose proof (Z.mod_pos_bound i bd Hbd) as MI. pose proof (Z.div_mod i bd ltac:(lia)) as DI. pose proof (Z.mod_pos_bound j bd Hbd) as MJ. pose proof (Z.div_mod j bd ltac:(lia)) as DJ.
      assert (HI : 0 <= i / bd < mb) by (split; [apply Z.div_pos; lia|apply Z.div_lt_upper_bound; lia]).
      destruct (find _ _) as [k|] eqn:E.
      - apply find_some in E. destruct E as (E1 & E2). apply in_zrange in E1. specialize (V (i / bd) k (i mod bd) (j mod bd) HI ltac:(unfold in_row; lia) MI MJ). cbv zeta in V.
        replace (i / bd * bd + i mod bd) with i in V by lia. replace ((zn bind k - b) * bd + j mod bd) with j in V by (replace (zn bind k - b) with (j / bd) by lia; lia).
        destruct V as [(V1 & <-) | (_ & V2)]; [now rewrite V1|exact V2].
      - assert (N : held i j = []); [|now rewrite N]. unfold held. destruct (i <? m) eqn:Em; [|reflexivity]. unfold ents.
        assert (NO : ~ occupied m b bd ptr ind (i / bd) (j / bd)).
        { intros O. apply (bo_blocks _ _ _ _ _ _ _ _ _ _ BO) in O; auto. destruct O as (k & IR & EJ). apply find_none with (x := k) in E; [lia|]. apply in_zrange. unfold in_row in IR. lia. }
        match goal with |- flat_map ?f ?l = [] => assert (Z : forall l', (forall k, In k l' -> f k = []) -> flat_map f l' = []) end.
        { induction l' as [|x l' IH]; intros H; cbn; [reflexivity|]. rewrite H by now left. cbn. apply IH. intros. apply H. now right. }
        apply Z. intros k Hk. apply in_zrange in Hk. destruct (zn ind k =? j + b) eqn:EK; [|reflexivity]. exfalso. apply NO. exists i, k. split; [lia|]. split; auto. split; [unfold in_row; lia|]. f_equal. lia.
    Qed.
  End V.
End B.
