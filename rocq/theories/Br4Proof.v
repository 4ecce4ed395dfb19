(** The 4-row interleaved copy holds the user's matrix, and its product kernel computes
    the same vector. *)
From Coq Require Import ZArith List Bool Lia ZifyBool Ring.
From Verif Require Import Base BaseFacts Algebra Vec DoidModel Csr CsrFacts EllSpec DiaSpec MvModel MvSpec MvFacts MvProof MvVecProof FmtMvModel FmtMvSpec FmtMvProof Br4Model.
Import ListNotations.
Open Scope Z_scope.

Section Sizes.
  Variables (m n nnz b : Z) (ptr ind : list Z).
  Hypothesis W : csr_wf m n nnz b ptr ind.

  Definition len (i : Z) : Z := zn ptr (i + 1) - zn ptr i.
  Definition wid (i : Z) : Z :=
    if i <? m / 4 * 4 then let q := i / 4 * 4 in Z.max (Z.max (len q) (len (q + 1))) (Z.max (len (q + 2)) (len (q + 3))) else len i.
  Definition off (i : Z) : Z := sumz Zops 0 i wid.

  Lemma m4 : m / 4 * 4 <= m < m / 4 * 4 + 4.
  Proof. pose proof (Z.div_mod m 4 ltac:(lia)). pose proof (Z.mod_pos_bound m 4 ltac:(lia)). lia. Qed.
  Lemma len_nonneg : forall i, 0 <= i < m -> 0 <= len i.
  Proof. intros i Hi. destruct (row_bounds _ _ _ _ _ _ i W Hi) as (? & ? & ? & ? & ?). unfold len. lia. Qed.
  Lemma wid_block : forall q k, 0 <= q < m / 4 -> 0 <= k < 4 -> wid (4 * q + k) = wid (4 * q).
  Proof.
    intros q k Hq Hk. unfold wid. replace (4 * q + k <? m / 4 * 4) with true by lia. replace (4 * q <? m / 4 * 4) with true by lia.
    replace ((4 * q + k) / 4) with q by (rewrite Z.mul_comm, Z.add_comm, Z.div_add by lia; rewrite Z.div_small by lia; lia).
    replace (4 * q / 4) with q by (rewrite Z.mul_comm, Z.div_mul by lia; lia). reflexivity.
  Qed.
  Lemma wid_4 : forall q, 0 <= q < m / 4 -> wid (4 * q) = Z.max (Z.max (len (4 * q)) (len (4 * q + 1))) (Z.max (len (4 * q + 2)) (len (4 * q + 3))).
  Proof.
    intros q Hq. unfold wid. replace (4 * q <? m / 4 * 4) with true by lia. replace (4 * q / 4 * 4) with (4 * q); [reflexivity|].
    rewrite (Z.mul_comm 4 q), Z.div_mul by lia. lia.
  Qed.
  Lemma wid_ge : forall i, 0 <= i < m -> len i <= wid i.
  Proof.
    intros i Hi. pose proof m4. destruct (Z.ltb_spec i (m / 4 * 4)) as [H1|H1].
    - pose proof (Z.div_mod i 4 ltac:(lia)) as D. pose proof (Z.mod_pos_bound i 4 ltac:(lia)) as B. set (q := i / 4) in *. set (k := i mod 4) in *.
      assert (Hq : 0 <= q < m / 4) by (unfold q in *; lia).
      rewrite D, wid_block, wid_4 by lia. clear - B. assert (k = 0 \/ k = 1 \/ k = 2 \/ k = 3) as [-> | [-> | [-> | ->]]] by lia; rewrite ?Z.add_0_r; lia.
    - unfold wid. replace (i <? m / 4 * 4) with false by lia. lia.
  Qed.
  Lemma wid_tail : forall i, m / 4 * 4 <= i -> wid i = len i.
  Proof. intros i Hi. unfold wid. replace (i <? m / 4 * 4) with false by lia. reflexivity. Qed.
  Lemma wid_nonneg : forall i, 0 <= i < m -> 0 <= wid i.
  Proof. intros i Hi. pose proof (len_nonneg i Hi). pose proof (wid_ge i Hi). lia. Qed.
  Lemma off_0 : off 0 = 0.
  Proof. reflexivity. Qed.
  Lemma off_S : forall i, 0 <= i -> off (i + 1) = off i + wid i.
  Proof. intros i Hi. unfold off. rewrite (sumz_last Zops Zlaws) by lia. reflexivity. Qed.
  Lemma off_mono : forall i j, 0 <= i <= j -> j <= m -> off i <= off j.
  Proof.
    intros i j Hi Hj. replace j with (i + Z.of_nat (Z.to_nat (j - i))) by lia. assert (Hk : (Z.to_nat (j - i) <= Z.to_nat (m - i))%nat) by lia. revert Hk.
    generalize (Z.to_nat (j - i)). intros k. induction k as [|k IH]; intros Hk; [rewrite Z.add_0_r; lia|].
    replace (i + Z.of_nat (S k)) with (i + Z.of_nat k + 1) by lia. rewrite off_S by lia. pose proof (wid_nonneg (i + Z.of_nat k) ltac:(lia)). specialize (IH ltac:(lia)). lia.
  Qed.
  Lemma off_nonneg : forall i, 0 <= i <= m -> 0 <= off i.
  Proof. intros i Hi. pose proof (off_mono 0 i ltac:(lia) ltac:(lia)). rewrite off_0 in H. lia. Qed.
  Lemma off_inj : forall i i' j j', 0 <= i < m -> 0 <= i' < m -> 0 <= j < wid i -> 0 <= j' < wid i' -> off i + j = off i' + j' -> i = i' /\ j = j'.
  Proof.
    intros i i' j j' Hi Hi' Hj Hj' E. destruct (Z.lt_trichotomy i i') as [C | [C | C]].
    - pose proof (off_mono (i + 1) i' ltac:(lia) ltac:(lia)) as Q. rewrite off_S in Q by lia. lia.
    - subst. lia.
    - pose proof (off_mono (i' + 1) i ltac:(lia) ltac:(lia)) as Q. rewrite off_S in Q by lia. lia.
  Qed.
  Lemma off_block : forall q k, 0 <= q < m / 4 -> 0 <= k <= 4 -> off (4 * q + k) = off (4 * q) + k * wid (4 * q).
  Proof.
    intros q k Hq Hk.
    assert (S : forall k, 0 <= k < 4 -> off (4 * q + (k + 1)) = off (4 * q + k) + wid (4 * q)).
    { intros k' Hk'. rewrite Z.add_assoc, off_S by lia. rewrite wid_block by lia. reflexivity. }
    assert (S0 : off (4 * q + 0) = off (4 * q)) by (f_equal; lia).
    pose proof (S 0 ltac:(lia)) as A0. pose proof (S 1 ltac:(lia)) as A1. pose proof (S 2 ltac:(lia)) as A2. pose proof (S 3 ltac:(lia)) as A3.
    change (0 + 1) with 1 in A0. change (1 + 1) with 2 in A1. change (2 + 1) with 3 in A2. change (3 + 1) with 4 in A3. clear S.
    assert (k = 0 \/ k = 1 \/ k = 2 \/ k = 3 \/ k = 4) as [-> | [-> | [-> | [-> | ->]]]] by lia; lia.
  Qed.

  Definition sized (e : Z) (st : list Z * list Z * Z) : Prop :=
    let '(rp, bp, tnnz) := st in
    zlen rp = m /\ zlen bp = m + 1 /\ tnnz = off e /\ (forall i, 0 <= i < e -> zn rp i = wid i) /\ (forall i, 0 <= i <= e -> zn bp i = b + off i).

  Lemma sizes_ok : forall bp0, zlen bp0 = m + 1 -> exists rp bp, br4_sizes m b ptr bp0 = Some (rp, bp, off m) /\ sized m (rp, bp, off m).
  Proof.
    intros bp0 Lb. pose proof (wf_m _ _ _ _ _ _ W) as Hm. pose proof m4 as M4. assert (Hq : 0 <= m / 4) by (apply Z.div_pos; lia).
    assert (Lp : zlen ptr = m + 1) by (apply (wf_len _ _ _ _ _ _ W)).
    unfold br4_sizes. rewrite wr_upd by lia.
    match goal with |- context [for_ 0 (m / 4) ?f ?s] => destruct (for_inv _ (fun q st => sized (4 * q) st) 0 (m / 4) f s Hq) as (st & E & R) end.
    - cbn [sized]. rewrite zlen_upd, zlen_zrep by lia. split; [reflexivity|]. split; [exact Lb|]. split; [reflexivity|]. split; [intros; lia|].
      intros i Hi. assert (i = 0) as -> by lia. rewrite nthZ_upd_same by lia. rewrite off_0. lia.
    - intros q st Hq' P. destruct st as [[rp bp] tn]. destruct P as (P1 & P2 & P3 & P4 & P5).
      rewrite !(rd_nthZ _ 0) by lia.
      assert (Ew : Z.max (Z.max (zn ptr (4 * q + 1) - zn ptr (4 * q)) (zn ptr (4 * q + 2) - zn ptr (4 * q + 1))) (Z.max (zn ptr (4 * q + 3) - zn ptr (4 * q + 2)) (zn ptr (4 * q + 4) - zn ptr (4 * q + 3))) = wid (4 * q)).
      { rewrite wid_4 by lia. unfold len. replace (4 * q + 1 + 1) with (4 * q + 2) by lia. replace (4 * q + 2 + 1) with (4 * q + 3) by lia. replace (4 * q + 3 + 1) with (4 * q + 4) by lia. reflexivity. }
      cbv zeta. rewrite Ew.
      match goal with |- context [for_ 0 4 ?f ?s] => destruct (for_inv _ (fun k (st : list Z * list Z) => let '(rp, bp) := st in zlen rp = m /\ zlen bp = m + 1 /\ (forall i, 0 <= i < 4 * q + k -> zn rp i = wid i) /\ (forall i, 0 <= i <= 4 * q + k -> zn bp i = b + off i)) 0 4 f s ltac:(lia)) as ([rp1 bp1] & E1 & R1) end.
      + split; [auto|]. split; [auto|]. split; intros i Hi; [apply P4|apply P5]; lia.
      + intros k [rp1 bp1] Hk (Q1 & Q2 & Q3 & Q4). rewrite wr_upd by lia. rewrite (rd_nthZ _ 0) by lia. rewrite wr_upd by lia. eexists. split; [reflexivity|].
        cbv beta iota. rewrite !zlen_upd. split; [auto|]. split; [auto|]. split; intros i Hi; rewrite nthZ_upd by lia.
        * destruct (Z.eqb_spec i (4 * q + k)) as [->|]; [symmetry; apply wid_block; lia|apply Q3; lia].
        * destruct (Z.eqb_spec i (4 * q + k + 1)) as [->|]; [|apply Q4; lia]. rewrite Q4 by lia. rewrite off_S by lia. rewrite wid_block by lia. lia.
      + rewrite E1. eexists. split; [reflexivity|]. destruct R1 as (Q1 & Q2 & Q3 & Q4). cbn [sized]. replace (4 * (q + 1)) with (4 * q + 4) by lia.
        split; [auto|]. split; [auto|]. split; [rewrite P3, off_block by lia; lia|]. auto.
    - rewrite E. destruct st as [[rp bp] tn]. replace (4 * (m / 4)) with (m / 4 * 4) in R by lia.
      match goal with |- context [for_ (m / 4 * 4) m ?f ?s] => destruct (for_inv _ (fun e st => sized e st) (m / 4 * 4) m f s ltac:(lia) R) as (st & E2 & R2) end.
      + intros j st Hj P. destruct st as [[rp1 bp1] tn1]. destruct P as (P1 & P2 & P3 & P4 & P5).
        rewrite !(rd_nthZ _ 0) by lia. rewrite wr_upd by lia. rewrite wr_upd by lia. eexists. split; [reflexivity|]. cbn [sized].
        rewrite !zlen_upd. assert (Ew : zn ptr (j + 1) - zn ptr j = wid j) by (rewrite wid_tail by lia; reflexivity). rewrite Ew.
        split; [auto|]. split; [auto|]. split; [rewrite off_S by lia; lia|]. split; intros i Hi; rewrite nthZ_upd by lia.
        * destruct (Z.eqb_spec i j) as [->|]; [reflexivity|apply P4; lia].
        * destruct (Z.eqb_spec i (j + 1)) as [->|]; [|apply P5; lia]. rewrite P5 by lia. rewrite off_S by lia. lia.
      + destruct st as [[rp1 bp1] tn1]. exists rp1, bp1. pose proof R2 as (_ & _ & -> & _ & _). split; [exact E2|exact R2].
  Qed.
End Sizes.

Section Fill.
  Context {T : Type} (O : ops T) (L : laws O).
  Local Notation zero := (o0 O).
  Local Notation one := (o1 O).
  Local Notation tn := (nthZ (o0 O)).
  Local Infix "+!" := (oadd O) (at level 50, left associativity).
  Local Infix "*!" := (omul O) (at level 40, left associativity).
  Local Notation "a ==! b" := (oeqb O a b) (at level 70).
  Let rth := l_ring L.
  Add Ring Tring_br4 : rth.

  Variables (m n nnz b : Z) (ptr ind : list Z) (val : list T).
  Hypothesis W : csr_wf m n nnz b ptr ind.
  Hypothesis Lv : zlen val = nnz.
  Hypothesis Hn : 0 < n.
  Local Notation len := (len ptr).
  Local Notation wid := (wid m ptr).
  Local Notation off := (off m ptr).

  (** Padding is harmless: zero-based, or no padded row comes before the first entry *)
  Definition pad_ok : Prop := b = 0 \/ forall i, 0 <= i < m -> (forall i', 0 <= i' <= i -> len i' = 0) -> wid i = 0.
  Hypothesis Hpad : pad_ok.

  (** What slot [j] of row [i] must hold *)
  Definition slot (i j c : Z) (v : T) : Prop :=
    if j <? len i then c = zn ind (zn ptr i - b + j) /\ v = tn val (zn ptr i - b + j) else 0 <= c - b < n /\ v = zero.

  Definition last_ok (i j c : Z) : Prop := 0 <= c - b < n \/ c = 0 /\ (forall i', 0 <= i' < i -> len i' = 0) /\ (0 < j -> len i = 0).
  Definition filled (i j : Z) (st : list Z * list T * Z * Z) : Prop :=
    let '(ind4, val4, tc, last) := st in
    zlen ind4 = off m /\ zlen val4 = off m /\ tc = off i + j /\ last_ok i j last /\
    forall i' j', 0 <= i' < m -> 0 <= j' < wid i' -> off i' + j' < tc -> slot i' j' (zn ind4 (off i' + j')) (tn val4 (off i' + j')).

  Lemma slot_in : forall i j, 0 <= i < m -> 0 <= j < wid i -> 0 <= off i + j < off m.
  Proof.
    intros i j Hi Hj. pose proof (off_nonneg m n nnz b ptr ind W i ltac:(lia)). pose proof (off_mono m n nnz b ptr ind W (i + 1) m ltac:(lia) ltac:(lia)) as Q.
    rewrite off_S in Q by lia. lia.
  Qed.

  Lemma fill_step : forall i j ind4 val4 last c v last', 0 <= i < m -> 0 <= j < wid i -> filled i j (ind4, val4, off i + j, last) ->
    slot i j c v -> last_ok i (j + 1) last' ->
    filled i (j + 1) (upd ind4 (off i + j) c, upd val4 (off i + j) v, off i + j + 1, last').
  Proof.
    intros i j ind4 val4 last c v last' Hi Hj (F1 & F2 & F3 & F4 & F5) S Lo. pose proof (slot_in i j Hi Hj) as In0.
    cbn [filled]. rewrite !zlen_upd. split; [auto|]. split; [auto|]. split; [lia|]. split; [exact Lo|].
    intros i' j' Hi' Hj' Lt. pose proof (slot_in i' j' Hi' Hj') as In1. rewrite !nthZ_upd by lia. destruct (Z.eqb_spec (off i' + j') (off i + j)) as [E|E].
    - destruct (off_inj m n nnz b ptr ind W i' i j' j Hi' Hi Hj' Hj E) as (-> & ->). exact S.
    - apply F5; auto. lia.
  Qed.

  Lemma fill_ok : forall rp ind0 val0, zlen rp = m -> (forall i, 0 <= i < m -> zn rp i = wid i) -> zlen ind0 = off m -> zlen val0 = off m ->
    exists ind4 val4 last, br4_fill O m b ptr ind val rp ind0 val0 = Some (ind4, val4, off m, last) /\ zlen ind4 = off m /\ zlen val4 = off m /\
      forall i j, 0 <= i < m -> 0 <= j < wid i -> slot i j (zn ind4 (off i + j)) (tn val4 (off i + j)).
  Proof.
    intros rp ind0 val0 Lr Hr Li0 Lv0. pose proof (wf_m _ _ _ _ _ _ W) as Hm. destruct (wf_len _ _ _ _ _ _ W) as (Lp & Li).
    unfold br4_fill.
    match goal with |- context [for_ 0 m ?f ?s] => destruct (for_inv _ (fun i st => filled i 0 st) 0 m f s Hm) as (st & E & R) end.
    - cbn [filled]. split; [auto|]. split; [auto|]. split; [reflexivity|]. split; [right; split; [reflexivity|]; split; intros; lia|].
      intros i j Hi Hj Lt. pose proof (slot_in i j Hi Hj). lia.
    - intros i st Hi P. destruct (row_bounds _ _ _ _ _ _ i W Hi) as (B1 & B2 & B3 & B4 & B5). pose proof (len_nonneg m n nnz b ptr ind W i Hi) as L0. pose proof (wid_ge m ptr i Hi) as Wg.
      rewrite !(rd_nthZ _ 0) by lia. fold (len i).
      match goal with |- context [for_ 0 (len i) ?f ?s] => destruct (for_inv _ (fun j st => filled i j st) 0 (len i) f s L0 P) as (st1 & E1 & R1) end.
      + intros j st1 Hj Q. destruct st1 as [[[i4 v4] tc] la]. pose proof Q as (Q1 & Q2 & -> & Q4 & Q5). pose proof (slot_in i j Hi ltac:(lia)) as In0.
        assert (Hk : 0 <= zn ptr i - b + j < nnz) by (unfold Br4Proof.len in Hj; lia).
        rewrite (rd_nthZ _ zero) by lia. rewrite wr_upd by lia. rewrite (rd_nthZ _ 0) by lia. rewrite wr_upd by lia. eexists. split; [reflexivity|].
        apply (fill_step i j i4 v4 la); auto; try lia.
        * unfold slot. replace (j <? len i) with true by lia. auto.
        * left. pose proof (wf_ind _ _ _ _ _ _ W _ Hk). lia.
      + rewrite E1. rewrite Hr by lia.
        assert (Fin : exists st', (if len i <? wid i then for_ (len i) (wid i) (fun (_ : Z) (st : list Z * list T * Z * Z) => let '(ind5, val5, tc, last) := st in
            let* ind6 := wr ind5 tc last in let* val6 := wr val5 tc zero in Some (ind6, val6, tc + 1, last)) st1 else Some st1) = Some st' /\ filled i (wid i) st').
        { destruct (Z.ltb_spec (len i) (wid i)) as [Lt|Ge].
          - match goal with |- context [for_ (len i) (wid i) ?f ?s] => destruct (for_inv _ (fun j st => filled i j st) (len i) (wid i) f s ltac:(lia) R1) as (st2 & E2 & R2) end; [|eauto].
            intros j st2 Hj Q. destruct st2 as [[[i4 v4] tc] la]. pose proof Q as (Q1 & Q2 & -> & Q4 & Q5). pose proof (slot_in i j Hi ltac:(lia)) as In0.
            rewrite wr_upd by lia. rewrite wr_upd by lia. eexists. split; [reflexivity|].
            assert (Lok : 0 <= la - b < n).
            { destruct Q4 as [Q4 | (-> & Q4 & Q4')]; [exact Q4|]. destruct Hpad as [-> | Hp]; [lia|exfalso].
              assert (Z0 : len i = 0) by (destruct (Z.eq_dec (len i) 0); [auto|apply Q4'; lia]).
              assert (wid i = 0); [|lia]. apply Hp; [exact Hi|]. intros i' Hi'. destruct (Z.eq_dec i' i) as [->|]; [exact Z0|apply Q4; lia]. }
            apply (fill_step i j i4 v4 la); auto; try lia.
            + unfold slot. replace (j <? len i) with false by lia. auto.
            + left. exact Lok.
          - exists st1. split; [reflexivity|]. replace (wid i) with (len i) by lia. exact R1. }
        destruct Fin as (st' & Ef & Rf). exists st'. split; [exact Ef|].
        destruct st' as [[[i4 v4] tc] la]. destruct Rf as (Q1 & Q2 & Q3 & Q4 & Q5). cbn [filled]. rewrite off_S by lia.
        split; [auto|]. split; [auto|]. split; [lia|]. split; [|exact Q5].
        destruct Q4 as [Q4 | (-> & Q4 & Q4')]; [left; exact Q4|]. right. split; [reflexivity|]. split; [|intros; lia].
        intros i' Hi'. destruct (Z.eq_dec i' i) as [->|]; [|apply Q4; lia]. destruct (Z.eq_dec (wid i) 0); [lia|apply Q4'; lia].
    - destruct st as [[[i4 v4] tc] la]. destruct R as (Q1 & Q2 & -> & Q4 & Q5). exists i4, v4, la. rewrite Z.add_0_r in *. split; [exact E|]. split; [auto|]. split; [auto|].
      intros i j Hi Hj. apply Q5; auto. pose proof (slot_in i j Hi Hj). lia.
  Qed.

  (** ** Interleaving *)
  Lemma block_ok : forall X (d : X) w tc a, 0 <= w -> 0 <= tc -> tc + w * 4 <= zlen a ->
    exists a', br4_block d w tc a = Some a' /\ zlen a' = zlen a /\
      (forall ii jj, 0 <= ii < w -> 0 <= jj < 4 -> nthZ d a' (tc + (jj + ii * 4)) = nthZ d a (tc + (ii + jj * w))) /\
      (forall p, 0 <= p < zlen a -> p < tc \/ tc + w * 4 <= p -> nthZ d a' p = nthZ d a p).
  Proof.
    clear. intros X d w tc a Hw Ht Ha. unfold br4_block.
    set (at_ := fun e => nthZ d a (tc + (e / 4 + e mod 4 * w))).
    assert (Dm : forall ii jj, 0 <= jj < 4 -> (jj + ii * 4) / 4 = ii /\ (jj + ii * 4) mod 4 = jj).
    { intros ii jj Hj. rewrite Z.div_add, Z.mod_add, Z.div_small, Z.mod_small by lia. lia. }
    match goal with |- context [for_ 0 w ?f ?s] => destruct (for_inv _ (fun ii (buf : list X) => zlen buf = w * 4 /\ forall e, 0 <= e < ii * 4 -> nthZ d buf e = at_ e) 0 w f s Hw) as (buf & E & L1 & R1) end.
    - split; [rewrite zlen_zrep; lia|]. intros; lia.
    - intros ii buf Hi (B1 & B2).
      match goal with |- context [for_ 0 4 ?f ?s] => destruct (for_inv _ (fun jj (buf : list X) => zlen buf = w * 4 /\ forall e, 0 <= e < jj + ii * 4 -> nthZ d buf e = at_ e) 0 4 f s ltac:(lia)) as (buf1 & E1 & L1 & R1) end.
      + split; [auto|]. intros e He. apply B2. lia.
      + intros jj buf1 Hj (C1 & C2). assert (0 <= jj * w <= 3 * w) by nia. rewrite (rd_nthZ _ d) by lia. rewrite wr_upd by lia. eexists. split; [reflexivity|]. rewrite zlen_upd. split; [auto|].
        intros e He. rewrite nthZ_upd by lia. destruct (Z.eqb_spec e (jj + ii * 4)) as [->|]; [|apply C2; lia]. unfold at_. destruct (Dm ii jj Hj) as (-> & ->). reflexivity.
      + exists buf1. split; [exact E1|]. split; [auto|]. intros e He. apply R1. lia.
    - rewrite E.
      match goal with |- context [for_ 0 (w * 4) ?f ?s] => destruct (for_inv _ (fun k (a' : list X) => zlen a' = zlen a /\ forall p, 0 <= p < zlen a -> nthZ d a' p = if (tc <=? p) && (p <? tc + k) then at_ (p - tc) else nthZ d a p) 0 (w * 4) f s ltac:(lia)) as (a' & E2 & L2 & R2) end.
      + split; [auto|]. intros p Hp. replace ((tc <=? p) && (p <? tc + 0)) with false by lia. reflexivity.
      + intros k a1 Hk (A1 & A2). rewrite (rd_nthZ _ d) by lia. rewrite wr_upd by lia. eexists. split; [reflexivity|]. rewrite zlen_upd. split; [auto|].
        intros p Hp. rewrite nthZ_upd by lia. destruct (Z.eqb_spec p (tc + k)) as [->|].
        * replace ((tc <=? tc + k) && (tc + k <? tc + (k + 1))) with true by lia. replace (tc + k - tc) with k by lia. apply R1. lia.
        * rewrite A2 by lia. replace (p <? tc + (k + 1)) with (p <? tc + k) by lia. reflexivity.
      + exists a'. split; [exact E2|]. split; [auto|]. split.
        * intros ii jj Hi Hj. rewrite R2 by lia. replace ((tc <=? tc + (jj + ii * 4)) && (tc + (jj + ii * 4) <? tc + w * 4)) with true by lia.
          replace (tc + (jj + ii * 4) - tc) with (jj + ii * 4) by lia. unfold at_. destruct (Dm ii jj Hj) as (-> & ->). reflexivity.
        * intros p Hp Ho. rewrite R2 by lia. replace ((tc <=? p) && (p <? tc + w * 4)) with false by lia. reflexivity.
  Qed.

  (** After [q] blocks *)
  Definition woven {X} (d : X) (q : Z) (a a' : list X) : Prop :=
    zlen a' = zlen a /\
    (forall g ii jj, 0 <= g < q -> 0 <= jj < 4 -> 0 <= ii < wid (4 * g) -> nthZ d a' (off (4 * g) + (jj + ii * 4)) = nthZ d a (off (4 * g + jj) + ii)) /\
    (forall p, off (4 * q) <= p < zlen a -> nthZ d a' p = nthZ d a p).

  Lemma woven_step : forall X (d : X) q a a1, zlen a = off m -> 0 <= q < m / 4 -> woven d q a a1 ->
    exists a2, br4_block d (wid (4 * q)) (off (4 * q)) a1 = Some a2 /\ woven d (q + 1) a a2.
  Proof.
    intros X d q a a1 La Hq (V1 & V2 & V3). pose proof (m4 m) as M4.
    pose proof (off_nonneg m n nnz b ptr ind W (4 * q) ltac:(lia)) as O0. pose proof (wid_nonneg m n nnz b ptr ind W (4 * q) ltac:(lia)) as W0.
    pose proof (off_block m ptr q 4 Hq ltac:(lia)) as OB. pose proof (off_mono m n nnz b ptr ind W (4 * q + 4) m ltac:(lia) ltac:(lia)) as OM.
    destruct (block_ok X d (wid (4 * q)) (off (4 * q)) a1 W0 O0 ltac:(lia)) as (a2 & E & L2 & I2 & U2). exists a2. split; [exact E|].
    split; [lia|]. split.
    - intros g ii jj Hg Hj Hi. destruct (Z.eq_dec g q) as [->|Ng].
      + rewrite I2 by lia. assert (0 <= jj * wid (4 * q) <= 3 * wid (4 * q)) by nia. rewrite V3 by lia. rewrite off_block by lia. f_equal. lia.
      + pose proof (wid_nonneg m n nnz b ptr ind W (4 * g) ltac:(lia)) as Wg. pose proof (off_nonneg m n nnz b ptr ind W (4 * g) ltac:(lia)) as Og.
        pose proof (off_block m ptr g 4 ltac:(lia) ltac:(lia)) as OBg. pose proof (off_mono m n nnz b ptr ind W (4 * g + 4) (4 * q) ltac:(lia) ltac:(lia)) as OMg.
        rewrite U2 by lia. apply V2; auto; lia.
    - intros p Hp. replace (4 * (q + 1)) with (4 * q + 4) in Hp by lia. rewrite U2 by lia. apply V3. lia.
  Qed.

  Lemma interleave_ok : forall rp ind4 val4, zlen rp = m -> (forall i, 0 <= i < m -> zn rp i = wid i) -> zlen ind4 = off m -> zlen val4 = off m ->
    exists ind5 val5, br4_interleave O m rp ind4 val4 = Some (ind5, val5) /\ woven 0 (m / 4) ind4 ind5 /\ woven zero (m / 4) val4 val5.
  Proof.
    intros rp ind4 val4 Lr Hr Li Lv4. pose proof (wf_m _ _ _ _ _ _ W) as Hm. pose proof (m4 m) as M4. assert (Hq : 0 <= m / 4) by (apply Z.div_pos; lia).
    unfold br4_interleave.
    match goal with |- context [for_ 0 (m / 4) ?f ?s] => destruct (for_inv _ (fun q (st : list Z * list T * Z) => let '(i5, v5, tc) := st in tc = off (4 * q) /\ woven 0 q ind4 i5 /\ woven zero q val4 v5) 0 (m / 4) f s Hq) as ([[i5 v5] tc] & E & R) end.
    - split; [reflexivity|]. split; (split; [reflexivity|]; split; [intros; lia|reflexivity]).
    - intros q [[i5 v5] tc] Hq' (-> & A & B). rewrite (rd_nthZ _ 0) by lia. rewrite Hr by lia.
      destruct (woven_step _ zero q val4 v5 Lv4 Hq' B) as (v6 & E6 & B6). rewrite E6. destruct (woven_step _ 0 q ind4 i5 Li Hq' A) as (i6 & E7 & A7). rewrite E7.
      eexists. split; [reflexivity|]. split; [|auto]. replace (4 * (q + 1)) with (4 * q + 4) by lia. rewrite off_block by lia. lia.
    - rewrite E. destruct R as (_ & A & B). eauto.
  Qed.

  (** ** The stored copy *)
  Definition br4_of (bp ind5 : list Z) (val5 : list T) : Prop :=
    zlen bp = m + 1 /\ zlen ind5 = off m /\ zlen val5 = off m /\ (forall i, 0 <= i <= m -> zn bp i = b + off i) /\
    (forall g ii jj, 0 <= g < m / 4 -> 0 <= jj < 4 -> 0 <= ii < wid (4 * g) ->
       slot (4 * g + jj) ii (zn ind5 (off (4 * g) + (jj + ii * 4))) (tn val5 (off (4 * g) + (jj + ii * 4)))) /\
    (forall i j, m / 4 * 4 <= i < m -> 0 <= j < wid i -> slot i j (zn ind5 (off i + j)) (tn val5 (off i + j))).

  Lemma build_ok : forall fz ft, (forall z, 0 <= z -> zlen (fz z : list Z) = z) -> (forall z, 0 <= z -> zlen (ft z : list T) = z) ->
    exists bp ind5 val5, br4_build O fz ft m b ptr ind val = Some (bp, ind5, val5) /\ br4_of bp ind5 val5.
  Proof.
    intros fz ft Hz Ht. pose proof (wf_m _ _ _ _ _ _ W) as Hm. pose proof (off_nonneg m n nnz b ptr ind W m ltac:(lia)) as Om.
    unfold br4_build. destruct (sizes_ok m n nnz b ptr ind W (fz (m + 1)) ltac:(apply Hz; lia)) as (rp & bp & E & S1 & S2 & _ & S4 & S5). rewrite E.
    destruct (fill_ok rp (fz (off m)) (ft (off m)) S1 S4 ltac:(auto) ltac:(auto)) as (i4 & v4 & la & E2 & F1 & F2 & F3). rewrite E2.
    destruct (interleave_ok rp i4 v4 S1 S4 F1 F2) as (i5 & v5 & E3 & (A1 & A2 & A3) & (B1 & B2 & B3)). rewrite E3.
    exists bp, i5, v5. split; [reflexivity|]. split; [exact S2|]. split; [lia|]. split; [lia|]. split; [exact S5|]. split.
    - intros g ii jj Hg Hj Hi. pose proof (m4 m). rewrite A2, B2 by lia. apply F3; [lia|]. rewrite wid_block by lia. lia.
    - intros i j Hi Hj. pose proof (slot_in i j ltac:(pose proof (Z.div_pos m 4 Hm); lia) Hj). pose proof (Z.div_pos m 4 Hm ltac:(lia)).
      pose proof (off_mono m n nnz b ptr ind W (4 * (m / 4)) i ltac:(lia) ltac:(lia)). rewrite A3, B3 by lia. apply F3; lia.
  Qed.

  (** ** The product *)
  Variable x : list T.
  Hypothesis Lx : zlen x = n.

  Lemma slot_sum : forall i (c : Z -> Z) (v : Z -> T), 0 <= i < m -> (forall j, 0 <= j < wid i -> slot i j (c j) (v j)) ->
    sumz O 0 (wid i) (fun j => v j *! tn x (c j - b)) = sumz O 0 n (fun j => csr_mat O b ptr ind val i j *! tn x j).
  Proof.
    intros i c v Hi Hs. pose proof (len_nonneg m n nnz b ptr ind W i Hi) as L0. pose proof (wid_ge m ptr i Hi) as Wg.
    rewrite (sumz_split O L 0 (len i) (wid i)) by lia. rewrite (sumz_zero O L (len i) (wid i)).
    2:{ intros k Hk. specialize (Hs k ltac:(lia)). unfold slot in Hs. replace (k <? len i) with false in Hs by lia. destruct Hs as (_ & ->). ring. }
    rewrite <- (full_row_sum O L m n nnz b ptr ind val i (fun v => v) (fun j => tn x j) W Lv Hi (additive_id O)).
    replace (zn ptr i - b) with (0 + (zn ptr i - b)) by lia. replace (zn ptr (i + 1) - b) with (len i + (zn ptr i - b)) by (unfold Br4Proof.len; lia).
    rewrite (sumz_shift O). rewrite (sumz_ext O 0 (len i) (fun j => v j *! tn x (c j - b)) (fun k => tn val (k + (zn ptr i - b)) *! tn x (zn ind (k + (zn ptr i - b)) - b))).
    2:{ intros k Hk. specialize (Hs k ltac:(lia)). unfold slot in Hs. replace (k <? len i) with true in Hs by lia. destruct Hs as (E1 & E2).
        replace (k + (zn ptr i - b)) with (zn ptr i - b + k) by lia. rewrite <- E1, <- E2. reflexivity. }
    ring.
  Qed.

  Section Mv.
    Variables (bp ind5 : list Z) (val5 : list T).
    Hypothesis C : br4_of bp ind5 val5.
    Variables (alpha beta : T) (y0 : list T).
    Hypothesis Ly : zlen y0 = m.
    Let S i := sumz O 0 n (fun j => csr_mat O b ptr ind val i j *! tn x j).
    Let F i := alpha *! S i +! beta *! tn y0 i.

    Lemma slot_col : forall i j c v, 0 <= i < m -> 0 <= j -> slot i j c v -> 0 <= c - b < n.
    Proof.
      clear Hpad C Hn. intros i j c v Hi Hj. unfold slot. destruct (row_bounds _ _ _ _ _ _ i W Hi) as (B1 & B2 & B3 & B4 & B5).
      destruct (Z.ltb_spec j (len i)) as [Lt|Ge]; [|tauto]. intros (-> & _). unfold Br4Proof.len in Lt.
      pose proof (wf_ind _ _ _ _ _ _ W (zn ptr i - b + j) ltac:(lia)). lia.
    Qed.

    Lemma br4_rows_ok : forall q y, 0 <= q < m / 4 -> upto O (q * 4) F y0 y ->
      exists y1, br4_rows O alpha b bp ind5 val5 x beta q y = Some y1 /\ upto O (q * 4 + 4) F y0 y1.
    Proof.
      intros q y Hq U. destruct C as (C1 & C2 & C3 & C4 & C5 & C6). pose proof (m4 m) as M4. destruct U as [U1 U2].
      pose proof (off_nonneg m n nnz b ptr ind W (4 * q) ltac:(lia)) as O0. pose proof (wid_nonneg m n nnz b ptr ind W (4 * q) ltac:(lia)) as W0.
      pose proof (off_block m ptr q 4 Hq ltac:(lia)) as OB. pose proof (off_mono m n nnz b ptr ind W (4 * q + 4) m ltac:(lia) ltac:(lia)) as OM.
      unfold br4_rows. rewrite !(rd_nthZ _ 0) by lia. rewrite !C4 by lia. replace (q * 4) with (4 * q) in * by lia. rewrite (off_S m ptr (4 * q)) by lia.
      replace (b + (off (4 * q) + wid (4 * q)) - (b + off (4 * q))) with (wid (4 * q)) by lia.
      set (G i t := tn val5 (off (4 * q) + (t + i * 4)) *! tn x (zn ind5 (off (4 * q) + (t + i * 4)) - b)).
      match goal with |- context [for_ 0 (wid (4 * q)) ?f (zrep 4 zero)] => rewrite (lanes_sum O L 4 (wid (4 * q)) G f) end; try lia.
      2:{ intros i res Hi. replace (b + off (4 * q) - b + i * 4) with (off (4 * q) + i * 4) by lia. rewrite (vload_ok O) by lia. rewrite (vgather_ok O); try lia.
          - rewrite map2_map. do 2 f_equal. apply map_ext_z. intros t Ht. unfold G. replace (off (4 * q) + i * 4 + b - b) with (off (4 * q) + i * 4) by lia.
            replace (off (4 * q) + i * 4 + t) with (off (4 * q) + (t + i * 4)) by lia. reflexivity.
          - intros p Hp. rewrite Lx. pose proof (C5 q i (p - (off (4 * q) + i * 4)) Hq ltac:(lia) Hi) as Sl.
            replace (off (4 * q) + (p - (off (4 * q) + i * 4) + i * 4)) with p in Sl by lia. eapply slot_col; [| |exact Sl]; lia. }
      rewrite (map_ext_z _ _ (fun t => S (4 * q + t))).
      2:{ intros t Ht. unfold S. rewrite <- (slot_sum (4 * q + t) (fun i => zn ind5 (off (4 * q) + (t + i * 4))) (fun i => tn val5 (off (4 * q) + (t + i * 4)))); [|lia|].
          - rewrite wid_block by lia. reflexivity.
          - rewrite wid_block by lia. intros j Hj. apply C5; lia. }
      assert (E1 : (if negb (alpha ==! one) then map (fun r => alpha *! r) (map (fun t => S (4 * q + t)) (zrange 0 4)) else map (fun t => S (4 * q + t)) (zrange 0 4))
        = map (fun t => alpha *! S (4 * q + t)) (zrange 0 4)).
      { destruct (alpha ==! one) eqn:E; cbn [negb]; [|apply map_map]. apply (l_eqb L) in E. rewrite E. apply map_ext_z. intros; ring. }
      rewrite E1.
      assert (E2 : (if negb (beta ==! zero) then let* vy := vload 4 y (4 * q) in Some (map2 (fun v r => beta *! v +! r) vy (map (fun t => alpha *! S (4 * q + t)) (zrange 0 4)))
         else Some (map (fun t => alpha *! S (4 * q + t)) (zrange 0 4))) = Some (map (fun t => F (4 * q + t)) (zrange 0 4))).
      { destruct (beta ==! zero) eqn:E; cbn [negb].
        - apply (l_eqb L) in E. f_equal. apply map_ext_z. intros; unfold F; rewrite E; ring.
        - rewrite (vload_ok O) by lia. rewrite map2_map. f_equal. apply map_ext_z. intros t Ht. rewrite U2 by lia.
          replace (4 * q + t <? 4 * q) with false by lia. unfold F. ring. }
      rewrite E2. apply (upto_block O 4 (4 * q) F); auto; try lia. split; auto.
    Qed.

    Lemma br4_mv_ok : exists y1, br4_mv O alpha m b bp ind5 val5 x beta y0 = Some y1 /\ mv_spec O m n alpha beta (csr_mat O b ptr ind val) x y0 y1.
    Proof.
      pose proof (wf_m _ _ _ _ _ _ W) as Hm. pose proof (m4 m) as M4. pose proof (Z.div_pos m 4 Hm ltac:(lia)) as Hq. unfold br4_mv.
      destruct (for_inv _ (fun q y => upto O (q * 4) F y0 y) 0 (m / 4) (br4_rows O alpha b bp ind5 val5 x beta) y0 Hq) as (y1 & E & U).
      - apply upto_0. lia.
      - intros q y Hq' U. replace ((q + 1) * 4) with (q * 4 + 4) by lia. apply br4_rows_ok; auto.
      - rewrite E. destruct C as (C1 & C2 & C3 & C4 & C5 & C6).
        match goal with |- context [for_ (m / 4 * 4) m ?f y1] => destruct (upto_rows O (m / 4 * 4) m F y0 y1 f ltac:(lia) ltac:(lia) U) as (y2 & E2 & U2) end.
        + intros i y Hi Ui. rewrite !(rd_nthZ _ 0) by lia. rewrite !C4 by lia. rewrite (off_S m ptr i) by lia.
          pose proof (off_nonneg m n nnz b ptr ind W i ltac:(lia)) as O0. pose proof (wid_nonneg m n nnz b ptr ind W i ltac:(lia)) as W0.
          pose proof (off_mono m n nnz b ptr ind W (i + 1) m ltac:(lia) ltac:(lia)) as OM. rewrite off_S in OM by lia.
          replace (b + off i - b) with (off i) by lia. replace (b + (off i + wid i) - b) with (off i + wid i) by lia.
          match goal with |- context [for_ (off i) (off i + wid i) ?f zero] => replace (for_ (off i) (off i + wid i) f zero) with (Some (S i)) end.
          * rewrite (finish_row_ok O L) by (destruct Ui; lia). do 2 f_equal. unfold F. destruct Ui as (_ & Ui). rewrite Ui by lia. replace (i <? i) with false by lia. reflexivity.
          * symmetry. match goal with |- for_ _ _ ?f _ = _ => destruct (for_inv _ (fun e r => r = sumz O (off i) e (fun k => tn val5 k *! tn x (zn ind5 k - b))) (off i) (off i + wid i) f zero ltac:(lia)) as (r & Er & Rr) end.
            -- rewrite sumz_nil by lia. reflexivity.
            -- intros k r Hk ->. assert (Sl : slot i (k - off i) (zn ind5 k) (tn val5 k)).
               { pose proof (C6 i (k - off i) ltac:(lia) ltac:(lia)) as Q. replace (off i + (k - off i)) with k in Q by lia. exact Q. }
               pose proof (slot_col i (k - off i) _ _ ltac:(lia) ltac:(lia) Sl).
               rewrite (rd_nthZ _ zero) by lia. rewrite (rd_nthZ _ 0) by lia. rewrite (rd_nthZ _ zero) by lia. eexists. split; [reflexivity|]. rewrite (sumz_last O L) by lia. reflexivity.
            -- rewrite Er, Rr. f_equal. unfold S. rewrite <- (slot_sum i (fun j => zn ind5 (off i + j)) (fun j => tn val5 (off i + j))); [|lia|intros j Hj; apply C6; lia].
               replace (off i) with (0 + off i) at 1 by lia. replace (off i + wid i) with (wid i + off i) by lia. rewrite (sumz_shift O). apply sumz_ext. intros k Hk. rewrite (Z.add_comm k). reflexivity.
        + exists y2. split; [exact E2|]. destruct U2 as (U3 & U4). split; [lia|]. intros i Hi. rewrite U4 by lia. replace (i <? m) with true by lia. reflexivity.
    Qed.
  End Mv.
End Fill.

From Verif Require Import Br4Spec.
Lemma pad_safe_ok : forall m n nnz b ptr ind, csr_wf m n nnz b ptr ind -> pad_safe m b ptr -> pad_ok m b ptr.
Proof.
  intros m n nnz b ptr ind W [Hb|Hs]; [left; exact Hb|]. right. intros i Hi Z0.
  assert (P0 : forall k, 0 <= k <= i + 1 -> zn ptr k = zn ptr 0).
  { intros k Hk. revert Hk. assert (G : 0 <= k -> k <= i + 1 -> zn ptr k = zn ptr 0) by (intros K0; pattern k; revert k K0; apply natlike_ind; [auto|];
      intros x Hx IH Hle; specialize (Z0 x ltac:(lia)); unfold len in Z0; replace (Z.succ x) with (x + 1) by lia; rewrite <- IH by lia; lia). intros; apply G; lia. }

  pose proof (m4 m) as M4. destruct (Z_lt_le_dec i (m / 4 * 4)) as [Lt|Ge].
  - assert (Hq : 0 <= i / 4 < m / 4) by (split; [apply Z.div_pos; lia|]; pose proof (Z.mul_div_le i 4 ltac:(lia)); lia).
    assert (Hr : 0 <= i - 4 * (i / 4) < 4) by (pose proof (Z.div_mod i 4 ltac:(lia)); pose proof (Z.mod_pos_bound i 4 ltac:(lia)); lia).
    specialize (Hs i ltac:(lia) (P0 (i + 1) ltac:(lia))). replace (i / 4 * 4 + 4) with (4 * (i / 4) + 4) in Hs by lia.
    assert (Q : forall j, 0 <= j <= 4 -> zn ptr (4 * (i / 4) + j) = zn ptr 0).
    { intros j Hj. assert (MO : forall a c, 0 <= a <= c -> c <= m -> zn ptr a <= zn ptr c).
      { intros a c Ha Hc. apply (ptr_mono _ _ _ _ (wf_ptr _ _ _ _ _ _ W)); lia. }
      pose proof (MO 0 (4 * (i / 4) + j) ltac:(lia) ltac:(lia)). pose proof (MO (4 * (i / 4) + j) (4 * (i / 4) + 4) ltac:(lia) ltac:(lia)). lia. }
    replace i with (4 * (i / 4) + (i - 4 * (i / 4))) by lia. rewrite wid_block by lia. rewrite wid_4 by lia.
    pose proof (Q 0 ltac:(lia)) as Q0. rewrite Z.add_0_r in Q0. pose proof (Q 1 ltac:(lia)). pose proof (Q 2 ltac:(lia)). pose proof (Q 3 ltac:(lia)). pose proof (Q 4 ltac:(lia)).
    unfold len. replace (4 * (i / 4) + 1 + 1) with (4 * (i / 4) + 2) by lia. replace (4 * (i / 4) + 2 + 1) with (4 * (i / 4) + 3) by lia. replace (4 * (i / 4) + 3 + 1) with (4 * (i / 4) + 4) by lia. lia.
  - rewrite wid_tail by lia. apply Z0; lia.
Qed.
