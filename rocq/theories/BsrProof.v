From Coq Require Import ZArith List Bool Lia ZifyBool.
From Verif Require Import Base BaseFacts UtilModel Csr CsrFacts BsrModel BsrSpec.
Import ListNotations.
Open Scope Z_scope.

Lemma place_inj : forall bd a c a' c', 0 <= c < bd -> 0 <= c' < bd -> a * bd + c = a' * bd + c' -> a = a' /\ c = c'.
Proof. intros bd a c a' c' Hc Hc' E. apply (Z.div_mod_unique bd); lia. Qed.

Section P.
  Variables (w m n nnz b bd : Z) (ptr ind : list Z).
  Hypothesis W : csr_wf m n nnz b ptr ind.
  Hypothesis Hbd : 0 < bd.
  Hypothesis Hm : 0 < m.
  Hypothesis Hn : 0 < n.
  Hypothesis B01 : b = 0 \/ b = 1.

  Let mb := nblocks m bd.
  Let nb := nblocks n bd.
  (** First position of block row [I] *)
  Definition lo (I : Z) : Z := zn ptr (Z.min m (I * bd)) - b.
  Definition bcol (k : Z) : Z := (zn ind k - b) / bd.

  Lemma nblocks_pos : forall x, 0 < x -> 0 < nblocks x bd /\ (nblocks x bd - 1) * bd < x <= nblocks x bd * bd.
  Proof.
    intros x Hx. unfold nblocks. assert (E := Z.div_mod (x + bd - 1) bd ltac:(lia)). pose proof (Z.mod_pos_bound (x + bd - 1) bd Hbd).
    set (q := (x + bd - 1) / bd) in *. nia.
  Qed.
  Lemma block_of : forall x y, 0 <= y < x -> 0 <= y / bd < nblocks x bd.
  Proof.
    intros x y Hy. destruct (nblocks_pos x ltac:(lia)) as (N & A & B). split; [apply Z.div_pos; lia|].
    apply Z.div_lt_upper_bound; lia.
  Qed.
  Lemma mb_pos : 0 < mb. Proof. apply nblocks_pos. lia. Qed.
  Lemma row_start : forall I, 0 <= I < mb -> 0 <= I * bd < m.
  Proof. intros I HI. unfold mb in HI. destruct (nblocks_pos m ltac:(lia)) as (_ & A & _). nia. Qed.
  Lemma lo_eq : forall I, 0 <= I < mb -> lo I = zn ptr (I * bd) - b.
  Proof. intros I HI. unfold lo. pose proof (row_start I HI). now rewrite Z.min_r by lia. Qed.
  Lemma lo_next : forall I, lo (I + 1) = zn ptr (Z.min m (I * bd + bd)) - b.
  Proof. intros I. unfold lo. now replace ((I + 1) * bd) with (I * bd + bd) by lia. Qed.
  Lemma lo_mono : forall I, 0 <= I < mb -> lo I <= lo (I + 1).
  Proof.
    intros I HI. rewrite lo_next, lo_eq by lia. pose proof (row_start I HI). pose proof (wf_ptr _ _ _ _ _ _ W) as PT.
    pose proof (ptr_mono m nnz b ptr PT (I * bd) (Z.min m (I * bd + bd)) ltac:(lia)). lia.
  Qed.
  Lemma bcol_range : forall k, 0 <= k < nnz -> 0 <= bcol k < nb.
  Proof. intros k Hk. unfold bcol, nb. apply block_of. pose proof (wf_ind _ _ _ _ _ _ W k Hk). lia. Qed.

  (** The rows of a block row, entry by entry *)
  Lemma block_rows_inv : forall S (P : Z -> S -> Prop) (f : Z -> S -> option S) I s, 0 <= I < mb ->
    P (I * bd) s ->
    (forall i s, 0 <= i < bd -> I * bd + i < m -> P (I * bd + i) s -> exists s', f i s = Some s' /\ P (I * bd + i + 1) s') ->
    exists s', block_rows m bd (I * bd) f s = Some s' /\ P (Z.min m (I * bd + bd)) s'.
  Proof.
    intros S P f I s HI H0 Hs. pose proof (row_start I HI). unfold block_rows.
    match goal with |- context [forc ?lo ?hi ?g ?s] =>
      destruct (forc_inv S Empty_set (fun i s => P (I * bd + i) s /\ I * bd + i <= m) (fun s => P m s /\ m < I * bd + bd) (fun _ => False) lo hi g s ltac:(lia)) as [(s' & E & D)|(r & _ & [])] end.
    - rewrite Z.add_0_r. split; [exact H0|lia].
    - intros i s' Hi (Pi & Li). destruct (m - I * bd <=? i) eqn:E.
      + right. left. exists s'. split; [reflexivity|]. replace m with (I * bd + i) at 1 by lia. split; [exact Pi|lia].
      + left. destruct (Hs i s' ltac:(lia) ltac:(lia) Pi) as (s2 & E2 & P2). exists s2. rewrite E2. split; [reflexivity|]. rewrite Z.add_assoc. split; [exact P2|lia].
    - exists s'. rewrite E. split; [reflexivity|]. destruct D as [(P1 & L1)|(P1 & L1)].
      + now rewrite Z.min_r by lia.
      + now rewrite Z.min_l by lia.
  Qed.
  Lemma block_pos_inv : forall S (P : Z -> S -> Prop) (g : Z -> Z -> S -> option S) I s, 0 <= I < mb ->
    P (lo I) s ->
    (forall i k s, 0 <= i < bd -> I * bd + i < m -> in_row ptr b (I * bd + i) k -> 0 <= k < nnz -> P k s -> exists s', g i k s = Some s' /\ P (k + 1) s') ->
    exists s', block_rows m bd (I * bd) (fun i s => let* a := rd ptr (I * bd + i) in let* e := rd ptr (I * bd + i + 1) in for_ (a - b) (e - b) (g i) s) s = Some s' /\ P (lo (I + 1)) s'.
  Proof.
    intros S P g I s HI H0 Hs. destruct (wf_len _ _ _ _ _ _ W) as (L1 & L2). pose proof (wf_ptr _ _ _ _ _ _ W) as PT.
    rewrite lo_next. apply (block_rows_inv S (fun r => P (zn ptr r - b))); auto.
    - now rewrite <- lo_eq.
    - intros i s' Hi Hr Pi. pose proof (row_start I HI). rewrite !(rd_nthZ _ 0) by lia.
      pose proof (ptr_mono m nnz b ptr PT (I * bd + i) (I * bd + i + 1) ltac:(lia)).
      match goal with |- context [for_ ?lo ?hi ?f ?s] => destruct (for_inv _ P lo hi f s ltac:(lia)) as (st & E & R) end; [exact Pi| |rewrite E; eauto].
      intros k s2 Hk Pk. assert (IR : in_row ptr b (I * bd + i) k) by (unfold in_row; lia).
      apply Hs; auto. apply (in_row_range m nnz b ptr PT (I * bd + i) k); auto. lia.
  Qed.

  (** ** Counting *)
  Definition has (I J : Z) : bool := existsb (fun k => bcol k =? J) (zrange (lo I) (lo (I + 1))).
  Definition cnt (I : Z) : Z := zlen (filter (has I) (zrange 0 nb)).
  Lemma has_iff : forall I J, has I J = true <-> exists k, lo I <= k < lo (I + 1) /\ bcol k = J.
  Proof.
    intros. unfold has. rewrite existsb_exists. split; intros (k & H1 & H2); exists k.
    - apply in_zrange in H1. lia.
    - rewrite in_zrange. lia.
  Qed.
  Lemma lo_range : forall I k, 0 <= I < mb -> lo I <= k < lo (I + 1) -> 0 <= k < nnz.
  Proof.
    intros I k HI Hk. rewrite lo_next, lo_eq in Hk by auto. pose proof (row_start I HI). pose proof (wf_ptr _ _ _ _ _ _ W) as PT.
    pose proof (ptr_range m nnz b ptr PT (I * bd) ltac:(lia)). pose proof (ptr_range m nnz b ptr PT (Z.min m (I * bd + bd)) ltac:(lia)). lia.
  Qed.
  Lemma nodup_zrange : forall a c, NoDup (zrange a c).
  Proof.
    intros a c. unfold zrange. apply FinFun.Injective_map_NoDup; [|apply seq_NoDup]. intros x y. lia.
  Qed.
  Lemma cnt_le : forall I L, 0 <= I < mb -> NoDup L -> (forall J, In J L -> has I J = true) -> zlen L <= cnt I.
  Proof.
    intros I L HI ND F. unfold cnt, zlen. apply Nat2Z.inj_le, NoDup_incl_length; auto. intros J HJ. apply filter_In. split; [|auto].
    apply in_zrange. specialize (F J HJ). apply has_iff in F. destruct F as (k & Hk & <-). apply bcol_range. now apply (lo_range I).
  Qed.
  Lemma cnt_eq : forall I L, 0 <= I < mb -> NoDup L -> (forall J, In J L <-> has I J = true) -> zlen L = cnt I.
  Proof.
    intros I L HI ND F. apply Z.le_antisymm; [apply cnt_le; auto; intros; now apply F|].
    unfold cnt, zlen. apply Nat2Z.inj_le, NoDup_incl_length; [apply NoDup_filter, nodup_zrange|]. intros J HJ. apply filter_In in HJ. now apply F.
  Qed.
  Lemma cnt_nb : forall L, NoDup L -> (forall J, In J L -> 0 <= J < nb) -> zlen L <= nb.
  Proof.
    intros L ND F. assert (0 < nb) by (apply nblocks_pos; lia). unfold zlen. replace nb with (Z.of_nat (length (zrange 0 nb))).
    - apply Nat2Z.inj_le, NoDup_incl_length; auto. intros J HJ. apply in_zrange. auto.
    - pose proof (zlen_zrange 0 nb). unfold zlen in *. lia.
  Qed.
  Lemma cnt_pos : forall I, 0 <= cnt I. Proof. intros. apply zlen_nonneg. Qed.
  (** Never more blocks than entries *)
  Lemma cnt_entries : forall I, 0 <= I < mb -> cnt I <= lo (I + 1) - lo I.
  Proof.
    intros I HI. pose proof (lo_mono I HI). unfold cnt. rewrite <- (zlen_zrange (lo I) (lo (I + 1))) by lia.
    rewrite <- (zlen_map _ _ bcol (zrange (lo I) (lo (I + 1)))). unfold zlen. apply Nat2Z.inj_le, NoDup_incl_length; [apply NoDup_filter, nodup_zrange|].
    intros J HJ. apply filter_In in HJ. destruct HJ as (_ & HJ). apply has_iff in HJ. destruct HJ as (k & Hk & <-). apply in_map. apply in_zrange. lia.
  Qed.

  Hypothesis Hw : w = 31 \/ w = 63.
  Hypothesis Fm : m + bd - 1 <= int_max w.
  Hypothesis Fn : n + bd - 1 <= int_max w.
  Hypothesis Fz : b + nnz <= int_max w.

  Lemma chk_ok : forall v, 0 <= v <= int_max w -> chk w v = Some v.
  Proof.
    intros v Hv. unfold chk, in_int. assert (int_min w <= 0) by (destruct Hw as [-> | ->]; vm_compute; discriminate).
    replace ((int_min w <=? v) && (v <=? int_max w)) with true by lia. reflexivity.
  Qed.
  Lemma to_int_ok : forall v, 0 <= v <= int_max w -> to_int w v = v.
  Proof.
    intros v Hv. unfold to_int. destruct Hw as [-> | ->].
    - change (int_min 31) with (-2147483648). change (int_max 31) with 2147483647 in Hv. change (2 ^ (31 + 1)) with 4294967296. rewrite Z.mod_small by lia. lia.
    - change (int_min 63) with (-9223372036854775808). change (int_max 63) with 9223372036854775807 in Hv. change (2 ^ (63 + 1)) with 18446744073709551616. rewrite Z.mod_small by lia. lia.
  Qed.
  Lemma max63 : int_max w <= int_max 63. Proof. destruct Hw as [-> | ->]; vm_compute; discriminate. Qed.

  Lemma bool_list : forall (l : list bool) J, nthZ false l J = true \/ nthZ false l J = false.
  Proof. intros. destruct (nthZ false l J); auto. Qed.

  (** The blocks met up to position [K] of block row [I], in order of first occurrence *)
  Definition met (I K : Z) (L : list Z) : Prop := NoDup L /\ forall J, In J L <-> exists k, lo I <= k < K /\ bcol k = J.
  Lemma met_start : forall I, met I (lo I) [].
  Proof. intros I. split; [constructor|]. intros J. split; [intros []|intros (k & H & _); lia]. Qed.
  Lemma met_old : forall I K L, met I K L -> lo I <= K -> In (bcol K) L -> met I (K + 1) L.
  Proof.
    intros I K L (ND & F) HK HI. split; auto. intros J. rewrite F. split; intros (k & Hk & E).
    - exists k. split; auto. lia.
    - destruct (Z.eq_dec k K) as [->|N]; [|exists k; split; auto; lia]. apply F. rewrite <- E. exact HI.
  Qed.
  Lemma nodup_snoc : forall (L : list Z) x, NoDup L -> ~ In x L -> NoDup (L ++ [x]).
  Proof.
    induction L as [|y L IH]; intros x ND NI; cbn.
    - repeat constructor. auto.
    - inversion ND as [|? ? N1 N2]; subst. constructor.
      + intros H. apply in_app_or in H. destruct H as [H|[<-|[]]]; [auto|]. apply NI. now left.
      + apply IH; auto. intros H. apply NI. now right.
  Qed.
  Lemma met_new : forall I K L, met I K L -> lo I <= K -> ~ In (bcol K) L -> met I (K + 1) (L ++ [bcol K]).
  Proof.
    intros I K L (ND & F) HK HI. split; [now apply nodup_snoc|]. intros J. rewrite in_app_iff, F. cbn [In]. split.
    - intros [(k & Hk & E)|[<-|[]]]; [exists k; split; auto; lia|exists K; split; auto; lia].
    - intros (k & Hk & E). destruct (Z.eq_dec k K) as [->|N]; [right; left; auto|left; exists k; split; auto; lia].
  Qed.
  Lemma met_has : forall I K L J, met I K L -> K <= lo (I + 1) -> In J L -> has I J = true.
  Proof. intros I K L J (_ & F) HK HJ. apply F in HJ. destruct HJ as (k & Hk & E). apply has_iff. exists k. split; auto. lia. Qed.
  Lemma met_full : forall I L J, met I (lo (I + 1)) L -> In J L <-> has I J = true.
  Proof. intros I L J (_ & F). rewrite F, has_iff. reflexivity. Qed.
  Lemma met_range : forall I K L J, 0 <= I < mb -> met I K L -> K <= lo (I + 1) -> In J L -> 0 <= J < nb.
  Proof. intros I K L J HI M HK HJ. apply (met_has I K L J M HK) in HJ. apply has_iff in HJ. destruct HJ as (k & Hk & <-). apply bcol_range. now apply (lo_range I). Qed.

  Lemma row_lo : forall I i k, 0 <= I < mb -> 0 <= i < bd -> I * bd + i < m -> in_row ptr b (I * bd + i) k -> lo I <= k < lo (I + 1).
  Proof.
    intros I i k HI Hi Hr IR. rewrite lo_next, lo_eq by auto. unfold in_row in IR. pose proof (row_start I HI). pose proof (wf_ptr _ _ _ _ _ _ W) as PT.
    pose proof (ptr_mono m nnz b ptr PT (I * bd) (I * bd + i) ltac:(lia)). pose proof (ptr_mono m nnz b ptr PT (I * bd + i + 1) (Z.min m (I * bd + bd)) ltac:(lia)). lia.
  Qed.
  Lemma lo_bound : forall I, 0 <= I <= mb -> 0 <= lo I <= nnz.
  Proof.
    intros I HI. unfold lo. pose proof (ptr_range m nnz b ptr (wf_ptr _ _ _ _ _ _ W) (Z.min m (I * bd)) ltac:(lia)). lia.
  Qed.

  Lemma nnz_core_ok : forall bptr, zlen bptr = mb + 1 ->
    exists bptr' bnnz, nnz_core w m n b ptr ind bd bptr = Some (success, bptr', Some bnnz) /\ zlen bptr' = mb + 1 /\
      zn bptr' 0 = b /\ zn bptr' mb = b + bnnz /\ 0 <= bnnz <= nnz /\
      forall I, 0 <= I < mb -> zn bptr' (I + 1) = zn bptr' I + cnt I.
  Proof.
    intros bptr LB. destruct (wf_len _ _ _ _ _ _ W) as (L1 & L2). pose proof mb_pos as MP. assert (NP : 0 < nb) by (apply nblocks_pos; lia).
    unfold nnz_core. rewrite (chk_ok (m + bd - 1)), (chk_ok (n + bd - 1)) by lia. change ((m + bd - 1) / bd) with mb. change ((n + bd - 1) / bd) with nb.
    match goal with |- context [for_ ?l ?h ?f ?s] => destruct (for_inv _ (fun I st => let '(bc, er, bp) := st in
      zlen bc = nb /\ zlen er = nb /\ zlen bp = mb + 1 /\ (forall J, 0 <= J < nb -> nthZ false bc J = false) /\ forall x, 0 <= x < I -> zn bp (x + 1) = cnt x) l h f s ltac:(lia)) as (((bc & er) & bp) & E & R) end.
    - rewrite !zlen_zrep by lia. split; [reflexivity|]. split; [reflexivity|]. split; [exact LB|]. split; [|intros; lia]. intros J HJ. now rewrite nthZ_zrep by lia.
    - intros I ((bc & er) & bp) HI (A1 & A2 & A3 & A4 & A5).
      match goal with |- context [block_rows m bd (I * bd) _ ?s] =>
        destruct (block_pos_inv _ (fun K st => let '(bc, er, c) := st in exists L, met I K L /\ lo I <= K /\ c = zlen L /\ zlen bc = nb /\ zlen er = nb /\
          (forall t, 0 <= t < c -> zn er t = zn L t) /\ (forall J, 0 <= J < nb -> (nthZ false bc J = true <-> In J L)))
          (fun _ => nnz_step b bd ind) I s HI) as (((bc1 & er1) & c1) & E1 & L & ML & _ & Ec & B1 & B2 & B3 & B4) end.
      + exists []. split; [apply met_start|]. split; [lia|]. split; [reflexivity|]. split; [auto|]. split; [auto|]. split; [intros; lia|].
        intros J HJ. rewrite A4 by auto. cbn. split; [discriminate|tauto].
      + intros i k ((bc1 & er1) & c1) Hi Hr IR Hk (L & ML & LK & Ec & B1 & B2 & B3 & B4). pose proof (row_lo I i k HI Hi Hr IR) as KR.
        unfold nnz_step. rewrite (rd_nthZ _ 0 ind) by lia. cbv zeta. change ((zn ind k - b) / bd) with (bcol k). pose proof (bcol_range k Hk) as JR. rewrite (rd_nthZ _ false bc1) by lia.
        destruct (nthZ false bc1 (bcol k)) eqn:Es.
        * eexists. split; [reflexivity|]. exists L. split; [|auto 10 with zarith]. apply met_old; auto. now apply B4.
        * assert (NI : ~ In (bcol k) L) by (rewrite <- B4 by auto; congruence).
          assert (MN : met I (k + 1) (L ++ [bcol k])) by (apply met_new; auto).
          assert (CL : zlen L + 1 <= nb).
          { change 1 with (zlen [bcol k]). rewrite <- (zlen_app _ L [bcol k]) by auto. apply cnt_nb; [apply MN|]. intros J HJ. eapply met_range; eauto. lia. }
          pose proof (zlen_nonneg _ L). rewrite wr_upd by lia. rewrite wr_upd by lia. eexists. split; [reflexivity|]. exists (L ++ [bcol k]). rewrite !zlen_upd.
          split; [exact MN|]. split; [lia|]. split; [rewrite zlen_app; change (zlen [bcol k]) with 1; lia|]. split; [auto|]. split; [auto|]. split.
          -- intros t Ht. rewrite nthZ_upd by lia. destruct (t =? c1) eqn:Et.
             ++ rewrite nthZ_app2 by lia. replace (t - zlen L) with 0 by lia. reflexivity.
             ++ rewrite nthZ_app1 by lia. apply B3. lia.
          -- intros J HJ. rewrite nthZ_upd by lia. rewrite in_app_iff. cbn [In]. destruct (J =? bcol k) eqn:EJ.
             ++ split; auto. intros _. right. left. lia.
             ++ rewrite B4 by auto. split; [auto|]. intros [H'|[H'|[]]]; [auto|lia].
      + rewrite E1. assert (CE : c1 = cnt I) by (rewrite Ec; apply cnt_eq; [auto|apply ML|intros; now apply met_full]).
        assert (CB : zlen L <= nb) by (apply cnt_nb; [apply ML|intros J HJ; eapply met_range; eauto; lia]). pose proof (zlen_nonneg _ L).
        rewrite wr_upd by lia.
        match goal with |- context [for_ ?l ?h ?f ?s] => destruct (for_inv _ (fun i bc => zlen bc = nb /\ forall J, 0 <= J < nb -> (nthZ false bc J = true <-> exists t, i <= t < c1 /\ zn L t = J)) l h f s ltac:(lia)) as (bc2 & E2 & C1 & C2) end.
        * split; auto. intros J HJ. rewrite B4 by auto. split.
          -- intros HI2. apply In_nth with (d := 0) in HI2. destruct HI2 as (t & Ht & <-). exists (Z.of_nat t). unfold zlen in *. split; [lia|]. unfold nthZ. now rewrite Nat2Z.id.
          -- intros (t & Ht & <-). unfold nthZ. apply nth_In. unfold zlen in *. lia.
        * intros i bc3 Hi (C1 & C2). rewrite (rd_nthZ _ 0) by lia. rewrite B3 by lia.
          assert (JR : 0 <= zn L i < nb) by (eapply met_range; [exact HI|exact ML|lia|]; unfold nthZ; apply nth_In; unfold zlen in *; lia).
          rewrite wr_upd by lia. eexists. split; [reflexivity|]. rewrite zlen_upd. split; auto. intros J HJ. rewrite nthZ_upd by lia.
          destruct (J =? zn L i) eqn:EJ.
          -- split; [discriminate|]. intros (t & Ht & Et). exfalso. assert (Z.to_nat t = Z.to_nat i); [|lia].
             apply (proj1 (NoDup_nth L 0) (proj1 ML)); unfold zlen in *; try lia. unfold nthZ in *. lia.
          -- rewrite C2 by auto. split; intros (t & Ht & Et); exists t; (split; [|auto]); [|lia]. assert (t <> i) by (intros ->; lia). lia.
        * rewrite E2. eexists. split; [reflexivity|]. cbv beta iota. rewrite ?zlen_upd. split; [auto|]. split; [auto|]. split; [auto|]. split.
          -- intros J HJ. destruct (bool_list bc2 J) as [X|X]; auto. apply C2 in X; auto. destruct X as (t & Ht & _). lia.
          -- intros x Hx. rewrite nthZ_upd by lia. destruct (x + 1 =? I + 1) eqn:Ex; [replace x with I by lia; exact CE|]. apply A5. lia.
    - rewrite E. destruct R as (A1 & A2 & A3 & _ & A5). rewrite wr_upd by lia.
      match goal with |- context [for_ ?l ?h ?f ?s] => destruct (for_inv _ (fun i st => let '(bp, sum) := st in zlen bp = mb + 1 /\ zn bp 0 = b /\ zn bp i = sum /\ b <= sum <= b + lo i /\
        (forall x, 0 <= x < i -> zn bp (x + 1) = zn bp x + cnt x) /\ forall x, i <= x < mb -> zn bp (x + 1) = cnt x) l h f s ltac:(lia)) as ((bp1 & sum) & E1 & R1) end.
      + rewrite zlen_upd. split; [auto|]. split; [now rewrite nthZ_upd, Z.eqb_refl by lia|]. split; [now rewrite nthZ_upd, Z.eqb_refl by lia|]. split.
        * pose proof (lo_bound 0 ltac:(lia)). lia.
        * split; [intros; lia|]. intros x Hx. rewrite nthZ_upd by lia. replace (x + 1 =? 0) with false by lia. apply A5. lia.
      + intros i (bp1 & sum) Hi (R1 & R2 & R3 & R4 & R5 & R6). pose proof (cnt_entries i Hi). pose proof (cnt_pos i). pose proof (lo_bound (i + 1) ltac:(lia)). pose proof max63.
        rewrite (rd_nthZ _ 0) by lia. rewrite R6 by lia. unfold chk, in_int. replace ((int_min 63 <=? sum + cnt i) && (sum + cnt i <=? int_max 63)) with true by (change (int_min 63) with (-9223372036854775808); lia).
        rewrite to_int_ok by lia. rewrite wr_upd by lia. eexists. split; [reflexivity|]. cbv beta iota. rewrite ?zlen_upd. split; [auto|]. split; [rewrite nthZ_upd by lia; now replace (0 =? i + 1) with false by lia|].
        split; [now rewrite nthZ_upd, Z.eqb_refl by lia|]. split; [lia|]. split.
        * intros x Hx. rewrite !nthZ_upd by lia. replace (x =? i + 1) with false by lia. destruct (x + 1 =? i + 1) eqn:Ex; [replace x with i by lia; lia|]. apply R5. lia.
        * intros x Hx. rewrite nthZ_upd by lia. replace (x + 1 =? i + 1) with false by lia. apply R6. lia.
      + rewrite E1. destruct R1 as (R1 & R2 & R3 & R4 & R5 & _). pose proof (lo_bound mb ltac:(lia)).
        assert (OV : int_sum_overflow 63 w sum = false) by (unfold int_sum_overflow; destruct (w <? 63); lia). rewrite OV. rewrite (rd_nthZ _ 0) by lia.
        exists bp1, (sum - b). rewrite R3. split; [reflexivity|]. split; [auto|]. split; [auto|]. split; [lia|]. split; [lia|]. exact R5.
  Qed.

  (** ** Filling *)
  Context {T : Type}.
  Variables (d : T) (val : list T) (row_order : bool) (bptr : list Z) (bnnz : Z) (P : T -> Prop).
  Hypothesis LV : zlen val = nnz.
  Hypothesis PB : ptr_ok mb bnnz b bptr.
  Hypothesis LB : zlen bptr = mb + 1.
  Hypothesis CNT : forall I, 0 <= I < mb -> zn bptr (I + 1) = zn bptr I + cnt I.
  Hypothesis FIT : bnnz * bd * bd <= int_max w.

  Definition bp (I : Z) : Z := zn bptr I - b.
  Lemma bp_next : forall I, 0 <= I < mb -> bp (I + 1) = bp I + cnt I.
  Proof. intros I HI. unfold bp. rewrite CNT by auto. lia. Qed.
  Lemma bp_mono : forall I I', 0 <= I <= I' -> I' <= mb -> bp I <= bp I'.
  Proof. intros I I' H H'. unfold bp. pose proof (ptr_mono mb bnnz b bptr PB I I' ltac:(lia)). lia. Qed.
  Lemma bp_bound : forall I, 0 <= I <= mb -> 0 <= bp I <= bnnz.
  Proof. intros I HI. unfold bp. pose proof (ptr_range mb bnnz b bptr PB I HI). lia. Qed.

  (** Entries of row [i], column [j] at positions before [K] *)
  Definition ents_at (i j K : Z) : list T :=
    if i <? m then flat_map (fun k => if zn ind k =? j + b then olist (rd val k) else []) (zrange (zn ptr i - b) (Z.min K (zn ptr (i + 1) - b))) else [].
  Definition good (l : list T) (v : T) : Prop := match l with [] => P v | _ => v = last l d end.
  Definition pos (k r c : Z) : Z := k * bd * bd + cell row_order bd r c.

  Lemma cell_range : forall r c, 0 <= r < bd -> 0 <= c < bd -> 0 <= cell row_order bd r c < bd * bd.
  Proof. intros r c Hr Hc. unfold cell. destruct row_order; nia. Qed.
  Lemma cell_inj : forall r c r' c', 0 <= r < bd -> 0 <= c < bd -> 0 <= r' < bd -> 0 <= c' < bd -> cell row_order bd r c = cell row_order bd r' c' -> r = r' /\ c = c'.
  Proof.
    intros r c r' c' H1 H2 H3 H4. unfold cell. destruct row_order; intros E.
    - assert (r = r') by nia. nia.
    - assert (c = c') by nia. nia.
  Qed.
  Lemma pos_range : forall k r c lo hi, lo <= k < hi -> 0 <= r < bd -> 0 <= c < bd -> lo * bd * bd <= pos k r c < hi * bd * bd.
  Proof.
    intros k r c lo0 hi Hk Hr Hc. unfold pos. pose proof (cell_range r c Hr Hc). rewrite <- !Z.mul_assoc. set (q := bd * bd) in *. clearbody q. nia.
  Qed.
  Lemma pos_inj : forall k r c k' r' c', 0 <= r < bd -> 0 <= c < bd -> 0 <= r' < bd -> 0 <= c' < bd -> pos k r c = pos k' r' c' -> k = k' /\ r = r' /\ c = c'.
  Proof.
    intros k r c k' r' c' H1 H2 H3 H4 E. unfold pos in E. pose proof (cell_range r c H1 H2) as R1. pose proof (cell_range r' c' H3 H4) as R2. rewrite <- !Z.mul_assoc in E.
    assert (k = k') by (set (q := bd * bd) in *; clearbody q; nia). subst k'. split; auto. apply cell_inj; auto. lia.
  Qed.

  Lemma ents_step : forall i i0 j K, 0 <= i -> 0 <= i0 < m -> in_row ptr b i0 K -> 0 <= K < nnz ->
    ents_at i j (K + 1) = ents_at i j K ++ (if (i =? i0) && (zn ind K =? j + b) then [nthZ d val K] else []).
  Proof.
    intros i i0 j K Hi Hi0 IR HK. unfold ents_at. destruct (i <? m) eqn:Em; [|replace (i =? i0) with false by lia; reflexivity].
    pose proof (wf_ptr _ _ _ _ _ _ W) as PT. unfold in_row in IR.
    destruct (Z.eq_dec i i0) as [->|N].
    - rewrite Z.eqb_refl. cbn [andb]. rewrite !Z.min_l by lia. rewrite zrange_last by lia. rewrite flat_map_app. cbn [flat_map]. rewrite app_nil_r.
      rewrite (rd_nthZ _ d) by lia. reflexivity.
    - replace (i =? i0) with false by lia. cbn [andb]. rewrite app_nil_r. destruct (Z_lt_dec i i0).
      + pose proof (ptr_mono m nnz b ptr PT (i + 1) i0 ltac:(lia)). rewrite !Z.min_r by lia. reflexivity.
      + pose proof (ptr_mono m nnz b ptr PT (i0 + 1) i ltac:(lia)). rewrite !zrange_nil by lia. reflexivity.
  Qed.
  Lemma ents_end : forall i j K, 0 <= i < m -> zn ptr (i + 1) - b <= K -> ents_at i j K = ents b ptr ind val i j.
  Proof. intros i j K Hi HK. unfold ents_at, ents. replace (i <? m) with true by lia. now rewrite Z.min_r by lia. Qed.
  Lemma ents_none : forall i j K I, 0 <= I < mb -> I * bd <= i < I * bd + bd -> (forall k, lo I <= k < K -> bcol k <> j / bd) -> ents_at i j K = [].
  Proof.
    intros i j K I HI Hi F. unfold ents_at. destruct (i <? m) eqn:Em; [|reflexivity].
    match goal with |- flat_map ?f ?l = [] => assert (Z : forall l', (forall k, In k l' -> f k = []) -> flat_map f l' = []) end.
    { induction l' as [|x l' IH]; intros H; cbn; [reflexivity|]. rewrite H by now left. cbn. apply IH. intros. apply H. now right. }
    apply Z. intros k Hk. apply in_zrange in Hk. destruct (zn ind k =? j + b) eqn:E; [|reflexivity]. exfalso.
    assert (KR : lo I <= k < lo (I + 1)) by (apply (row_lo I (i - I * bd) k HI); [lia|lia|]; unfold in_row; replace (I * bd + (i - I * bd)) with i by lia; lia).
    apply (F k); [lia|]. unfold bcol. f_equal. lia.
  Qed.

  (** A finished block row *)
  Definition row_ok (I : Z) (bind : list Z) (bval : list T) : Prop :=
    (forall k, bp I <= k < bp (I + 1) -> has I (zn bind k - b) = true /\
       forall r c, 0 <= r < bd -> 0 <= c < bd -> good (ents_at (I * bd + r) ((zn bind k - b) * bd + c) nnz) (nthZ d bval (pos k r c))) /\
    (forall k k', bp I <= k < bp (I + 1) -> bp I <= k' < bp (I + 1) -> zn bind k = zn bind k' -> k = k') /\
    (forall J, has I J = true -> exists k, bp I <= k < bp (I + 1) /\ zn bind k - b = J).
  Lemma row_ok_frame : forall I bind bval bind' bval',
    (forall k, bp I <= k < bp (I + 1) -> zn bind' k = zn bind k) ->
    (forall k r c, bp I <= k < bp (I + 1) -> 0 <= r < bd -> 0 <= c < bd -> nthZ d bval' (pos k r c) = nthZ d bval (pos k r c)) ->
    row_ok I bind bval -> row_ok I bind' bval'.
  Proof.
    intros I bind bval bind' bval' F1 F2 (A & B & C). split; [|split].
    - intros k Hk. rewrite F1 by auto. destruct (A k Hk) as (A1 & A2). split; auto. intros r c Hr Hc. rewrite F2 by auto. auto.
    - intros k k' Hk Hk'. rewrite !F1 by auto. auto.
    - intros J HJ. destruct (C J HJ) as (k & Hk & E). exists k. rewrite F1 by auto. auto.
  Qed.

  (** Inside block row [I], before position [K], with the blocks [L] opened *)
  Definition inside (I K : Z) (L : list Z) (st : list Z * list Z * list T * Z) : Prop :=
    let '(bc, bind, bval, idx) := st in
    idx = bp I + zlen L /\ zlen bc = nb /\ zlen bind = bnnz /\ zlen bval = bnnz * bd * bd /\
    NoDup L /\ (forall J, In J L -> has I J = true) /\
    (forall t, 0 <= t < zlen L -> zn bind (bp I + t) = zn L t + b) /\
    (forall t, 0 <= t < zlen L -> zn bc (zn L t) = (bp I + t) * bd * bd) /\
    (forall J, 0 <= J < nb -> ~ In J L -> zn bc J = -1) /\
    (forall t r c, 0 <= t < zlen L -> 0 <= r < bd -> 0 <= c < bd -> good (ents_at (I * bd + r) (zn L t * bd + c) K) (nthZ d bval (pos (bp I + t) r c))) /\
    (forall k r c, bp I + zlen L <= k < bnnz -> 0 <= r < bd -> 0 <= c < bd -> P (nthZ d bval (pos k r c))) /\
    (forall I', 0 <= I' < I -> row_ok I' bind bval).

  Lemma in_nth : forall (L : list Z) J, In J L -> exists t, 0 <= t < zlen L /\ zn L t = J.
  Proof. intros L J H. apply In_nth with (d := 0) in H. destruct H as (t & Ht & <-). exists (Z.of_nat t). unfold zlen, nthZ. rewrite Nat2Z.id. split; [lia|auto]. Qed.
  Lemma nth_in : forall (L : list Z) t, 0 <= t < zlen L -> In (zn L t) L.
  Proof. intros L t H. unfold nthZ, zlen in *. apply nth_In. lia. Qed.
  Lemma nth_uniq : forall (L : list Z) t t', NoDup L -> 0 <= t < zlen L -> 0 <= t' < zlen L -> zn L t = zn L t' -> t = t'.
  Proof. intros L t t' ND H H' E. unfold nthZ, zlen in *. assert (Z.to_nat t = Z.to_nat t') by (apply (proj1 (NoDup_nth L 0) ND); auto; lia). lia. Qed.
  Lemma has_range : forall I J, 0 <= I < mb -> has I J = true -> 0 <= J < nb.
  Proof. intros I J HI H. apply has_iff in H. destruct H as (k & Hk & <-). apply bcol_range. now apply (lo_range I). Qed.

  Lemma open_ok : forall I K L bc bind bval idx J, 0 <= I < mb -> inside I K L (bc, bind, bval, idx) -> has I J = true -> ~ In J L ->
    (forall k, lo I <= k < K -> bcol k <> J) ->
    idx < bnnz /\ chk w (idx * bd * bd) = Some (idx * bd * bd) /\ inside I K (L ++ [J]) (upd bc J (idx * bd * bd), upd bind idx (J + b), bval, idx + 1).
  Proof.
    intros I K L bc bind bval idx J HI (E1 & E2 & E3 & E4 & ND & HH & A1 & A2 & A3 & A4 & A5 & A6) HJ NJ FJ.
    pose proof (has_range I J HI HJ) as JR. pose proof (zlen_nonneg _ L).
    assert (ND' : NoDup (L ++ [J])) by now apply nodup_snoc.
    assert (HH' : forall x, In x (L ++ [J]) -> has I x = true) by (intros x Hx; apply in_app_or in Hx; destruct Hx as [Hx|[<-|[]]]; auto).
    pose proof (cnt_le I _ HI ND' HH') as CL. rewrite zlen_app in CL. change (zlen [J]) with 1 in CL.
    pose proof (bp_next I HI) as BN. pose proof (bp_bound (I + 1) ltac:(lia)) as BB. pose proof (bp_bound I ltac:(lia)) as BB0.
    assert (IB : idx < bnnz) by lia. split; [exact IB|]. split.
    { apply chk_ok. rewrite <- !Z.mul_assoc in *. set (q := bd * bd) in *. assert (0 < q) by (unfold q; apply Z.mul_pos_pos; lia). split; [apply Z.mul_nonneg_nonneg; lia|]. apply Z.le_trans with (bnnz * q); [|lia]. apply Z.mul_le_mono_nonneg_r; lia. }
    unfold inside. rewrite !zlen_upd, zlen_app. change (zlen [J]) with 1.
    split; [lia|]. do 3 (split; [auto|]). split; [auto|]. split; [auto|].
    assert (NTH : forall t, 0 <= t < zlen L + 1 -> zn (L ++ [J]) t = if t =? zlen L then J else zn L t).
    { intros t Ht. destruct (t =? zlen L) eqn:Et; [rewrite nthZ_app2 by lia; replace (t - zlen L) with 0 by lia; reflexivity|now rewrite nthZ_app1 by lia]. }
    split; [|split; [|split; [|split; [|split]]]].
    - intros t Ht. rewrite NTH by lia. rewrite nthZ_upd by lia. destruct (t =? zlen L) eqn:Et.
      + now replace (bp I + t =? idx) with true by lia.
      + replace (bp I + t =? idx) with false by lia. apply A1. lia.
    - intros t Ht. rewrite NTH by lia. destruct (t =? zlen L) eqn:Et.
      + rewrite nthZ_upd by lia. rewrite Z.eqb_refl. replace (bp I + t) with idx by lia. reflexivity.
      + pose proof (has_range I (zn L t) HI ltac:(apply HH, nth_in; lia)). rewrite nthZ_upd by lia. destruct (zn L t =? J) eqn:EJ; [exfalso; apply NJ; replace J with (zn L t) by lia; apply nth_in; lia|]. apply A2. lia.
    - intros x Hx NI. rewrite nthZ_upd by lia. destruct (x =? J) eqn:Ex; [exfalso; apply NI, in_or_app; right; left; lia|]. apply A3; auto. intros H'. apply NI, in_or_app. now left.
    - intros t r c Ht Hr Hc. rewrite NTH by lia. destruct (t =? zlen L) eqn:Et; [|apply A4; auto; lia].
      assert (EJ : (J * bd + c) / bd = J) by (rewrite Z.div_add_l by lia; rewrite Z.div_small by lia; lia).
      rewrite (ents_none _ _ _ I HI); [|lia|intros k Hk; rewrite EJ; auto].
      apply A5; auto. lia.
    - intros k r c Hk Hr Hc. apply A5; auto. lia.
    - intros I' HI'. apply row_ok_frame with (3 := A6 I' HI'); auto. intros k Hk. pose proof (bp_bound I' ltac:(lia)). rewrite nthZ_upd by lia.
      pose proof (bp_mono (I' + 1) I ltac:(lia) ltac:(lia)). now replace (k =? idx) with false by lia.
  Qed.

  Lemma write_ok : forall I K L bc bind bval idx i, 0 <= I < mb -> inside I K L (bc, bind, bval, idx) -> 0 <= i < bd -> I * bd + i < m -> in_row ptr b (I * bd + i) K -> 0 <= K < nnz -> In (bcol K) L ->
    0 <= zn bc (bcol K) /\ 0 <= zn bc (bcol K) + cell row_order bd i ((zn ind K - b) mod bd) < zlen bval /\
    inside I (K + 1) L (bc, bind, upd bval (zn bc (bcol K) + cell row_order bd i ((zn ind K - b) mod bd)) (nthZ d val K), idx).
  Proof.
    intros I K L bc bind bval idx i HI (E1 & E2 & E3 & E4 & ND & HH & A1 & A2 & A3 & A4 & A5 & A6) Hi Hr IR HK HJ.
    destruct (in_nth L _ HJ) as (t0 & Ht0 & Et0). pose proof (cnt_le I L HI ND HH) as CL. pose proof (bp_next I HI) as BN. pose proof (bp_bound (I + 1) ltac:(lia)) as BB. pose proof (bp_bound I ltac:(lia)) as BB0.
    set (j := (zn ind K - b) mod bd). assert (Hj : 0 <= j < bd) by (apply Z.mod_pos_bound; lia).
    assert (DM : zn ind K - b = bcol K * bd + j) by (unfold bcol, j; rewrite Z.mul_comm; apply Z.div_mod; lia).
    assert (OFF : zn bc (bcol K) + cell row_order bd i j = pos (bp I + t0) i j) by (rewrite <- Et0, A2 by auto; reflexivity). rewrite OFF.
    pose proof (pos_range (bp I + t0) i j 0 bnnz ltac:(lia) Hi Hj) as PR.
    split; [rewrite <- Et0, A2 by auto; nia|]. split; [lia|].
    unfold inside. rewrite zlen_upd. do 9 (split; [auto|]).
    assert (NE : forall k r c, 0 <= r < bd -> 0 <= c < bd -> ~ (k = bp I + t0 /\ r = i /\ c = j) -> (pos k r c =? pos (bp I + t0) i j) = false).
    { intros k r c Hr' Hc' N. destruct (pos k r c =? pos (bp I + t0) i j) eqn:E; [|reflexivity]. exfalso. apply N. apply pos_inj; auto. lia. }
    assert (IB0 : 0 <= I * bd) by (apply Z.mul_nonneg_nonneg; lia). split; [|split].
    - intros t r c Ht Hr' Hc. rewrite (ents_step _ (I * bd + i)) by (auto; lia). pose proof (pos_range (bp I + t) r c 0 bnnz ltac:(lia) Hr' Hc). rewrite nthZ_upd by lia.
      destruct ((I * bd + r =? I * bd + i) && (zn ind K =? zn L t * bd + c + b)) eqn:C.
      + assert (r = i) by lia. assert (t = t0 /\ c = j) as (-> & ->).
        { destruct (place_inj bd (zn L t) c (bcol K) j Hc Hj ltac:(lia)) as (X1 & X2). split; [|exact X2]. apply (nth_uniq L); auto. lia. }
        subst r. rewrite Z.eqb_refl. unfold good. destruct (ents_at _ _ K ++ [nthZ d val K]) eqn:EL; [destruct (ents_at (I * bd + i) (zn L t0 * bd + j) K); discriminate|]. rewrite <- EL. now rewrite last_last.
      + rewrite app_nil_r. rewrite NE; auto. intros (X1 & X2 & X3). assert (t = t0) by lia. subst t r c. rewrite Et0 in C. lia.
    - intros k r c Hk Hr' Hc. pose proof (zlen_nonneg _ L). pose proof (pos_range k r c 0 bnnz ltac:(lia) Hr' Hc). rewrite nthZ_upd by lia. rewrite NE; auto. intros (X1 & _). lia.
    - intros I' HI'. apply row_ok_frame with (3 := A6 I' HI'); auto. intros k r c Hk Hr' Hc. pose proof (bp_mono (I' + 1) I ltac:(lia) ltac:(lia)). pose proof (bp_bound I' ltac:(lia)). pose proof (pos_range k r c 0 bnnz ltac:(lia) Hr' Hc). rewrite nthZ_upd by lia.
      rewrite NE; auto. intros (X1 & _). lia.
  Qed.

  Lemma fill_row_ok : forall I bc bind bval, 0 <= I < mb ->
    inside I (lo I) [] (bc, bind, bval, bp I) ->
    exists bc' bind' bval', fill_block_row w m b ptr ind val bd row_order bptr I (bc, bind, bval) = Some (bc', bind', bval') /\
      zlen bc' = nb /\ zlen bind' = bnnz /\ zlen bval' = bnnz * bd * bd /\ (forall J, 0 <= J < nb -> zn bc' J = -1) /\
      (forall k r c, bp (I + 1) <= k < bnnz -> 0 <= r < bd -> 0 <= c < bd -> P (nthZ d bval' (pos k r c))) /\
      (forall I', 0 <= I' < I + 1 -> row_ok I' bind' bval').
  Proof.
    intros I bc bind bval HI I0. destruct (wf_len _ _ _ _ _ _ W) as (L1 & L2). unfold fill_block_row. rewrite !(rd_nthZ _ 0) by lia.
    change (zn bptr I - b) with (bp I). change (zn bptr (I + 1) - b) with (bp (I + 1)). cbv zeta.
    destruct (block_pos_inv _ (fun K st => exists L, met I K L /\ lo I <= K /\ inside I K L st) (fun i => fill_step w b ind val bd row_order i) I (bc, bind, bval, bp I) HI) as ((((bc1 & bind1) & bval1) & idx1) & E1 & L & ML & _ & IN).
    - exists []. split; [apply met_start|]. split; [lia|]. exact I0.
    - intros i k (((bc1 & bind1) & bval1) & idx1) Hi Hr IR Hk (L & ML & LK & IN). pose proof (row_lo I i k HI Hi Hr IR) as KR.
      unfold fill_step. rewrite (rd_nthZ _ 0 ind) by lia. cbv zeta. change ((zn ind k - b) / bd) with (bcol k). pose proof (bcol_range k Hk) as JR.
      assert (LBC : zlen bc1 = nb /\ zlen bind1 = bnnz) by (destruct IN as (_ & X & Y & _); auto). destruct LBC as (LBC & LBI).
      rewrite (rd_nthZ _ 0 bc1) by lia. rewrite (rd_nthZ _ d val) by lia.
      destruct (in_dec Z.eq_dec (bcol k) L) as [IL|NI].
      + destruct (write_ok I k L bc1 bind1 bval1 idx1 i HI IN Hi Hr IR Hk IL) as (NN & WR & IN2).
        replace (zn bc1 (bcol k) =? -1) with false by lia. rewrite (rd_nthZ _ 0 bc1) by lia. rewrite wr_upd by lia. eexists. split; [reflexivity|]. exists L. split; [now apply met_old|]. split; [lia|exact IN2].
      + assert (M1 : zn bc1 (bcol k) = -1) by (destruct IN as (_ & _ & _ & _ & _ & _ & _ & _ & A3 & _); auto). rewrite M1.
        assert (HJ : has I (bcol k) = true) by (apply has_iff; exists k; auto).
        assert (FJ : forall k0, lo I <= k0 < k -> bcol k0 <> bcol k) by (intros k0 Hk0 E; apply NI; apply ML; exists k0; auto).
        destruct (open_ok I k L bc1 bind1 bval1 idx1 (bcol k) HI IN HJ NI FJ) as (IB & CK & IN2).
        change (-1 =? -1) with true. cbv iota. rewrite CK. rewrite wr_upd by lia. assert (0 <= idx1) by (destruct IN as (-> & _); pose proof (bp_bound I ltac:(lia)); pose proof (zlen_nonneg _ L); lia). rewrite wr_upd by lia.
        assert (IL : In (bcol k) (L ++ [bcol k])) by (apply in_or_app; right; now left).
        destruct (write_ok I k _ _ _ _ _ i HI IN2 Hi Hr IR Hk IL) as (NN & WR & IN3).
        rewrite (rd_nthZ _ 0) by (rewrite zlen_upd; lia). rewrite wr_upd by lia. eexists. split; [reflexivity|]. exists (L ++ [bcol k]). split; [now apply met_new|]. split; [lia|exact IN3].
    - rewrite E1. destruct IN as (F1 & F2 & F3 & F4 & ND & HH & A1 & A2 & A3 & A4 & A5 & A6).
      assert (CE : zlen L = cnt I) by (apply cnt_eq; [auto|apply ML|intros; now apply met_full]). pose proof (bp_next I HI) as BN. pose proof (bp_bound (I + 1) ltac:(lia)) as BB. pose proof (bp_bound I ltac:(lia)) as BB0.
      pose proof (zlen_nonneg _ L).
      match goal with |- context [for_ ?l ?h ?f ?s] => destruct (for_inv _ (fun k bc => zlen bc = nb /\ forall J, 0 <= J < nb -> (forall t, k - bp I <= t < zlen L -> zn L t <> J) -> zn bc J = -1) l h f s ltac:(lia)) as (bc2 & E2 & C1 & C2) end.
      + split; auto. intros J HJ N. apply A3; auto. intros IJ. destruct (in_nth L J IJ) as (t & Ht & Et). apply (N t); auto. lia.
      + intros k bc2 Hk (C1 & C2). rewrite (rd_nthZ _ 0) by lia. assert (BK : zn bind1 k - b = zn L (k - bp I)) by (rewrite <- (Z.sub_add (bp I) k) at 1; rewrite Z.add_comm, A1 by lia; lia). rewrite BK.
        assert (JR : 0 <= zn L (k - bp I) < nb) by (apply (has_range I); auto; apply HH, nth_in; lia). rewrite wr_upd by lia. eexists. split; [reflexivity|]. rewrite zlen_upd. split; auto.
        intros J HJ N. rewrite nthZ_upd by lia. destruct (J =? zn L (k - bp I)) eqn:EJ; [reflexivity|]. apply C2; auto. intros t Ht. destruct (Z.eq_dec t (k - bp I)) as [->|]; [lia|]. apply N. lia.
      + rewrite E2. exists bc2, bind1, bval1. split; [reflexivity|]. do 3 (split; [auto|]). split; [intros J HJ; apply C2; auto; intros t Ht; lia|].
        split; [intros k r c Hk Hr Hc; apply A5; auto; lia|].
        intros I' HI'. destruct (Z.eq_dec I' I) as [->|N]; [|apply A6; lia].
        assert (BK : forall k, bp I <= k < bp (I + 1) -> zn bind1 k - b = zn L (k - bp I)) by (intros k Hk; rewrite <- (Z.sub_add (bp I) k) at 1; rewrite Z.add_comm, A1 by lia; lia).
        split; [|split].
        * intros k Hk. rewrite BK by auto. split; [apply HH, nth_in; lia|]. intros r c Hr Hc. pose proof (A4 (k - bp I) r c ltac:(lia) Hr Hc) as G. replace (bp I + (k - bp I)) with k in G by lia.
          replace (ents_at (I * bd + r) (zn L (k - bp I) * bd + c) nnz) with (ents_at (I * bd + r) (zn L (k - bp I) * bd + c) (lo (I + 1))); [exact G|].
          destruct (Z_lt_dec (I * bd + r) m) as [Lt|]; [|unfold ents_at; now replace (I * bd + r <? m) with false by lia].
          pose proof (wf_ptr _ _ _ _ _ _ W) as PT. pose proof (row_start I HI). pose proof (ptr_range m nnz b ptr PT (I * bd + r + 1) ltac:(lia)).
          assert (zn ptr (I * bd + r + 1) - b <= lo (I + 1)). { rewrite lo_next. pose proof (ptr_mono m nnz b ptr PT (I * bd + r + 1) (Z.min m (I * bd + bd)) ltac:(lia)). lia. }
          rewrite !ents_end by lia. reflexivity.
        * intros k k' Hk Hk' E. assert (k - bp I = k' - bp I); [|lia]. apply (nth_uniq L); auto; try lia. rewrite <- !BK by auto. lia.
        * intros J HJ. apply (met_full I L J ML) in HJ. destruct (in_nth L J HJ) as (t & Ht & Et). exists (bp I + t). split; [lia|]. rewrite A1 by auto. lia.
  Qed.

  (** ** Sorting *)
  Definition arrs (bind : list Z) (bval : list T) : Prop := zlen bind = bnnz /\ zlen bval = bnnz * bd * bd.
  Lemma swap_ok : forall k bind bval, arrs bind bval -> 0 <= k -> k + 1 < bnnz ->
    exists bind' bval', swap_blocks w bd k bind bval = Some (bind', bval') /\ arrs bind' bval' /\
      (forall x, 0 <= x -> zn bind' x = if x =? k then zn bind (k + 1) else if x =? k + 1 then zn bind k else zn bind x) /\
      (forall x r c, 0 <= x -> 0 <= r < bd -> 0 <= c < bd -> nthZ d bval' (pos x r c) =
         nthZ d bval (pos (if x =? k then k + 1 else if x =? k + 1 then k else x) r c)).
  Proof.
    intros k bind bval (A1 & A2) Hk Hk1. unfold swap_blocks. set (q := bd * bd).
    assert (Q : 0 < q) by (unfold q; nia). assert (QF : bnnz * q <= int_max w) by (unfold q; rewrite Z.mul_assoc; exact FIT). assert (A2' : zlen bval = bnnz * q) by (unfold q; rewrite Z.mul_assoc; exact A2).
    assert (C1 : chk w q = Some q) by (apply chk_ok; nia). rewrite C1.
    match goal with |- context [for_ ?l ?h ?f ?s] => destruct (for_inv _ (fun t bv => zlen bv = bnnz * q /\ forall x, 0 <= x -> nthZ d bv x =
       if (q * k <=? x) && (x <? q * k + t) then nthZ d bval (x + q) else if (q * (k + 1) <=? x) && (x <? q * (k + 1) + t) then nthZ d bval (x - q) else nthZ d bval x) l h f s ltac:(lia)) as (bv & E & B1 & B2) end.
    - split; auto. intros x Hx. replace ((q * k <=? x) && (x <? q * k + 0)) with false by lia. replace ((q * (k + 1) <=? x) && (x <? q * (k + 1) + 0)) with false by lia. reflexivity.
    - intros t bv Ht (B1 & B2). assert (R1 : 0 <= q * k + t < bnnz * q) by nia. assert (R2 : 0 <= q * (k + 1) + t < bnnz * q) by nia. rewrite !chk_ok by lia.
      rewrite !(rd_nthZ _ d bv) by lia. rewrite wr_upd by lia. rewrite wr_upd by (rewrite zlen_upd; lia). eexists. split; [reflexivity|]. rewrite !zlen_upd. split; auto. intros x Hx.
      assert (EQ : q * (k + 1) = q * k + q) by lia. rewrite nthZ_upd by (rewrite ?zlen_upd; lia). rewrite nthZ_upd by lia. rewrite !B2 by lia.
      set (a := q * k) in *. rewrite EQ in *. clearbody a. clear EQ B2.
      destruct (x =? a + q + t) eqn:X1.
      { replace ((a <=? x) && (x <? a + (t + 1))) with false by lia. replace ((a + q <=? x) && (x <? a + q + (t + 1))) with true by lia.
        replace ((a <=? a + t) && (a + t <? a + t)) with false by lia. replace ((a + q <=? a + t) && (a + t <? a + q + t)) with false by lia. f_equal. lia. }
      destruct (x =? a + t) eqn:X2.
      { replace ((a <=? x) && (x <? a + (t + 1))) with true by lia.
        replace ((a <=? a + q + t) && (a + q + t <? a + t)) with false by lia. replace ((a + q <=? a + q + t) && (a + q + t <? a + q + t)) with false by lia. f_equal. lia. }
      replace ((a <=? x) && (x <? a + (t + 1))) with ((a <=? x) && (x <? a + t)) by lia. replace ((a + q <=? x) && (x <? a + q + (t + 1))) with ((a + q <=? x) && (x <? a + q + t)) by lia. reflexivity.
    - rewrite E. rewrite !(rd_nthZ _ 0) by lia. rewrite wr_upd by lia. rewrite wr_upd by (rewrite zlen_upd; lia). eexists. eexists. split; [reflexivity|]. split; [split; rewrite ?zlen_upd; lia|]. split.
      + intros x Hx. rewrite nthZ_upd by (rewrite ?zlen_upd; lia). rewrite nthZ_upd by lia. destruct (x =? k + 1) eqn:X1; [now replace (x =? k) with false by lia|]. reflexivity.
      + intros x r c Hx Hr Hc. pose proof (cell_range r c Hr Hc) as CR. unfold pos. rewrite <- !Z.mul_assoc. fold q. fold q in CR. set (y := cell row_order bd r c) in *. clearbody y. rewrite B2 by nia.
        destruct (x =? k) eqn:X1; [|destruct (x =? k + 1) eqn:X2].
        * assert (x = k) by lia. subst x. replace ((q * k <=? k * q + y) && (k * q + y <? q * k + q)) with true by lia. f_equal. lia.
        * assert (x = k + 1) by lia. subst x. replace ((q * k <=? (k + 1) * q + y) && ((k + 1) * q + y <? q * k + q)) with false by lia.
          replace ((q * (k + 1) <=? (k + 1) * q + y) && ((k + 1) * q + y <? q * (k + 1) + q)) with true by lia. f_equal. lia.
        * replace ((q * k <=? x * q + y) && (x * q + y <? q * k + q)) with false by nia. replace ((q * (k + 1) <=? x * q + y) && (x * q + y <? q * (k + 1) + q)) with false by nia. reflexivity.
  Qed.

  Lemma swap_row : forall I k bind bval bind' bval', 0 <= I < mb -> bp I <= k -> k + 1 < bp (I + 1) ->
    (forall x, 0 <= x -> zn bind' x = if x =? k then zn bind (k + 1) else if x =? k + 1 then zn bind k else zn bind x) ->
    (forall x r c, 0 <= x -> 0 <= r < bd -> 0 <= c < bd -> nthZ d bval' (pos x r c) =
         nthZ d bval (pos (if x =? k then k + 1 else if x =? k + 1 then k else x) r c)) ->
    forall I', 0 <= I' < mb -> row_ok I' bind bval -> row_ok I' bind' bval'.
  Proof.
    intros I k bind bval bind' bval' HI Hk Hk1 F1 F2 I' HI'. pose proof (bp_bound I ltac:(lia)). pose proof (bp_bound I' ltac:(lia)).
    destruct (Z.eq_dec I' I) as [->|N].
    - set (sw := fun x => if x =? k then k + 1 else if x =? k + 1 then k else x).
      assert (G1 : forall x, 0 <= x -> zn bind' x = zn bind (sw x)) by (intros x Hx; rewrite F1 by auto; unfold sw; destruct (x =? k); [reflexivity|]; destruct (x =? k + 1); reflexivity).
      assert (SR : forall x, bp I <= x < bp (I + 1) -> bp I <= sw x < bp (I + 1)) by (intros x Hx; unfold sw; destruct (x =? k); [lia|]; destruct (x =? k + 1); lia).
      assert (SS : forall x, sw (sw x) = x) by (intros x; unfold sw; destruct (x =? k) eqn:X1; [replace (k + 1 =? k) with false by lia; rewrite Z.eqb_refl; lia|]; destruct (x =? k + 1) eqn:X2; [rewrite Z.eqb_refl; lia|]; now rewrite X1, X2).
      intros (A & B & C). split; [|split].
      + intros x Hx. rewrite G1 by lia. destruct (A (sw x) (SR x Hx)) as (A1 & A2). split; auto. intros r c Hr Hc. rewrite F2 by (auto; lia). apply A2; auto.
      + intros x x' Hx Hx' E. rewrite !G1 in E by lia. apply B in E; auto. rewrite <- (SS x), <- (SS x'). now rewrite E.
      + intros J HJ. destruct (C J HJ) as (x & Hx & E). exists (sw x). split; auto. rewrite G1 by (specialize (SR x Hx); lia). now rewrite SS.
    - assert (OUT : forall x, bp I' <= x < bp (I' + 1) -> x <> k /\ x <> k + 1).
      { intros x Hx. destruct (Z_lt_dec I' I); [pose proof (bp_mono (I' + 1) I ltac:(lia) ltac:(lia)); lia|pose proof (bp_mono (I + 1) I' ltac:(lia) ltac:(lia)); lia]. }
      apply row_ok_frame.
      + intros x Hx. destruct (OUT x Hx). rewrite F1 by lia. replace (x =? k) with false by lia. now replace (x =? k + 1) with false by lia.
      + intros x r c Hx Hr Hc. destruct (OUT x Hx). rewrite F2 by (auto; lia). replace (x =? k) with false by lia. now replace (x =? k + 1) with false by lia.
  Qed.

  Definition all_ok (bind : list Z) (bval : list T) : Prop := arrs bind bval /\ forall I, 0 <= I < mb -> row_ok I bind bval.
  Definition row_sorted (I : Z) (bind : list Z) : Prop := forall x y, bp I <= x -> x < y -> y < bp (I + 1) -> zn bind x < zn bind y.

  Lemma sort_row_ok : forall I bind bval, 0 <= I < mb -> all_ok bind bval -> (forall I', 0 <= I' < I -> row_sorted I' bind) ->
    exists bind' bval', sort_block_row w b bd bptr I (bind, bval) = Some (bind', bval') /\ all_ok bind' bval' /\ forall I', 0 <= I' < I + 1 -> row_sorted I' bind'.
  Proof.
    intros I bind bval HI AO SO. unfold sort_block_row. rewrite !(rd_nthZ _ 0) by lia. change (zn bptr I - b) with (bp I). change (zn bptr (I + 1) - b) with (bp (I + 1)). cbv zeta.
    set (B := bp I) in *. set (En := bp (I + 1)) in *. pose proof (bp_bound I ltac:(lia)) as R1. pose proof (bp_bound (I + 1) ltac:(lia)) as R2. pose proof (bp_mono I (I + 1) ltac:(lia) ltac:(lia)) as R3. fold B in R1, R3. fold En in R2, R3.
    assert (KEEP : forall k bi bi', B <= k -> k + 1 < En -> (forall x, 0 <= x -> zn bi' x = if x =? k then zn bi (k + 1) else if x =? k + 1 then zn bi k else zn bi x) ->
       (forall I', 0 <= I' < I -> row_sorted I' bi) -> forall I', 0 <= I' < I -> row_sorted I' bi').
    { intros k bi bi' K1 K2 F S I' HI' x y Hx Hxy Hy. pose proof (bp_mono (I' + 1) I ltac:(lia) ltac:(lia)). pose proof (bp_mono (I' + 1) I ltac:(lia) ltac:(lia)) as MM. change (bp I) with B in MM. pose proof (bp_bound I' ltac:(lia)).
      rewrite !F by lia. replace (x =? k) with false by lia. replace (x =? k + 1) with false by lia. replace (y =? k) with false by lia. replace (y =? k + 1) with false by lia. now apply (S I' HI'). }
    (* after [p] passes the last [p] places are settled *)
    match goal with |- context [for_ ?l ?h ?f ?s] => destruct (for_inv _ (fun j st => let '(bi, bv) := st in all_ok bi bv /\ (forall I', 0 <= I' < I -> row_sorted I' bi) /\
       forall x y, B <= x -> x < y -> y < En -> En - (j - B) <= y -> zn bi x < zn bi y) l h f s ltac:(lia)) as ((bi & bv) & E & A & S & Z1) end.
    - split; auto. split; auto. intros. lia.
    - intros j (bi & bv) Hj (A & S & Z1).
      match goal with |- context [for_ ?l ?h ?f ?s] => destruct (for_inv _ (fun k st => let '(bi, bv) := st in all_ok bi bv /\ (forall I', 0 <= I' < I -> row_sorted I' bi) /\
         (forall x y, B <= x -> x < y -> y < En -> En - (j - B) <= y -> zn bi x < zn bi y) /\
         (forall x, B <= x < Z.min k (En - 1 - (j - B)) -> zn bi x < zn bi (Z.min k (En - 1 - (j - B))))) l h f s ltac:(lia)) as ((bi2 & bv2) & E & A2 & S2 & Z2 & Z3) end.
      + split; auto. split; auto. split; auto. intros x Hx. lia.
      + intros k (bi2 & bv2) Hk (A2 & S2 & Z2 & Z3). pose proof A2 as ((AA & AB) & AR). rewrite !(rd_nthZ _ 0) by lia.
        assert (DIST : forall x y, B <= x < En -> B <= y < En -> zn bi2 x = zn bi2 y -> x = y) by (destruct (AR I HI) as (_ & D & _); exact D).
        destruct (zn bi2 (k + 1) <? zn bi2 k) eqn:C.
        * destruct (swap_ok k bi2 bv2 (conj AA AB) ltac:(lia) ltac:(lia)) as (bi3 & bv3 & E3 & A3 & F1 & F2). rewrite E3. eexists. split; [reflexivity|]. cbv beta iota.
          assert (KB : k + 1 < En - (j - B)). { destruct (Z_lt_dec (k + 1) (En - (j - B))); auto. specialize (Z2 k (k + 1) ltac:(lia) ltac:(lia) ltac:(lia) ltac:(lia)). lia. }
          split; [split; [exact A3|]; intros I' HI'; eapply (swap_row I k); eauto; fold B En; lia|]. split; [apply (KEEP k bi2 bi3); auto; lia|]. split.
          -- intros x y Hx Hxy Hy Hy2. rewrite !F1 by lia. replace (y =? k) with false by lia. replace (y =? k + 1) with false by lia.
             destruct (x =? k); [apply Z2; lia|]. destruct (x =? k + 1); apply Z2; lia.
          -- rewrite !Z.min_l in * by lia. intros x Hx. rewrite !F1 by lia. replace (k + 1 =? k) with false by lia. rewrite Z.eqb_refl. replace (x =? k + 1) with false by lia. destruct (x =? k) eqn:Xk; [lia|]. apply Z3. lia.
        * eexists. split; [reflexivity|]. split; auto. split; auto. split; auto. intros x Hx.
          assert (zn bi2 k <> zn bi2 (k + 1)) by (intros X; apply DIST in X; lia).
          destruct (Z_lt_dec (En - 1 - (j - B)) (k + 1)) as [G|G].
          -- rewrite Z.min_r in * by lia. replace (Z.min k (En - 1 - (j - B))) with (En - 1 - (j - B)) in Z3 by lia. apply Z3. lia.
          -- rewrite !Z.min_l in * by lia. destruct (Z.eq_dec x k) as [->|]; [lia|]. specialize (Z3 x ltac:(lia)). lia.
      + rewrite E. eexists. split; [reflexivity|]. split; auto. split; auto. intros x y Hx Hxy Hy Hy2. destruct (Z_le_dec (En - (j - B)) y); [apply Z2; lia|].
        assert (y = En - 1 - (j - B)) by lia. rewrite Z.min_r in Z3 by lia. subst y. apply Z3. lia.
    - rewrite E. exists bi, bv. split; [reflexivity|]. split; auto. intros I' HI'. destruct (Z.eq_dec I' I) as [->|]; [|apply S; lia].
      intros x y Hx Hxy Hy. fold B in Hx. fold En in Hy. apply Z1; lia.
  Qed.

  Lemma core_ok : forall bind bval, arrs bind bval -> (forall x, 0 <= x < bnnz * bd * bd -> P (nthZ d bval x)) ->
    exists bval' bind', csr2bsr_core w m n b row_order val ptr ind bd bval bptr bind = Some (bval', bind') /\ all_ok bind' bval' /\ forall I, 0 <= I < mb -> row_sorted I bind'.
  Proof.
    intros bind bval AR HP. pose proof mb_pos as MP. assert (NP : 0 < nb) by (apply nblocks_pos; lia).
    unfold csr2bsr_core. rewrite (chk_ok (m + bd - 1)), (chk_ok (n + bd - 1)) by lia. change ((m + bd - 1) / bd) with mb. change ((n + bd - 1) / bd) with nb.
    match goal with |- context [for_ ?l ?h ?f ?s] => destruct (for_inv _ (fun I st => let '(bc, bi, bv) := st in zlen bc = nb /\ arrs bi bv /\ (forall J, 0 <= J < nb -> zn bc J = -1) /\
       (forall k r c, bp I <= k < bnnz -> 0 <= r < bd -> 0 <= c < bd -> P (nthZ d bv (pos k r c))) /\ (forall I', 0 <= I' < I -> row_ok I' bi bv)) l h f s ltac:(lia)) as (((bc & bi) & bv) & E & R) end.
    - rewrite zlen_zrep by lia. split; [auto|]. split; [auto|]. split; [intros; now rewrite nthZ_zrep by lia|]. split; [|intros; lia].
      intros k r c Hk Hr Hc. pose proof (bp_bound 0 ltac:(lia)). apply HP. apply (pos_range k r c 0 bnnz); lia.
    - intros I ((bc & bi) & bv) HI (A1 & (A2 & A3) & A4 & A5 & A6).
      destruct (fill_row_ok I bc bi bv HI) as (bc' & bi' & bv' & E & B1 & B2 & B3 & B4 & B5 & B6).
      + unfold inside. change (zlen (@nil Z)) with 0. rewrite Z.add_0_r. do 4 (split; [auto|]). split; [constructor|]. split; [intros J []|]. split; [intros; lia|]. split; [intros; lia|]. split; [intros J HJ _; auto|]. split; [intros; lia|]. split; [exact A5|exact A6].
      + rewrite E. eexists. split; [reflexivity|]. split; [auto|]. split; [split; auto|]. auto.
    - rewrite E. destruct R as (_ & A2 & _ & _ & A6).
      match goal with |- context [for_ ?l ?h ?f ?s] => destruct (for_inv _ (fun I st => let '(bi, bv) := st in all_ok bi bv /\ forall I', 0 <= I' < I -> row_sorted I' bi) l h f s ltac:(lia)) as ((bi2 & bv2) & E2 & R1 & R2) end.
      + split; [split; auto|intros; lia].
      + intros I (bi2 & bv2) HI (R1 & R2). destruct (sort_row_ok I bi2 bv2 HI R1 R2) as (bi3 & bv3 & E3 & R3 & R4). rewrite E3. exists (bi3, bv3). auto.
      + rewrite E2. exists bv2, bi2. auto.
  Qed.
End P.
