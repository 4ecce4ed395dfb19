(** Boolean tests for the structural hypotheses, used only to show that concrete
    cases satisfy them. *)
From Coq Require Import ZArith List Bool Lia ZifyBool.
From Verif Require Import Base BaseFacts Algebra Csr SortSpec MvSpec.
Import ListNotations.
Open Scope Z_scope.

Definition allz (lo hi : Z) (f : Z -> bool) : bool := forallb f (zrange lo hi).
Lemma allz_ok : forall lo hi f, allz lo hi f = true -> forall k, lo <= k < hi -> f k = true.
Proof. intros lo hi f H k Hk. unfold allz in H. rewrite forallb_forall in H. apply H. now apply in_zrange. Qed.

Definition csr_wfb (m n nnz b : Z) (ptr ind : list Z) : bool :=
  (0 <=? m) && (0 <=? n) && (0 <=? nnz) && (zlen ptr =? m + 1) && (zlen ind =? nnz) &&
  (zn ptr 0 =? b) && (zn ptr m =? b + nnz) && allz 0 m (fun i => zn ptr i <=? zn ptr (i + 1)) &&
  allz 0 nnz (fun k => (b <=? zn ind k) && (zn ind k <? b + n)).
Lemma csr_wfb_ok : forall m n nnz b ptr ind, csr_wfb m n nnz b ptr ind = true -> csr_wf m n nnz b ptr ind.
Proof.
  intros m n nnz b ptr ind H. unfold csr_wfb in H. repeat (apply andb_true_iff in H; destruct H as [H ?]).
  constructor; try lia.
  - split; lia.
  - repeat split; try lia. intros i Hi. match goal with H : allz 0 m _ = true |- _ => pose proof (allz_ok _ _ _ H i Hi) end. cbn in *; lia.
  - intros k Hk. match goal with H : allz 0 nnz _ = true |- _ => pose proof (allz_ok _ _ _ H k Hk) end. cbn in *; lia.
Qed.

(** Every pair of positions of every row. *)
Definition rowpairs (m b : Z) (ptr : list Z) (f : Z -> Z -> Z -> bool) : bool :=
  allz 0 m (fun i => allz (zn ptr i - b) (zn ptr (i + 1) - b) (fun k => allz (zn ptr i - b) (zn ptr (i + 1) - b) (fun k' => f i k k'))).
Lemma rowpairs_ok : forall m b ptr f, rowpairs m b ptr f = true ->
  forall i k k', 0 <= i < m -> in_row ptr b i k -> in_row ptr b i k' -> f i k k' = true.
Proof.
  intros m b ptr f H i k k' Hi Hk Hk'. unfold in_row in *.
  pose proof (allz_ok _ _ _ H i Hi) as H1. cbn beta in H1.
  pose proof (allz_ok _ _ _ H1 k Hk) as H2. cbn beta in H2.
  exact (allz_ok _ _ _ H2 k' Hk').
Qed.

Definition diag_uniqueb m b ptr ind := rowpairs m b ptr (fun i k k' => negb ((zn ind k =? i + b) && (zn ind k' =? i + b)) || (k =? k')).
Lemma diag_uniqueb_ok : forall m b ptr ind, diag_uniqueb m b ptr ind = true -> diag_unique m b ptr ind.
Proof. intros m b ptr ind H i k k' Hi Hk Hk' E E'. pose proof (rowpairs_ok _ _ _ _ H i k k' Hi Hk Hk'). cbn in *; lia. Qed.

Definition rows_distinctb m b ptr ind := rowpairs m b ptr (fun i k k' => (k =? k') || negb (zn ind k =? zn ind k')).
Lemma rows_distinctb_ok : forall m b ptr ind, rows_distinctb m b ptr ind = true -> rows_distinct m b ptr ind.
Proof. intros m b ptr ind H i k k' Hi Hk Hk' E E'. pose proof (rowpairs_ok _ _ _ _ H i k k' Hi Hk Hk'). cbn in *; lia. Qed.

Definition rows_sortedb m b ptr ind := rowpairs m b ptr (fun i k k' => negb (k <? k') || (zn ind k <=? zn ind k')).
Lemma rows_sortedb_ok : forall m b ptr ind, rows_sortedb m b ptr ind = true -> rows_sorted m b ptr ind.
Proof. intros m b ptr ind H i k k' Hi Hk Hk' E. pose proof (rowpairs_ok _ _ _ _ H i k k' Hi Hk Hk'). cbn in *; lia. Qed.

Definition rows_groupedb m b ptr ind := rowpairs m b ptr (fun i k k' => negb (k <? k') ||
  ((negb (zn ind k >? i + b) || (zn ind k' >? i + b)) && (negb (zn ind k =? i + b) || (zn ind k' >=? i + b)))).
Lemma rows_groupedb_ok : forall m b ptr ind, rows_groupedb m b ptr ind = true -> rows_grouped m b ptr ind.
Proof. intros m b ptr ind H i k k' Hi Hk Hk' E. pose proof (rowpairs_ok _ _ _ _ H i k k' Hi Hk Hk'). cbn in *. split; lia. Qed.

Definition full_diagb m n b ptr ind := allz 0 (Z.min m n) (fun i =>
  existsb (fun k => zn ind k =? i + b) (zrange (zn ptr i - b) (zn ptr (i + 1) - b))).
Lemma full_diagb_ok : forall m n b ptr ind, full_diagb m n b ptr ind = true -> full_diag m n b ptr ind.
Proof.
  intros m n b ptr ind H i Hi Hn. pose proof (allz_ok _ _ _ H i ltac:(lia)) as E. cbn in E.
  apply existsb_exists in E. destruct E as (k & Hk & E). apply in_zrange in Hk. exists k. split; [exact Hk|lia].
Qed.

Definition lower_diag_lastb m b ptr ind := rowpairs m b ptr (fun i k k' =>
  (zn ind k - b <=? i) && (negb (zn ind k - b =? i) || (k =? zn ptr (i + 1) - b - 1))).
Lemma lower_diag_lastb_ok : forall m b ptr ind, lower_diag_lastb m b ptr ind = true -> lower_diag_last m b ptr ind.
Proof. intros m b ptr ind H i k Hi Hk. pose proof (rowpairs_ok _ _ _ _ H i k k Hi Hk Hk). cbn in *; lia. Qed.
