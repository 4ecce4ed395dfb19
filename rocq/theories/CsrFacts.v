(** Basic consequences of well-formedness. *)
From Coq Require Import ZArith List Bool Lia.
From Coq Require Import ZifyBool.
From Verif Require Import Base BaseFacts Algebra Csr.
Import ListNotations.
Open Scope Z_scope.

Lemma mono_le : forall (f : Z -> Z) lo hi,
  (forall i, lo <= i < hi -> f i <= f (i + 1)) ->
  forall i j, lo <= i -> i <= j -> j <= hi -> f i <= f j.
Proof.
  intros f lo hi H i j Hi Hij Hj.
  replace j with (i + Z.of_nat (Z.to_nat (j - i))) by lia.
  assert (G : forall n, i + Z.of_nat n <= hi -> f i <= f (i + Z.of_nat n)).
  { induction n; intros Hn.
    - replace (i + Z.of_nat 0) with i by lia. lia.
    - replace (i + Z.of_nat (S n)) with (i + Z.of_nat n + 1) by lia.
      etransitivity; [apply IHn; lia|]. apply H. lia. }
  apply G. lia.
Qed.

Lemma ptr_mono : forall m nnz b ptr, ptr_ok m nnz b ptr ->
  forall i j, 0 <= i -> i <= j -> j <= m -> zn ptr i <= zn ptr j.
Proof. intros m nnz b ptr (_ & _ & H). now apply mono_le. Qed.

Lemma ptr_range : forall m nnz b ptr, ptr_ok m nnz b ptr ->
  forall i, 0 <= i <= m -> 0 <= zn ptr i - b <= nnz.
Proof.
  intros m nnz b ptr H i Hi. pose proof (ptr_mono _ _ _ _ H) as M.
  pose proof (M 0 i ltac:(lia) ltac:(lia) ltac:(lia)).
  pose proof (M i m ltac:(lia) ltac:(lia) ltac:(lia)).
  destruct H as (Hp0 & Hpm & _). lia.
Qed.

Lemma in_row_range : forall m nnz b ptr, ptr_ok m nnz b ptr ->
  forall i k, 0 <= i < m -> in_row ptr b i k -> 0 <= k < nnz.
Proof.
  intros m nnz b ptr H i k Hi Hk. unfold in_row in Hk.
  pose proof (ptr_range _ _ _ _ H i ltac:(lia)).
  pose proof (ptr_range _ _ _ _ H (i + 1) ltac:(lia)). lia.
Qed.

(** Every stored position is in some row, and in only one. *)
Lemma row_of : forall m nnz b ptr, 0 <= m -> ptr_ok m nnz b ptr ->
  forall k, 0 <= k < nnz -> exists i, 0 <= i < m /\ in_row ptr b i k.
Proof.
  intros m nnz b ptr Hm0 (H0 & Hm & Hmono) k Hk.
  assert (G : forall n, (Z.of_nat n <= m) -> k < zn ptr (Z.of_nat n) - b ->
     exists i, 0 <= i < Z.of_nat n /\ in_row ptr b i k).
  { induction n; intros Hn Hlt.
    - change (Z.of_nat 0) with 0 in Hlt. lia.
    - destruct (Z_lt_ge_dec k (zn ptr (Z.of_nat n) - b)) as [Hc|Hc].
      + destruct IHn as (i & Hi & Hr); try lia. exists i; split; auto; lia.
      + exists (Z.of_nat n). split; [lia|]. unfold in_row.
        replace (Z.of_nat n + 1) with (Z.of_nat (S n)) by lia. lia. }
  destruct (G (Z.to_nat m)) as (i & Hi & Hr); try lia.
  { replace (Z.of_nat (Z.to_nat m)) with m by lia. lia. }
  exists i; split; auto; lia.
Qed.

Lemma row_unique : forall m nnz b ptr, ptr_ok m nnz b ptr ->
  forall i i' k, 0 <= i < m -> 0 <= i' < m -> in_row ptr b i k -> in_row ptr b i' k -> i = i'.
Proof.
  intros m nnz b ptr H i i' k Hi Hi' Hr Hr'. unfold in_row in *.
  pose proof (ptr_mono _ _ _ _ H) as M.
  destruct (Z_lt_ge_dec i i') as [C|C].
  - pose proof (M (i + 1) i' ltac:(lia) ltac:(lia) ltac:(lia)). lia.
  - destruct (Z_lt_ge_dec i' i) as [C'|C']; [|lia].
    pose proof (M (i' + 1) i ltac:(lia) ltac:(lia) ltac:(lia)). lia.
Qed.
