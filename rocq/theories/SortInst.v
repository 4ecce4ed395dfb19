(** A sorting function meeting the contract assumed of std::sort, used by the
    concrete cases beside the theorems. *)
From Coq Require Import ZArith List Bool Lia Permutation Sorted.
From Verif Require Import Base BaseFacts SortSpec.
Import ListNotations.
Open Scope Z_scope.

Fixpoint ins (cmp : Z -> Z -> bool) (a : Z) (l : list Z) : list Z :=
  match l with
  | [] => [a]
  | c :: l' => if cmp a c then a :: l else c :: ins cmp a l'
  end.
Definition isort (cmp : Z -> Z -> bool) (l : list Z) : list Z := fold_right (ins cmp) [] l.

Lemma ins_perm : forall cmp a l, Permutation (ins cmp a l) (a :: l).
Proof.
  induction l as [|c l IH]; cbn; auto. destruct (cmp a c); auto.
  etransitivity; [apply perm_skip, IH|]. apply perm_swap.
Qed.
Lemma isort_perm : forall cmp l, Permutation (isort cmp l) l.
Proof.
  induction l as [|a l IH]; cbn; auto. etransitivity; [apply ins_perm|]. auto.
Qed.

Lemma ss_index : forall (R : Z -> Z -> Prop) l, StronglySorted R l ->
  forall i j, 0 <= i < j -> j < zlen l -> R (zn l i) (zn l j).
Proof.
  induction 1 as [|a l HS IH F]; intros i j Hi Hj.
  - unfold zlen in Hj; cbn in Hj; lia.
  - rewrite zlen_cons in Hj. rewrite Forall_forall in F.
    assert (Hn : forall k, 0 < k -> zn (a :: l) k = zn l (k - 1)).
    { intros k Hk. unfold nthZ. replace (Z.to_nat k) with (S (Z.to_nat (k - 1))) by lia. reflexivity. }
    rewrite (Hn j) by lia. destruct (Z.eq_dec i 0) as [->|].
    + cbn. apply F. unfold nthZ. apply nth_In. unfold zlen in *. lia.
    + rewrite (Hn i) by lia. apply IH; lia.
Qed.

Lemma isort_contract : sort_contract isort.
Proof.
  intros cmp l ND Htot Htr. split; [apply isort_perm|].
  intros i j Hi Hj. apply (ss_index (fun a c => cmp a c = true)); auto.
  2:{ unfold zlen in *. rewrite (Permutation_length (isort_perm cmp l)). exact Hj. }
  clear i j Hi Hj. induction l as [|a l IH]; [constructor|]. change (isort cmp (a :: l)) with (ins cmp a (isort cmp l)).
  inversion ND as [|? ? Ha ND']; subst.
  assert (S : StronglySorted (fun a c => cmp a c = true) (isort cmp l)).
  { apply IH; auto.
    - intros; apply Htot; cbn; auto.
    - intros a0 c0 d0; intros. apply (Htr a0 c0 d0); cbn; auto. }
  assert (HIn : forall x, In x (isort cmp l) -> In x l) by (intros x Hx; exact (Permutation_in _ (isort_perm cmp l) Hx)).
  assert (ND2 : NoDup (isort cmp l)) by (eapply Permutation_NoDup; [symmetry; apply isort_perm|assumption]).
  revert S HIn ND2. generalize (isort cmp l) as s. clear IH.
  induction s as [|c s IHs]; intros S HIn ND2; cbn [ins]; [repeat constructor|].
  pose proof (StronglySorted_inv S) as [S1 F]. pose proof ND2 as N2. apply NoDup_cons_iff in N2. destruct N2 as [Hc ND3].
  assert (Hca : c <> a) by (intros ->; apply Ha, HIn; left; auto).
  destruct (cmp a c) eqn:E.
  - constructor; auto. constructor; auto. rewrite Forall_forall in *. intros x Hx.
    apply (Htr a c x); cbn; auto.
    + right; apply HIn; left; auto.
    + right; apply HIn; right; auto.
    + intros ->; contradiction.
    + intros ->. apply Ha, HIn. right; auto.
  - constructor.
    + apply IHs; auto. intros x Hx; apply HIn; right; auto.
    + rewrite Forall_forall in *. intros x Hx. pose proof (Permutation_in _ (ins_perm cmp a s) Hx) as [<-|Hx'].
      * specialize (Htot a c ltac:(left; auto) ltac:(right; apply HIn; left; auto) ltac:(auto)). rewrite E in Htot. destruct (cmp c a); auto; discriminate.
      * apply F; auto.
Qed.
