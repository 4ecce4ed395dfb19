From Coq Require Import ZArith Bool List Lia.
From Coq Require Import ZifyBool.
From Verif Require Import Base BaseFacts Algebra DoidModel DoidSpec.
Import ListNotations.
Open Scope Z_scope.

Lemma doid_cases : forall d, 0 <= d < 20 -> In d (zrange 0 20).
Proof. intros; now apply in_zrange. Qed.

Ltac dcases H := apply doid_cases in H; cbv in H;
  repeat destruct H as [<- | H]; try contradiction.

Section P.
  Context {T : Type} (O : ops T) (L : laws O).
  Implicit Type M : @mat T.

  Ltac sem := cbv [doid_sem mT mC mL mU mSL mSU mHL mHU]; intros;
    repeat match goal with
    | |- context [?a <=? ?b] => destruct (a <=? b) eqn:?
    end; rewrite ?(l_cj_cj L), ?(cj_0 O L); try reflexivity; try lia;
    try (match goal with
     | H : (?i <=? ?j) = true, H' : (?j <=? ?i) = true |- _ =>
        assert (j = i) by lia; subst; rewrite ?(l_cj_cj L); reflexivity end).
  Ltac semh R := sem; try (match goal with
     | H : (?i <=? ?j) = true, H' : (?j <=? ?i) = true |- _ =>
        assert (j = i) by lia; subst; rewrite ?R; reflexivity end).

  Lemma eff_ok : forall d r e M,
    0 <= d < 20 -> 0 <= r < 20 ->
    (is_herm_doid r -> real_diag O M) ->
    get_effective_doid d r = Some e -> e <> dlen ->
    0 <= e < 20 /\ (forall i j, doid_sem O e (doid_sem O d M) i j = doid_sem O r M i j).
  Proof.
    intros d r e M Hd Hr Hh E Ne. unfold is_herm_doid, real_diag in Hh.
    dcases Hd; dcases Hr; vm_compute in E; inversion E; subst; clear E;
      try (exfalso; apply Ne; reflexivity); (split; [lia|]);
      first [ solve [clear Hh; sem] | (specialize (Hh ltac:(lia)); semh Hh) ].
  Qed.

  Lemma eff_total : forall d r, 0 <= d < 20 -> 0 <= r < 20 ->
    exists e, get_effective_doid d r = Some e /\ 0 <= e <= 20.
  Proof.
    intros d r Hd Hr. dcases Hd; dcases Hr; vm_compute; eexists; split; eauto; split; discriminate.
  Qed.

  Lemma eff_general : forall d r, 0 <= d < 4 -> 0 <= r < 20 ->
    exists e, get_effective_doid d r = Some e /\ 0 <= e < 20.
  Proof.
    intros d r Hd Hr. assert (H : 0 <= d < 20) by lia.
    dcases H; try lia; dcases Hr; vm_compute; eexists; split; eauto; (split; [discriminate|auto]).
  Qed.

  Lemma trans_ok : forall d M,
    0 <= d < 20 -> (is_herm_doid d -> real_diag O M) ->
    0 <= trans_doid d < 20 /\
    (forall i j, doid_sem O (trans_doid d) (mT M) i j = doid_sem O d M i j).
  Proof.
    intros d M Hd Hh. unfold is_herm_doid, real_diag in Hh.
    dcases Hd; (split; [vm_compute; split; [discriminate | reflexivity]|]);
      match goal with |- context [trans_doid ?x] =>
         let v := eval vm_compute in (trans_doid x) in change (trans_doid x) with v end;
      first [ solve [clear Hh; sem] | (specialize (Hh ltac:(lia)); semh Hh) ].
  Qed.

  Lemma conj_ok : forall d M,
    0 <= d < 20 ->
    0 <= conj_doid d < 20 /\
    (forall i j, doid_sem O (conj_doid d) M i j = ocj O (doid_sem O d M i j)).
  Proof.
    intros d M Hd.
    dcases Hd; (split; [vm_compute; split; [discriminate | reflexivity]|]);
      match goal with |- context [conj_doid ?x] =>
         let v := eval vm_compute in (conj_doid x) in change (conj_doid x) with v end;
      sem.
  Qed.

  Lemma get_doid_ok : forall is_real ty fm op M,
    (is_real = true -> forall a, ocj O a = a) ->
    (ty = mt_hermitian -> real_diag O M) ->
    (op = op_none \/ op = op_transpose \/ op = op_conjugate_transpose) ->
    exists d, get_doid is_real ty fm op = Some d /\ 0 <= d < 20 /\
      (forall i j, doid_sem O d M i j = op_sem O op (descr_sem O ty fm M) i j).
  Proof.
    intros is_real ty fm op M Hr Hh Hop. unfold real_diag in Hh.
    destruct Hop as [-> | [-> | -> ] ]; destruct ty, fm, is_real; (eexists; split; [vm_compute; reflexivity|]);
      (split; [lia|]); cbn [op_sem descr_sem];
      first [specialize (Hh eq_refl) | clear Hh]; first [specialize (Hr eq_refl) | clear Hr];
      (sem; try rewrite ?Hr; try reflexivity;
      try (match goal with
     | H : (?i <=? ?j) = true, H' : (?j <=? ?i) = true |- _ =>
        assert (j = i) by lia; subst; try rewrite ?Hh; reflexivity end)).
  Qed.

  Lemma get_doid_bad_op : forall is_real ty fm v, v < 111 \/ 113 < v ->
    get_doid is_real ty fm (op_other v) = Some dlen.
  Proof.
    intros is_real ty fm v H. unfold get_doid.
    destruct is_real, ty; cbn [op_val];
      (replace ((v - 111 <? 0) || (2 <? v - 111)) with true by lia); reflexivity.
  Qed.
End P.

(** A stored symmetric expansion of one triangle does not determine the other
    triangle's expansion: refusing is the only sound answer. *)
Lemma eff_len_needed : forall d r,
  4 <= d < 12 -> 4 <= r < 12 -> Z.shiftr d 2 = Z.shiftr r 2 ->
  get_effective_doid d r = Some dlen ->
  exists M N : @mat Z, (forall i j, doid_sem Zops d M i j = doid_sem Zops d N i j) /\
    exists i j, doid_sem Zops r M i j <> doid_sem Zops r N i j.
Proof.
  intros d r Hd Hr G E.
  assert (H : 0 <= d < 20) by lia. assert (H' : 0 <= r < 20) by lia.
  dcases H; try lia; dcases H'; try lia; vm_compute in E; try discriminate; vm_compute in G; try discriminate;
    clear E G;
    first
     [ exists (fun i j => if i <? j then 1 else 0), (fun i j => if i <? j then 2 else 0);
       split; [intros i j; cbv [doid_sem mC mSL mSU mHL mHU Zops ocj];
        repeat match goal with
        | |- context [?a <=? ?b] => destruct (a <=? b) eqn:?
        | |- context [?a <? ?b] => destruct (a <? b) eqn:?
        end; try reflexivity; lia | exists 0, 1; vm_compute; discriminate ]
     | exists (fun i j => if j <? i then 1 else 0), (fun i j => if j <? i then 2 else 0);
       split; [intros i j; cbv [doid_sem mC mSL mSU mHL mHU Zops ocj];
        repeat match goal with
        | |- context [?a <=? ?b] => destruct (a <=? b) eqn:?
        | |- context [?a <? ?b] => destruct (a <? b) eqn:?
        end; try reflexivity; lia | exists 0, 1; vm_compute; discriminate ] ].
Qed.
