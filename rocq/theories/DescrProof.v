From Coq Require Import ZArith List Bool Lia ZifyBool.
From Verif Require Import Base DescrModel DescrSpec.
Import ListNotations.
Open Scope Z_scope.

Lemma setter_ok : forall f d v s,
  let '(st, s') := exec (Cset f d v) s in
  (d = None -> st = invalid_pointer) /\
  (d <> None -> (st = success <-> defined f v) /\ (st = success \/ st = invalid_value)) /\
  (st <> success -> s' = s) /\
  (st = success -> get f s' d = v /\ forall f' d', f' <> f \/ d' <> d -> get f' s' d' = get f' s d').
Proof.
  intros f d v s. destruct d as [p|].
  - destruct f; cbn [exec];
    unfold set_index_base, set_mat_type, set_fill_mode, set_diag_type, defined;
    match goal with |- context [if ?c then _ else _] => destruct c eqn:E end;
    (split; [discriminate|]); (split; [intros _; split; [split; intros ?; first [discriminate | reflexivity | lia | (exfalso; lia)]|auto]|]);
    try (split; [auto|intros; discriminate]); try (split; [intros; congruence|]).
    all: try (intros _; split; [cbn; unfold put; rewrite Nat.eqb_refl; reflexivity|]).
    all: try (intros f' [q|] C; [|destruct f'; reflexivity]; cbn; destruct f'; cbn; unfold put; destruct (Nat.eqb q p) eqn:Q; auto;
      apply PeanoNat.Nat.eqb_eq in Q; subst q; cbn; destruct C as [C|C]; try reflexivity; exfalso; auto).
    all: lia.
  - destruct f; cbn; (split; [auto|]); (split; [congruence|]); split; auto; discriminate.
Qed.

Lemma shows_ok : forall f h p w, shows f p h w -> get f (after h) (Some p) = w.
Proof.
  intros f h p w H. induction H; cbn [after].
  - destruct f; reflexivity.
  - pose proof (setter_ok f (Some p) v (after h)) as G. destruct (exec _ _) as [st s'] eqn:E. cbn [snd].
    destruct G as (_ & G & _ & G3). destruct (G ltac:(discriminate)) as [[G1 G2] _]. apply G3. auto.
  - pose proof (setter_ok f (Some q) v (after h)) as G. destruct (exec _ _) as [st s'] eqn:E. cbn [snd].
    destruct G as (_ & G & G4 & _). destruct (G ltac:(discriminate)) as [[G1 G2] [G3|G3]]; [exfalso; auto|].
    rewrite G4 by congruence. auto.
  - pose proof (setter_ok f' d v (after h)) as G. destruct (exec _ _) as [st s'] eqn:E. cbn [snd].
    destruct G as (_ & _ & G4 & G5). assert (D : st = success \/ st <> success) by (destruct st; auto; right; discriminate).
    destruct D as [D|D]; [|rewrite G4 by auto; auto]. destruct (G5 D) as [_ G6]. rewrite G6; auto.
  - pose proof (setter_ok f None v (after h)) as G. destruct (exec _ _) as [st s'] eqn:E. cbn [snd].
    destruct G as (G & _ & G4 & _). rewrite G4; auto. rewrite G; auto. discriminate.
  - pose proof (setter_ok f (Some q) v (after h)) as G. destruct (exec _ _) as [st s'] eqn:E. cbn [snd].
    destruct G as (_ & _ & G4 & G5). assert (D : st = success \/ st <> success) by (destruct st; auto; right; discriminate).
    destruct D as [D|D]; [|rewrite G4 by auto; auto]. destruct (G5 D) as [_ G6]. rewrite G6; auto. right. congruence.
  - rewrite <- IHshows. cbn. destruct f; cbn; unfold put; rewrite Nat.eqb_refl; reflexivity.
  - rewrite <- IHshows. destruct e as [q|]; cbn; [|reflexivity].
    assert (E : Nat.eqb p d = false) by (apply PeanoNat.Nat.eqb_neq; auto).
    destruct f; cbn; unfold put; rewrite E; reflexivity.
  - rewrite <- IHshows. destruct d as [d|], e as [e|]; cbn; try reflexivity. destruct H as [H|H]; discriminate.
Qed.
Lemma defined_dec : forall f v, defined f v \/ ~ defined f v.
Proof. intros f v. destruct f; unfold defined; lia. Qed.
Lemma shows_total : forall f h p, exists w, shows f p h w.
Proof.
  intros f. induction h as [|c h IH]; intros p; [eexists; constructor|].
  destruct c as [f' d v|d e].
  - assert (D : f' = f \/ f' <> f) by (destruct f, f'; auto; right; discriminate).
    destruct D as [->|D].
    + destruct d as [q|].
      * destruct (PeanoNat.Nat.eq_dec q p) as [->|N].
        -- destruct (defined_dec f v); [eexists; apply S_set; auto|]. destruct (IH p) as (w & Hw). exists w. apply S_rejected; auto.
        -- destruct (IH p) as (w & Hw). exists w. apply S_other; auto.
      * destruct (IH p) as (w & Hw). exists w. apply S_null; auto.
    + destruct (IH p) as (w & Hw). exists w. apply S_other_field; auto.
  - destruct d as [d|]; [|destruct (IH p) as (w & Hw); exists w; apply S_copy_null; auto].
    destruct e as [e|]; [|destruct (IH p) as (w & Hw); exists w; apply S_copy_null; auto].
    destruct (PeanoNat.Nat.eq_dec d p) as [->|N].
    + destruct (IH e) as (w & Hw). exists w. apply S_copy; auto.
    + destruct (IH p) as (w & Hw). exists w. apply S_copy_other; auto.
Qed.
Lemma shows_defined : forall f h p w, shows f p h w -> defined f w.
Proof. intros f h p w H. induction H; auto. destruct f; cbn; auto. Qed.

Lemma history_ok : forall f h p w, shows f p h w <-> get f (after h) (Some p) = w.
Proof.
  intros f h p w. split; [apply shows_ok|]. intros <-. destruct (shows_total f h p) as (w & H).
  rewrite (shows_ok _ _ _ _ H). exact H.
Qed.
Lemma history_defined : forall f h d, defined f (get f (after h) d).
Proof.
  intros f h [p|]; [|destruct f; cbn; auto]. destruct (shows_total f h p) as (w & H). rewrite (shows_ok _ _ _ _ H).
  eapply shows_defined; eauto.
Qed.
