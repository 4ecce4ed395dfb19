(** Programs that append to disjoint segments ("buckets") of an array. *)
From Coq Require Import ZArith List Bool Lia.
From Coq Require Import ZifyBool.
From Verif Require Import Base BaseFacts.
Import ListNotations.
Open Scope Z_scope.

Lemma nthZ_app_last : forall A (d : A) l v, nthZ d (l ++ [v]) (zlen l) = v.
Proof. intros. rewrite nthZ_app2 by lia. rewrite Z.sub_diag. reflexivity. Qed.
Lemma nthZ_cons_S : forall A (d : A) x l i, 0 <= i -> nthZ d (x :: l) (i + 1) = nthZ d l i.
Proof. intros. unfold nthZ. replace (Z.to_nat (i + 1)) with (S (Z.to_nat i)) by lia. reflexivity. Qed.

Section B.
  Context {X : Type} (eqx : forall a b : X, {a = b} + {a <> b}).
  Variable dom : X -> Prop.
  Variables (bb cap : X -> Z) (len : Z).

  (** Buckets lie inside the array and do not overlap. *)
  Definition layout : Prop :=
    (forall q, dom q -> 0 <= bb q /\ 0 <= cap q /\ bb q + cap q <= len) /\
    (forall q q', dom q -> dom q' -> q <> q' -> bb q + cap q <= bb q' \/ bb q' + cap q' <= bb q).

  Definition holds {A} (d : A) (B : X -> list A) (arr : list A) : Prop :=
    forall q r, dom q -> 0 <= r < zlen (B q) -> nthZ d arr (bb q + r) = nthZ d (B q) r.

  Lemma holds_push : forall A (d : A) B B' arr q v, layout -> dom q -> zlen arr = len ->
    (forall q', dom q' -> zlen (B q') <= cap q') -> zlen (B q) < cap q -> holds d B arr ->
    B' q = B q ++ [v] -> (forall q', dom q' -> q' <> q -> B' q' = B q') ->
    exists arr', wr arr (bb q + zlen (B q)) v = Some arr' /\ zlen arr' = len /\ holds d B' arr'.
  Proof.
    intros A d B B' arr q v [L1 L2] Dq La Hc Hq H E1 E2.
    destruct (L1 q Dq) as (P1 & P2 & P3). pose proof (zlen_nonneg _ (B q)).
    exists (upd arr (bb q + zlen (B q)) v). rewrite wr_upd by lia. split; auto. split; [now rewrite zlen_upd|].
    intros q' r Dq' Hr. destruct (eqx q' q) as [->|N].
    - rewrite E1 in *. rewrite zlen_app in Hr. change (zlen [v]) with 1 in Hr. rewrite nthZ_upd by lia.
      destruct (Z.eqb_spec (bb q + r) (bb q + zlen (B q))) as [C|C].
      + replace r with (zlen (B q)) by lia. symmetry. apply nthZ_app_last.
      + rewrite H by (auto; lia). rewrite nthZ_app1 by lia. reflexivity.
    - rewrite E2 in * by auto. rewrite nthZ_upd by lia. specialize (Hc q' Dq').
      destruct (Z.eqb_spec (bb q' + r) (bb q + zlen (B q))) as [C|C]; [|apply H; auto].
      destruct (L2 q' q); auto; lia.
  Qed.
End B.

(** Entries found in one full bucket. *)
Lemma bucket_ents : forall X (T : Type) (dom : X -> Prop) bb (z : T) BI BV ind val q j, dom q ->
  holds dom bb 0 BI ind -> holds dom bb z BV val -> zlen (BI q) = zlen (BV q) -> 0 <= bb q ->
  bb q + zlen (BV q) <= zlen val ->
  flat_map (fun k => if zn ind k =? j then match rd val k with Some v => [v] | None => [] end else [])
    (zrange (bb q) (bb q + zlen (BI q)))
  = flat_map (fun p : Z * T => if fst p =? j then [snd p] else []) (combine (BI q) (BV q)).
Proof.
  intros X T dom bb z BI BV ind val q j Dq HI HV EL H0 HL.
  specialize (HI q). specialize (HV q).
  assert (GI : forall r, 0 <= r < zlen (BI q) -> zn ind (bb q + r) = zn (BI q) r) by auto.
  assert (GV : forall r, 0 <= r < zlen (BV q) -> nthZ z val (bb q + r) = nthZ z (BV q) r) by auto.
  clear HI HV. revert H0 HL EL GI GV. generalize (bb q) as s. generalize (BI q) as l. generalize (BV q) as l'.
  induction l' as [|v l' IH]; intros l s H0 HL EL GI GV.
  - destruct l as [|? ?]; [|rewrite zlen_cons in EL; change (zlen (@nil T)) with 0 in EL; pose proof (zlen_nonneg _ l); lia].
    change (zlen (@nil Z)) with 0. rewrite zrange_nil by lia. reflexivity.
  - destruct l as [|c l]; [rewrite zlen_cons in EL; change (zlen (@nil Z)) with 0 in EL; pose proof (zlen_nonneg _ l'); lia|].
    rewrite !zlen_cons in *. pose proof (zlen_nonneg _ l). pose proof (zlen_nonneg _ l').
    rewrite zrange_first by lia. cbn [flat_map combine]. f_equal.
    + pose proof (GI 0 ltac:(lia)) as G1. pose proof (GV 0 ltac:(lia)) as G2. rewrite Z.add_0_r in G1, G2.
      change (zn (c :: l) 0) with c in G1. change (nthZ z (v :: l') 0) with v in G2.
      rewrite G1, (rd_nthZ _ z), G2 by lia. reflexivity.
    + replace (s + (1 + zlen l)) with ((s + 1) + zlen l) by lia. apply IH; try lia.
      * intros r Hr. specialize (GI (r + 1) ltac:(lia)). rewrite nthZ_cons_S in GI by lia. rewrite <- GI. f_equal. lia.
      * intros r Hr. specialize (GV (r + 1) ltac:(lia)). rewrite nthZ_cons_S in GV by lia. rewrite <- GV. f_equal. lia.
Qed.
