(** Programs that only store: the result is determined by the list of stores. *)
From Coq Require Import ZArith List Bool Lia.
From Verif Require Import Base BaseFacts.
Import ListNotations.
Open Scope Z_scope.

Definition stores (T : Type) := list (Z * T).
Definition apply {T} (ws : stores T) (A : list T) : list T :=
  fold_left (fun A w => upd A (fst w) (snd w)) ws A.
Definition at_pos {T} (p : Z) (ws : stores T) : list T :=
  flat_map (fun w : Z * T => if fst w =? p then [snd w] else []) ws.
Definition inb {T} (len : Z) (ws : stores T) : Prop := forall w, In w ws -> 0 <= fst w < len.

Lemma zlen_apply : forall T (ws : stores T) A, zlen (apply ws A) = zlen A.
Proof.
  unfold apply; induction ws as [|w ws IH]; intros A; cbn; [reflexivity|]. rewrite IH. apply zlen_upd.
Qed.
Lemma apply_app : forall T (ws ws' : stores T) A, apply (ws ++ ws') A = apply ws' (apply ws A).
Proof. intros. unfold apply. apply fold_left_app. Qed.
Lemma inb_app : forall T len (ws ws' : stores T), inb len (ws ++ ws') <-> inb len ws /\ inb len ws'.
Proof.
  unfold inb; intros; split.
  - intros H; split; intros w Hw; apply H, in_or_app; auto.
  - intros [H1 H2] w Hw. apply in_app_or in Hw as [?|?]; auto.
Qed.
Lemma at_pos_app : forall T p (ws ws' : stores T), at_pos p (ws ++ ws') = at_pos p ws ++ at_pos p ws'.
Proof. intros. unfold at_pos. apply flat_map_app. Qed.
Lemma last_app2 : forall T (l l' : list T) d, last (l ++ l') d = last l' (last l d).
Proof.
  intros T l l' d. induction l' as [|x l' IH] using rev_ind; [now rewrite app_nil_r|].
  rewrite app_assoc, !last_last. reflexivity.
Qed.
Lemma last_default : forall T (l : list T) d d', l <> [] -> last l d = last l d'.
Proof.
  intros T l d d' H. induction l as [|x l IH] using rev_ind; [congruence|]. now rewrite !last_last.
Qed.

Lemma nthZ_apply : forall T (d : T) ws A p, inb (zlen A) ws -> 0 <= p < zlen A ->
  nthZ d (apply ws A) p = last (at_pos p ws) (nthZ d A p).
Proof.
  intros T d ws. induction ws as [|[q v] ws IH] using rev_ind; intros A p Hin Hp; [reflexivity|].
  apply inb_app in Hin as [H1 H2]. rewrite apply_app, at_pos_app, last_app2.
  change (apply [(q, v)] (apply ws A)) with (upd (apply ws A) q v). cbn [at_pos flat_map fst snd app].
  assert (0 <= q < zlen A) by (apply (H2 (q, v)); now left).
  rewrite nthZ_upd by (rewrite ?zlen_apply; lia).
  destruct (q =? p) eqn:E.
  - replace (p =? q) with true by lia. reflexivity.
  - replace (p =? q) with false by lia. cbn. apply IH; auto.
Qed.

Lemma for_stores : forall T lo hi (f : Z -> list T -> option (list T)) (ws : Z -> stores T) len A,
  zlen A = len ->
  (forall i B, lo <= i < hi -> zlen B = len -> f i B = Some (apply (ws i) B)) ->
  for_ lo hi f A = Some (apply (flat_map ws (zrange lo hi)) A).
Proof.
  intros T lo hi f ws len A HA Hf. unfold for_.
  assert (G : forall l B, (forall i, In i l -> lo <= i < hi) -> zlen B = len ->
    foldM f l B = Some (apply (flat_map ws l) B)).
  { induction l as [|i l IH]; intros B Hl HB; [reflexivity|]. cbn [foldM flat_map].
    rewrite (Hf i B) by (auto; apply Hl; now left).
    rewrite apply_app. apply IH; [intros; apply Hl; now right|]. now rewrite zlen_apply. }
  apply G; auto. intros i Hi. now apply in_zrange in Hi.
Qed.

Lemma wr_apply : forall T (A : list T) p v, 0 <= p < zlen A -> wr A p v = Some (apply [(p, v)] A).
Proof. intros. now rewrite wr_upd. Qed.

Lemma at_pos_flat_map : forall T X p (g : X -> stores T) l,
  at_pos p (flat_map g l) = flat_map (fun x => at_pos p (g x)) l.
Proof.
  induction l as [|x l IH]; [reflexivity|]. cbn [flat_map]. now rewrite at_pos_app, IH.
Qed.
Lemma inb_flat_map : forall T X len (g : X -> stores T) l, (forall x, In x l -> inb len (g x)) -> inb len (flat_map g l).
Proof.
  intros T X len g l H w Hw. apply in_flat_map in Hw as (x & Hx & Hw). exact (H x Hx w Hw).
Qed.
Lemma flat_map_nil : forall X Y (g : X -> list Y) l, (forall x, In x l -> g x = []) -> flat_map g l = [].
Proof.
  induction l as [|x l IH]; intros H; [reflexivity|]. cbn. rewrite (H x) by now left. apply IH. intros; apply H; now right.
Qed.
(** Only position [k] contributes. *)
Lemma flat_map_single : forall Y lo hi k (g : Z -> list Y), lo <= k < hi ->
  (forall x, lo <= x < hi -> x <> k -> g x = []) -> flat_map g (zrange lo hi) = g k.
Proof.
  intros Y lo hi k g Hk H.
  rewrite (zrange_app lo k hi) by lia. rewrite (zrange_first k hi) by lia.
  rewrite flat_map_app. cbn [flat_map].
  rewrite (flat_map_nil _ _ g (zrange lo k)), (flat_map_nil _ _ g (zrange (k + 1) hi)).
  - now rewrite app_nil_r.
  - intros x Hx. apply in_zrange in Hx. apply H; lia.
  - intros x Hx. apply in_zrange in Hx. apply H; lia.
Qed.
Lemma flat_map_ext_in : forall X Y (g h : X -> list Y) l, (forall x, In x l -> g x = h x) -> flat_map g l = flat_map h l.
Proof.
  induction l as [|x l IH]; intros H; [reflexivity|]. cbn. rewrite (H x) by now left. f_equal. apply IH. intros; apply H; now right.
Qed.
