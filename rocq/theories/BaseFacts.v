(** Lemmas about the vocabulary of Base.v. *)
From Coq Require Import ZArith List Bool Lia Permutation.
From Coq Require Import ZifyBool ZifyNat.
From Verif Require Import Base.
Import ListNotations.
Open Scope Z_scope.

Lemma zlen_nonneg : forall A (l : list A), 0 <= zlen l.
Proof. unfold zlen; lia. Qed.

Lemma zlen_app : forall A (l1 l2 : list A), zlen (l1 ++ l2) = zlen l1 + zlen l2.
Proof. intros; unfold zlen; rewrite app_length; lia. Qed.

Lemma zlen_cons : forall A (x : A) l, zlen (x :: l) = 1 + zlen l.
Proof. intros; unfold zlen; cbn [length]; lia. Qed.

Lemma zlen_nil : forall A, zlen (@nil A) = 0.
Proof. reflexivity. Qed.

Lemma zlen_map : forall A B (f : A -> B) l, zlen (map f l) = zlen l.
Proof. intros; unfold zlen; now rewrite map_length. Qed.

Lemma zlen_zrep : forall A n (v : A), 0 <= n -> zlen (zrep n v) = n.
Proof. intros; unfold zlen, zrep; rewrite repeat_length; lia. Qed.

Lemma rd_nthZ : forall A (d : A) l i, 0 <= i < zlen l -> rd l i = Some (nthZ d l i).
Proof.
  intros A d l i H; unfold rd, nthZ, zlen in *.
  destruct (i <? 0) eqn:E; [lia|].
  rewrite (nth_error_nth' l d); [reflexivity|lia].
Qed.

Lemma rd_Some_inv : forall A (l : list A) i v, rd l i = Some v -> 0 <= i < zlen l.
Proof.
  intros A l i v H; unfold rd, zlen in *.
  destruct (i <? 0) eqn:E; [discriminate|].
  assert (Z.to_nat i < length l)%nat by (apply nth_error_Some; congruence). lia.
Qed.

Lemma rd_Some_nthZ : forall A (d : A) l i v, rd l i = Some v -> nthZ d l i = v.
Proof.
  intros A d l i v H. pose proof (rd_Some_inv _ _ _ _ H) as B.
  rewrite (rd_nthZ _ d) in H by auto. congruence.
Qed.

Lemma rd_None : forall A (l : list A) i, ~ (0 <= i < zlen l) -> rd l i = None.
Proof.
  intros A l i H. destruct (rd l i) eqn:E; auto.
  apply rd_Some_inv in E. contradiction.
Qed.

Lemma upd_nat_length : forall A (l : list A) n v, length (upd_nat l n v) = length l.
Proof. induction l; destruct n; cbn; auto. Qed.

Lemma zlen_upd : forall A (l : list A) i v, zlen (upd l i v) = zlen l.
Proof. intros; unfold zlen, upd; now rewrite upd_nat_length. Qed.

Lemma nth_upd_nat : forall A (d : A) l n v k,
  (n < length l)%nat -> nth k (upd_nat l n v) d = if Nat.eqb k n then v else nth k l d.
Proof.
  induction l; cbn; intros n v k H; [lia|].
  destruct n; destruct k; cbn; auto.
  apply IHl; lia.
Qed.

Lemma nthZ_upd : forall A (d : A) l i v k,
  0 <= i < zlen l -> 0 <= k -> nthZ d (upd l i v) k = if k =? i then v else nthZ d l k.
Proof.
  intros A d l i v k Hi Hk; unfold nthZ, upd, zlen in *.
  rewrite nth_upd_nat by lia.
  destruct (Nat.eqb_spec (Z.to_nat k) (Z.to_nat i)); destruct (Z.eqb_spec k i); auto; lia.
Qed.

Lemma nthZ_upd_same : forall A (d : A) l i v, 0 <= i < zlen l -> nthZ d (upd l i v) i = v.
Proof. intros; rewrite nthZ_upd by lia. now rewrite Z.eqb_refl. Qed.

Lemma nthZ_upd_other : forall A (d : A) l i v k,
  0 <= i < zlen l -> 0 <= k -> k <> i -> nthZ d (upd l i v) k = nthZ d l k.
Proof. intros; rewrite nthZ_upd by lia. destruct (Z.eqb_spec k i); auto; lia. Qed.

Lemma wr_upd : forall A (l : list A) i v, 0 <= i < zlen l -> wr l i v = Some (upd l i v).
Proof.
  intros A l i v H; unfold wr.
  destruct (0 <=? i) eqn:E1; destruct (i <? zlen l) eqn:E2; cbn; auto; lia.
Qed.

Lemma wr_Some_inv : forall A (l l' : list A) i v,
  wr l i v = Some l' -> 0 <= i < zlen l /\ l' = upd l i v.
Proof.
  unfold wr; intros A l l' i v H.
  destruct (0 <=? i) eqn:E1; destruct (i <? zlen l) eqn:E2; cbn in H; inversion H; split; auto; lia.
Qed.

Lemma nthZ_ext : forall A (d : A) l1 l2,
  zlen l1 = zlen l2 -> (forall i, 0 <= i < zlen l1 -> nthZ d l1 i = nthZ d l2 i) -> l1 = l2.
Proof.
  intros A d l1 l2 HL H. unfold zlen in *. apply nth_ext with (d := d) (d' := d); [lia|].
  intros n Hn. specialize (H (Z.of_nat n)). unfold nthZ in H.
  rewrite Nat2Z.id in H. apply H. lia.
Qed.

Lemma nthZ_zrep : forall A (d v : A) n i, 0 <= i < n -> nthZ d (zrep n v) i = v.
Proof.
  intros A d v n i H; unfold nthZ, zrep.
  rewrite (nth_indep _ d v) by (rewrite repeat_length; lia). apply nth_repeat.
Qed.

Lemma nthZ_map : forall A B (f : A -> B) d d' l i,
  0 <= i < zlen l -> nthZ d' (map f l) i = f (nthZ d l i).
Proof.
  intros A B f d d' l i H; unfold nthZ, zlen in *.
  rewrite (nth_indep _ d' (f d)) by (rewrite map_length; lia). apply map_nth.
Qed.

Lemma nthZ_app1 : forall A (d : A) l1 l2 i, 0 <= i < zlen l1 -> nthZ d (l1 ++ l2) i = nthZ d l1 i.
Proof. intros; unfold nthZ, zlen in *; apply app_nth1; lia. Qed.

Lemma nthZ_app2 : forall A (d : A) l1 l2 i,
  zlen l1 <= i -> nthZ d (l1 ++ l2) i = nthZ d l2 (i - zlen l1).
Proof.
  intros; unfold nthZ, zlen in *. rewrite app_nth2 by lia. f_equal; lia.
Qed.

Lemma nthZ_In : forall A (d : A) l i, 0 <= i < zlen l -> In (nthZ d l i) l.
Proof. intros; unfold nthZ, zlen in *; apply nth_In; lia. Qed.

Lemma In_nthZ : forall A (d : A) l x, In x l -> exists i, 0 <= i < zlen l /\ nthZ d l i = x.
Proof.
  intros A d l x H. apply (In_nth _ _ d) in H. destruct H as (n & Hn & E).
  exists (Z.of_nat n). unfold nthZ, zlen. rewrite Nat2Z.id. split; auto; lia.
Qed.

(** ** zrange *)

Lemma zrange_nil : forall lo hi, hi <= lo -> zrange lo hi = [].
Proof. intros; unfold zrange. replace (Z.to_nat (hi - lo)) with 0%nat by lia. reflexivity. Qed.

Lemma zlen_zrange : forall lo hi, lo <= hi -> zlen (zrange lo hi) = hi - lo.
Proof. intros; unfold zlen, zrange; rewrite map_length, seq_length; lia. Qed.

Lemma zrange_last : forall lo hi, lo <= hi -> zrange lo (hi + 1) = zrange lo hi ++ [hi].
Proof.
  intros lo hi H; unfold zrange.
  replace (Z.to_nat (hi + 1 - lo)) with (S (Z.to_nat (hi - lo))) by lia.
  rewrite seq_S, map_app. cbn [map]. f_equal. f_equal. lia.
Qed.

Lemma zrange_first : forall lo hi, lo < hi -> zrange lo hi = lo :: zrange (lo + 1) hi.
Proof.
  intros lo hi H; unfold zrange.
  replace (Z.to_nat (hi - lo)) with (S (Z.to_nat (hi - (lo + 1)))) by lia.
  cbn [seq map]. f_equal; [lia|].
  rewrite <- seq_shift, map_map. apply map_ext; intros; lia.
Qed.

Lemma zrange_app : forall lo mid hi, lo <= mid <= hi ->
  zrange lo hi = zrange lo mid ++ zrange mid hi.
Proof.
  intros lo mid hi H; unfold zrange.
  replace (Z.to_nat (hi - lo)) with (Z.to_nat (mid - lo) + Z.to_nat (hi - mid))%nat by lia.
  rewrite seq_app, map_app. f_equal. cbn [Nat.add].
  replace (seq (Z.to_nat (mid - lo)) (Z.to_nat (hi - mid)))
    with (map (fun k => Z.to_nat (mid - lo) + k)%nat (seq 0 (Z.to_nat (hi - mid)))).
  - rewrite map_map. apply map_ext; intros; lia.
  - generalize (Z.to_nat (mid - lo)) as a. generalize (Z.to_nat (hi - mid)) as n.
    clear. intros n a. induction a; cbn.
    + apply map_id.
    + rewrite <- seq_shift, <- IHa, map_map. reflexivity.
Qed.

Lemma in_zrange : forall lo hi k, In k (zrange lo hi) <-> lo <= k < hi.
Proof.
  intros lo hi k; unfold zrange. rewrite in_map_iff. split.
  - intros (x & E & Hx). apply in_seq in Hx. lia.
  - intros H. exists (Z.to_nat (k - lo)). split; [lia|]. apply in_seq. lia.
Qed.

Lemma NoDup_zrange : forall lo hi, NoDup (zrange lo hi).
Proof.
  intros; unfold zrange. apply FinFun.Injective_map_NoDup; [|apply seq_NoDup].
  intros x y H; lia.
Qed.

Lemma nthZ_zrange : forall d lo hi i, 0 <= i < hi - lo -> nthZ d (zrange lo hi) i = lo + i.
Proof.
  intros d lo hi i H; unfold nthZ, zrange.
  rewrite (nth_indep _ d (lo + Z.of_nat 0)) by (rewrite map_length, seq_length; lia).
  rewrite (map_nth (fun k => lo + Z.of_nat k)). rewrite seq_nth by lia. lia.
Qed.

Lemma zrange_shift : forall lo hi d, zrange (lo + d) (hi + d) = map (fun k => k + d) (zrange lo hi).
Proof.
  intros; unfold zrange. rewrite map_map.
  replace (hi + d - (lo + d)) with (hi - lo) by lia. apply map_ext; intros; lia.
Qed.

Lemma map_nthZ_zrange : forall A (d : A) l, map (nthZ d l) (zrange 0 (zlen l)) = l.
Proof.
  intros A d l. apply (nthZ_ext _ d).
  - rewrite zlen_map, zlen_zrange; pose proof (zlen_nonneg _ l); lia.
  - rewrite zlen_map, zlen_zrange by apply zlen_nonneg. intros i Hi.
    rewrite (nthZ_map _ _ _ 0) by (rewrite zlen_zrange by apply zlen_nonneg; lia).
    rewrite nthZ_zrange by lia. f_equal; lia.
Qed.

(** ** Loops *)

Lemma foldM_app : forall X S (f : X -> S -> option S) l1 l2 s,
  foldM f (l1 ++ l2) s = let* s' := foldM f l1 s in foldM f l2 s'.
Proof.
  induction l1; cbn; intros; auto. destruct (f a s); auto.
Qed.

Lemma foldM_inv : forall X S (f : X -> S -> option S) (P : list X -> S -> Prop) l s,
  P [] s ->
  (forall pre x post s, l = pre ++ x :: post -> P pre s ->
     exists s', f x s = Some s' /\ P (pre ++ [x]) s') ->
  exists s', foldM f l s = Some s' /\ P l s'.
Proof.
  intros X S f P l s H0 Hstep.
  assert (G : forall post pre s, l = pre ++ post -> P pre s ->
             exists s', foldM f post s = Some s' /\ P l s').
  { induction post as [|x post IH]; intros pre s1 E HP; cbn.
    - rewrite app_nil_r in E; subst. eauto.
    - destruct (Hstep pre x post s1 E HP) as (s2 & E2 & HP2). rewrite E2.
      apply (IH (pre ++ [x])); auto. now rewrite <- app_assoc. }
  apply (G l []); auto.
Qed.

(** The main loop rule: an invariant that makes every body execution defined. *)
Lemma for_inv : forall S (P : Z -> S -> Prop) lo hi (f : Z -> S -> option S) s,
  lo <= hi ->
  P lo s ->
  (forall i s, lo <= i < hi -> P i s -> exists s', f i s = Some s' /\ P (i + 1) s') ->
  exists s', for_ lo hi f s = Some s' /\ P hi s'.
Proof.
  intros S P lo hi f s Hle H0 Hstep. unfold for_.
  remember (Z.to_nat (hi - lo)) as n eqn:En.
  revert lo s Hle H0 Hstep En. induction n; intros lo s Hle H0 Hstep En.
  - replace hi with lo in * by lia. rewrite zrange_nil by lia. cbn. eauto.
  - rewrite zrange_first by lia. cbn.
    destruct (Hstep lo s ltac:(lia) H0) as (s' & E & H1). rewrite E.
    apply IHn; auto; try lia. intros i s1 Hi. apply Hstep. lia.
Qed.

Lemma for_down_inv : forall S (P : Z -> S -> Prop) lo hi (f : Z -> S -> option S) s,
  lo <= hi ->
  P hi s ->
  (forall i s, lo <= i < hi -> P (i + 1) s -> exists s', f i s = Some s' /\ P i s') ->
  exists s', for_down lo hi f s = Some s' /\ P lo s'.
Proof.
  intros S P lo hi f s Hle H0 Hstep. unfold for_down.
  remember (Z.to_nat (hi - lo)) as n eqn:En.
  revert hi s Hle H0 Hstep En. induction n; intros hi s Hle H0 Hstep En.
  - replace hi with lo in * by lia. rewrite zrange_nil by lia. cbn. eauto.
  - replace hi with ((hi - 1) + 1) by lia. rewrite zrange_last by lia.
    rewrite rev_app_distr. cbn.
    destruct (Hstep (hi - 1) s ltac:(lia)) as (s' & E & H1).
    { replace (hi - 1 + 1) with hi by lia; auto. }
    rewrite E. apply IHn; auto; try lia. intros i s1 Hi. apply Hstep. lia.
Qed.

Lemma for_nil : forall S lo hi (f : Z -> S -> option S) s, hi <= lo -> for_ lo hi f s = Some s.
Proof. intros; unfold for_; now rewrite zrange_nil. Qed.

Lemma for_first : forall S lo hi (f : Z -> S -> option S) s, lo < hi ->
  for_ lo hi f s = let* s' := f lo s in for_ (lo + 1) hi f s'.
Proof. intros; unfold for_; now rewrite zrange_first. Qed.

Lemma for_last : forall S lo hi (f : Z -> S -> option S) s, lo <= hi ->
  for_ lo (hi + 1) f s = let* s' := for_ lo hi f s in f hi s'.
Proof.
  intros; unfold for_; rewrite zrange_last, foldM_app by auto. cbn.
  destruct (foldM f (zrange lo hi) s) as [s1|]; auto. destruct (f hi s1); auto.
Qed.

Lemma for_split : forall S lo mid hi (f : Z -> S -> option S) s, lo <= mid <= hi ->
  for_ lo hi f s = let* s' := for_ lo mid f s in for_ mid hi f s'.
Proof. intros; unfold for_; rewrite (zrange_app lo mid hi), foldM_app by auto; auto. Qed.

Lemma foldM_ext : forall X S (f g : X -> S -> option S) l s,
  (forall x s, In x l -> f x s = g x s) -> foldM f l s = foldM g l s.
Proof.
  induction l; cbn; intros; auto. rewrite H by auto.
  destruct (g a s); auto.
Qed.

Lemma for_ext : forall S lo hi (f g : Z -> S -> option S) s,
  (forall i s, lo <= i < hi -> f i s = g i s) -> for_ lo hi f s = for_ lo hi g s.
Proof. intros; unfold for_; apply foldM_ext; intros; apply H; now apply in_zrange. Qed.

(** Loop rule for bodies with break / return: [Q] is what holds after a break,
    [R'] of a returned value. *)
Lemma forc_inv : forall S R (P : Z -> S -> Prop) (Q : S -> Prop) (W : R -> Prop)
    lo hi (f : Z -> S -> option (ctl S R)) s,
  lo <= hi ->
  P lo s ->
  (forall i s, lo <= i < hi -> P i s ->
     (exists s', f i s = Some (Go s') /\ P (i + 1) s') \/
     (exists s', f i s = Some (Brk s') /\ Q s') \/
     (exists r, f i s = Some (Ret r) /\ W r)) ->
  (exists s', forc lo hi f s = Some (inl s') /\ (P hi s' \/ Q s')) \/
  (exists r, forc lo hi f s = Some (inr r) /\ W r).
Proof.
  intros S R P Q W lo hi f s Hle H0 Hstep. unfold forc.
  remember (Z.to_nat (hi - lo)) as n eqn:En.
  revert lo s Hle H0 Hstep En. induction n; intros lo s Hle H0 Hstep En.
  - replace hi with lo in * by lia. rewrite zrange_nil by lia. cbn. left; eauto.
  - rewrite zrange_first by lia. cbn.
    destruct (Hstep lo s ltac:(lia) H0) as [(s' & E & H1)|[(s' & E & H1)|(r & E & H1)]];
      rewrite E.
    + apply IHn; auto; try lia. intros i s1 Hi. apply Hstep. lia.
    + left; eauto.
    + right; eauto.
Qed.

Lemma forc_first : forall S R lo hi (f : Z -> S -> option (ctl S R)) s, lo < hi ->
  forc lo hi f s = match f lo s with
                   | None => None
                   | Some (Go s') => forc (lo + 1) hi f s'
                   | Some (Brk s') => Some (inl s')
                   | Some (Ret r) => Some (inr r)
                   end.
Proof. intros; unfold forc; rewrite zrange_first by auto; reflexivity. Qed.

Lemma forc_nil : forall S R lo hi (f : Z -> S -> option (ctl S R)) s, hi <= lo ->
  forc lo hi f s = Some (inl s).
Proof. intros; unfold forc; now rewrite zrange_nil. Qed.

(** Rewrite every checked access whose bounds [lia] can prove. *)
Ltac rdw d :=
  repeat match goal with
  | |- context [rd ?l ?i] =>
      rewrite (rd_nthZ _ d l i) by (rewrite ?zlen_upd; lia)
  end.
Ltac zrd := rdw 0.
Ltac zwr := repeat match goal with
  | |- context [wr ?l ?i ?v] => rewrite (wr_upd _ l i v) by (rewrite ?zlen_upd; lia)
  end.

(** Split syntactic conjunctions only. *)
Ltac ands := repeat match goal with |- _ /\ _ => split end.
