(** Counting sort, generically: keys, bucket starts, stable positions. *)
From Coq Require Import ZArith List Bool Lia.
From Coq Require Import ZifyBool.
From Verif Require Import Base BaseFacts Csr Csr2CscModel.
Import ListNotations.
Open Scope Z_scope.

Lemma rd_upd : forall A (l : list A) i v k, 0 <= i < zlen l -> 
  rd (upd l i v) k = if k =? i then Some v else rd l k.
Proof.
  intros A l i v k H. destruct (Z_lt_ge_dec k 0) as [C|C].
  { rewrite !rd_None by lia. replace (k =? i) with false by lia. auto. }
  destruct (Z_lt_ge_dec k (zlen l)) as [C'|C'].
  - rewrite (rd_nthZ _ v) by (rewrite zlen_upd; lia). rewrite nthZ_upd by lia.
    destruct (k =? i); auto. symmetry. apply rd_nthZ. lia.
  - rewrite !rd_None by (rewrite ?zlen_upd; lia). replace (k =? i) with false by lia. auto.
Qed.

Definition cnt (key : Z -> Z) (j e : Z) : Z := zlen (filter (fun k => key k =? j) (zrange 0 e)).
Definition start (key : Z -> Z) (nnz j : Z) : Z := zlen (filter (fun k => key k <? j) (zrange 0 nnz)).

Lemma cnt_0 : forall key j, cnt key j 0 = 0.
Proof. reflexivity. Qed.

Lemma cnt_step : forall key j e, 0 <= e ->
  cnt key j (e + 1) = cnt key j e + (if key e =? j then 1 else 0).
Proof.
  intros key j e H; unfold cnt. rewrite zrange_last, filter_app, zlen_app by auto. cbn [filter].
  destruct (key e =? j); reflexivity.
Qed.

Lemma cnt_nonneg : forall key j e, 0 <= cnt key j e.
Proof. intros; apply zlen_nonneg. Qed.

Lemma cnt_mono : forall key j e e', 0 <= e <= e' -> cnt key j e <= cnt key j e'.
Proof.
  intros key j e e' H; unfold cnt. rewrite (zrange_app 0 e e') by lia.
  rewrite filter_app, zlen_app. pose proof (zlen_nonneg _ (filter (fun k => key k =? j) (zrange e e'))). lia.
Qed.

Lemma cnt_lt : forall key j k e, 0 <= k < e -> key k = j -> cnt key j k < cnt key j e.
Proof.
  intros key j k e H E. pose proof (cnt_step key j k ltac:(lia)).
  pose proof (cnt_mono key j (k + 1) e ltac:(lia)). replace (key k =? j) with true in * by lia. lia.
Qed.

Lemma start_0 : forall key nnz, (forall k, 0 <= k < nnz -> 0 <= key k) -> start key nnz 0 = 0.
Proof.
  intros key nnz H; unfold start.
  replace (filter (fun k => key k <? 0) (zrange 0 nnz)) with (@nil Z); auto.
  symmetry. apply (proj2 (List.forallb_forall _ _)) || idtac.
  destruct (filter (fun k => key k <? 0) (zrange 0 nnz)) as [|x l] eqn:E; auto.
  assert (I : In x (filter (fun k => key k <? 0) (zrange 0 nnz))) by (rewrite E; left; auto).
  apply filter_In in I. destruct I as (I1 & I2). apply in_zrange in I1. specialize (H x I1). lia.
Qed.

Lemma filter_all : forall A (f : A -> bool) l, (forall x, In x l -> f x = true) -> filter f l = l.
Proof. induction l; cbn; intros; auto. rewrite H by auto. f_equal; auto. Qed.

Lemma start_n : forall key nnz n, 0 <= nnz -> (forall k, 0 <= k < nnz -> key k < n) -> start key nnz n = nnz.
Proof.
  intros key nnz n Hn H; unfold start. rewrite filter_all.
  - rewrite zlen_zrange; lia.
  - intros x Hx. apply in_zrange in Hx. specialize (H x Hx). lia.
Qed.

Lemma start_step : forall key nnz j, start key nnz (j + 1) = start key nnz j + cnt key j nnz.
Proof.
  intros key nnz j; unfold start, cnt. induction (zrange 0 nnz) as [|x l IH]; auto.
  cbn [filter]. destruct (key x <? j + 1) eqn:E1; destruct (key x <? j) eqn:E2; destruct (key x =? j) eqn:E3;
    rewrite ?zlen_cons; lia.
Qed.


Lemma start_mono : forall key nnz j j', j <= j' -> start key nnz j <= start key nnz j'.
Proof.
  intros key nnz j j' H; unfold start. induction (zrange 0 nnz) as [|x l IH]; [cbn; lia|].
  cbn [filter]. destruct (key x <? j) eqn:E1; destruct (key x <? j') eqn:E2; rewrite ?zlen_cons; lia.
Qed.

(** Stable target position of item [k]. *)
Definition pos (key : Z -> Z) (nnz k : Z) : Z := start key nnz (key k) + cnt key (key k) k.

Lemma pos_range : forall key nnz k, 0 <= k < nnz ->
  start key nnz (key k) <= pos key nnz k < start key nnz (key k + 1).
Proof.
  intros key nnz k H. unfold pos. rewrite start_step.
  pose proof (cnt_lt key (key k) k nnz H eq_refl). pose proof (cnt_nonneg key (key k) k). lia.
Qed.

Lemma pos_bound : forall key nnz n k, 0 <= nnz -> (forall k, 0 <= k < nnz -> 0 <= key k < n) ->
  0 <= k < nnz -> 0 <= pos key nnz k < nnz.
Proof.
  intros key nnz n k Hn Hk H. pose proof (pos_range key nnz k H).
  pose proof (start_mono key nnz (key k + 1) n). specialize (Hk k H) as Hk'.
  rewrite (start_n key nnz n) in H1 by (auto; intros; apply Hk; auto).
  pose proof (zlen_nonneg _ (filter (fun x => key x <? key k) (zrange 0 nnz))).
  unfold start in H0 at 1. lia.
Qed.

Lemma pos_inj : forall key nnz k k', 0 <= k < nnz -> 0 <= k' < nnz -> 
  pos key nnz k = pos key nnz k' -> k = k'.
Proof.
  intros key nnz k k' H H' E.
  destruct (Z_lt_ge_dec (key k) (key k')) as [C|C].
  { pose proof (pos_range key nnz k H). pose proof (pos_range key nnz k' H').
    pose proof (start_mono key nnz (key k + 1) (key k')). lia. }
  destruct (Z_lt_ge_dec (key k') (key k)) as [C'|C'].
  { pose proof (pos_range key nnz k H). pose proof (pos_range key nnz k' H').
    pose proof (start_mono key nnz (key k' + 1) (key k)). lia. }
  assert (K : key k = key k') by lia. unfold pos in E. rewrite K in E.
  destruct (Z_lt_ge_dec k k') as [D|D].
  { pose proof (cnt_lt key (key k') k k' ltac:(lia) K). lia. }
  destruct (Z_lt_ge_dec k' k) as [D'|D']; [|lia].
  pose proof (cnt_lt key (key k') k' k ltac:(lia) eq_refl). lia.
Qed.

(** Reading bucket [j] of the output front to back gives the items with key [j] in
    their original order. *)
Lemma bucket_flat_map : forall X (f g : Z -> list X) key j s e, 0 <= e ->
  (forall k, 0 <= k < e -> key k = j -> f (s + cnt key j k) = g k) ->
  flat_map f (zrange s (s + cnt key j e)) = flat_map g (filter (fun k => key k =? j) (zrange 0 e)).
Proof.
  intros X f g key j s e He H.
  replace e with (Z.of_nat (Z.to_nat e)) in * by lia. remember (Z.to_nat e) as n. clear He Heqn.
  induction n.
  - change (Z.of_nat 0) with 0. rewrite cnt_0. rewrite !zrange_nil by lia. reflexivity.
  - replace (Z.of_nat (S n)) with (Z.of_nat n + 1) in * by lia.
    rewrite (zrange_last 0), filter_app, flat_map_app by lia. rewrite cnt_step by lia.
    cbn [filter]. destruct (key (Z.of_nat n) =? j) eqn:E.
    + rewrite Z.add_assoc. rewrite zrange_last by (pose proof (cnt_nonneg key j (Z.of_nat n)); lia).
      rewrite flat_map_app. rewrite IHn by (intros; apply H; auto; lia).
      cbn [flat_map]. rewrite H by lia. reflexivity.
    + replace (cnt key j (Z.of_nat n) + 0) with (cnt key j (Z.of_nat n)) by lia.
      rewrite IHn by (intros; apply H; auto; lia). cbn. now rewrite app_nil_r.
Qed.

(** ** The four loops *)

Lemma fill_range_ok : forall A (d : A) lo hi v a, 0 <= lo <= hi -> hi <= zlen a ->
  exists a', fill_range lo hi v a = Some a' /\ zlen a' = zlen a /\
    (forall i, 0 <= i -> nthZ d a' i = if (lo <=? i) && (i <? hi) then v else nthZ d a i).
Proof.
  intros A d lo hi v a H1 H2. unfold fill_range.
  destruct (for_inv _ (fun e a' => zlen a' = zlen a /\
     forall i, 0 <= i -> nthZ d a' i = if (lo <=? i) && (i <? e) then v else nthZ d a i)
     lo hi (fun i a => wr a i v) a ltac:(lia)) as (a' & E & L & R).
  - split; auto. intros i Hi. replace ((lo <=? i) && (i <? lo)) with false by lia. auto.
  - intros e s He (L & R). rewrite wr_upd by lia. eexists; split; [reflexivity|].
    rewrite zlen_upd. split; auto. intros i Hi. rewrite nthZ_upd by lia.
    destruct (i =? e) eqn:E.
    + replace ((lo <=? i) && (i <? e + 1)) with true by lia. auto.
    + rewrite R by auto. replace (i <? e + 1) with (i <? e) by lia. auto.
  - eauto.
Qed.

Lemma incr_ok : forall a i, 0 <= i < zlen a -> incr a i = Some (upd a i (zn a i + 1)).
Proof. intros a i H; unfold incr. rewrite (rd_nthZ _ 0), wr_upd by lia. auto. Qed.

Section Phases.
  Variables (n nnz : Z) (key : Z -> Z).
  Hypothesis Hn : 0 <= n.
  Hypothesis Hnnz : 0 <= nnz.
  Hypothesis Hkey : forall k, 0 <= k < nnz -> 0 <= key k < n.

  (** Counting loop: the body finds the key of item [i] through [kf]. *)
  Lemma count_ok : forall (kf : Z -> list Z -> option (list Z)) a,
    zlen a = n + 1 -> (forall i, 0 <= i <= n -> zn a i = 0) ->
    (forall i a, 0 <= i < nnz -> kf i a = incr a (key i + 1)) ->
    exists a', for_ 0 nnz kf a = Some a' /\ zlen a' = n + 1 /\
      zn a' 0 = 0 /\ (forall j, 0 <= j < n -> zn a' (j + 1) = cnt key j nnz).
  Proof.
    intros kf a L Z0 K.
    destruct (for_inv _ (fun e a' => zlen a' = n + 1 /\ zn a' 0 = 0 /\
        (forall j, 0 <= j < n -> zn a' (j + 1) = cnt key j e)) 0 nnz kf a Hnnz) as (a' & E & R).
    - ands; auto. { apply Z0; lia. } intros j Hj. rewrite Z0 by lia. now rewrite cnt_0.
    - intros e s He (L1 & R1 & R2). rewrite K by auto. specialize (Hkey e He) as Hk.
      rewrite incr_ok by lia. eexists; split; [reflexivity|]. rewrite zlen_upd. ands; auto.
      + rewrite nthZ_upd by lia. replace (0 =? key e + 1) with false by lia. auto.
      + intros j Hj. rewrite nthZ_upd by lia. rewrite cnt_step by lia.
        destruct (j + 1 =? key e + 1) eqn:C.
        * replace (key e =? j) with true by lia. replace (key e) with j by lia. rewrite R2 by lia. lia.
        * replace (key e =? j) with false by lia. rewrite R2 by lia. lia.
    - eauto.
  Qed.

  Lemma scan_ok : forall a, zlen a = n + 1 -> zn a 0 = 0 ->
    (forall j, 0 <= j < n -> zn a (j + 1) = cnt key j nnz) ->
    exists a', scan n a = Some a' /\ zlen a' = n + 1 /\ (forall j, 0 <= j <= n -> zn a' j = start key nnz j).
  Proof.
    intros a L Z0 C. unfold scan.
    match goal with |- context [for_ 0 n ?f ?s] =>
      destruct (for_inv _ (fun e a' => zlen a' = n + 1 /\
        (forall j, 0 <= j <= e -> zn a' j = start key nnz j) /\
        (forall j, e <= j < n -> zn a' (j + 1) = cnt key j nnz)) 0 n f s Hn) as (a' & E & R) end.
    - ands; auto. intros j Hj. replace j with 0 by lia. rewrite Z0, start_0; auto.
      intros; now apply Hkey.
    - intros e s He (L1 & R1 & R2). rewrite !(rd_nthZ _ 0) by lia. rewrite wr_upd by lia.
      eexists; split; [reflexivity|]. rewrite zlen_upd. ands; auto.
      + intros j Hj. rewrite nthZ_upd by lia. destruct (j =? e + 1) eqn:X.
        * replace j with (e + 1) by lia. rewrite start_step, (R1 e), (R2 e) by lia. lia.
        * apply R1; lia.
      + intros j Hj. rewrite nthZ_upd by lia. replace (j + 1 =? e + 1) with false by lia. apply R2; lia.
    - destruct R as (R1 & R2 & _). eauto.
  Qed.

  Lemma shift_ok : forall b a, zlen a = n + 1 ->
    (forall j, 0 <= j < n -> zn a j = start key nnz (j + 1)) ->
    exists a', shift_ptr n b a = Some a' /\ zlen a' = n + 1 /\
      (forall j, 0 <= j <= n -> zn a' j = start key nnz j + b).
  Proof.
    intros b a L C. unfold shift_ptr.
    match goal with |- context [for_down 1 (n + 1) ?f ?s] =>
      destruct (for_down_inv _ (fun e a' => zlen a' = n + 1 /\
        (forall j, e <= j <= n -> zn a' j = start key nnz j + b) /\
        (forall j, 0 <= j < e -> zn a' j = zn a j)) 1 (n + 1) f s ltac:(lia)) as (a' & E & R) end.
    - ands; auto; intros; lia.
    - intros e s He (L1 & R1 & R2). rewrite !(rd_nthZ _ 0) by lia. rewrite wr_upd by lia.
      eexists; split; [reflexivity|]. rewrite zlen_upd. ands; auto.
      + intros j Hj. rewrite nthZ_upd by lia. destruct (j =? e) eqn:X.
        * rewrite R2, C by lia. replace (e - 1 + 1) with j by lia. auto.
        * apply R1; lia.
      + intros j Hj. rewrite nthZ_upd by lia. replace (j =? e) with false by lia. apply R2; lia.
    - rewrite E. destruct R as (R1 & R2 & R3). rewrite wr_upd by lia. eexists; split; [reflexivity|].
      rewrite zlen_upd. split; auto. intros j Hj. rewrite nthZ_upd by lia. destruct (j =? 0) eqn:X.
      + replace j with 0 by lia. rewrite start_0; [lia|]. intros; now apply Hkey.
      + apply R2; lia.
  Qed.

  (** Fill loop invariant before item [e]: pointers advanced, earlier items in
      place.  [idx] is the index array being produced, from [src]. *)
  Definition finv {T} (src : Z -> Z) (val : list T) (e : Z) (st : list Z * list Z * list T) : Prop :=
    let '(cp, ri, cv) := st in
    zlen cp = n + 1 /\ zlen ri = nnz /\ zlen cv = nnz /\
    (forall j, 0 <= j < n -> zn cp j = start key nnz j + cnt key j e) /\
    (forall k, 0 <= k < e -> zn ri (pos key nnz k) = src k /\ rd cv (pos key nnz k) = rd val k).

  Lemma finv_step : forall T (src : Z -> Z) (val : list T) e cp ri cv v,
    0 <= e < nnz -> rd val e = Some v -> finv src val e (cp, ri, cv) ->
    zn cp (key e) = pos key nnz e /\ 0 <= pos key nnz e < nnz /\
    finv src val (e + 1) (upd cp (key e) (zn cp (key e) + 1), upd ri (pos key nnz e) (src e),
                          upd cv (pos key nnz e) v).
  Proof.
    intros T src val e cp ri cv v He Hv (L1 & L2 & L3 & C & R).
    specialize (Hkey e He) as Hk.
    pose proof (pos_bound key nnz n e Hnnz Hkey He) as Hp.
    split. { rewrite C by auto. reflexivity. } split; [auto|].
    unfold finv. rewrite !zlen_upd. ands; auto.
    - intros j Hj. rewrite nthZ_upd by lia. rewrite cnt_step by lia.
      destruct (j =? key e) eqn:X.
      + replace (key e =? j) with true by lia. replace (key e) with j by lia. rewrite C by lia. lia.
      + replace (key e =? j) with false by lia. rewrite C by lia. lia.
    - intros k Hk'. rewrite nthZ_upd, rd_upd by (try lia; pose proof (pos_bound key nnz n k Hnnz Hkey); lia).
      destruct (Z.eq_dec k e) as [->|N].
      + rewrite Z.eqb_refl. auto.
      + assert (pos key nnz k <> pos key nnz e).
        { intros X. apply N. apply (pos_inj key nnz); auto; lia. }
        replace (pos key nnz k =? pos key nnz e) with false by lia. apply R; lia.
  Qed.

  Lemma finv_init : forall T (src : Z -> Z) (val : list T) cp ri cv,
    zlen cp = n + 1 -> zlen ri = nnz -> zlen cv = nnz ->
    (forall j, 0 <= j <= n -> zn cp j = start key nnz j) -> finv src val 0 (cp, ri, cv).
  Proof.
    intros T src val cp ri cv L1 L2 L3 C. unfold finv. ands; auto; try lia.
    intros j Hj. rewrite cnt_0, C by lia. lia.
  Qed.

  (** What the finished arrays contain, as entry lists. *)
  Lemma bucket_ents : forall T (src : Z -> Z) (val : list T) ptr ri cv bC st,
    finv src val nnz st -> snd (fst st) = ri -> snd st = cv ->
    (forall j, 0 <= j <= n -> zn ptr j = start key nnz j + bC) ->
    forall j q, 0 <= j < n ->
      ents bC ptr ri cv j q =
      flat_map (fun k => if src k =? q + bC then olist (rd val k) else [])
               (filter (fun k => key k =? j) (zrange 0 nnz)).
  Proof.
    intros T src val ptr ri cv bC [[cp ri'] cv'] (L1 & L2 & L3 & C & R) E1 E2 P j q Hj.
    cbn [fst snd] in *. subst ri' cv'. unfold ents. rewrite !P by lia. rewrite start_step.
    replace (start key nnz j + bC - bC) with (start key nnz j) by lia.
    replace (start key nnz j + cnt key j nnz + bC - bC) with (start key nnz j + cnt key j nnz) by lia.
    apply bucket_flat_map; auto. intros k Hk Ek.
    replace (start key nnz j + cnt key j k) with (pos key nnz k) by (unfold pos; rewrite Ek; auto).
    destruct (R k Hk) as (-> & ->). auto.
  Qed.
End Phases.
