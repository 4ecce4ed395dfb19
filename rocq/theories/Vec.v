(** Loops with a stride and vector registers (lists of lanes). *)
From Coq Require Import ZArith List Bool Lia ZifyBool.
From Verif Require Import Base BaseFacts Algebra.
Import ListNotations.
Open Scope Z_scope.

(** [for (j = lo; j < hi; j += k)], [k > 0]. *)
Definition for_step {S} (lo hi k : Z) (f : Z -> S -> option S) (s : S) : option S :=
  for_ 0 ((hi - lo + k - 1) / k) (fun t s => f (lo + t * k) s) s.

Fixpoint mapM {X Y} (f : X -> option Y) (l : list X) : option (list Y) :=
  match l with
  | [] => Some []
  | x :: l' => let* y := f x in let* r := mapM f l' in Some (y :: r)
  end.

Fixpoint map2 {X Y W} (f : X -> Y -> W) (l : list X) (r : list Y) : list W :=
  match l, r with
  | x :: l', y :: r' => f x y :: map2 f l' r'
  | _, _ => []
  end.

(** Unaligned load of [k] consecutive elements: _mm256_loadu_pd and friends. *)
Definition vload {A} (k : Z) (l : list A) (p : Z) : option (list A) :=
  mapM (fun t => rd l (p + t)) (zrange 0 k).

Lemma mapM_map : forall X Y (f : X -> option Y) g l,
  (forall x, In x l -> f x = Some (g x)) -> mapM f l = Some (map g l).
Proof.
  induction l as [|a l IH]; cbn [mapM map]; intros H; [reflexivity|].
  rewrite H by (left; reflexivity). rewrite IH by (intros; apply H; right; auto). reflexivity.
Qed.

Lemma mapM_length : forall X Y (f : X -> option Y) l r, mapM f l = Some r -> length r = length l.
Proof.
  induction l as [|a l IH]; cbn [mapM]; intros r H.
  - inversion H; reflexivity.
  - destruct (f a); [|discriminate]. destruct (mapM f l) eqn:E; [|discriminate].
    inversion H; subst. cbn. f_equal. apply IH; reflexivity.
Qed.

Lemma map2_map : forall X Y W I (f : X -> Y -> W) (g : I -> X) (h : I -> Y) l,
  map2 f (map g l) (map h l) = map (fun i => f (g i) (h i)) l.
Proof. induction l; cbn; [reflexivity|]. f_equal; auto. Qed.

Lemma for_step_trips : forall lo hi k, 0 < k -> lo <= hi -> (hi - lo) mod k = 0 ->
  (hi - lo + k - 1) / k = (hi - lo) / k /\ hi = lo + (hi - lo) / k * k.
Proof.
  intros lo hi k Hk H M. pose proof (Z.div_mod (hi - lo) k ltac:(lia)) as D. rewrite M in D. split; [|lia].
  replace (hi - lo + k - 1) with ((k - 1) + ((hi - lo) / k) * k) by lia.
  rewrite Z.div_add by lia. rewrite Z.div_small by lia. lia.
Qed.

Lemma for_step_inv : forall S (P : Z -> S -> Prop) lo hi k f (s : S),
  0 < k -> lo <= hi -> (hi - lo) mod k = 0 -> P lo s ->
  (forall e st, lo <= e -> e + k <= hi -> P e st -> exists st', f e st = Some st' /\ P (e + k) st') ->
  exists st, for_step lo hi k f s = Some st /\ P hi st.
Proof.
  intros S P lo hi k f s Hk H M H0 Hs. unfold for_step.
  destruct (for_step_trips lo hi k Hk H M) as [E1 E2]. rewrite E1.
  set (q := (hi - lo) / k) in *. assert (0 <= q) by (apply Z.div_pos; lia).
  destruct (for_inv _ (fun t st => P (lo + t * k) st) 0 q (fun t s => f (lo + t * k) s) s H1) as (st & E & R).
  - rewrite Z.mul_0_l, Z.add_0_r. exact H0.
  - intros t st Ht Pt. destruct (Hs (lo + t * k) st) as (st' & Ef & Pf); auto; try nia.
    exists st'. split; auto. replace (lo + (t + 1) * k) with (lo + t * k + k) by lia. exact Pf.
  - exists st. split; auto. rewrite E2. exact R.
Qed.

Lemma for_step_none : forall S lo hi k f (s : S), 0 < k -> hi <= lo -> for_step lo hi k f s = Some s.
Proof.
  intros. unfold for_step. apply for_nil.
  destruct (Z.eq_dec hi lo).
  - subst. replace (lo - lo + k - 1) with (k - 1) by lia. rewrite Z.div_small; lia.
  - assert ((hi - lo + k - 1) / k < 1) by (apply Z.div_lt_upper_bound; lia). lia.
Qed.

Section VF.
  Context {T : Type} (O : ops T) (L : laws O).
  Local Notation zero := (o0 O).
  Local Infix "+!" := (oadd O) (at level 50, left associativity).
  Let rth := l_ring L.
  Add Ring TrV : rth.

  Lemma vload_ok : forall k (l : list T) p, 0 <= p -> p + k <= zlen l ->
    vload k l p = Some (map (fun t => nthZ zero l (p + t)) (zrange 0 k)).
  Proof.
    intros k l p H1 H2. unfold vload. apply mapM_map. intros t Ht. apply in_zrange in Ht.
    apply rd_nthZ. lia.
  Qed.

  Lemma suml_map2_add : forall (a v : list T), length a = length v ->
    suml O (fun x => x) (map2 (fun p s => p +! s) a v) = suml O (fun x => x) a +! suml O (fun x => x) v.
  Proof.
    induction a as [|x a IH]; intros [|y v] H; cbn [map2 suml fold_right] in *; try discriminate; [ring|].
    unfold suml in IH. rewrite IH by (now injection H). ring.
  Qed.

  Lemma map2_length : forall X Y W (f : X -> Y -> W) a v, length a = length v -> length (map2 f a v) = length v.
  Proof. induction a as [|x a IH]; intros [|y v] H; cbn in *; auto; try discriminate. Qed.

  Lemma suml_lanes : forall k p (F : Z -> T),
    suml O (fun x => x) (map (fun t => F (p + t)) (zrange 0 k)) = sumz O p (p + k) F.
  Proof.
    intros. rewrite (suml_map O). unfold sumz.
    replace (zrange p (p + k)) with (map (fun t => t + p) (zrange 0 k)).
    - rewrite (suml_map O). apply suml_ext. intros; f_equal; lia.
    - rewrite <- zrange_shift. f_equal; lia.
  Qed.
End VF.
