(** Scalars.  The C++ templates are instantiated at float, double and their
    complex counterparts.  The model uses exact arithmetic: a commutative ring
    with decidable equality and an involution [cj] standing for
    aoclsparse::conj (identity on the real types,
    library/src/extra/aoclsparse_utils.hpp 50-58).  Rounding is not modelled.   *)
From Coq Require Import ZArith List Bool Lia Permutation Ring InitialRing QArith Qcanon.
From Coq Require Import ZifyBool ZifyNat.
From Verif Require Import Base BaseFacts.
Import ListNotations.
Open Scope Z_scope.

Record ops (T : Type) := mkOps {
  o0 : T; o1 : T;
  oadd : T -> T -> T;
  omul : T -> T -> T;
  osub : T -> T -> T;
  oopp : T -> T;
  ocj : T -> T;
  oeqb : T -> T -> bool;
  odiv : T -> T -> T
}.
Arguments o0 {T} _. Arguments o1 {T} _. Arguments oadd {T} _ _ _.
Arguments omul {T} _ _ _. Arguments osub {T} _ _ _. Arguments oopp {T} _ _.
Arguments ocj {T} _ _. Arguments oeqb {T} _ _ _. Arguments odiv {T} _ _ _.

Record laws {T} (O : ops T) : Prop := mkLaws {
  l_ring : ring_theory (o0 O) (o1 O) (oadd O) (omul O) (osub O) (oopp O) eq;
  l_eqb : forall a b, oeqb O a b = true <-> a = b;
  l_cj_add : forall a b, ocj O (oadd O a b) = oadd O (ocj O a) (ocj O b);
  l_cj_mul : forall a b, ocj O (omul O a b) = omul O (ocj O a) (ocj O b);
  l_cj_cj : forall a, ocj O (ocj O a) = a
}.
Arguments l_ring {T O} _. Arguments l_eqb {T O} _. Arguments l_cj_add {T O} _.
Arguments l_cj_mul {T O} _. Arguments l_cj_cj {T O} _.

(** Division: required only by the solvers. *)
Definition div_law {T} (O : ops T) : Prop :=
  forall a b, b <> o0 O -> omul O (odiv O a b) b = a.

(** Sum of [f] over a list of indices. *)
Definition suml {T} (O : ops T) {X} (f : X -> T) (l : list X) : T :=
  fold_right (fun x acc => oadd O (f x) acc) (o0 O) l.

(** [sum_{lo <= k < hi} f k] *)
Definition sumz {T} (O : ops T) (lo hi : Z) (f : Z -> T) : T := suml O f (zrange lo hi).

Section Facts.
  Context {T : Type} (O : ops T) (L : laws O).
  Local Notation "0" := (o0 O).
  Local Notation "1" := (o1 O).
  Local Infix "+" := (oadd O).
  Local Infix "*" := (omul O).
  Local Infix "-" := (osub O).
  Let rth := l_ring L.
  Add Ring Tring : rth.

  Lemma eqb_refl_o : forall a, oeqb O a a = true.
  Proof. intros; now apply (l_eqb L). Qed.

  Lemma eqb_false_o : forall a b, oeqb O a b = false <-> a <> b.
  Proof.
    intros a b. split.
    - intros E ->. rewrite eqb_refl_o in E. discriminate.
    - intros N. destruct (oeqb O a b) eqn:E; auto. apply (l_eqb L) in E. contradiction.
  Qed.

  Lemma add_cancel : forall a b : T, a + b = a -> b = 0.
  Proof. intros a b H. assert (a + b - a = a - a) as E by now rewrite H. ring_simplify in E. auto. Qed.

  Lemma cj_0 : ocj O 0 = 0.
  Proof.
    apply (add_cancel (ocj O 0)). rewrite <- (l_cj_add L). f_equal. ring.
  Qed.

  Lemma cj_1 : ocj O 1 = 1.
  Proof.
    transitivity (ocj O 1 * ocj O (ocj O 1)).
    - rewrite (l_cj_cj L). ring.
    - rewrite <- (l_cj_mul L). rewrite <- (l_cj_cj L 1) at 3. f_equal. ring.
  Qed.

  Lemma suml_app : forall X (f : X -> T) l1 l2, suml O f (l1 ++ l2) = suml O f l1 + suml O f l2.
  Proof.
    unfold suml. induction l1; cbn; intros.
    - ring.
    - rewrite IHl1. ring.
  Qed.

  Lemma suml_ext : forall X (f g : X -> T) l, (forall x, In x l -> f x = g x) -> suml O f l = suml O g l.
  Proof. unfold suml; induction l; cbn; intros; auto. rewrite H, IHl; auto. Qed.

  Lemma suml_perm : forall X (f : X -> T) l1 l2, Permutation l1 l2 -> suml O f l1 = suml O f l2.
  Proof.
    unfold suml; induction 1; cbn; auto.
    - now rewrite IHPermutation.
    - ring.
    - congruence.
  Qed.

  Lemma suml_zero : forall X (f : X -> T) l, (forall x, In x l -> f x = 0) -> suml O f l = 0.
  Proof. unfold suml; induction l; cbn; intros; auto. rewrite H, IHl; auto. ring. Qed.

  Lemma suml_add : forall X (f g : X -> T) l, suml O (fun x => f x + g x) l = suml O f l + suml O g l.
  Proof. unfold suml; induction l; cbn; [ring|]. rewrite IHl. ring. Qed.

  Lemma suml_mul_l : forall X c (f : X -> T) l, suml O (fun x => c * f x) l = c * suml O f l.
  Proof. unfold suml; induction l; cbn; [ring|]. rewrite IHl. ring. Qed.

  Lemma suml_mul_r : forall X c (f : X -> T) l, suml O (fun x => f x * c) l = suml O f l * c.
  Proof. unfold suml; induction l; cbn; [ring|]. rewrite IHl. ring. Qed.

  Lemma suml_cj : forall X (f : X -> T) l, ocj O (suml O f l) = suml O (fun x => ocj O (f x)) l.
  Proof. unfold suml; induction l; cbn; [apply cj_0|]. now rewrite (l_cj_add L), IHl. Qed.

  Lemma suml_map : forall X Y (g : X -> Y) (f : Y -> T) l, suml O f (map g l) = suml O (fun x => f (g x)) l.
  Proof. unfold suml; induction l; cbn; auto. now rewrite IHl. Qed.

  Lemma suml_swap : forall X Y (f : X -> Y -> T) l1 l2,
    suml O (fun x => suml O (f x) l2) l1 = suml O (fun y => suml O (fun x => f x y) l1) l2.
  Proof.
    induction l1 as [|a l1 IH]; intros.
    - cbn. symmetry. apply suml_zero; auto.
    - cbn. fold (suml O (fun x => suml O (f x) l2) l1). rewrite IH, <- suml_add. reflexivity.
  Qed.

  Lemma suml_flat_map : forall X Y (g : X -> list Y) (f : Y -> T) l,
    suml O f (flat_map g l) = suml O (fun x => suml O f (g x)) l.
  Proof.
    induction l; auto. cbn [flat_map]. rewrite suml_app, IHl. reflexivity.
  Qed.

  Lemma sumz_nil : forall lo hi f, (hi <= lo)%Z -> sumz O lo hi f = 0.
  Proof. intros; unfold sumz; now rewrite zrange_nil. Qed.

  Lemma sumz_last : forall lo hi f, (lo <= hi)%Z -> sumz O lo (hi + 1)%Z f = sumz O lo hi f + f hi.
  Proof. intros; unfold sumz; rewrite zrange_last, suml_app by auto. cbn. ring. Qed.

  Lemma sumz_first : forall lo hi f, (lo < hi)%Z -> sumz O lo hi f = f lo + sumz O (lo + 1)%Z hi f.
  Proof. intros; unfold sumz; now rewrite zrange_first. Qed.

  Lemma sumz_split : forall lo mid hi f, (lo <= mid <= hi)%Z ->
    sumz O lo hi f = sumz O lo mid f + sumz O mid hi f.
  Proof. intros; unfold sumz; rewrite (zrange_app lo mid hi), suml_app by auto. auto. Qed.

  Lemma sumz_ext : forall lo hi f g, (forall k, (lo <= k < hi)%Z -> f k = g k) ->
    sumz O lo hi f = sumz O lo hi g.
  Proof. intros; apply suml_ext; intros; apply H; now apply in_zrange. Qed.

  Lemma sumz_zero : forall lo hi f, (forall k, (lo <= k < hi)%Z -> f k = 0) -> sumz O lo hi f = 0.
  Proof. intros; apply suml_zero; intros; apply H; now apply in_zrange. Qed.

  Lemma sumz_add : forall lo hi f g,
    sumz O lo hi (fun k => f k + g k) = sumz O lo hi f + sumz O lo hi g.
  Proof. intros; apply suml_add. Qed.

  Lemma sumz_mul_l : forall lo hi c f, sumz O lo hi (fun k => c * f k) = c * sumz O lo hi f.
  Proof. intros; apply suml_mul_l. Qed.

  Lemma sumz_mul_r : forall lo hi c f, sumz O lo hi (fun k => f k * c) = sumz O lo hi f * c.
  Proof. intros; apply suml_mul_r. Qed.

  Lemma sumz_swap : forall lo hi lo' hi' f,
    sumz O lo hi (fun i => sumz O lo' hi' (f i)) = sumz O lo' hi' (fun j => sumz O lo hi (fun i => f i j)).
  Proof. intros; apply suml_swap. Qed.

  Lemma sumz_shift : forall lo hi d f, sumz O (lo + d)%Z (hi + d)%Z f = sumz O lo hi (fun k => f (k + d)%Z).
  Proof. intros; unfold sumz; rewrite zrange_shift. apply suml_map. Qed.

  (** Exactly one non-zero term. *)
  Lemma sumz_delta : forall lo hi j f, (lo <= j < hi)%Z ->
    (forall k, (lo <= k < hi)%Z -> k <> j -> f k = 0) -> sumz O lo hi f = f j.
  Proof.
    intros lo hi j f Hj H.
    rewrite (sumz_split lo j hi) by lia. rewrite (sumz_first j hi) by lia.
    rewrite sumz_zero by (intros; apply H; lia).
    rewrite sumz_zero by (intros; apply H; lia). ring.
  Qed.

  Lemma suml_delta : forall X (eqd : X -> X -> bool) (eqd_ok : forall a b, eqd a b = true <-> a = b)
     (l : list X) a (f : X -> T), NoDup l -> In a l ->
     suml O (fun x => if eqd x a then f x else 0) l = f a.
  Proof.
    intros X eqd eqd_ok l a f. induction l as [|b l IH]; intros ND HI; [easy|].
    inversion ND; subst. cbn. fold (suml O (fun x => if eqd x a then f x else 0) l).
    destruct HI as [->|HI].
    - rewrite (proj2 (eqd_ok a a) eq_refl). rewrite suml_zero; [ring|].
      intros x Hx. destruct (eqd x a) eqn:E; auto. apply eqd_ok in E; subst; contradiction.
    - destruct (eqd b a) eqn:E.
      + apply eqd_ok in E; subst; contradiction.
      + rewrite IH by auto. ring.
  Qed.
End Facts.

(** ** Instances used in the examples *)

(** Integers (a real type: conj is the identity). *)
Definition Zops : ops Z :=
  mkOps Z 0 1 Z.add Z.mul Z.sub Z.opp (fun a => a) Z.eqb Z.div.

Lemma Zlaws : laws Zops.
Proof.
  constructor; cbn; auto.
  - exact InitialRing.Zth.
  - apply Z.eqb_eq.
Qed.

(** Gaussian integers (a complex type). *)
Definition G := (Z * Z)%type.
Definition Gops : ops G :=
  mkOps G (0, 0) (1, 0)
    (fun a b => (fst a + fst b, snd a + snd b))
    (fun a b => (fst a * fst b - snd a * snd b, fst a * snd b + snd a * fst b))
    (fun a b => (fst a - fst b, snd a - snd b))
    (fun a => (- fst a, - snd a))
    (fun a => (fst a, - snd a))
    (fun a b => (fst a =? fst b) && (snd a =? snd b))
    (fun a b => a).

Local Ltac gtac :=
  intros; repeat match goal with a : G |- _ => destruct a end;
  cbn [o0 o1 oadd omul osub oopp ocj Gops fst snd]; f_equal; ring.

Lemma Glaws : laws Gops.
Proof.
  constructor; try gtac.
  - constructor; gtac.
  - intros [a1 a2] [b1 b2]; cbn [Gops oeqb fst snd].
    rewrite andb_true_iff, !Z.eqb_eq. split.
    + intros [-> ->]; auto.
    + intros E; inversion E; auto.
Qed.

(** Rationals in canonical form (a real field). *)
Definition Qops : ops Qc :=
  mkOps Qc 0%Qc 1%Qc Qcplus Qcmult Qcminus Qcopp (fun a => a)
    (fun a b => if Qc_eq_dec a b then true else false) Qcdiv.

Lemma Qlaws : laws Qops.
Proof.
  constructor; cbn; auto.
  - apply Qcrt.
  - intros a b. destruct (Qc_eq_dec a b); split; auto; discriminate.
Qed.

Lemma Qdiv_law : div_law Qops.
Proof. intros a b H; cbn in *. unfold Qcdiv. rewrite <- Qcmult_assoc, Qcmult_inv_l by auto. apply Qcmult_1_r. Qed.
