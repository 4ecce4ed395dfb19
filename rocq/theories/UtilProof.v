From Coq Require Import ZArith Bool Lia.
From Coq Require Import ZifyBool.
From Verif Require Import Base UtilModel.
Open Scope Z_scope.

Lemma pow_w : forall w, 0 < w -> 2 <= 2 ^ w.
Proof.
  intros w H. change 2 with (2 ^ 1) at 1. apply Z.pow_le_mono_r; lia.
Qed.

(** Complete description of the answer. *)
Lemma int_product_overflow_spec : forall w a b,
  0 < w -> in_int w a = true -> in_int w b = true ->
  int_product_overflow w a b =
    Some (negb (in_int w (a * b) &&
                ((negb (a * b =? int_min w)) || (a =? 1) || (b =? 1)))).
Proof.
  intros w a b Hw Ha Hb. pose proof (pow_w w Hw) as Hp.
  unfold in_int, int_min, int_max in *.
  assert (Ra : - 2 ^ w <= a <= 2 ^ w - 1) by lia.
  assert (Rb : - 2 ^ w <= b <= 2 ^ w - 1) by lia. clear Ha Hb.
  unfold int_product_overflow, int_min, int_max, neg_i, div_i, chk, in_int, int_min, int_max.
  set (M := 2 ^ w) in *. clearbody M.
  destruct (b =? 0) eqn:Eb0; [cbn; f_equal; assert (b = 0) by lia; subst; rewrite Z.mul_0_r; lia|].
  destruct (a =? 0) eqn:Ea0; [cbn; f_equal; assert (a = 0) by lia; subst; rewrite Z.mul_0_l; lia|].
  cbn [orb].
  destruct (a =? - M) eqn:EaM.
  { assert (a = - M) by lia; subst a. f_equal.
    destruct (b =? 1) eqn:Eb1.
    - assert (b = 1) by lia; subst b. rewrite Z.mul_1_r. lia.
    - destruct ((- M <=? - M * b) && (- M * b <=? M - 1)) eqn:E; [|lia].
      exfalso. nia. }
  destruct (b =? - M) eqn:EbM.
  { assert (b = - M) by lia; subst b. f_equal.
    destruct (a =? 1) eqn:Ea1.
    - assert (a = 1) by lia; subst a. rewrite Z.mul_1_l. lia.
    - destruct ((- M <=? a * - M) && (a * - M <=? M - 1)) eqn:E; [|lia].
      exfalso. nia. }
  replace (if a <? 0 then if (- M <=? - a) && (- a <=? M - 1) then Some (- a) else None else Some a)
    with (Some (Z.abs a)).
  2:{ destruct (a <? 0) eqn:E; [|f_equal; lia].
      replace ((- M <=? - a) && (- a <=? M - 1)) with true by lia. f_equal; lia. }
  replace (if b <? 0 then if (- M <=? - b) && (- b <=? M - 1) then Some (- b) else None else Some b)
    with (Some (Z.abs b)).
  2:{ destruct (b <? 0) eqn:E; [|f_equal; lia].
      replace ((- M <=? - b) && (- b <=? M - 1)) with true by lia. f_equal; lia. }
  assert (Hq : 0 < Z.abs b) by lia.
  replace (Z.abs b =? 0) with false by lia.
  rewrite Z.quot_div_nonneg by lia.
  pose proof (Z.mul_div_le (M - 1) (Z.abs b) Hq) as D1.
  pose proof (Z.mul_succ_div_gt (M - 1) (Z.abs b) Hq) as D2.
  set (q := (M - 1) / Z.abs b) in *. 
  assert (0 <= q) by (subst q; apply Z.div_pos; lia).
  assert (q <= M - 1) by nia.
  clearbody q.
  replace ((- M <=? q) && (q <=? M - 1)) with true by lia.
  f_equal.
  assert (A : Z.abs (a * b) = Z.abs a * Z.abs b) by apply Z.abs_mul.
  destruct (q <? Z.abs a) eqn:E.
  - assert (M <= Z.abs a * Z.abs b) by nia.
    destruct (a =? 1) eqn:Ea1. { assert (a = 1) by lia; subst; lia. }
    destruct (b =? 1) eqn:Eb1. { assert (b = 1) by lia; subst; lia. }
    lia.
  - assert (Z.abs a * Z.abs b <= M - 1) by nia. lia.
Qed.

Lemma int_product_overflow_total : forall w a b,
  0 < w -> in_int w a = true -> in_int w b = true ->
  exists r, int_product_overflow w a b = Some r.
Proof. intros. rewrite int_product_overflow_spec by auto. eauto. Qed.

Lemma int_product_no_miss : forall w a b,
  0 < w -> in_int w a = true -> in_int w b = true ->
  int_product_overflow w a b = Some false -> int_min w <= a * b <= int_max w.
Proof.
  intros w a b Hw Ha Hb E. rewrite int_product_overflow_spec in E by auto.
  inversion E as [E']. unfold in_int in E'. lia.
Qed.

Lemma int_product_false_alarm : forall w a b,
  0 < w -> in_int w a = true -> in_int w b = true ->
  int_product_overflow w a b = Some true ->
  a * b < int_min w \/ int_max w < a * b \/ (a * b = int_min w /\ a <> 1 /\ b <> 1).
Proof.
  intros w a b Hw Ha Hb E. rewrite int_product_overflow_spec in E by auto.
  inversion E as [E']. unfold in_int in E'. lia.
Qed.

Lemma int_product_exact_nonneg : forall w a b,
  0 < w -> 0 <= a <= int_max w -> 0 <= b <= int_max w ->
  exists r, int_product_overflow w a b = Some r /\ (r = true <-> int_max w < a * b).
Proof.
  intros w a b Hw Ha Hb. pose proof (pow_w w Hw).
  assert (0 <= a * b) by nia.
  unfold int_max in *.
  rewrite int_product_overflow_spec by (auto; unfold in_int, int_min, int_max; lia).
  eexists; split; [reflexivity|]. unfold in_int, int_min, int_max. lia.
Qed.

Lemma int_product_exact_refuted : 
  int_product_overflow 31 (-2) (2 ^ 30) = Some true /\ in_int 31 (-2 * 2 ^ 30) = true.
Proof. split; vm_compute; reflexivity. Qed.

Lemma product_guard_lemma : forall w a b,
  0 < w -> - 2 ^ w <= a <= 2 ^ w - 1 -> - 2 ^ w <= b <= 2 ^ w - 1 ->
  exists r, int_product_overflow w a b = Some r /\
    (r = false -> - 2 ^ w <= a * b <= 2 ^ w - 1) /\
    (r = true -> a * b < - 2 ^ w \/ 2 ^ w - 1 < a * b \/ (a * b = - 2 ^ w /\ a <> 1 /\ b <> 1)).
Proof.
  intros w a b Hw Ha Hb.
  assert (in_int w a = true) by (unfold in_int, int_min, int_max; lia).
  assert (in_int w b = true) by (unfold in_int, int_min, int_max; lia).
  destruct (int_product_overflow_total w a b) as [r E]; auto.
  exists r. split; auto. split; intros ->.
  - apply int_product_no_miss; auto.
  - apply int_product_false_alarm; auto.
Qed.

Lemma product_guard_refuted_lemma :
  exists w a b, - 2 ^ w <= a <= 2 ^ w - 1 /\ - 2 ^ w <= b <= 2 ^ w - 1 /\
    - 2 ^ w <= a * b <= 2 ^ w - 1 /\ int_product_overflow w a b = Some true.
Proof. exists 31, (-2), (2 ^ 30). vm_compute. intuition discriminate. Qed.
