(** C63: the work memory of a GMRES solve. *)
From Coq Require Import ZArith List Bool Arith String Lia ZifyBool ZifyNat.
From Verif Require Import Base BaseFacts Algebra UtilModel UtilProof RegModel RegSpec CgModel CgSpec GmresModel GmresSpec Props_Gmres Props_Option GmresInitModel.
Import ListNotations.
Open Scope Z_scope.

Lemma release_top : forall b l, (forall c, In c l -> c <> b) -> release b (b :: l) = Some l.
Proof.
  intros b l H. unfold release. cbn [existsb filter]. rewrite Nat.eqb_refl. cbn [orb negb].
  f_equal. induction l as [|c l IH]; [reflexivity|]. cbn [filter]. destruct (Nat.eqb_spec c b) as [E|E].
  - exfalso. apply (H c); [left; reflexivity|exact E].
  - cbn [negb]. f_equal. apply IH. intros c' Hc. apply H. right. exact Hc.
Qed.
Lemma release_under : forall b l1 l2, (forall c, In c (l1 ++ l2) -> c <> b) -> release b (l1 ++ b :: l2) = Some (l1 ++ l2).
Proof.
  intros b l1 l2 H. unfold release.
  assert (E : existsb (Nat.eqb b) (l1 ++ b :: l2) = true) by (apply existsb_exists; exists b; split; [apply in_elt|apply Nat.eqb_refl]).
  rewrite E. f_equal. rewrite filter_app. cbn [filter]. rewrite Nat.eqb_refl. cbn [negb]. rewrite <- filter_app.
  revert H. generalize (l1 ++ l2). intros l H. induction l as [|c l IH]; [reflexivity|]. cbn [filter]. destruct (Nat.eqb_spec c b) as [E2|E2].
  - exfalso. apply (H c); [left; reflexivity|exact E2].
  - cbn [negb]. f_equal. apply IH. intros c' Hc. apply H. right. exact Hc.
Qed.

Lemma release_nones : forall k l, release_ptrs (repeat None k) l = Some l.
Proof. induction k; intros l; cbn [repeat release_ptrs release_opt]; auto. Qed.

(** Blocks b0 + k, b0 + k + 1, ... *)
Definition blocks (b0 k cnt : nat) : list nat := map (fun i => (b0 + i)%nat) (seq k cnt).
Lemma in_blocks : forall b0 k cnt c, In c (blocks b0 k cnt) <-> (b0 + k <= c < b0 + k + cnt)%nat.
Proof.
  intros. unfold blocks. rewrite in_map_iff. split.
  - intros (i & <- & H). apply in_seq in H. lia.
  - intros H. exists (c - b0)%nat. split; [lia|]. apply in_seq. lia.
Qed.

Lemma alloc_all_ok : forall ok b0 cnt k l, exists c r, alloc_all ok b0 k cnt l = (map Some (blocks b0 k c) ++ repeat None (cnt - c), rev (blocks b0 k c) ++ l, r) /\
  (c <= cnt)%nat /\ (r = true -> c = cnt) /\ (r = true <-> forall i, (k <= i < k + cnt)%nat -> ok i = true).
Proof.
  intros ok b0. induction cnt; intros k l; cbn [alloc_all].
  - exists 0%nat, true. split; [reflexivity|]. split; [lia|]. split; [auto|]. split; [intros _ i Hi; lia|auto].
  - destruct (ok k) eqn:E.
    + destruct (IHcnt (S k) ((b0 + k)%nat :: l)) as (c & r & Ea & H1 & H2 & H3). rewrite Ea. exists (S c), r.
      split; [|split; [lia|split; [intros H; specialize (H2 H); lia|]]].
      * unfold blocks. cbn [seq map rev app]. rewrite <- app_assoc. reflexivity.
      * rewrite H3. split; intros H i Hi; [destruct (Nat.eq_dec i k) as [->|]; [exact E|apply H; lia]|apply H; lia].
    + exists 0%nat, false. cbn [blocks seq map rev app]. split; [reflexivity|]. split; [lia|]. split; [discriminate|]. split; [discriminate|].
      intros H. rewrite H in E by lia. discriminate E.
Qed.

(** Blocks released first to last although the last was made most recently *)
Lemma release_blocks : forall b0 c k rest l, (forall x, In x l -> (x < b0)%nat) -> (0 < k)%nat ->
  release_ptrs (map Some (blocks b0 k c) ++ repeat None rest) (rev (blocks b0 k c) ++ b0 :: l) = Some (b0 :: l).
Proof.
  intros b0. induction c; intros k rest l Hl Hk; [apply release_nones|].
  unfold blocks. cbn [seq map rev app release_ptrs release_opt]. fold (blocks b0 (S k) c). rewrite <- app_assoc. cbn [app].
  rewrite release_under.
  - cbv beta iota. apply IHc; auto.
  - intros x Hx E. subst x. apply in_app_or in Hx. destruct Hx as [Hx|[Hx|Hx]].
    + apply in_rev in Hx. apply in_blocks in Hx. lia.
    + lia.
    + apply Hl in Hx. lia.
Qed.

(** The restart length and the size of the system ask for arrays whose length fits
    aoclsparse_int. *)
Definition lengths_fit (w m n : Z) : Prop := (m + 1) * n <= int_max w /\ m * m <= int_max w.

(** C63.  Starting a GMRES solve of size n with restart length m is defined whichever
    allocations fail.  With enough memory, and lengths that fit, it succeeds and the arrays
    have the sizes the solver needs; lengths that do not fit are refused with invalid_size,
    a failed allocation gives memory_error; a refused start leaves no memory behind, and neither does destroying
    the solver after a successful one.
    Missing (refuted below): restart length INT_MAX. *)
Theorem C63_start_partial : forall T (O : ops T) w ok b0 j1 j2 j3 (p : gopt T) n x l, 0 < w -> 1 <= p_restart p < int_max w -> 0 <= n <= int_max w ->
  (forall c, In c l -> (c < b0)%nat) ->
  let m := p_restart p in
  exists st r l', gmres_data_init O w ok b0 j1 j2 j3 m n l = Some (st, r, l') /\
    (lengths_fit w m n /\ (forall k, (k < 7)%nat -> ok k = true) -> st = success) /\
    (st = success -> lengths_fit w m n /\ exists wk ptrs, r = Some (wk, ptrs) /\ (forall io, i_x io = x -> zlen x = n -> gfresh p n wk io) /\
       gmres_data_free b0 ptrs l' = Some l) /\
    (st = success -> forall c, In c l' <-> In c l \/ (b0 <= c < b0 + 7)%nat) /\
    (st <> success -> r = None /\ l' = l) /\
    (st = invalid_size <-> ~ lengths_fit w m n /\ ok 0%nat = true) /\
    (st = success \/ st = invalid_size \/ st = memory_error /\ exists k, (k < 7)%nat /\ ok k = false).
Proof.
  intros T O w ok b0 j1 j2 j3 p n x l Hw Hm Hn Hl m. fold m in Hm. unfold gmres_data_init.
  assert (Pw : 2 <= 2 ^ w) by (change 2 with (2 ^ 1) at 1; apply Z.pow_le_mono_r; lia).
  assert (Ir : forall v, 0 <= v <= int_max w -> in_int w v = true) by (intros v Hv; unfold in_int, int_min, int_max in *; lia).
  assert (OV : forall a b, 0 <= a <= int_max w -> 0 <= b <= int_max w -> int_product_overflow w a b = Some (int_max w <? a * b)).
  { intros a b Ha Hb. rewrite int_product_overflow_spec by auto. f_equal. assert (0 <= a * b) by nia. clear - H Pw. unfold in_int, int_min, int_max in *. lia. }
  destruct (ok 0%nat) eqn:E0; cbn [negb].
  2:{ exists memory_error, None, l. split; [reflexivity|]. split; [intros (_ & H); rewrite H in E0 by lia; discriminate|]. do 2 (split; [discriminate|]). split; [auto|].
      split; [split; [discriminate|intros (_ & H); discriminate]|]. right; right. split; [reflexivity|]. exists 0%nat. split; [lia|exact E0]. }
  unfold chk at 1. rewrite Ir by lia. cbv beta iota. rewrite OV by lia. cbv beta iota.
  assert (EO : (if int_max w <? (m + 1) * n then Some true else int_product_overflow w m m) = Some ((int_max w <? (m + 1) * n) || (int_max w <? m * m))).
  { destruct (int_max w <? (m + 1) * n); [reflexivity|]. rewrite OV by lia. reflexivity. }
  rewrite EO. cbv beta iota.
  destruct ((int_max w <? (m + 1) * n) || (int_max w <? m * m)) eqn:EF.
  - assert (NF : ~ lengths_fit w m n) by (unfold lengths_fit; lia).
    unfold gmres_data_free. rewrite release_nones. cbv beta iota. rewrite release_top by (intros c Hc; apply Hl in Hc; lia). cbv beta iota.
    exists invalid_size, None, l. split; [reflexivity|]. split; [tauto|]. do 2 (split; [discriminate|]). split; [auto|]. split; [tauto|auto].
  - assert (FT : lengths_fit w m n) by (unfold lengths_fit; lia). unfold chk.
    assert (P1 : 0 <= (m + 1) * n) by (apply Z.mul_nonneg_nonneg; lia). assert (P2 : 0 <= m * m) by (apply Z.mul_nonneg_nonneg; lia).
    rewrite (Ir ((m + 1) * n)) by (destruct FT; auto). rewrite (Ir (m * m)) by (destruct FT; auto). cbv beta iota.
    destruct (alloc_all_ok ok b0 6 1 (b0 :: l)) as (c & r & -> & C1 & C2 & C3). destruct r.
    + specialize (C2 eq_refl). subst c. eexists _, _, _. split; [reflexivity|]. split; [auto|]. split; [|split; [|split; [congruence|split; [|auto]]]].
      * intros _. split; [exact FT|]. eexists _, _. split; [reflexivity|]. split; [|unfold gmres_data_free; rewrite release_blocks by (auto; lia); cbv beta iota; apply release_top; intros c Hc; apply Hl in Hc; lia].
        intros io Ex Lx. unfold gfresh, gsizes. cbn [w_task w_j w_niter w_v w_z w_h w_g w_c w_s]. fold m.
        do 3 (split; [reflexivity|]). rewrite !zlen_zrep by first [assumption | lia]. subst x. auto 8.
      * intros _ c. rewrite in_app_iff, <- in_rev, in_blocks. cbn [In]. split; [intros [H|[H|H]]; [right; lia|right; lia|left; exact H]|]. intros [H|H]; [auto|]. destruct (Nat.eq_dec c b0) as [->|]; [auto|left; lia].
      * split; [discriminate|tauto].
    + unfold gmres_data_free. rewrite release_blocks by (auto; lia). cbv beta iota. rewrite release_top by (intros x0 Hx; apply Hl in Hx; lia). cbv beta iota.
      assert (NA : exists k, (k < 7)%nat /\ ok k = false).
      { destruct (ok 1%nat) eqn:K1; [|exists 1%nat; split; [lia|exact K1]]. destruct (ok 2%nat) eqn:K2; [|exists 2%nat; split; [lia|exact K2]]. destruct (ok 3%nat) eqn:K3; [|exists 3%nat; split; [lia|exact K3]].
        destruct (ok 4%nat) eqn:K4; [|exists 4%nat; split; [lia|exact K4]]. destruct (ok 5%nat) eqn:K5; [|exists 5%nat; split; [lia|exact K5]]. destruct (ok 6%nat) eqn:K6; [|exists 6%nat; split; [lia|exact K6]].
        exfalso. assert (false = true); [|discriminate]. apply C3. intros i Hi. clear - Hi K1 K2 K3 K4 K5 K6. assert (D : (i = 1 \/ i = 2 \/ i = 3 \/ i = 4 \/ i = 5 \/ i = 6)%nat) by lia.
        destruct D as [->|[->|[->|[->|[->| ->]]]]]; assumption. }
      exists memory_error, None, l. split; [reflexivity|]. split.
      * intros (_ & H). destruct NA as (k & Hk & Ek). rewrite H in Ek by exact Hk. discriminate.
      * do 2 (split; [discriminate|]). split; [auto|]. split; [split; [discriminate|tauto]|]. auto.
Qed.
Print Assumptions C63_start_partial.

(** A solve that was started can be carried through: no call of the solver accesses the
    work memory outside its bounds (C54_defined). *)
Theorem C63_solve_defined_partial : forall T (O : ops T) w ok b0 j1 j2 j3 e (p : gopt T) A n b o l wk ptrs l', 0 < w -> 1 <= p_restart p < int_max w -> 0 <= n <= int_max w ->
  (forall c, In c l -> (c < b0)%nat) -> zlen b = n -> zlen (i_x o) = n ->
  gmres_data_init O w ok b0 j1 j2 j3 (p_restart p) n l = Some (success, Some (wk, ptrs), l') ->
  (forall jb, exists w' o', grci_solve O e p n b wk o jb = Some (success, j_mv, w', o')) /\
  (forall k st jb w1 o1, greaches O e p A n b wk o k st jb w1 o1 -> zlen (i_x o1) = n /\
     (jb <> j_stop -> st = success /\ forall w2 jb2, ganswer O A n w1 o1 jb w2 jb2 -> exists r, grci_solve O e p n b w2 o1 jb2 = Some r)).
Proof.
  intros T O w ok b0 j1 j2 j3 e p A n b o l wk ptrs l' Hw Hm Hn Hl Hb Hx E.
  destruct (C63_start_partial T O w ok b0 j1 j2 j3 p n (i_x o) l Hw Hm Hn Hl) as (st & r & l2 & E2 & _ & S & _). rewrite E in E2. injection E2 as <- <- <-.
  destruct (S eq_refl) as (_ & wk2 & ptrs2 & Ew & F & _). injection Ew as <- <-. apply C54_defined; auto; lia.
Qed.
Print Assumptions C63_solve_defined_partial.

(** The same for the conjugate gradient solver, whose four vectors have n elements each. *)
Theorem C63_cg_start : forall ok b0 l, (forall c, In c l -> (c < b0)%nat) ->
  exists st r l', cg_data_init ok b0 l = Some (st, r, l') /\
    ((forall k, (k < 5)%nat -> ok k = true) -> st = success) /\
    (st = success -> (forall c, In c l' <-> In c l \/ (b0 <= c < b0 + 5)%nat) /\ exists ptrs, r = Some ptrs /\ cg_data_free b0 ptrs l' = Some l) /\
    (st <> success -> st = memory_error /\ r = None /\ l' = l /\ exists k, (k < 5)%nat /\ ok k = false).
Proof.
  intros ok b0 l Hl. unfold cg_data_init. destruct (ok 0%nat) eqn:E0; cbn [negb].
  2:{ exists memory_error, None, l. split; [reflexivity|]. split; [intros H; rewrite H in E0 by lia; discriminate|]. split; [discriminate|].
      intros _. do 3 (split; [reflexivity|]). exists 0%nat. split; [lia|exact E0]. }
  assert (RT : release b0 (b0 :: l) = Some l) by (apply release_top; intros c Hc; apply Hl in Hc; lia).
  destruct (alloc_all_ok ok b0 4 1 (b0 :: l)) as (c & r & -> & C1 & C2 & C3). destruct r.
  - specialize (C2 eq_refl). subst c. eexists _, _, _. split; [reflexivity|]. split; [auto|]. split; [|congruence]. intros _. split.
    + intros c. rewrite in_app_iff, <- in_rev, in_blocks. cbn [In]. split; [intros [H|[H|H]]; [right; lia|right; lia|left; exact H]|].
      intros [H|H]; [auto|]. destruct (Nat.eq_dec c b0) as [->|]; [auto|left; lia].
    + eexists. split; [reflexivity|]. unfold cg_data_free. rewrite release_blocks by (auto; lia). exact RT.
  - unfold cg_data_free. rewrite release_blocks by (auto; lia). cbv beta iota. rewrite RT.
    assert (NA : exists k, (k < 5)%nat /\ ok k = false).
    { destruct (ok 1%nat) eqn:K1; [|exists 1%nat; split; [lia|exact K1]]. destruct (ok 2%nat) eqn:K2; [|exists 2%nat; split; [lia|exact K2]].
      destruct (ok 3%nat) eqn:K3; [|exists 3%nat; split; [lia|exact K3]]. destruct (ok 4%nat) eqn:K4; [|exists 4%nat; split; [lia|exact K4]].
      exfalso. assert (false = true); [|discriminate]. apply C3. intros i Hi. assert (D : (i = 1 \/ i = 2 \/ i = 3 \/ i = 4)%nat) by lia.
      destruct D as [->|[->|[->| ->]]]; assumption. }
    exists memory_error, None, l. split; [reflexivity|]. split.
    + intros H. destruct NA as (k & Hk & Ek). rewrite H in Ek by exact Hk. discriminate.
    + split; [discriminate|]. auto.
Qed.
Print Assumptions C63_cg_start.
Example C63_case_cg : cg_data_init (fun k => negb (Nat.eqb k 3)) 5 [1%nat] = Some (memory_error, None, [1%nat]) /\
  exists ptrs, cg_data_init (fun _ => true) 5 [1%nat] = Some (success, Some ptrs, [9; 8; 7; 6; 5; 1]%nat).
Proof. split; [vm_compute; reflexivity|]. eexists. vm_compute. reflexivity. Qed.

(** Concrete cases: restart 3, size 2, 32-bit sizes; the fourth allocation fails; a restart
    length whose square does not fit. *)
Example C63_case : exists wk ptrs, gmres_data_init Zops 31 (fun _ => true) 5 0 0 0 3 2 [1%nat; 4%nat] = Some (success, Some (wk, ptrs), [11; 10; 9; 8; 7; 6; 5; 1; 4]%nat) /\
  zlen (w_v wk) = 8 /\ zlen (w_h wk) = 9 /\ zlen (w_g wk) = 4.
Proof. eexists _, _. split; [vm_compute; reflexivity|]. vm_compute. auto. Qed.
Example C63_case_memory : gmres_data_init Zops 31 (fun k => negb (Nat.eqb k 4)) 5 0 0 0 3 2 [1%nat; 4%nat] = Some (memory_error, None, [1%nat; 4%nat]).
Proof. vm_compute. reflexivity. Qed.
Example C63_case_size : gmres_data_init Zops 31 (fun _ => true) 5 0 0 0 46341 2 [1%nat; 4%nat] = Some (invalid_size, None, [1%nat; 4%nat]).
Proof. vm_compute. reflexivity. Qed.

(** The option accepts restart length 2147483647, but with 32-bit sizes the guard that is
    to refuse it computes 2147483647 + 1 first: signed overflow, undefined. *)
Theorem C63_largest_restart_refuted :
  fst (z_set z_options (Some (lit "gmres restart iterations")) (Some (lit "2147483647"))) = returns success /\
  get_int (lit "gmres restart iterations") (snd (z_set z_options (Some (lit "gmres restart iterations")) (Some (lit "2147483647")))) = Some (int_max 31) /\
  forall T (O : ops T) ok b0 j1 j2 j3 n l, ok 0%nat = true -> gmres_data_init O 31 ok b0 j1 j2 j3 (int_max 31) n l = None.
Proof.
  split; [vm_compute; reflexivity|]. split; [vm_compute; reflexivity|].
  intros T O ok b0 j1 j2 j3 n l E. unfold gmres_data_init. rewrite E. cbn [negb]. reflexivity.
Qed.
Print Assumptions C63_largest_restart_refuted.
