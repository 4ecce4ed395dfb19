(** Invariant of concurrent preparation: every thread returns what a call without
    interference returns, no two accesses collide, and no thread waits for ever. *)
From Coq Require Import ZArith List Bool Arith Lia.
From Verif Require Import Base BaseFacts Algebra Vec DoidModel MvModel CheckModel SortModel CsrmvModel HandleModel ConcModel.
Import ListNotations.
Open Scope Z_scope.

Lemma fold_keep : forall X S (P : S -> Prop) (f : X -> S -> option S) l s s',
  (forall x s s', P s -> f x s = Some s' -> P s') -> foldM f l s = Some s' -> P s -> P s'.
Proof.
  intros X S P f. induction l as [|x l IH]; intros s s' Hf E H; cbn in E; [injection E as <-; exact H|].
  destruct (f x s) as [s1|] eqn:E1; [|discriminate]. eauto.
Qed.

Lemma loop_ret : forall X S R (P : R -> Prop) (f : X -> S -> option (ctl S R)) l s r,
  (forall x s r, f x s = Some (Ret r) -> P r) -> loopM f l s = Some (inr r) -> P r.
Proof.
  intros X S R P f. induction l as [|x l IH]; intros s r Hf E; cbn in E; [discriminate|].
  destruct (f x s) as [[s1|s1|r1]|] eqn:E1; try discriminate; [eauto|]. injection E as <-. eauto.
Qed.

Lemma mat_check_none : forall m n nnz ptr ind vn sh b f, mat_check m n nnz ptr ind vn sh b f <> Some (success, None).
Proof.
  intros m n nnz ptr ind vn sh b f EC. unfold mat_check in EC. destruct ptr; [|discriminate]. destruct ind; [|discriminate].
  destruct vn; [discriminate|]. destruct (_ || _) in EC; [discriminate|]. destruct (rd _ _) in EC; [|discriminate]. destruct (negb _) in EC; [discriminate|].
  destruct (rd _ _) in EC; [|discriminate]. destruct (negb _) in EC; [discriminate|]. destruct f; [discriminate|].
  destruct (forc 1 _ _ _) as [[?|st]|] eqn:E1 in EC; [| |discriminate].
  - destruct (forc 0 _ _ _) as [[?|st]|] eqn:E2 in EC; try discriminate. injection EC as ->.
    refine (loop_ret _ _ _ (fun st => st <> success) _ _ _ _ _ E2 eq_refl). clear.
    intros i [so fd] r E. unfold check_row in E. destruct (rd _ _) in E; [|discriminate]. destruct (rd _ _) in E; [|discriminate].
    destruct (forc _ _ _ _) as [[[[[? ?] ?] ?]|st]|] eqn:E2 in E; try discriminate. injection E as <-.
    refine (loop_ret _ _ _ (fun st => st <> success) _ _ _ _ _ E2). clear. intros k [[[s1 d1] u1] p1] r E. unfold check_entry in E.
    repeat match type of E with (match ?x with _ => _ end) = _ => destruct x; try discriminate E end; injection E as <-; discriminate.
  - injection EC as ->. refine (loop_ret _ _ _ (fun st => st <> success) _ _ _ _ _ E1 eq_refl). clear. intros k st r E.
    repeat match type of E with (match ?x with _ => _ end) = _ => destruct x; try discriminate E end; injection E as <-; discriminate.
Qed.

Section P.
  Context {T : Type} (O : ops T).
  Context (srt : (Z -> Z -> bool) -> list Z -> list Z) (fz : Z -> list Z) (ft : Z -> list T).
  Context (sup : Z -> bool) (dt : dtype) (prefer : bool) (N : nat).
  Context (Hfz : forall z, 0 <= z -> zlen (fz z) = z).

  Notation tstep := (tstep O srt fz ft sup dt prefer N).
  Notation slow := (slow_stores O srt fz ft).
  Notation opt := (csr_csc_optimize O srt fz ft).

  Definition noopt (l : list (option (cmat T))) (i : Z) : Prop := forall k, 0 <= k < i -> look l k = Some false.

  Lemma look_cons : forall e (l : list (option (cmat T))) k, 0 < k -> look (e :: l) k = look l (k - 1).
  Proof. intros e l k Hk. unfold look, rd. replace (k <? 0) with false by lia. replace (k - 1 <? 0) with false by lia. replace (Z.to_nat k) with (S (Z.to_nat (k - 1))) by lia. reflexivity. Qed.
  Lemma look_0 : forall e (l : list (option (cmat T))), look (e :: l) 0 = Some (match e with Some c => c_opt c | None => false end).
  Proof. reflexivity. Qed.

  Lemma first_opt_found : forall (l : list (option (cmat T))) i k, 0 <= i -> noopt l i -> look l i = Some true ->
    exists c, first_opt l k = Some (k + i, c).
  Proof.
    induction l as [|e l IH]; intros i k Hi Hn Hl.
    - exfalso. unfold look, rd in Hl. destruct (i <? 0); [discriminate|]. destruct (Z.to_nat i); discriminate.
    - destruct (Z.eq_dec i 0) as [->|Ni].
      + rewrite look_0 in Hl. injection Hl as Hl. destruct e as [c|]; [|discriminate]. exists c. cbn [first_opt]. rewrite Hl. do 2 f_equal. lia.
      + rewrite look_cons in Hl by lia.
        destruct (IH (i - 1) (k + 1)) as (c & E); [lia| |exact Hl|].
        { intros j Hj. specialize (Hn (j + 1) ltac:(lia)). rewrite look_cons in Hn by lia. replace (j + 1 - 1) with j in Hn by lia. exact Hn. }
        pose proof (Hn 0 ltac:(lia)) as H0. rewrite look_0 in H0. injection H0 as H0.
        exists c. cbn [first_opt]. replace (k + i) with (k + 1 + (i - 1)) by lia. destruct e as [c0|]; [rewrite H0|]; exact E.
  Qed.

  Lemma first_opt_none : forall (l : list (option (cmat T))) k, noopt l (zlen l) <-> first_opt l k = None.
  Proof.
    induction l as [|e l IH]; intros k.
    - split; [reflexivity|]. intros _ j Hj. unfold zlen in Hj. cbn in Hj. lia.
    - assert (Hz : zlen (e :: l) = zlen l + 1) by (unfold zlen; cbn [length]; lia). pose proof (zlen_nonneg _ l) as Hl0. split.
      + intros Hn. pose proof (Hn 0 ltac:(lia)) as H0. rewrite look_0 in H0. injection H0 as H0.
        assert (first_opt l (k + 1) = None).
        { apply IH. intros j Hj. specialize (Hn (j + 1) ltac:(lia)). rewrite look_cons in Hn by lia. replace (j + 1 - 1) with j in Hn by lia. exact Hn. }
        cbn [first_opt]. destruct e as [c|]; [rewrite H0|]; assumption.
      + intros E j Hj. cbn [first_opt] in E.
        assert (E' : first_opt l (k + 1) = None /\ (match e with Some c => c_opt c | None => false end) = false).
        { destruct e as [c|]; [destruct (c_opt c) eqn:?; [discriminate|]|]; auto. }
        destruct E' as (E1 & E2). destruct (Z.eq_dec j 0) as [->|]; [rewrite look_0, E2; reflexivity|].
        rewrite look_cons by lia. apply (proj2 (IH (k + 1)) E1). lia.
  Qed.

  Lemma first_opt_app : forall (l : list (option (cmat T))) c k, first_opt l k = None -> c_opt c = true -> first_opt (l ++ [Some c]) k = Some (k + zlen l, c).
  Proof.
    induction l as [|e l IH]; intros c k E Hc.
    - cbn [app first_opt]. rewrite Hc. unfold zlen. cbn [length]. do 2 f_equal. lia.
    - cbn [app first_opt] in *. rewrite zlen_cons. replace (k + (1 + zlen l)) with (k + 1 + zlen l) by lia.
      destruct e as [c0|]; [destruct (c_opt c0); [discriminate|]|]; apply IH; auto.
  Qed.

  Lemma look_some : forall (l : list (option (cmat T))) i, 0 <= i < zlen l -> exists b, look l i = Some b.
  Proof. intros l i Hi. unfold look. rewrite (rd_nthZ _ None) by lia. eauto. Qed.

  (** ** The stores of the write phase add up to the effect of the lone call *)
  Definition apply_all (l : list (wop T)) (h : hnd T) : hnd T := fold_left (fun h w => apply_w w h) l h.

  Lemma index_fill : forall m rest idiag iurow (h : hnd T) c, 0 <= m -> zlen idiag = m -> zlen iurow = m -> H_mats h = Some c :: rest ->
    apply_all (index_stores fz 0 m idiag iurow) h = set_mats h (Some (set_ix c (Some idiag) (Some iurow) (c_opt c)) :: rest).
  Proof.
    intros m rest idiag iurow h c Hm L1 L2 EM.
    assert (G : forall k a1 a2, 0 <= k <= m -> zlen a1 = m -> zlen a2 = m -> (forall j, 0 <= j < k -> zn a1 j = zn idiag j) -> (forall j, 0 <= j < k -> zn a2 j = zn iurow j) ->
      apply_all (flat_map (fun k => [w_idiag 0 k (zn idiag k); w_iurow 0 k (zn iurow k)]) (zrange k m)) (set_mats h (Some (set_ix c (Some a1) (Some a2) (c_opt c)) :: rest)) =
      set_mats h (Some (set_ix c (Some idiag) (Some iurow) (c_opt c)) :: rest)).
    { intros k a1 a2 Hk. remember (Z.to_nat (m - k)) as f eqn:Ef. revert k a1 a2 Hk Ef. induction f as [|f IH]; intros k a1 a2 Hk Ef Z1 Z2 A1 A2.
      - assert (k = m) by lia. subst k. rewrite zrange_nil by lia. cbn [flat_map apply_all fold_left].
        assert (a1 = idiag) as -> by (apply (nthZ_ext _ 0); [lia|]; intros j Hj; apply A1; lia).
        assert (a2 = iurow) as -> by (apply (nthZ_ext _ 0); [lia|]; intros j Hj; apply A2; lia). reflexivity.
      - rewrite zrange_first by lia. cbn [flat_map app]. unfold apply_all. cbn [fold_left].
        change (fold_left _ ?l ?x) with (apply_all l x).
        replace (apply_w (w_iurow 0 k (zn iurow k)) (apply_w (w_idiag 0 k (zn idiag k)) (set_mats h (Some (set_ix c (Some a1) (Some a2) (c_opt c)) :: rest))))
          with (set_mats h (Some (set_ix c (Some (upd a1 k (zn idiag k))) (Some (upd a2 k (zn iurow k))) (c_opt c)) :: rest)) by reflexivity.
        apply IH; try lia; rewrite ?zlen_upd; try assumption.
        + intros j Hj. rewrite nthZ_upd by lia. destruct (j =? k) eqn:E; [replace j with k by lia; reflexivity|apply A1; lia].
        + intros j Hj. rewrite nthZ_upd by lia. destruct (j =? k) eqn:E; [replace j with k by lia; reflexivity|apply A2; lia]. }
    unfold index_stores, apply_all. rewrite fold_left_app. cbn [fold_left].
    change (fold_left _ ?l ?x) with (apply_all l x).
    replace (apply_w (w_iurow_new 0 (fz m)) (apply_w (w_idiag_new 0 (fz m)) h)) with (set_mats h (Some (set_ix c (Some (fz m)) (Some (fz m)) (c_opt c)) :: rest)).
    - apply G; try lia; try (apply Hfz; lia); intros; lia.
    - cbn [apply_w]. unfold set_obj at 2. rewrite EM. cbn. reflexivity.
  Qed.

  Lemma indices_len : forall m b ptr ind i1 i2 a1 a2, csr_csc_indices m b ptr ind i1 i2 = Some (a1, a2) -> zlen a1 = zlen i1 /\ zlen a2 = zlen i2.
  Proof.
    intros m b ptr ind i1 i2 a1 a2 E. unfold csr_csc_indices, for_ in E.
    refine (fold_keep _ _ (fun p => zlen (fst p) = zlen i1 /\ zlen (snd p) = zlen i2) _ _ _ (a1, a2) _ E _); [|split; reflexivity].
    intros k [x y] [x' y'] (A & B) Ek. cbn [fst snd] in *.
    destruct (rd ptr (k + 1)); [|discriminate]. destruct (rd ptr k); [|discriminate].
    match type of Ek with (match ?f with _ => _ end) = _ => destruct f as [[[]|[q1 q2]]|]; [| |discriminate] end.
    all: unfold wr in Ek; repeat match type of Ek with context [if ?c then _ else None] => destruct c; [|discriminate] end;
      injection Ek as <- <-; rewrite !zlen_upd; auto.
  Qed.

  Lemma mat_check_pos : forall m n nnz ptr ind vn sh b f x, mat_check m n nnz ptr ind vn sh b f = Some (success, x) -> 0 <= m.
  Proof.
    intros m n nnz ptr ind vn sh b f x E. unfold mat_check in E. destruct ptr; [|discriminate]. destruct ind; [|discriminate].
    destruct vn; [discriminate|]. destruct (_ || _) eqn:Q in E; [discriminate|]. rewrite !orb_false_iff in Q. lia.
  Qed.

  Definition stores_bound (m : Z) : nat := (2 * Z.to_nat m + 7)%nat.

  Lemma slow_link : forall h u rest, H_mats h = Some u :: rest ->
    match slow h 0 u with
    | None => optimize_slow O srt fz ft h 0 u = None
    | Some (st, l, r) => optimize_slow O srt fz ft h 0 u = Some (st, apply_all l h, r) /\ (length l <= stores_bound (c_m u))%nat /\
        (st = success -> (exists l', l = l' ++ [w_optimized]) /\ r <> None)
    end.
  Proof.
    intros h u rest EM. unfold slow_stores, optimize_slow.
    destruct (mat_check _ _ _ _ _ _ _ _ _) as [[st r]|] eqn:EC; [|reflexivity].
    assert (X : forall st', st' <> success -> (Some (st', h, @None Z) = Some (st', apply_all [] h, None) /\ (length (@nil (wop T)) <= stores_bound (c_m u))%nat /\ (st' = success -> (exists l', [] = l' ++ [@w_optimized T]) /\ @None Z <> None))).
    { intros st' Q. split; [reflexivity|]. split; [cbn; lia|]. congruence. }
    destruct st; try (destruct r as [[? ?]|]; apply X; discriminate).
    destruct r as [[so fd]|].
    2:{ exfalso. exact (mat_check_none _ _ _ _ _ _ _ _ _ EC). }
    pose proof (mat_check_pos _ _ _ _ _ _ _ _ _ _ EC) as Hm. clear X.
    destruct (check_sort_diag _ _ _ _ _) as [[[st sorted] fulldiag]|]; [|reflexivity].
    assert (Y : forall st', st' <> success -> (Some (st', set_class h so fd, @None Z) = Some (st', apply_all [w_sort so; w_full fd] h, None) /\ (length [@w_sort T so; w_full fd] <= stores_bound (c_m u))%nat /\ (st' = success -> (exists l', [w_sort so; w_full fd] = l' ++ [@w_optimized T]) /\ @None Z <> None))).
    { intros st' Q. split; [reflexivity|]. split; [unfold stores_bound; cbn; lia|]. congruence. }
    destruct st; try (apply Y; discriminate).
    destruct (sorted && fulldiag).
    - destruct (csr_csc_indices _ _ _ _ _ _) as [[idiag iurow]|] eqn:EI; [|reflexivity].
      apply indices_len in EI. rewrite !Hfz in EI by lia. destruct EI as (L1 & L2).
      split; [|split].
      + do 3 f_equal. unfold apply_all. rewrite !fold_left_app. cbn [fold_left]. change (fold_left _ (index_stores _ _ _ _ _) ?x) with (apply_all (index_stores fz 0 (c_m u) idiag iurow) x).
        rewrite (index_fill (c_m u) rest idiag iurow (apply_w (w_full fd) (apply_w (w_sort so) h)) u) by (try lia; exact EM).
        cbn. rewrite EM. reflexivity.
      + unfold index_stores, stores_bound. rewrite !app_length. cbn [length].
        assert (forall l, length (flat_map (fun k => [@w_idiag T 0 k (zn idiag k); w_iurow 0 k (zn iurow k)]) l) = (2 * length l)%nat) as ->.
        { induction l as [|a l IH]; [reflexivity|]. cbn [flat_map app length]. rewrite IH. lia. }
        pose proof (zlen_zrange 0 (c_m u) Hm). unfold zlen in *. lia.
      + intros _. split; [|discriminate]. eexists. rewrite !app_assoc. change [w_flag 0; w_optfull fulldiag; w_optimized] with ([@w_flag T 0; w_optfull fulldiag] ++ [w_optimized]). rewrite app_assoc. reflexivity.
    - change (H_nnz (set_class h so fd)) with (H_nnz h).
      destruct (build_copy _ _ _ _ _ _ _ _) as [[st [[c fd']|]]|] eqn:EB; [| |reflexivity].
      + split; [reflexivity|]. split; [unfold stores_bound; cbn; lia|]. intros _. split; [|discriminate].
        exists [w_sort so; w_full fd; w_push c; w_optfull fd']. reflexivity.
      + apply Y. intros ->. unfold build_copy in EB.
        repeat match type of EB with
        | (match ?x with _ => _ end) = _ => destruct x as [?|]; [|discriminate EB]
        end.
        destruct p as [[[st ind] val] fd2]. destruct st; try discriminate EB.
        destruct (if negb fd2 then _ else _) as [[[? ?] ?]|] in EB; [|discriminate]. destruct (csr_csc_indices _ _ _ _ _ _) as [[? ?]|] in EB; [|discriminate].
        destruct (rd _ _) in EB; discriminate.
  Qed.

  Lemma build_opt : forall (u : cmat T) nnz so fd st c fd', build_copy O srt fz ft u nnz so fd = Some (st, Some (c, fd')) -> c_opt c = true.
  Proof.
    intros u nnz so fd st c fd' EB. unfold build_copy in EB.
    repeat match type of EB with
    | (match ?x with _ => _ end) = _ => destruct x as [?|]; [|discriminate EB]
    end.
    destruct p as [[[st' ind] val] fd2]. destruct st'; try discriminate EB.
    destruct (if negb fd2 then _ else _) as [[[? ?] ?]|] in EB; [|discriminate]. destruct (csr_csc_indices _ _ _ _ _ _) as [[? ?]|] in EB; [|discriminate].
    destruct (rd _ _) in EB; [|discriminate]. injection EB as <- <- <-. reflexivity.
  Qed.

  (** ** One lone call, from the handle the threads start with *)
  Context (h0 h1 : hnd T) (st0 : status) (r0 : option Z).
  Context (E0 : opt h0 = Some (st0, h1, r0)).

  Definition good0 : bool := match H_mats h0 with Some _ :: _ => true | _ => false end.
  (** Same user's matrix first *)
  Definition like0 (h : hnd T) : Prop :=
    match H_mats h0 with
    | Some u :: _ => exists u' rest, H_mats h = Some u' :: rest /\ c_b u' = c_b u /\ c_m u' = c_m u
    | _ => h = h0
    end.

  Lemma like_w : forall w h, good0 = true -> like0 h -> like0 (apply_w w h).
  Proof.
    intros w h G. unfold like0, good0 in *. destruct (H_mats h0) as [|[u|] rest0]; try discriminate.
    intros (u' & rest & EM & B & M).
    assert (S : forall i f, (forall c : cmat T, c_b (f c) = c_b c /\ c_m (f c) = c_m c) -> exists u'' rest', H_mats (set_obj h i f) = Some u'' :: rest' /\ c_b u'' = c_b u /\ c_m u'' = c_m u).
    { intros i f Hf. unfold set_obj. destruct (rd (H_mats h) i) as [[c|]|] eqn:R; [|eauto|eauto]. cbn [set_mats H_mats].
      pose proof (rd_Some_inv _ _ _ _ R) as Hi. destruct (Z.eq_dec i 0) as [->|Ni].
      - rewrite EM in R |- *. cbn in R. injection R as <-. exists (f u'), rest. cbn. destruct (Hf u') as (-> & ->). auto.
      - exists u', (upd rest (i - 1) (Some (f c))). rewrite EM. unfold upd. replace (i <? 0) with false by lia. replace (i - 1 <? 0) with false by lia.
        replace (Z.to_nat i) with (Datatypes.S (Z.to_nat (i - 1))) by lia. auto. }
    destruct w; cbn [apply_w]; try (apply S; intros c0; split; reflexivity); cbn; eauto.
    exists u', (rest ++ [Some c]). rewrite EM. auto.
  Qed.

  Lemma len_w : forall w (h : hnd T), zlen (H_mats h) <= zlen (H_mats (apply_w w h)).
  Proof.
    intros w h. assert (S : forall i f, zlen (H_mats h) <= zlen (H_mats (set_obj h i f))).
    { intros i f. unfold set_obj. destruct (rd _ _) as [[c|]|]; cbn [set_mats H_mats]; rewrite ?zlen_upd; lia. }
    destruct w; cbn [apply_w]; try apply S; cbn [set_class set_mats H_mats]; rewrite ?zlen_app, ?zlen_cons; pose proof (zlen_nonneg _ (@nil (option (cmat T)))); lia.
  Qed.
  Lemma len_all : forall l (h : hnd T), zlen (H_mats h) <= zlen (H_mats (apply_all l h)).
  Proof.
    induction l as [|w l IH]; intros h; [cbn; lia|]. change (apply_all (w :: l) h) with (apply_all l (apply_w w h)).
    pose proof (len_w w h). pose proof (IH (apply_w w h)). lia.
  Qed.

  (** The lone call once more changes nothing and gives the same result *)
  Lemma lone_facts : opt h1 = Some (st0, h1, r0) /\ like0 h1 /\ zlen (H_mats h1) <= zlen (H_mats h0) + 1 /\
    (first_opt (H_mats h1) 0 = None -> first_opt (H_mats h0) 0 = None) /\
    (st0 = success -> r0 <> None /\ exists i c, r0 = Some i /\ first_opt (H_mats h1) 0 = Some (i, c)).
  Proof.
    unfold like0. pose proof E0 as E. unfold csr_csc_optimize in E.
    assert (Same : h1 = h0 -> st0 <> success -> opt h1 = Some (st0, h1, r0) /\ match H_mats h0 with Some u :: _ => exists u' rest, H_mats h1 = Some u' :: rest /\ c_b u' = c_b u /\ c_m u' = c_m u | _ => h1 = h0 end /\
      zlen (H_mats h1) <= zlen (H_mats h0) + 1 /\ (first_opt (H_mats h1) 0 = None -> first_opt (H_mats h0) 0 = None) /\
      (st0 = success -> r0 <> None /\ exists i c, r0 = Some i /\ first_opt (H_mats h1) 0 = Some (i, c))).
    { intros -> NS. repeat split; auto; try lia; try congruence. destruct (H_mats h0) as [|[u|] rest]; eauto. }
    destruct (H_mats h0) as [|[u|] rest] eqn:EM; try (injection E as <- <- <-; apply Same; [reflexivity|discriminate]).
    destruct (first_opt (Some u :: rest) 0) as [[i c]|] eqn:EF.
    { injection E as <- <- <-. split; [exact E0|]. rewrite EM, EF. split; [eauto|]. split; [lia|]. split; [auto|]. intros _. split; [discriminate|]. eauto. }
    cbn [first_csr] in E. destruct (negb _) eqn:EB; [injection E as <- <- <-; apply Same; [reflexivity|discriminate]|].
    clear Same.
    pose proof (slow_link h0 u rest EM) as SL. destruct (slow h0 0 u) as [[[st l] r]|] eqn:ES; [|congruence].
    destruct SL as (EO & _ & SS). rewrite EO in E. injection E as -> <- ->.
    unfold slow_stores in ES. unfold optimize_slow in EO.
    destruct (mat_check _ _ _ _ _ _ _ _ _) as [[st r]|] eqn:EC; [|discriminate].
    assert (Keep : forall h', H_mats h' = H_mats h0 -> H_nnz h' = H_nnz h0 -> st0 <> success -> optimize_slow O srt fz ft h' 0 u = Some (st0, h', r0) ->
      opt h' = Some (st0, h', r0) /\ (exists u' rest', H_mats h' = Some u' :: rest' /\ c_b u' = c_b u /\ c_m u' = c_m u) /\
      zlen (H_mats h') <= zlen (Some u :: rest) + 1 /\ (first_opt (H_mats h') 0 = None -> @None (Z * cmat T) = None) /\
      (st0 = success -> r0 <> None /\ exists i c, r0 = Some i /\ first_opt (H_mats h') 0 = Some (i, c))).
    { intros h' M1 M2 NS Q. unfold csr_csc_optimize. rewrite M1, EM, EF. cbn [first_csr]. rewrite EB. split; [exact Q|].
      split; [eauto|]. split; [lia|]. split; [auto|]. congruence. }
    destruct st.
    2-15: assert (l = [] /\ st0 <> success) as (El & NS) by (destruct r as [[? ?]|]; injection ES as Q1 Q2 Q3; (split; [symmetry; exact Q2|rewrite <- Q1; discriminate])).
    2-15: rewrite El in *; apply Keep; [reflexivity|reflexivity|exact NS|]; unfold optimize_slow; change (apply_all [] h0) with h0; rewrite EC; exact EO.
    destruct r as [[so fd]|]; [|exfalso; exact (mat_check_none _ _ _ _ _ _ _ _ _ EC)].
    destruct (check_sort_diag _ _ _ _ _) as [[[st sorted] fulldiag]|] eqn:ECS; [|discriminate].
    destruct st; try (injection ES as <- <- <-; apply Keep; auto; [discriminate|]; unfold optimize_slow; change (H_nnz (apply_all _ _)) with (H_nnz h0); rewrite EC, ECS; reflexivity).
    destruct (sorted && fulldiag) eqn:EQ.
    - destruct (csr_csc_indices _ _ _ _ _ _) as [[idiag iurow]|]; [|discriminate]. clear ES Keep.
      injection EO as <- <- <-. unfold csr_csc_optimize. cbn [set_opt set_mats set_class H_mats]. rewrite EM.
      match goal with |- context [upd (Some u :: rest) 0 (Some ?c)] => change (upd (Some u :: rest) 0 (Some c)) with (Some c :: rest) end. cbn [first_opt with_indices c_opt].
      split; [reflexivity|]. split; [eauto|]. split; [rewrite !zlen_cons; lia|]. split; [discriminate|]. intros _. split; [discriminate|]. eauto.
    - change (H_nnz (set_class h0 so fd)) with (H_nnz h0) in EO.
      destruct (build_copy _ _ _ _ _ _ _ _) as [[st [[c fd']|]]|] eqn:EBC; [| |discriminate].
      + clear ES Keep. pose proof (build_opt _ _ _ _ _ _ _ EBC) as Oc.
        injection EO as <- <- <-. unfold csr_csc_optimize. cbn [set_opt set_mats set_class H_mats]. rewrite EM.
        rewrite (first_opt_app (Some u :: rest) c 0 EF Oc). cbn [app].
        split; [reflexivity|]. split; [eauto|]. split; [rewrite !zlen_cons, zlen_app, zlen_cons; unfold zlen; cbn [length]; lia|]. split; [discriminate|]. intros _. split; [discriminate|]. eauto.
      + injection ES as <- <- <-. apply Keep; auto.
        * intros Q. destruct (SS Q) as (_ & Q'). congruence.
        * unfold optimize_slow. change (H_nnz (apply_all _ _)) with (H_nnz h0). rewrite EC, ECS, EQ. cbn. rewrite EBC. reflexivity.
  Qed.

  (** ** The invariant *)
  Definition holds_s (p : pc T) : bool := match p with p_first | p_first_out _ | p_scan _ _ | p_scan_out _ _ => true | _ => false end.
  Definition holds_x (p : pc T) : bool := match p with p_rescan _ _ | p_compute _ | p_store _ _ _ | p_excl_out _ _ => true | _ => false end.
  Definition storing (p : pc T) : bool := match p with p_store _ _ _ => true | _ => false end.
  Definition returned (p : pc T) : bool := match p with p_done _ _ => true | _ => false end.
  Definition ending (p : pc T) : bool := match p with p_done _ _ | p_excl_out _ _ => true | _ => false end.

  Definition base0 : Prop := match H_mats h0 with Some u :: _ => c_b u = 0 \/ c_b u = 1 | _ => False end.
  Definition slow0 : Prop := good0 = true /\ first_opt (H_mats h0) 0 = None /\ base0.

  Definition tinv (h : hnd T) (p : pc T) : Prop :=
    match p with
    | p_start | p_first => True
    | p_first_out ok => ok = good0
    | p_want_shared => good0 = true
    | p_scan i src => good0 = true /\ 0 <= i <= zlen (H_mats h) /\ noopt (H_mats h) i /\ src = (if i =? 0 then None else Some 0)
    | p_scan_out (Some i) _ => good0 = true /\ 0 <= i /\ noopt (H_mats h) i /\ look (H_mats h) i = Some true
    | p_scan_out None src => good0 = true /\ noopt (H_mats h) (zlen (H_mats h)) /\ src = Some 0
    | p_check src => good0 = true /\ first_opt (H_mats h0) 0 = None /\ src = Some 0
    | p_want_excl i => slow0 /\ i = 0
    | p_rescan j i => slow0 /\ i = 0 /\ 0 <= j <= zlen (H_mats h) /\ noopt (H_mats h) j
    | p_compute i => slow0 /\ i = 0 /\ noopt (H_mats h) (zlen (H_mats h))
    | p_store l st r => slow0 /\ st = st0 /\ r = r0 /\ apply_all l h = h1 /\ (length l <= stores_bound (match H_mats h0 with Some u :: _ => c_m u | _ => 0 end))%nat
    | p_excl_out st r | p_done st r => st = st0 /\ r = r0
    | _ => False
    end.

  Record inv (s : cst T) : Prop := mk_inv {
    v_rd : forall t, In t (s_rd s) <-> (t < N)%nat /\ holds_s (s_pc s t) = true;
    v_wr : forall t, s_wr s = Some t <-> (t < N)%nat /\ holds_x (s_pc s t) = true;
    v_ex : s_wr s <> None -> s_rd s = [];
    v_th : forall t, (t < N)%nat -> tinv (s_h s) (s_pc s t);
    v_like : like0 (s_h s);
    v_len : zlen (H_mats (s_h s)) <= zlen (H_mats h0) + 1;
    v_h : (exists t, (t < N)%nat /\ storing (s_pc s t) = true) \/ s_h s = h0 \/ s_h s = h1;
    (** once a thread has its result the handle is final *)
    v_end : forall t, (t < N)%nat -> ending (s_pc s t) = true -> s_h s = h1 \/ st0 <> success /\ exists t', (t' < N)%nat /\ storing (s_pc s t') = true;
    v_no : st0 = success -> forall t t', (t < N)%nat -> (t' < N)%nat -> storing (s_pc s t) = true -> ending (s_pc s t') = false }.

  Lemma tinv_free : forall h h' p, holds_s p = false -> holds_x p = false -> tinv h p -> tinv h' p.
  Proof. intros h h' p A B H. destruct p; cbn in *; try discriminate; auto. Qed.

  Definition fin (h : hnd T) : Prop := h = h0 \/ h = h1.
  Lemma fin_opt : forall h, fin h -> opt h = Some (st0, h1, r0).
  Proof. intros h [-> | ->]; [exact E0|apply lone_facts]. Qed.
  Lemma fin_none : forall h, fin h -> first_opt (H_mats h) 0 = None -> first_opt (H_mats h0) 0 = None.
  Proof. intros h [-> | ->]; [auto|apply lone_facts]. Qed.
  Lemma fin_found : forall h i c, fin h -> good0 = true -> like0 h -> first_opt (H_mats h) 0 = Some (i, c) -> h = h1 /\ st0 = success /\ r0 = Some i.
  Proof.
    intros h i c F G Lk E. pose proof (fin_opt h F) as Q. unfold csr_csc_optimize in Q. unfold good0 in G. unfold like0 in Lk.
    destruct (H_mats h0) as [|[u|] rest]; try discriminate. destruct Lk as (u' & rest' & EM & _). rewrite EM in *. rewrite E in Q. injection Q as <- <- <-. auto.
  Qed.

  (** If nobody is storing, the handle is the first or the last one *)
  Lemma fin_of : forall s, inv s -> (forall t, (t < N)%nat -> storing (s_pc s t) = false) -> fin (s_h s).
  Proof. intros s I H. destruct (v_h s I) as [(t & Ht & S) | F]; [rewrite H in S by exact Ht; discriminate|exact F]. Qed.
  Lemma fin_shared : forall s t, inv s -> (t < N)%nat -> holds_s (s_pc s t) = true -> fin (s_h s).
  Proof.
    intros s t I Ht Hh. apply fin_of; [exact I|]. intros t' Ht'. destruct (storing (s_pc s t')) eqn:S; [|reflexivity]. exfalso.
    assert (X : s_wr s = Some t') by (apply (v_wr s I); split; [exact Ht'|]; destruct (s_pc s t'); try discriminate; reflexivity).
    assert (Y : In t (s_rd s)) by (apply (v_rd s I); auto). rewrite (v_ex s I) in Y by congruence. contradiction.
  Qed.
  Lemma fin_excl : forall s t, inv s -> (t < N)%nat -> holds_x (s_pc s t) = true -> storing (s_pc s t) = false -> fin (s_h s).
  Proof.
    intros s t I Ht Hh Hs. apply fin_of; [exact I|]. intros t' Ht'. destruct (storing (s_pc s t')) eqn:S; [|reflexivity]. exfalso.
    assert (X : s_wr s = Some t') by (apply (v_wr s I); split; [exact Ht'|]; destruct (s_pc s t'); try discriminate; reflexivity).
    assert (Y : s_wr s = Some t) by (apply (v_wr s I); auto). rewrite X in Y. injection Y as ->. congruence.
  Qed.

  (** A step that keeps the handle and changes the position of one thread *)
  Lemma inv_go : forall s t p rs w, inv s -> (t < N)%nat ->
    (forall t', t' <> t -> (In t' rs <-> In t' (s_rd s))) -> (In t rs <-> holds_s p = true) ->
    (forall t', t' <> t -> (w = Some t' <-> s_wr s = Some t')) -> (w = Some t <-> holds_x p = true) ->
    (w <> None -> rs = []) -> tinv (s_h s) p ->
    (ending p = true -> ending (s_pc s t) = true \/ s_h s = h1 \/ st0 <> success /\ exists t', t' <> t /\ (t' < N)%nat /\ storing (s_pc s t') = true) ->
    (storing (s_pc s t) = true -> storing p = true \/ s_h s = h1) ->
    (st0 = success -> (ending p = true -> forall t', (t' < N)%nat -> t' <> t -> storing (s_pc s t') = false) /\
       (storing p = true -> forall t', (t' < N)%nat -> t' <> t -> ending (s_pc s t') = false)) ->
    inv (go t s (s_h s) rs w p).
  Proof.
    intros s t p rs w I Ht R1 R2 W1 W2 X Ti En St Pn. pose proof I as [V1 V2 V3 V4 V5 V6 V7 V8 V9].
    assert (PT : s_pc (go t s (s_h s) rs w p) t = p) by (cbn; rewrite Nat.eqb_refl; reflexivity).
    assert (PO : forall t', t' <> t -> s_pc (go t s (s_h s) rs w p) t' = s_pc s t') by (intros t' Q; cbn; replace (Nat.eqb t' t) with false by (symmetry; apply Nat.eqb_neq; exact Q); reflexivity).
    constructor; cbn [s_rd s_wr s_h go].
    - intros t'. destruct (Nat.eq_dec t' t) as [->|Q]; [change (s_pc (mkCst (s_h s) rs w _) t) with (s_pc (go t s (s_h s) rs w p) t); rewrite PT, R2; tauto|].
      change (s_pc (mkCst (s_h s) rs w _) t') with (s_pc (go t s (s_h s) rs w p) t'). rewrite PO, R1, V1 by exact Q. reflexivity.
    - intros t'. destruct (Nat.eq_dec t' t) as [->|Q]; [change (s_pc (mkCst (s_h s) rs w _) t) with (s_pc (go t s (s_h s) rs w p) t); rewrite PT, W2; tauto|].
      change (s_pc (mkCst (s_h s) rs w _) t') with (s_pc (go t s (s_h s) rs w p) t'). rewrite PO, W1, V2 by exact Q. reflexivity.
    - exact X.
    - intros t' Ht'. change (s_pc (mkCst (s_h s) rs w _) t') with (s_pc (go t s (s_h s) rs w p) t'). destruct (Nat.eq_dec t' t) as [->|Q]; [rewrite PT|rewrite PO by exact Q]; auto.
    - exact V5.
    - exact V6.
    - change (s_pc (mkCst (s_h s) rs w _)) with (s_pc (go t s (s_h s) rs w p)).
      destruct V7 as [(t' & Ht' & S) | F]; [|right; exact F].
      destruct (Nat.eq_dec t' t) as [->|Q].
      + destruct (St S) as [S' | F]; [left; exists t; rewrite PT; auto|right; right; exact F].
      + left. exists t'. rewrite PO; auto.
    - change (s_pc (mkCst (s_h s) rs w _)) with (s_pc (go t s (s_h s) rs w p)).
      intros t' Ht' Q.
      assert (G : s_h s = h1 \/ st0 <> success /\ exists t'', (t'' < N)%nat /\ storing (s_pc s t'') = true).
      { destruct (Nat.eq_dec t' t) as [->|NQ].
        - rewrite PT in Q. destruct (En Q) as [Q' | [F | (NS & t'' & Nt & Ht'' & S)]]; [exact (V8 t Ht Q')|left; exact F|right; eauto].
        - rewrite PO in Q by exact NQ. exact (V8 t' Ht' Q). }
      destruct G as [F | (NS & t'' & Ht'' & S)]; [left; exact F|].
      destruct (Nat.eq_dec t'' t) as [->|NQ].
      + destruct (St S) as [S' | F]; [right; split; [exact NS|]; exists t; rewrite PT; auto|left; exact F].
      + right. split; [exact NS|]. exists t''. rewrite PO; auto.
    - change (s_pc (mkCst (s_h s) rs w _)) with (s_pc (go t s (s_h s) rs w p)).
      intros SS t1 t2 H1 H2 S1. destruct (Pn SS) as (P1 & P2). destruct (Nat.eq_dec t1 t) as [->|Q1], (Nat.eq_dec t2 t) as [->|Q2].
      + rewrite PT in *. destruct p; try discriminate; reflexivity.
      + rewrite PT in S1. rewrite PO by exact Q2. auto.
      + rewrite PO in S1 by exact Q1. rewrite PT. destruct (ending p) eqn:Q; [|reflexivity]. rewrite (P1 eq_refl t1 H1 Q1) in S1. discriminate.
      + rewrite PO in * by assumption. eauto.
  Qed.

  Lemma alone : forall s t, inv s -> (t < N)%nat -> holds_s (s_pc s t) = true \/ holds_x (s_pc s t) = true -> forall t', (t' < N)%nat -> t' <> t -> storing (s_pc s t') = false.
  Proof.
    intros s t I Ht Hh t' Ht' Nt. destruct (storing (s_pc s t')) eqn:S; [|reflexivity]. exfalso.
    assert (X : s_wr s = Some t') by (apply (v_wr s I); split; [exact Ht'|]; destruct (s_pc s t'); try discriminate; reflexivity).
    destruct Hh as [Hh | Hh].
    - assert (Y : In t (s_rd s)) by (apply (v_rd s I); auto). rewrite (v_ex s I) in Y by congruence. contradiction.
    - assert (Y : s_wr s = Some t) by (apply (v_wr s I); auto). congruence.
  Qed.

  Lemma inv_stay : forall s t p, inv s -> (t < N)%nat -> holds_s p = holds_s (s_pc s t) -> holds_x p = holds_x (s_pc s t) -> tinv (s_h s) p ->
    (ending p = true -> ending (s_pc s t) = true \/ s_h s = h1) ->
    (storing (s_pc s t) = true -> storing p = true \/ s_h s = h1) ->
    (ending p = true -> holds_x (s_pc s t) = true \/ st0 <> success) -> (storing p = true -> storing (s_pc s t) = true \/ (s_h s = h1 -> st0 <> success) /\ holds_x (s_pc s t) = true) ->
    inv (go t s (s_h s) (s_rd s) (s_wr s) p).
  Proof.
    intros s t p I Ht A B Ti En St Pe Ps. pose proof I as [V1 V2 V3 V4 V5 V6 V7 V8 V9].
    apply inv_go; auto; try reflexivity; try tauto.
    - rewrite V1, A. tauto.
    - rewrite V2, B. tauto.
    - intros SS. split.
      + intros Q t' Ht' Nt. destruct (Pe Q) as [Hx | NS]; [|congruence]. apply (alone s t); auto.
      + intros Q t' Ht' Nt. destruct (Ps Q) as [S | (NH & Hx)]; [eauto|]. destruct (ending (s_pc s t')) eqn:En'; [|reflexivity]. exfalso.
        destruct (V8 t' Ht' En') as [F | (NS & _)]; [exact (NH F SS)|congruence].
  Qed.

  Lemma inv_lock : forall s t p, inv s -> (t < N)%nat -> s_wr s = None -> holds_s p = true -> holds_x p = false -> tinv (s_h s) p ->
    ending p = false -> storing (s_pc s t) = false -> inv (go t s (s_h s) (t :: s_rd s) (s_wr s) p).
  Proof.
    intros s t p I Ht Q A B Ti En St. pose proof I as [V1 V2 V3 V4 V5 V6 V7 V8 V9].
    apply inv_go; auto; try reflexivity; try congruence.
    - intros t' Nt. cbn. split; [intros [E | H]; [congruence|exact H]|auto].
    - cbn. split; auto.
    - rewrite B, Q. split; discriminate.
    - intros _. split; [congruence|]. intros S. destruct p; discriminate.
  Qed.

  Lemma inv_unlock : forall s t p, inv s -> (t < N)%nat -> holds_s (s_pc s t) = true -> holds_s p = false -> holds_x p = false -> tinv (s_h s) p ->
    (ending p = true -> s_h s = h1) -> inv (go t s (s_h s) (remove Nat.eq_dec t (s_rd s)) (s_wr s) p).
  Proof.
    intros s t p I Ht Q A B Ti En. pose proof I as [V1 V2 V3 V4 V5 V6 V7 V8 V9].
    assert (W : s_wr s = None).
    { destruct (s_wr s) eqn:E; [|reflexivity]. assert (Y : In t (s_rd s)) by (apply V1; auto). rewrite V3 in Y by congruence. contradiction. }
    apply inv_go; auto; try reflexivity; try congruence.
    - intros t' Nt. split; [intros H; exact (proj1 (in_remove Nat.eq_dec _ _ _ H))|intros H; apply in_in_remove; auto].
    - rewrite A. split; [intros H; exfalso; exact (remove_In _ _ _ H)|discriminate].
    - rewrite B, W. split; discriminate.
    - intros S. destruct (s_pc s t); discriminate.
    - intros _. split; [intros _; apply (alone s t); auto|]. intros S. destruct p; discriminate.
  Qed.

  Lemma step_inv : forall s s' t, inv s -> (t < N)%nat -> tstep t s = Some s' -> inv s'.
  Proof.
    intros s s' t I Ht E. pose proof I as [V1 V2 V3 V4 V5 V6 V7 V8 V9].
    pose proof (V4 t Ht) as Ti. pose proof (fin_shared s t I Ht) as FS. pose proof (fin_excl s t I Ht) as FX.
    assert (MS : may_share prefer N s = true -> s_wr s = None) by (unfold may_share; destruct (s_wr s); [discriminate|reflexivity]).
    unfold ConcModel.tstep in E. destruct (s_pc s t) eqn:EP; cbn [tinv] in Ti; try contradiction; try discriminate.
    - (* start *) destruct (may_share prefer N s) eqn:Q; [|discriminate]. injection E as <-. apply inv_lock; auto; try reflexivity. rewrite EP. reflexivity.
    - (* first *) injection E as <-. apply inv_stay; auto; rewrite ?EP; try reflexivity; try discriminate.
      cbn [tinv]. unfold good0. unfold like0 in V5. destruct (H_mats h0) as [|[u|] rest] eqn:EM; try (rewrite V5, EM; reflexivity).
      destruct V5 as (u' & rest' & -> & _). reflexivity.
    - (* first_out *) injection E as <-. specialize (FS eq_refl). apply inv_unlock; auto; rewrite ?EP; try reflexivity.
      + destruct ok; reflexivity.
      + destruct ok; reflexivity.
      + pose proof E0 as Q. unfold csr_csc_optimize in Q. unfold good0 in Ti. destruct ok; cbn [tinv]; [symmetry; exact Ti|].
        destruct (H_mats h0) as [|[u|] rest]; try discriminate Ti; injection Q as <- <- <-; auto.
      + destruct ok; [discriminate|]. intros _. pose proof E0 as Q. unfold csr_csc_optimize in Q. unfold good0 in Ti. unfold like0 in V5.
        destruct (H_mats h0) as [|[u|] rest]; try discriminate Ti; injection Q as <- <- <-; auto.
    - (* want_shared *) destruct (may_share prefer N s) eqn:Q; [|discriminate]. injection E as <-. apply inv_lock; auto; try reflexivity; rewrite ?EP; try reflexivity.
      cbn [tinv]. split; [exact Ti|]. split; [pose proof (zlen_nonneg _ (H_mats (s_h s))); lia|]. split; [intros k Hk; lia|reflexivity].
    - (* scan *) specialize (FS eq_refl). destruct Ti as (G & Hi & No & Es).
      destruct (i <? zlen (H_mats (s_h s))) eqn:Q.
      + destruct (look_some (H_mats (s_h s)) i ltac:(lia)) as ([|] & Lk); rewrite Lk in E; injection E as <-; apply inv_stay; auto; rewrite ?EP; try reflexivity; try discriminate; cbn [tinv].
        * repeat split; auto; lia.
        * split; [exact G|]. split; [lia|]. split.
          { intros k Hk. destruct (Z.eq_dec k i) as [->|]; [exact Lk|apply No; lia]. }
          rewrite Es. destruct (i =? 0) eqn:Qi; [|replace (i + 1 =? 0) with false by lia; reflexivity].
          assert (i = 0) by lia. subst i. unfold good0 in G. unfold like0 in V5. destruct (H_mats h0) as [|[u|] rest] eqn:EM; try discriminate.
          destruct V5 as (u' & rest' & -> & _). reflexivity.
      + injection E as <-. apply inv_stay; auto; rewrite ?EP; try reflexivity; try discriminate. cbn [tinv]. split; [exact G|].
        replace (zlen (H_mats (s_h s))) with i by lia. split; [exact No|]. rewrite Es. replace (i =? 0) with false; [reflexivity|].
        unfold good0 in G. unfold like0 in V5. destruct (H_mats h0) as [|[u|] rest] eqn:EM; try discriminate.
        destruct V5 as (u' & rest' & EM' & _). rewrite EM', zlen_cons in Q. pose proof (zlen_nonneg _ rest'). rewrite EM', zlen_cons in Hi. lia.
    - (* scan_out *) specialize (FS eq_refl). destruct found as [i|].
      + injection E as <-. destruct Ti as (G & Hi & No & Lk). destruct (first_opt_found _ i 0 Hi No Lk) as (c & F). destruct (fin_found _ _ _ FS G V5 F) as (A & B & C).
        apply inv_unlock; auto; rewrite ?EP; try reflexivity. cbn [tinv]. replace (0 + i) with i in C by lia. auto.
      + injection E as <-. destruct Ti as (G & No & Es). apply inv_unlock; auto; rewrite ?EP; try reflexivity; try discriminate. cbn [tinv]. split; [exact G|]. split; [|exact Es].
        apply (fin_none _ FS). apply first_opt_none. exact No.
    - (* check *) destruct Ti as (G & F0 & ->). pose proof G as G'. unfold good0 in G. pose proof V5 as V5'. unfold like0 in V5'. pose proof E0 as Q0. unfold csr_csc_optimize in Q0.
      destruct (H_mats h0) as [|[u|] rest] eqn:EM; try discriminate. destruct V5' as (u' & rest' & EM' & B & M). rewrite EM' in E. cbn [rd Z.ltb Z.compare Z.to_nat nth_error] in E.
      rewrite F0 in Q0. cbn [first_csr] in Q0. rewrite B in E.
      destruct ((c_b u =? 0) || (c_b u =? 1)) eqn:QB; injection E as <-.
      + apply inv_stay; auto; rewrite ?EP; try reflexivity; try discriminate. cbn [tinv]. unfold slow0, base0. rewrite EM. split; [|reflexivity]. split; [exact G'|]. split; [exact F0|]. rewrite orb_true_iff in QB. lia.
      + cbn [negb] in Q0. injection Q0 as Q1 Q2 Q3. apply inv_stay; auto; rewrite ?EP; try reflexivity; try discriminate.
        * cbn [tinv]. auto.
        * intros _. right. rewrite <- Q2.
          destruct V7 as [(t' & Ht' & S) | [F | F]]; [|exact F|congruence]. exfalso. specialize (V4 t' Ht'). destruct (s_pc s t'); try discriminate. destruct V4 as ((_ & _ & X) & _). unfold base0 in X. rewrite EM in X. lia.
        * intros _. right. rewrite <- Q1. discriminate.
    - (* want_excl *) destruct (may_own s) eqn:Q; [|discriminate]. injection E as <-.
      assert (W : s_wr s = None /\ s_rd s = []) by (unfold may_own in Q; destruct (s_wr s); [discriminate|]; destruct (s_rd s); [auto|discriminate]). destruct W as (W & R).
      destruct Ti as (S0 & ->). apply inv_go; auto; try reflexivity; rewrite ?EP; try discriminate.
      + rewrite R. cbn. split; [contradiction|discriminate].
      + intros t' Nt. rewrite W. split; [intros X; injection X as X; congruence|discriminate].
      + split; auto.
      + cbn [tinv]. split; [exact S0|]. split; [reflexivity|]. split; [pose proof (zlen_nonneg _ (H_mats (s_h s))); lia|]. intros k Hk; lia.
      + intros _. split; discriminate.
    - (* rescan *) specialize (FX eq_refl eq_refl). destruct Ti as (S0 & -> & Hj & No). destruct S0 as (G & F0 & B0).
      destruct (i <? zlen (H_mats (s_h s))) eqn:Q.
      + destruct (look_some (H_mats (s_h s)) i ltac:(lia)) as ([|] & Lk); rewrite Lk in E; injection E as <-.
        * destruct (first_opt_found _ i 0 ltac:(lia) No Lk) as (c & F). destruct (fin_found _ _ _ FX G V5 F) as (A & B & C).
          apply inv_stay; auto; rewrite ?EP; try reflexivity; try discriminate; cbn [tinv holds_x]; replace (0 + i) with i in C by lia; auto.
        * apply inv_stay; auto; rewrite ?EP; try reflexivity; try discriminate. cbn [tinv]. unfold slow0. repeat (split; auto); try lia.
          intros k Hk. destruct (Z.eq_dec k i) as [->|]; [exact Lk|apply No; lia].
      + injection E as <-. apply inv_stay; auto; rewrite ?EP; try reflexivity; try discriminate. cbn [tinv]. unfold slow0. repeat (split; auto). replace (zlen (H_mats (s_h s))) with i by lia. exact No.
    - (* compute *) specialize (FX eq_refl eq_refl). destruct Ti as (S0 & -> & No). pose proof S0 as (G & F0 & B0).
      pose proof (fin_opt _ FX) as Q0. unfold csr_csc_optimize in Q0. unfold good0 in G. pose proof V5 as V5'. unfold like0 in V5'. unfold base0 in B0.
      destruct (H_mats h0) as [|[u|] rest] eqn:EM; try discriminate. destruct V5' as (u' & rest' & EM' & B & M). rewrite EM' in E. cbn [rd Z.ltb Z.compare Z.to_nat nth_error] in E.
      apply (first_opt_none _ 0) in No. rewrite EM' in Q0, No. rewrite No in Q0. cbn [first_csr] in Q0.
      replace (negb ((c_b u' =? 0) || (c_b u' =? 1))) with false in Q0 by (rewrite B; destruct B0 as [-> | ->]; reflexivity).
      pose proof (slow_link (s_h s) u' rest' EM') as SL. destruct (slow (s_h s) 0 u') as [[[st l] r]|]; [|congruence].
      destruct SL as (SL & Ln & _). rewrite Q0 in SL. injection SL as <- SL <-. injection E as <-.
      apply inv_stay; auto; rewrite ?EP; try reflexivity; try discriminate. cbn [tinv].
      { rewrite EM. split; [exact S0|]. repeat (split; auto). rewrite <- M. exact Ln. }
      intros _. right. split; [|reflexivity]. intros F SS. destruct lone_facts as (_ & _ & _ & _ & X). destruct (X SS) as (_ & i1 & c1 & _ & X1). rewrite <- F, EM' in X1. congruence.
    - (* store *) destruct Ti as (S0 & -> & -> & EA & Ln). destruct l as [|w l].
      + injection E as <-. apply inv_stay; auto; rewrite ?EP; try reflexivity; cbn [tinv]; auto.
      + injection E as <-. set (h' := apply_w w (s_h s)).
        assert (Others : forall t', (t' < N)%nat -> t' <> t -> holds_s (s_pc s t') = false /\ holds_x (s_pc s t') = false).
        { assert (W : s_wr s = Some t) by (apply V2; rewrite EP; auto). intros t' Ht' Nt. split.
          - destruct (holds_s (s_pc s t')) eqn:Q; [|reflexivity]. assert (Y : In t' (s_rd s)) by (apply V1; auto). rewrite V3 in Y by congruence. contradiction.
          - destruct (holds_x (s_pc s t')) eqn:Q; [|reflexivity]. assert (Y : s_wr s = Some t') by (apply V2; auto). congruence. }
        assert (PT : s_pc (go t s h' (s_rd s) (s_wr s) (p_store l st0 r0)) t = p_store l st0 r0) by (cbn; rewrite Nat.eqb_refl; reflexivity).
        assert (PO : forall t', t' <> t -> s_pc (go t s h' (s_rd s) (s_wr s) (p_store l st0 r0)) t' = s_pc s t') by (intros t' Q; cbn; replace (Nat.eqb t' t) with false by (symmetry; apply Nat.eqb_neq; exact Q); reflexivity).
        assert (NoEnd : st0 = success -> forall t', (t' < N)%nat -> ending (s_pc s t') = false).
        { intros SS t' Ht'. apply (V9 SS t t'); auto. rewrite EP. reflexivity. }
        constructor.
        * intros t'. change (s_rd (go _ _ _ _ _ _)) with (s_rd s). rewrite V1. destruct (Nat.eq_dec t' t) as [->|Q]; [rewrite PT, EP; reflexivity|rewrite PO by exact Q; reflexivity].
        * intros t'. change (s_wr (go _ _ _ _ _ _)) with (s_wr s). rewrite V2. destruct (Nat.eq_dec t' t) as [->|Q]; [rewrite PT, EP; reflexivity|rewrite PO by exact Q; reflexivity].
        * exact V3.
        * intros t' Ht'. change (s_h (go _ _ _ _ _ _)) with h'. destruct (Nat.eq_dec t' t) as [->|Q].
          { rewrite PT. cbn [tinv]. repeat (split; auto). cbn [length] in Ln. lia. }
          rewrite PO by exact Q. destruct (Others t' Ht' Q). apply (tinv_free (s_h s)); auto.
        * change (s_h (go _ _ _ _ _ _)) with h'. apply like_w; [apply S0|exact V5].
        * change (s_h (go _ _ _ _ _ _)) with h'. pose proof (len_all l h') as Q. change (apply_all (w :: l) (s_h s)) with (apply_all l h') in EA. rewrite EA in Q.
          destruct lone_facts as (_ & _ & Q' & _). lia.
        * left. exists t. rewrite PT. auto.
        * intros t' Ht' Q. right. split.
          { intros SS. destruct (Nat.eq_dec t' t) as [->|Nt]; [rewrite PT in Q; discriminate|]. rewrite PO in Q by exact Nt. rewrite (NoEnd SS t' Ht') in Q. discriminate. }
          exists t. rewrite PT. auto.
        * intros SS t1 t2 H1 H2 S1. destruct (Nat.eq_dec t2 t) as [->|Nt]; [rewrite PT; reflexivity|]. rewrite PO by exact Nt. auto.
    - (* excl_out *) specialize (FX eq_refl eq_refl). injection E as <-. apply inv_go; auto; try reflexivity; rewrite ?EP; auto; try discriminate.
      + cbn. rewrite V1, EP. tauto.
      + intros t' Nt. split; [discriminate|]. intros X. assert (Y : s_wr s = Some t) by (apply V2; rewrite EP; auto). congruence.
      + split; [discriminate|]. discriminate.
      + intros _. split; [|discriminate]. intros _. apply (alone s t); auto. rewrite EP. auto.
  Qed.

  Notation run := (run O srt fz ft sup dt prefer N).
  Notation race := (race N).

  Lemma run_inv : forall sched s, inv s -> inv (run sched s).
  Proof.
    induction sched as [|t l IH]; intros s I; [exact I|]. cbn [ConcModel.run]. apply IH.
    destruct (Nat.ltb t N) eqn:Q; [|exact I]. destruct (tstep t s) as [s'|] eqn:E; [|exact I]. apply Nat.ltb_lt in Q. exact (step_inv s s' t I Q E).
  Qed.

  Lemma init_inv : forall ps, (forall t, (t < N)%nat -> ps t = p_start) -> inv (init h0 ps).
  Proof.
    intros ps H. constructor; cbn [init s_rd s_wr s_h s_pc].
    - intros t. split; [contradiction|]. intros (Ht & X). rewrite H in X by exact Ht. discriminate.
    - intros t. split; [discriminate|]. intros (Ht & X). rewrite H in X by exact Ht. discriminate.
    - congruence.
    - intros t Ht. rewrite H by exact Ht. exact Logic.I.
    - unfold like0. destruct (H_mats h0) as [|[u|] rest]; eauto.
    - lia.
    - auto.
    - intros t Ht X. rewrite H in X by exact Ht. discriminate.
    - intros _ t t' Ht Ht' X. rewrite H in X by exact Ht. discriminate.
  Qed.

  (** ** No two accesses collide *)
  Lemma inv_no_race : forall s, inv s -> ~ race s.
  Proof.
    intros s I (t & t' & l & w & Ht & Ht' & Nt & A & B). pose proof I as [V1 V2 V3 V4 V5 V6 V7 V8 V9].
    pose proof (V4 t Ht) as Ti. pose proof (V4 t' Ht') as Ti'.
    destruct (s_pc s t) eqn:EP; cbn [acc tinv] in A, Ti; try contradiction; try (cbn in A; destruct A as [A | [A | []]]; discriminate A);
      try (cbn in A; destruct A as [A | []]; discriminate A).
    - destruct src; cbn in A; [destruct A as [A | []]; discriminate A|contradiction].
    - destruct l0 as [|x l0]; [contradiction|]. destruct A as [A | []]. injection A as A.
      assert (St : storing (s_pc s t) = true) by (rewrite EP; reflexivity).
      destruct Ti as (S0 & E1 & E2 & _).
      assert (Hh : holds_s (s_pc s t') = false /\ holds_x (s_pc s t') = false).
      { assert (W : s_wr s = Some t) by (apply V2; rewrite EP; auto). split.
        - destruct (holds_s (s_pc s t')) eqn:Q; [|reflexivity]. assert (Y : In t' (s_rd s)) by (apply V1; auto). rewrite V3 in Y by congruence. contradiction.
        - destruct (holds_x (s_pc s t')) eqn:Q; [|reflexivity]. assert (Y : s_wr s = Some t') by (apply V2; auto). congruence. }
      destruct Hh as (H1 & H2).
      destruct (s_pc s t') eqn:EP'; cbn [holds_s holds_x acc tinv] in H1, H2, B, Ti'; try discriminate; try contradiction.
      + destruct src; cbn in B; [|contradiction]. destruct B as [B | []]. injection B as B _. rewrite <- A in B. destruct x; discriminate B.
      + destruct Ti' as (-> & ->). destruct st0 eqn:Es; try contradiction. exfalso. pose proof (V9 eq_refl t t' Ht Ht' St) as X. rewrite EP' in X. discriminate.
    - exfalso. destruct st; try contradiction. destruct r; [|contradiction]. cbn in A. destruct A as [A | [A | [A | []]]]; discriminate A.
  Qed.

  (** ** Someone can always go on *)
  Lemma inv_progress : forall s, inv s -> (exists t, (t < N)%nat /\ returned (s_pc s t) = false) -> exists t s', (t < N)%nat /\ tstep t s = Some s'.
  Proof.
    intros s I (t & Ht & R). pose proof I as [V1 V2 V3 V4 V5 V6 V7 V8 V9].
    assert (Hold : forall t', (t' < N)%nat -> holds_s (s_pc s t') = true \/ holds_x (s_pc s t') = true -> exists s', tstep t' s = Some s').
    { intros t' Ht' Hh. pose proof (V4 t' Ht') as Ti. unfold ConcModel.tstep. destruct (s_pc s t'); cbn [holds_s holds_x tinv] in Hh, Ti; try (destruct Hh; discriminate); eauto.
      - destruct (_ <? _); [|eauto]. destruct (look _ _) as [[|]|]; eauto.
      - destruct found; eauto.
      - destruct (_ <? _); [|eauto]. destruct (look _ _) as [[|]|]; eauto.
      - destruct (rd _ _) as [[c|]|]; eauto. destruct (slow _ _ _) as [[[? ?] ?]|]; eauto.
      - destruct l; eauto. }
    destruct (s_wr s) as [w|] eqn:W.
    { destruct (proj1 (V2 w) eq_refl) as (Hw & Hx). destruct (Hold w Hw (or_intror Hx)) as (s' & E). eauto. }
    destruct (s_rd s) as [|x rs] eqn:Rd.
    2:{ destruct (proj1 (V1 x) (or_introl eq_refl)) as (Hx & Hs). destruct (Hold x Hx (or_introl Hs)) as (s' & E). eauto. }
    destruct (existsb (fun t => waiting (s_pc s t)) (seq 0 N)) eqn:Ex.
    - apply existsb_exists in Ex. destruct Ex as (x & Hx & Wx). apply in_seq in Hx. exists x. unfold ConcModel.tstep. destruct (s_pc s x) eqn:EP; try discriminate.
      unfold may_own. rewrite W, Rd. eexists. split; [lia|reflexivity].
    - assert (MS : may_share prefer N s = true) by (unfold may_share; rewrite W, Ex, andb_false_r; reflexivity).
      assert (Nw : waiting (s_pc s t) = false).
      { destruct (waiting (s_pc s t)) eqn:Q; [|reflexivity]. exfalso. assert (X : existsb (fun t => waiting (s_pc s t)) (seq 0 N) = true) by (apply existsb_exists; exists t; split; [apply in_seq; lia|exact Q]). congruence. }
      pose proof (V4 t Ht) as Ti. exists t.
      destruct (holds_s (s_pc s t)) eqn:Hs; [destruct (Hold t Ht (or_introl Hs)) as (s' & E); eauto|].
      destruct (holds_x (s_pc s t)) eqn:Hx; [destruct (Hold t Ht (or_intror Hx)) as (s' & E); eauto|].
      unfold ConcModel.tstep. destruct (s_pc s t) eqn:EP; cbn in Hs, Hx, Nw, R, Ti; try discriminate; try contradiction.
      + rewrite MS. eauto.
      + rewrite MS. eauto.
      + destruct src; eauto. destruct (rd _ _) as [[c|]|]; eauto.
  Qed.

  (** ** And not for ever *)
  Definition Len : nat := Z.to_nat (zlen (H_mats h0) + 1).
  Definition Sto : nat := stores_bound (match H_mats h0 with Some u :: _ => c_m u | _ => 0 end).
  Definition rank (p : pc T) : nat :=
    match p with
    | p_done _ _ => 0
    | p_excl_out _ _ => 1
    | p_store l _ _ => 2 + length l
    | p_compute _ => 3 + Sto
    | p_rescan j _ => 4 + Sto + (Len - Z.to_nat j)
    | p_want_excl _ => 5 + Sto + Len
    | p_check _ => 6 + Sto + Len
    | p_scan_out _ _ => 7 + Sto + Len
    | p_scan i _ => 8 + Sto + Len + (Len - Z.to_nat i)
    | p_want_shared => 9 + Sto + Len + Len
    | p_first_out _ => 10 + Sto + Len + Len
    | p_first => 11 + Sto + Len + Len
    | p_start => 12 + Sto + Len + Len
    | _ => 0
    end%nat.

  Lemma step_rank : forall s s' t, inv s -> (t < N)%nat -> tstep t s = Some s' -> (rank (s_pc s' t) < rank (s_pc s t))%nat /\ forall t', t' <> t -> s_pc s' t' = s_pc s t'.
  Proof.
    intros s s' t I Ht E. pose proof (step_inv s s' t I Ht E) as I'. pose proof (v_th s I t Ht) as Ti. pose proof (v_th s' I' t Ht) as Ti'.
    pose proof (v_len s I) as Ln.
    assert (P : forall h rs w p, s_pc (go t s h rs w p) t = p /\ forall t', t' <> t -> s_pc (go t s h rs w p) t' = s_pc s t').
    { intros h rs w p. split; [cbn; rewrite Nat.eqb_refl; reflexivity|]. intros t' Q. cbn. replace (Nat.eqb t' t) with false by (symmetry; apply Nat.eqb_neq; exact Q). reflexivity. }
    assert (G : forall h rs w p, s' = go t s h rs w p -> (tinv (s_h s') p -> (rank p < rank (s_pc s t))%nat) -> (rank (s_pc s' t) < rank (s_pc s t))%nat /\ forall t', t' <> t -> s_pc s' t' = s_pc s t').
    { intros h rs w p -> Hr. destruct (P h rs w p) as (P1 & P2). rewrite P1 in *. split; [exact (Hr Ti')|exact P2]. }
    clear P Ti'. unfold ConcModel.tstep in E. destruct (s_pc s t) eqn:EP; cbn [tinv] in Ti; try contradiction; try discriminate.
    - destruct (may_share _ _ _); [|discriminate]. injection E as E. eapply G; [symmetry; exact E|]. intros _. cbn [rank]. lia.
    - injection E as E. eapply G; [symmetry; exact E|]. intros _. cbn [rank]. lia.
    - injection E as E. eapply G; [symmetry; exact E|]. intros _. destruct ok; cbn [rank]; lia.
    - destruct (may_share _ _ _); [|discriminate]. injection E as E. eapply G; [symmetry; exact E|]. intros _. cbn [rank]. lia.
    - destruct Ti as (_ & Hi & _). destruct (i <? zlen (H_mats (s_h s))) eqn:Q.
      + destruct (look _ _) as [[|]|]; injection E as E; (eapply G; [symmetry; exact E|]); intros T'; cbn [rank tinv] in *; try contradiction; try lia.
        unfold Len. lia.
      + injection E as E. eapply G; [symmetry; exact E|]. intros _. cbn [rank]. lia.
    - destruct found; injection E as E; (eapply G; [symmetry; exact E|]); intros _; cbn [rank]; lia.
    - destruct src.
      + destruct (rd _ _) as [[c|]|]; injection E as E; (eapply G; [symmetry; exact E|]); intros T'; try contradiction. destruct (_ || _); cbn [rank]; lia.
      + injection E as E. eapply G; [symmetry; exact E|]. intros _. cbn [rank]. lia.
    - destruct (may_own _); [|discriminate]. injection E as E. eapply G; [symmetry; exact E|]. intros _. cbn [rank]. lia.
    - destruct Ti as (_ & _ & Hi & _). destruct (i <? zlen (H_mats (s_h s))) eqn:Q.
      + destruct (look _ _) as [[|]|]; injection E as E; (eapply G; [symmetry; exact E|]); intros T'; cbn [rank tinv] in *; try contradiction; try lia.
        unfold Len. lia.
      + injection E as E. eapply G; [symmetry; exact E|]. intros _. cbn [rank]. lia.
    - destruct (rd _ _) as [[c|]|]; try (injection E as E; eapply G; [symmetry; exact E|]; intros T'; contradiction).
      destruct (slow _ _ _) as [[[st l] r]|]; injection E as E; (eapply G; [symmetry; exact E|]); intros T'; try contradiction.
      cbn [rank tinv] in *. destruct T' as (_ & _ & _ & _ & Ln'). unfold Sto. lia.
    - destruct l as [|w l]; injection E as E; (eapply G; [symmetry; exact E|]); intros _; cbn [rank length]; lia.
    - injection E as E. eapply G; [symmetry; exact E|]. intros _. cbn [rank]. lia.
  Qed.

  Fixpoint total (k : nat) (f : nat -> pc T) : nat := match k with 0%nat => 0%nat | S k => (total k f + rank (f k))%nat end.
  Lemma total_ext : forall k f g, (forall t, (t < k)%nat -> f t = g t) -> total k f = total k g.
  Proof. induction k as [|k IH]; intros f g H; [reflexivity|]. cbn. rewrite (IH f g), (H k) by auto with arith. reflexivity. Qed.
  Lemma total_lt : forall k f g t, (t < k)%nat -> (rank (g t) < rank (f t))%nat -> (forall t', t' <> t -> g t' = f t') -> (total k g < total k f)%nat.
  Proof.
    induction k as [|k IH]; intros f g t Ht Hr Ho; [lia|]. cbn [total]. destruct (Nat.eq_dec t k) as [->|Q].
    - rewrite (total_ext k g f) by (intros t' Ht'; apply Ho; lia). lia.
    - rewrite (Ho k) by lia. pose proof (IH f g t ltac:(lia) Hr Ho). lia.
  Qed.

  (** Number of effective turns of a schedule *)
  Fixpoint turns (sched : list nat) (s : cst T) : nat :=
    match sched with
    | [] => 0%nat
    | t :: l => if Nat.ltb t N then match tstep t s with Some s' => S (turns l s') | None => turns l s end else turns l s
    end.

  Lemma turns_le : forall sched s, inv s -> (turns sched s + total N (s_pc (run sched s)) <= total N (s_pc s))%nat.
  Proof.
    induction sched as [|t l IH]; intros s I; [cbn; lia|]. cbn [turns ConcModel.run]. destruct (Nat.ltb t N) eqn:Q; [|apply IH; exact I].
    apply Nat.ltb_lt in Q. destruct (tstep t s) as [s'|] eqn:E; [|apply IH; exact I].
    pose proof (IH s' (step_inv s s' t I Q E)). destruct (step_rank s s' t I Q E) as (R & Ot). pose proof (total_lt N (s_pc s) (s_pc s') t Q R Ot). lia.
  Qed.

  Lemma run_app : forall l1 l2 s, run (l1 ++ l2) s = run l2 (run l1 s).
  Proof. induction l1 as [|t l IH]; intros l2 s; [reflexivity|]. cbn [app ConcModel.run]. apply IH. Qed.

  (** A round in which every thread has its turn is not wasted *)
  Lemma round_turn : forall l s, inv s -> (exists t, (t < N)%nat /\ In t l /\ exists s', tstep t s = Some s') -> (0 < turns l s)%nat.
  Proof.
    induction l as [|x l IH]; intros s I (t & Ht & Hin & s' & E); [contradiction|]. cbn [turns].
    destruct (Nat.ltb x N) eqn:Q.
    - destruct (tstep x s) eqn:E'; [lia|]. destruct Hin as [-> | Hin]; [congruence|]. apply IH; eauto.
    - destruct Hin as [-> | Hin]; [apply Nat.ltb_ge in Q; lia|]. apply IH; eauto.
  Qed.

  Lemma rounds_end : forall segs s, inv s -> (forall seg, In seg segs -> forall t, (t < N)%nat -> In t seg) -> (total N (s_pc s) <= length segs)%nat ->
    forall t, (t < N)%nat -> returned (s_pc (run (concat segs) s) t) = true.
  Proof.
    induction segs as [|seg segs IH]; intros s I Hs Hl t Ht.
    - cbn [concat ConcModel.run]. destruct (returned (s_pc s t)) eqn:R; [reflexivity|exfalso].
      destruct (inv_progress s I) as (t' & s' & Ht' & E); [eauto|]. destruct (step_rank s s' t' I Ht' E) as (R' & Ot). pose proof (total_lt N (s_pc s) (s_pc s') t' Ht' R' Ot). cbn in Hl. lia.
    - cbn [concat]. rewrite run_app. 
      assert (D : (exists t, (t < N)%nat /\ returned (s_pc s t) = false) \/ forall t, (t < N)%nat -> returned (s_pc s t) = true).
      { clear. generalize N as n. induction n as [|k IHk]; [right; intros; lia|]. destruct IHk as [(t & Ht & R) | H]; [left; exists t; split; [lia|exact R]|].
        destruct (returned (s_pc s k)) eqn:R; [right; intros t Ht; destruct (Nat.eq_dec t k) as [->|]; [exact R|apply H; lia]|left; exists k; split; [lia|exact R]]. }
      apply IH; [apply run_inv; exact I|intros seg' Hin; apply Hs; right; exact Hin| |exact Ht].
      pose proof (turns_le seg s I) as TL. cbn [length] in Hl. destruct D as [D | D].
      + destruct (inv_progress s I D) as (t' & s' & Ht' & E). pose proof (round_turn seg s I). assert (X : (0 < turns seg s)%nat) by (apply H; exists t'; split; [exact Ht'|]; split; [apply (Hs seg); [left; reflexivity|exact Ht']|eauto]). lia.
      + assert (total N (s_pc s) = 0)%nat; [|lia]. clear - D. revert D. generalize N as n. induction n as [|k IHk]; intros D; [reflexivity|]. cbn. rewrite IHk by (intros t Ht; apply D; lia).
        specialize (D k ltac:(lia)). destruct (s_pc s k); try discriminate. reflexivity.
  Qed.
End P.
