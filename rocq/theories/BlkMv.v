(** The blocked product on the converted arrays. *)
From Coq Require Import ZArith List Bool Lia ZifyBool Sorted.
From Verif Require Import Base BaseFacts Algebra UtilModel DoidModel Csr CsrFacts Vec MvModel MvSpec MvProof CsrmvProof FmtMvModel OptProof BlkModel BlkPure BlkConv BlkGroups.
Import ListNotations.
Open Scope Z_scope.

Section K.
  Context {T : Type} (O : ops T) (L : laws O).
  Local Notation zero := (o0 O).
  Local Notation tn := (nthZ (o0 O)).
  Local Infix "+!" := (oadd O) (at level 50, left associativity).
  Local Infix "*!" := (omul O) (at level 40, left associativity).
  Add Ring BlkR : (l_ring L).

  Definition esum (x : list T) (sg : row (T := T)) : T := suml O (fun e => snd e *! tn x (fst e)) sg.

  Lemma zlen_snoc : forall A (l : list A) a, zlen (l ++ [a]) = zlen l + 1.
  Proof. intros. rewrite zlen_app. reflexivity. Qed.

  Lemma rd_mid : forall A (p : list A) a q, rd (p ++ a :: q) (zlen p) = Some a.
  Proof.
    intros A p a q. rewrite (rd_nthZ _ a).
    - f_equal. unfold nthZ, zlen. destruct (Z.of_nat (length p) <? 0) eqn:E; [lia|]. rewrite Nat2Z.id. rewrite app_nth2 by lia. now rewrite Nat.sub_diag.
    - rewrite zlen_app, zlen_cons. pose proof (zlen_nonneg _ p). pose proof (zlen_nonneg _ q). lia.
  Qed.

  (** One masked load: the lanes hold the entries of the segment at their columns. *)
  Lemma expand_ok : forall c sg x pv qv, asc sg -> (forall e, In e sg -> c <= fst e < c + 8) ->
    exists v, expandload O (maskof c sg) (pv ++ map snd sg ++ qv) (zlen pv) = Some v /\ length v = 8%nat /\
      sumz O 0 8 (fun l => tn v l *! tn x (c + l)) = esum x sg /\ bits_set (maskof c sg) = zlen sg.
  Proof.
    intros c sg x pv qv Ha Hc. unfold expandload.
    match goal with |- context [for_ 0 8 ?f ?s] =>
      destruct (for_inv _ (fun l st => let '(q, r) := st in exists s1 s2, sg = s1 ++ s2 /\ (forall e, In e s1 -> fst e < c + l) /\ (forall e, In e s2 -> c + l <= fst e) /\
        q = zlen pv + zlen s1 /\ zlen r = l /\ sumz O 0 l (fun t => tn r t *! tn x (c + t)) = esum x s1 /\
        zlen (filter (fun t => Z.testbit (maskof c sg) t) (zrange 0 l)) = zlen s1) 0 8 f s) as ([q r] & -> & s1 & s2 & E & H1 & H2 & -> & Lr & S & B) end.
    - lia.
    - exists [], sg. split; [reflexivity|]. split; [intros e []|]. split; [intros e He; apply Hc in He; lia|]. split; [cbn; lia|]. repeat split; reflexivity.
    - intros l [q r] Hl (s1 & s2 & E & H1 & H2 & -> & Lr & S & B). rewrite (maskof_bit c sg l ltac:(lia)) by (intros e He; apply Hc in He; lia).
      rewrite (zrange_last 0 l), filter_app, zlen_app, B by lia. cbn [filter]. rewrite (maskof_bit c sg l ltac:(lia)) by (intros e He; apply Hc in He; lia).
      assert (existsb (fun e => fst e =? c + l) sg = match s2 with [] => false | e :: _ => fst e =? c + l end) as Eb.
      { rewrite E, existsb_app. replace (existsb (fun e => fst e =? c + l) s1) with false.
        2:{ symmetry. apply Bool.not_true_is_false. intros Hx. apply existsb_exists in Hx. destruct Hx as (e & He & Hq). apply H1 in He. lia. }
        cbn [orb]. destruct s2 as [|e s2]; [reflexivity|]. cbn [existsb]. destruct (fst e =? c + l) eqn:Ee; [reflexivity|]. cbn [orb].
        apply Bool.not_true_is_false. intros Hx. apply existsb_exists in Hx. destruct Hx as (e' & He & Hq). rewrite E in Ha. apply asc_app in Ha. destruct Ha as (_ & A2 & _).
        pose proof (asc_head _ _ A2 e' (or_intror He)). pose proof (H2 e (or_introl eq_refl)). lia. }
      rewrite Eb. destruct s2 as [|e s2].
      + eexists. split; [reflexivity|]. cbn beta iota. exists s1, []. rewrite zlen_snoc. split; [exact E|]. split; [|split; [intros e []|split; [reflexivity|split; [lia|split]]]].
        * intros e He. apply H1 in He. lia.
        * rewrite (sumz_last O L) by lia. rewrite <- S. rewrite nthZ_app2 by lia. replace (l - zlen r) with 0 by lia.
          rewrite (sumz_ext O 0 l (fun t => tn (r ++ [zero]) t *! tn x (c + t)) (fun t => tn r t *! tn x (c + t))) by (intros; rewrite nthZ_app1 by lia; reflexivity).
          change (tn [zero] 0) with zero. ring.
        * cbn. lia.
      + destruct (fst e =? c + l) eqn:Ee.
        * replace (pv ++ map snd sg ++ qv) with ((pv ++ map snd s1) ++ snd e :: (map snd s2 ++ qv)) by (rewrite E, map_app, <- !app_assoc; reflexivity).
          replace (zlen pv + zlen s1) with (zlen (pv ++ map snd s1)) by (rewrite zlen_app, zlen_map; reflexivity). rewrite rd_mid.
          eexists. split; [reflexivity|]. cbn beta iota. exists (s1 ++ [e]), s2. rewrite !zlen_snoc, zlen_app, zlen_map.
          assert (forall e', In e' s2 -> fst e < fst e') as Hs2.
          { rewrite E in Ha. apply asc_app in Ha. destruct Ha as (_ & A2 & _). apply StronglySorted_inv in A2. destruct A2 as [_ F]. rewrite Forall_forall in F. exact F. }
          split; [rewrite <- app_assoc; exact E|]. split; [|split; [|split; [lia|split; [lia|split]]]].
          -- intros e' He. apply in_app_or in He. destruct He as [He|[<-|[]]]; [apply H1 in He|]; lia.
          -- intros e' He. apply Hs2 in He. lia.
          -- rewrite (sumz_last O L) by lia. rewrite nthZ_app2 by lia. replace (l - zlen r) with 0 by lia.
             rewrite (sumz_ext O 0 l (fun t => tn (r ++ [snd e]) t *! tn x (c + t)) (fun t => tn r t *! tn x (c + t))) by (intros; rewrite nthZ_app1 by lia; reflexivity).
             rewrite S. unfold esum. rewrite (suml_app O L). cbn [suml fold_right]. change (tn [snd e] 0) with (snd e). replace (fst e) with (c + l) by lia. ring.
          -- cbn. lia.
        * eexists. split; [reflexivity|]. cbn beta iota. exists s1, (e :: s2). rewrite zlen_snoc. split; [exact E|]. split; [|split; [|split; [reflexivity|split; [lia|split]]]].
          -- intros e' He. apply H1 in He. lia.
          -- intros e' He. rewrite E in Ha. apply asc_app in Ha. destruct Ha as (_ & A2 & _). pose proof (asc_head _ _ A2 e' He). pose proof (H2 e (or_introl eq_refl)). lia.
          -- rewrite (sumz_last O L) by lia. rewrite <- S. rewrite nthZ_app2 by lia. replace (l - zlen r) with 0 by lia.
             rewrite (sumz_ext O 0 l (fun t => tn (r ++ [zero]) t *! tn x (c + t)) (fun t => tn r t *! tn x (c + t))) by (intros; rewrite nthZ_app1 by lia; reflexivity).
             change (tn [zero] 0) with zero. ring.
          -- cbn. lia.
    - assert (s2 = []) as ->. { destruct s2 as [|e s2]; [reflexivity|]. exfalso. pose proof (H2 e (or_introl eq_refl)). specialize (Hc e). rewrite E in Hc. specialize (Hc ltac:(apply in_or_app; right; left; reflexivity)). lia. }
      rewrite app_nil_r in E. subst s1. exists r. split; [reflexivity|]. unfold zlen in Lr. split; [lia|]. split; [exact S|exact B].
  Qed.

  Definition tot (v : list T) : T := suml O (fun a => a) v.

  Lemma lanes_of : forall v, length v = 8%nat -> v = map (tn v) (zrange 0 8).
  Proof. intros [|a [|b [|c [|d [|e [|f [|g [|h [|]]]]]]]]] H; try discriminate. reflexivity. Qed.

  (** one fused multiply-add of a row of a block *)
  Lemma fma_ok : forall v x c a, length v = 8%nat -> length a = 8%nat ->
    let r := map2 (fun p q => p +! q) (map2 (fun p q => p *! q) v (map (fun t => tn x (c + t)) (zrange 0 8))) a in
    length r = 8%nat /\ tot r = tot a +! sumz O 0 8 (fun l => tn v l *! tn x (c + l)).
  Proof.
    intros v x c a Hv Ha r.
    assert (map2 (fun p q => p *! q) v (map (fun t => tn x (c + t)) (zrange 0 8)) = map (fun l => tn v l *! tn x (c + l)) (zrange 0 8)) as E.
    { rewrite (lanes_of v Hv) at 1. apply map2_map. }
    subst r. rewrite E. split; [rewrite map2_length by (rewrite map_length, Ha; reflexivity); exact Ha|].
    unfold tot. rewrite (suml_map2_add O L) by (rewrite map_length, Ha; reflexivity). rewrite (suml_map O). unfold sumz. ring.
  Qed.

  Lemma skipn_nth : forall A (d : A) s l, (s < length l)%nat -> skipn s l = nth s l d :: skipn (S s) l.
  Proof. induction s as [|s IH]; intros [|a l] H; cbn in *; try lia; [reflexivity|]. apply IH. lia. Qed.
  Lemma firstn_S_nth : forall A (d : A) s l, (s < length l)%nat -> firstn (S s) l = firstn s l ++ [nth s l d].
  Proof. induction s as [|s IH]; intros [|a l] H; cbn in *; try lia; [reflexivity|]. f_equal. apply IH. lia. Qed.

  Variables (n nb b : Z) (x : list T).
  Hypothesis Hn8 : 8 <= n.
  Hypothesis Hnb : 0 < nb.
  Hypothesis Lx : zlen x = n.
  Local Notation ln := (nthZ (@nil T)).

  (** accumulators: one register of eight lanes per row *)
  Definition regs (vy : list (list T)) (f : Z -> T) : Prop :=
    zlen vy = nb /\ forall s, 0 <= s < nb -> length (ln vy s) = 8%nat /\ tot (ln vy s) = f s.

  Lemma ccol_good : forall B : block (T := T), good n (Z.to_nat nb) B -> 0 <= ccol n (fst B) /\ ccol n (fst B) + 8 <= n /\
    forall sg, In sg (snd B) -> asc sg /\ forall e, In e sg -> ccol n (fst B) <= fst e < ccol n (fst B) + 8.
  Proof.
    intros B (H1 & H2 & H3). unfold ccol, blk_width in *. destruct (n <? fst B + 8) eqn:E; (split; [lia|]); (split; [lia|]); intros sg Hs; destruct (H3 sg Hs) as [A C]; (split; [exact A|]);
      intros e He; specialize (C e He); lia.
  Qed.

  Lemma blk_step_ok : forall B f pc qc pm qm pv qv vy, good n (Z.to_nat nb) B -> zlen pm = zlen pc * nb -> regs vy f ->
    exists vy', blk_step O nb b (pm ++ b_masks n B ++ qm) (pv ++ b_vals B ++ qv) (pc ++ (ccol n (fst B) + b) :: qc) x (zlen pc) (zlen pv, vy)
      = Some (zlen (pv ++ b_vals B), vy') /\ regs vy' (fun s => f s +! esum x (brow (Z.to_nat s) B)).
  Proof.
    intros B f pc qc pm qm pv qv vy G Lm [Ly Hy]. destruct (ccol_good B G) as (C1 & C2 & C3). destruct G as (_ & Lb & _).
    set (c := ccol n (fst B)) in *. unfold blk_step. rewrite rd_mid. replace (c + b - b) with c by lia. rewrite (vload_ok O) by lia.
    match goal with |- context [for_ 0 nb ?g ?s0] =>
      destruct (for_inv _ (fun s st => let '(iVal, v) := st in iVal = zlen (pv ++ flat_map (map snd) (firstn (Z.to_nat s) (snd B))) /\ zlen v = nb /\
        forall t, 0 <= t < nb -> length (ln v t) = 8%nat /\ tot (ln v t) = if t <? s then f t +! esum x (brow (Z.to_nat t) B) else f t) 0 nb g s0) as ([iv v] & -> & -> & Lw & Hw) end.
    - lia.
    - cbn [Z.to_nat firstn flat_map]. rewrite app_nil_r. split; [reflexivity|]. split; [exact Ly|]. intros t Ht. replace (t <? 0) with false by lia. auto.
    - intros s [iv v] Hs (-> & Lw & Hw).
      set (sg := nth (Z.to_nat s) (snd B) []).
      assert (In sg (snd B)) as Hin by (apply nth_In; lia). destruct (C3 sg Hin) as [A1 A2].
      assert (rd (pm ++ b_masks n B ++ qm) (zlen pc * nb + s) = Some (maskof c sg)) as ->.
      { rewrite (rd_nthZ _ 0).
        - f_equal. assert (zlen (b_masks n B) = nb) by (unfold b_masks; rewrite zlen_map; unfold zlen; lia).
          rewrite nthZ_app2 by (pose proof (zlen_nonneg _ pc); nia). replace (zlen pc * nb + s - zlen pm) with s by lia. rewrite nthZ_app1 by lia.
          unfold b_masks. fold c. rewrite (nthZ_map _ _ (maskof c) [] 0) by (unfold zlen; lia). reflexivity.
        - assert (zlen (b_masks n B) = nb) by (unfold b_masks; rewrite zlen_map; unfold zlen; lia). rewrite !zlen_app. pose proof (zlen_nonneg _ pc). pose proof (zlen_nonneg _ qm). nia. }
      assert (pv ++ b_vals B ++ qv = (pv ++ flat_map (map snd) (firstn (Z.to_nat s) (snd B))) ++ map snd sg ++ (flat_map (map snd) (skipn (S (Z.to_nat s)) (snd B)) ++ qv)) as ->.
      { unfold b_vals. rewrite <- (firstn_skipn (Z.to_nat s) (snd B)) at 1. rewrite (skipn_nth (row (T := T)) [] (Z.to_nat s) (snd B)) by lia. rewrite flat_map_app. cbn [flat_map]. fold sg. rewrite <- !app_assoc. reflexivity. }
      destruct (expand_ok c sg x (pv ++ flat_map (map snd) (firstn (Z.to_nat s) (snd B))) (flat_map (map snd) (skipn (S (Z.to_nat s)) (snd B)) ++ qv) A1 A2) as (w & -> & Lw8 & Sw & Bw).
      rewrite (rd_nthZ _ []) by lia. destruct (Hw s Hs) as [Hl8 Ht0]. replace (s <? s) with false in Ht0 by lia.
      destruct (fma_ok w x c (ln v s) Lw8 Hl8) as [R8 Rt]. rewrite wr_upd by lia. eexists. split; [reflexivity|]. cbn beta iota.
      split; [|split; [rewrite zlen_upd; exact Lw|]].
      + rewrite Bw. replace (Z.to_nat (s + 1)) with (S (Z.to_nat s)) by lia. rewrite (firstn_S_nth (row (T := T)) [] (Z.to_nat s) (snd B)) by lia. fold sg. rewrite flat_map_app. cbn [flat_map]. rewrite app_nil_r.
        rewrite !zlen_app, zlen_map. now rewrite Z.add_assoc.
      + intros t Ht. rewrite nthZ_upd by lia. destruct (t =? s) eqn:E.
        * replace t with s by lia. replace (s <? s + 1) with true by lia. split; [exact R8|]. rewrite Rt, Ht0, Sw. reflexivity.
        * replace (t <? s + 1) with (t <? s) by lia. auto.
    - exists v. split.
      + do 2 f_equal. rewrite firstn_all2 by lia. reflexivity.
      + split; [exact Lw|]. intros s Hs. destruct (Hw s Hs) as [H1 H2]. replace (s <? nb) with true in H2 by lia. auto.
  Qed.

  Lemma blk_run_ok : forall bl f pc qc pm qm pv qv vy, Forall (good n (Z.to_nat nb)) bl -> zlen pm = zlen pc * nb -> regs vy f ->
    exists vy', for_ (zlen pc) (zlen pc + zlen bl) (fun iBlk st => blk_step O nb b (pm ++ flat_map (b_masks n) bl ++ qm) (pv ++ flat_map b_vals bl ++ qv)
        (pc ++ map (fun B => ccol n (fst B) + b) bl ++ qc) x iBlk st) (zlen pv, vy)
      = Some (zlen (pv ++ flat_map b_vals bl), vy') /\ regs vy' (fun s => f s +! esum x (flat_map (brow (Z.to_nat s)) bl)).
  Proof.
    induction bl as [|B bl IH]; intros f pc qc pm qm pv qv vy F Lm R.
    - rewrite for_nil by (cbn; lia). exists vy. cbn [flat_map]. rewrite app_nil_r. split; [reflexivity|]. destruct R as [R1 R2]. split; [exact R1|].
      intros s Hs. destruct (R2 s Hs) as [A1 A2]. split; [exact A1|]. rewrite A2. unfold esum. cbn. ring.
    - apply Forall_cons_iff in F. destruct F as [G F]. rewrite zlen_cons. pose proof (zlen_nonneg _ bl). rewrite for_first by lia. cbn [flat_map map].
      rewrite <- !app_assoc. cbn [app].
      destruct (blk_step_ok B f pc (map (fun B => ccol n (fst B) + b) bl ++ qc) pm (flat_map (b_masks n) bl ++ qm) pv (flat_map b_vals bl ++ qv) vy G Lm R) as (vy1 & -> & R1).
      assert (zlen (b_masks n B) = nb) by (destruct G as (_ & Lb & _); unfold b_masks; rewrite zlen_map; unfold zlen; lia).
      destruct (IH (fun s => f s +! esum x (brow (Z.to_nat s) B)) (pc ++ [ccol n (fst B) + b]) qc (pm ++ b_masks n B) qm (pv ++ b_vals B) qv vy1 F) as (vy2 & E & R2); [rewrite zlen_snoc, zlen_app; lia|exact R1|].
      exists vy2. split.
      + rewrite zlen_snoc, <- !app_assoc in E. cbn [app] in E. replace (zlen pc + (1 + zlen bl)) with (zlen pc + 1 + zlen bl) by lia. exact E.
      + destruct R2 as [A1 A2]. split; [exact A1|]. intros s Hs. destruct (A2 s Hs) as [B1 B2]. split; [exact B1|]. rewrite B2. unfold esum. rewrite (suml_app O L). ring.
  Qed.
End K.
