(** Hybrid ELL product and the ELL entry points. *)
From Coq Require Import ZArith List Bool Lia ZifyBool Ring.
From Verif Require Import Base BaseFacts Algebra Vec DoidModel Csr CsrFacts EllSpec DiaSpec MvModel MvSpec MvFacts MvProof MvVecProof FmtMvModel FmtMvSpec FmtMvProof.
Import ListNotations.
Open Scope Z_scope.

Lemma listed_step : forall rmap e i, 0 <= e -> listed rmap (e + 1) i = listed rmap e i || (zn rmap e =? i).
Proof. intros rmap e i He. unfold listed. rewrite zrange_last by lia. rewrite existsb_app. cbn [existsb]. rewrite orb_false_r. reflexivity. Qed.
Lemma listed_iff : forall rmap e i, listed rmap e i = true <-> exists q, 0 <= q < e /\ zn rmap q = i.
Proof.
  intros rmap e i. unfold listed. rewrite existsb_exists. split; intros (q & H1 & H2); exists q.
  - apply in_zrange in H1. lia.
  - split; [apply in_zrange; lia|lia].
Qed.

Section P.
  Context {T : Type} (O : ops T) (L : laws O).
  Local Notation zero := (o0 O).
  Local Notation one := (o1 O).
  Local Notation tn := (nthZ (o0 O)).
  Local Infix "+!" := (oadd O) (at level 50, left associativity).
  Local Infix "*!" := (omul O) (at level 40, left associativity).
  Local Notation "a ==! b" := (oeqb O a b) (at level 70).
  Local Notation total := (suml O (fun a => a)).
  Let rth := l_ring L.
  Add Ring Tring_hyb : rth.

  Lemma listed_loop : forall (G : Z -> T) cnt rmap y0 body, 0 <= cnt -> 
    (forall q, 0 <= q < cnt -> 0 <= zn rmap q < zlen y0) ->
    (forall q q', 0 <= q < cnt -> 0 <= q' < cnt -> zn rmap q = zn rmap q' -> q = q') ->
    (forall q y, 0 <= q < cnt -> zlen y = zlen y0 -> tn y (zn rmap q) = tn y0 (zn rmap q) -> body q y = Some (upd y (zn rmap q) (G (zn rmap q)))) ->
    exists y1, for_ 0 cnt body y0 = Some y1 /\ zlen y1 = zlen y0 /\
      forall i, 0 <= i < zlen y0 -> tn y1 i = if listed rmap cnt i then G i else tn y0 i.
  Proof.
    intros G cnt rmap y0 body Hc Hr Hd Hb.
    destruct (for_inv _ (fun e v => zlen v = zlen y0 /\ forall i, 0 <= i < zlen y0 -> tn v i = if listed rmap e i then G i else tn y0 i) 0 cnt body y0 Hc) as (y1 & E & L1 & H1).
    - split; auto.
    - intros e v He [Lv Hv]. rewrite Hb; auto.
      + eexists; split; [reflexivity|]. split; [rewrite zlen_upd; auto|]. intros i Hi. rewrite nthZ_upd by (specialize (Hr e He); lia).
        rewrite listed_step by lia. rewrite (Z.eqb_sym i). destruct (Z.eqb_spec (zn rmap e) i) as [->|]; [rewrite orb_true_r; reflexivity|].
        rewrite orb_false_r. apply Hv; auto.
      + rewrite Hv by auto. destruct (listed rmap e (zn rmap e)) eqn:El; auto. apply listed_iff in El. destruct El as (q & Hq & Eq).
        specialize (Hd q e ltac:(lia) He Eq). lia.
    - exists y1. auto.
  Qed.

  Lemma ellthyb_ok : forall k hsum m n nnz b wd col val em cval cptr cind rmap alpha beta x y,
    0 < k -> (forall v, length v = Z.to_nat k -> hsum v = total v) ->
    0 <= wd -> zlen col = m * wd -> zlen val = m * wd -> n <= zlen x -> m <= zlen y -> ellt_ok m n b wd col ->
    csr_wf m n nnz b cptr cind -> zlen cval = nnz ->
    em <= m -> m - em <= zlen rmap ->
    (forall q, 0 <= q < m - em -> 0 <= zn rmap q < m) ->
    (forall q q', 0 <= q < m - em -> 0 <= q' < m - em -> zn rmap q = zn rmap q' -> q = q') ->
    exists y1, ellthyb O k hsum alpha m val col wd em cval cptr cind rmap b x beta y = Some y1 /\
      product_of O m n alpha beta (hyb_mat rmap (m - em) (ell_mat O (ellt_slot m) b wd col val) (csr_mat O b cptr cind cval)) x y y1.
  Proof.
    intros k hsum m n nnz b wd col val em cval cptr cind rmap alpha beta x y Hk Hh Hw Lc Lv Lx Ly Hok W Lcv Hem Lr Hr Hd.
    pose proof (wf_m _ _ _ _ _ _ W) as Hm. unfold ellthyb.
    destruct (elltmv_vec_upto O L m n b wd col val x alpha beta Hm Hw Lc Lv Lx Hok k y Hk Ly) as (y1 & E1 & L1 & H1).
    destruct (Z.eqb_spec em m) as [->|Hne].
    { rewrite E1. exists y1. split; auto. split; auto. intros i Hi. rewrite H1 by auto. destruct (i <? m); auto. unfold fin. do 2 f_equal.
      apply sumz_ext. intros j Hj. unfold hyb_mat, listed. rewrite zrange_nil by lia. reflexivity. }
    set (cnt := m - em) in *. assert (Hcnt : 0 <= cnt) by lia. clearbody cnt.
    assert (ET : (if negb (beta ==! zero) then mapM (fun i => let* r := rd rmap i in rd y r) (zrange 0 cnt) else Some [])
       = Some (if negb (beta ==! zero) then map (fun i => tn y (zn rmap i)) (zrange 0 cnt) else [])).
    { destruct (beta ==! zero); cbn [negb]; auto. apply mapM_map. intros i Hi. apply in_zrange in Hi. rewrite (rd_nthZ _ 0) by lia.
      apply rd_nthZ. specialize (Hr i Hi). lia. }
    rewrite ET, E1. clear ET E1. set (tmp := if negb (beta ==! zero) then map (fun i => tn y (zn rmap i)) (zrange 0 cnt) else []).
    assert (E2 : exists y2, (if negb (beta ==! zero) then
        for_ 0 cnt (fun i y => let* r := rd rmap i in let* t := rd tmp i in wr y r t) y1 else Some y1) = Some y2 /\
        zlen y2 = zlen y /\ forall i, 0 <= i < zlen y -> (listed rmap cnt i = true -> beta *! tn y2 i = beta *! tn y i) /\
          (listed rmap cnt i = false -> tn y2 i = tn y1 i)).
    { unfold tmp. clear tmp. destruct (beta ==! zero) eqn:Eb; cbn [negb].
      - apply (l_eqb L) in Eb. subst beta. exists y1. ands; auto. intros i Hi. split; auto. intros _. ring.
      - match goal with |- context [for_ 0 cnt ?f y1] => destruct (listed_loop (fun i => tn y i) cnt rmap y1 f Hcnt) as (y2 & E & L2 & H2); auto end.
        + intros q Hq. specialize (Hr q Hq). lia.
        + intros q v Hq Lvv _. specialize (Hr q Hq). rewrite (rd_nthZ _ 0) by lia. rewrite (rd_nthZ _ zero) by (rewrite zlen_map, zlen_zrange; lia).
          rewrite (nthZ_map _ _ _ 0) by (rewrite zlen_zrange; lia). rewrite nthZ_zrange by lia. rewrite Z.add_0_l. apply wr_upd. lia.
        + exists y2. split; auto. split; [lia|]. intros i Hi. rewrite H2 by lia. split; intros ->; reflexivity. }
    destruct E2 as (y2 & -> & L2 & H2).
    match goal with |- context [for_ 0 cnt ?f y2] => destruct (listed_loop
      (fun i => fin O alpha beta (sumz O 0 n (fun j => csr_mat O b cptr cind cval i j *! tn x j)) (tn y2 i)) cnt rmap y2 f Hcnt) as (y3 & E & L3 & H3); auto end.
    - intros q Hq. specialize (Hr q Hq). lia.
    - intros q v Hq Lvv Ev. pose proof (Hr q Hq) as Hrq. destruct (row_bounds _ _ _ _ _ _ (zn rmap q) W Hrq) as (? & ? & ? & ? & ?).
      rewrite (rd_nthZ _ 0) by lia. rewrite (rd_nthZ _ 0) by lia. rewrite (rd_nthZ _ 0) by lia.
      rewrite (vec_row_ok O L); try lia; auto.
      + rewrite (finish_row_ok O L) by lia. rewrite Ev. unfold fin.
        rewrite <- (full_row_sum O L m n nnz b cptr cind cval (zn rmap q) (fun v => v) (fun j => tn x j) W Lcv Hrq (additive_id O)).
        do 4 f_equal. destruct (_ <? _); ring.
      + intros p Hp. pose proof (wf_ind _ _ _ _ _ _ W p ltac:(lia)). lia.
    - rewrite E. exists y3. split; auto. split; [lia|]. intros i Hi. rewrite H3 by lia. destruct (H2 i Hi) as [H2a H2b].
      unfold hyb_mat. destruct (listed rmap cnt i) eqn:El.
      + assert (Hi' : i < m) by (apply listed_iff in El; destruct El as (q & Hq & <-); apply Hr; auto).
        replace (i <? m) with true by lia. unfold fin. rewrite H2a by auto. reflexivity.
      + rewrite H2b by auto. apply H1; auto.
  Qed.

  (** ** Entry points *)
  Lemma hsum4_any : forall v, length v = Z.to_nat 4 -> hsum4 O v = total v.
  Proof. intros v Hv. apply (hsum4_ok O L). exact Hv. Qed.
  Lemma hsum8_any : forall v, length v = Z.to_nat 8 -> hsum8d O v = total v.
  Proof. intros v Hv. apply (hsum8d_ok O L). exact Hv. Qed.

  Lemma ellmv_ok : forall is_double avx512 d alpha beta m n wd col val x y,
    (d_base d = 0 \/ d_base d = 1) -> d_type d = mt_general -> 0 < m -> 0 < n -> 0 < wd ->
    zlen col = m * wd -> zlen val = m * wd -> n <= zlen x -> m <= zlen y -> ell_ok m n (d_base d) wd col ->
    exists y1, ellmv O is_double avx512 op_none (Some alpha) m n (Some val) (Some col) wd (Some d) (Some x) (Some beta) (Some y) = Some (success, Some y1) /\
      product_of O m n alpha beta (ell_mat O (ell_slot wd) (d_base d) wd col val) x y y1.
  Proof.
    intros is_double avx512 d alpha beta m n wd col val x y Hb Ht Hm Hn Hw Lc Lv Lx Ly Hok. unfold ellmv, ell_entry. rewrite Ht.
    replace (negb ((d_base d =? 0) || (d_base d =? 1))) with false by lia. replace ((m <? 0) || (n <? 0) || (wd <? 0)) with false by lia.
    replace (((m =? 0) || (n =? 0)) && negb (wd =? 0)) with false by lia. replace ((m =? 0) || (n =? 0) || (wd =? 0)) with false by lia.
    destruct is_double; [destruct avx512|].
    - destruct (ellmv_vec_ok O L m n (d_base d) wd col val x alpha beta) with (k := 8) (hsum := hsum8d O) (y := y) as (y1 & -> & H); auto using hsum8_any; try lia. eauto.
    - destruct (ellmv_vec_ok O L m n (d_base d) wd col val x alpha beta) with (k := 4) (hsum := hsum4 O) (y := y) as (y1 & -> & H); auto using hsum4_any; try lia. eauto.
    - destruct (ellmv_ref_ok O L m n (d_base d) wd col val x alpha beta) with (y := y) as (y1 & -> & H); auto; try lia. eauto.
  Qed.
  Lemma elltmv_ok : forall is_double avx512 d alpha beta m n wd col val x y,
    (d_base d = 0 \/ d_base d = 1) -> d_type d = mt_general -> 0 < m -> 0 < n -> 0 < wd ->
    zlen col = m * wd -> zlen val = m * wd -> n <= zlen x -> m <= zlen y -> ellt_ok m n (d_base d) wd col ->
    exists y1, elltmv O is_double avx512 op_none (Some alpha) m n (Some val) (Some col) wd (Some d) (Some x) (Some beta) (Some y) = Some (success, Some y1) /\
      product_of O m n alpha beta (ell_mat O (ellt_slot m) (d_base d) wd col val) x y y1.
  Proof.
    intros is_double avx512 d alpha beta m n wd col val x y Hb Ht Hm Hn Hw Lc Lv Lx Ly Hok. unfold elltmv, ell_entry. rewrite Ht.
    replace (negb ((d_base d =? 0) || (d_base d =? 1))) with false by lia. replace ((m <? 0) || (n <? 0) || (wd <? 0)) with false by lia.
    replace (((m =? 0) || (n =? 0)) && negb (wd =? 0)) with false by lia. replace ((m =? 0) || (n =? 0) || (wd =? 0)) with false by lia.
    destruct is_double.
    - destruct (elltmv_vec_ok O L m n (d_base d) wd col val x alpha beta) with (k := if avx512 then 8 else 4) (y := y) as (y1 & -> & H); auto; try lia; [destruct avx512; lia|]. eauto.
    - destruct (elltmv_ref_ok O L m n (d_base d) wd col val x alpha beta) with (y := y) as (y1 & -> & H); auto; try lia. eauto.
  Qed.
  Lemma ellthybmv_ok : forall avx512 d alpha beta m n nnz wd col val em cval cptr cind rmap x y,
    0 <= wd -> zlen col = m * wd -> zlen val = m * wd -> n <= zlen x -> m <= zlen y -> ellt_ok m n (d_base d) wd col ->
    csr_wf m n nnz (d_base d) cptr cind -> zlen cval = nnz ->
    em <= m -> m - em <= zlen rmap ->
    (forall q, 0 <= q < m - em -> 0 <= zn rmap q < m) ->
    (forall q q', 0 <= q < m - em -> 0 <= q' < m - em -> zn rmap q = zn rmap q' -> q = q') ->
    exists y1, ellthybmv O true avx512 alpha m val col wd em cval cptr cind rmap d x beta y = Some (success, Some y1) /\
      product_of O m n alpha beta (hyb_mat rmap (m - em) (ell_mat O (ellt_slot m) (d_base d) wd col val) (csr_mat O (d_base d) cptr cind cval)) x y y1.
  Proof.
    intros avx512 d alpha beta m n nnz wd col val em cval cptr cind rmap x y Hw Lc Lv Lx Ly Hok W Lcv Hem Lr Hr Hd. unfold ellthybmv. destruct avx512.
    - destruct (ellthyb_ok 8 (hsum8d O) m n nnz (d_base d) wd col val em cval cptr cind rmap alpha beta x y) as (y1 & -> & H); auto using hsum8_any; try lia. eauto.
    - destruct (ellthyb_ok 4 (hsum4 O) m n nnz (d_base d) wd col val em cval cptr cind rmap alpha beta x y) as (y1 & -> & H); auto using hsum4_any; try lia. eauto.
  Qed.
  Lemma ell_entry_rejects : forall K op alpha m n val col wd d x beta y,
    d = None \/ op <> op_none \/ m < 0 \/ n < 0 \/ wd < 0 \/ ((m = 0 \/ n = 0) /\ wd <> 0) \/
    (m <> 0 /\ n <> 0 /\ wd <> 0 /\ (val = None \/ col = None \/ x = None \/ y = None)) \/
    (exists d', d = Some d' /\ ((d_base d' <> 0 /\ d_base d' <> 1) \/ d_type d' <> mt_general)) ->
    exists st, ell_entry (T := T) K op alpha m n val col wd d x beta y = Some (st, None) /\ st <> success.
  Proof.
    intros K op alpha m n val col wd d x beta y H. unfold ell_entry.
    destruct d as [d|]; [|eexists; split; [reflexivity|discriminate]].
    destruct (negb ((d_base d =? 0) || (d_base d =? 1))) eqn:E1; [eexists; split; [reflexivity|discriminate]|].
    destruct (d_type d) eqn:E2; try (eexists; split; [reflexivity|discriminate]).
    destruct op; try (eexists; split; [reflexivity|discriminate]).
    destruct ((m <? 0) || (n <? 0) || (wd <? 0)) eqn:E3; [eexists; split; [reflexivity|discriminate]|].
    destruct (((m =? 0) || (n =? 0)) && negb (wd =? 0)) eqn:E4; [eexists; split; [reflexivity|discriminate]|].
    destruct ((m =? 0) || (n =? 0) || (wd =? 0)) eqn:E5.
    - exfalso. repeat (destruct H as [H|H]; [first [discriminate | lia | congruence]|]).
      destruct H as (d' & Ed & H); inversion Ed; subst; destruct H as [H|H]; [lia|congruence].
    - destruct val, col, x, y; try (eexists; split; [reflexivity|discriminate]). exfalso.
      repeat (destruct H as [H|H]; [first [discriminate | lia | congruence | (destruct H as (_ & _ & _ & [H|[H|[H|H]]]); discriminate)]|]).
      destruct H as (d' & Ed & H); inversion Ed; subst; destruct H as [H|H]; [lia|congruence].
  Qed.
End P.
