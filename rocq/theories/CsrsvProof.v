(** aoclsparse_?csrsv solves the selected triangle. *)
From Coq Require Import ZArith List Bool Lia ZifyBool Ring.
From Verif Require Import Base BaseFacts Algebra Csr CsrFacts DoidModel DoidSpec MvModel MvSpec MvFacts MvProof TrsvSpec CsrsvModel.
Import ListNotations.
Open Scope Z_scope.

Section P.
  Context {T : Type} (O : ops T) (L : laws O) (DL : div_law O).
  Local Notation zero := (o0 O).
  Local Notation tn := (nthZ (o0 O)).
  Local Infix "+!" := (oadd O) (at level 50, left associativity).
  Local Infix "-!" := (osub O) (at level 50, left associativity).
  Local Infix "*!" := (omul O) (at level 40, left associativity).
  Let rth := l_ring L.
  Add Ring Tring_csrsv : rth.

  (** Solving row by row with a triangular matrix [M]. *)
  Section Rows.
    Context {S : Type}.
    Variables (m : Z) (M : Z -> Z -> T) (R : Z -> T) (body : Z -> list T * S -> option (list T * S)) (y0 : list T).
    Variable inv : S -> Prop.
    Hypothesis Hm : 0 <= m.
    Hypothesis Ly : m <= zlen y0.
    Hypothesis Hbody : forall i y s, 0 <= i < m -> zlen y = zlen y0 -> inv s -> exists v s', body i (y, s) = Some (upd y i v, s') /\ inv s' /\
      sumz O 0 m (fun j => if j =? i then zero else M i j *! tn y j) +! M i i *! v = R i.

    Definition untouched (y : list T) : Prop := zlen y = zlen y0 /\ forall p, m <= p < zlen y0 -> tn y p = tn y0 p.

    Lemma step : forall (pr : Z -> Prop) y e v, zlen y = zlen y0 -> 0 <= e < m ->
      (forall i, pr i -> 0 <= i < m /\ M i e = zero) ->
      (forall i, pr i -> sumz O 0 m (fun j => M i j *! tn y j) = R i) ->
      sumz O 0 m (fun j => if j =? e then zero else M e j *! tn y j) +! M e e *! v = R e ->
      forall i, pr i \/ i = e -> sumz O 0 m (fun j => M i j *! tn (upd y e v) j) = R i.
    Proof.
      intros pr y e v Lye He Hpr HI HE i Hi. destruct Hi as [Hi| ->].
      - destruct (Hpr i Hi) as [_ Hz]. rewrite <- (HI i Hi). apply sumz_ext. intros j Hj. rewrite nthZ_upd by lia.
        destruct (Z.eqb_spec j e) as [->|]; auto. rewrite Hz. ring.
      - rewrite <- HE. rewrite (sumz_ext O 0 m _ (fun j => (if j =? e then zero else M e j *! tn y j) +! (if j =? e then M e e *! v else zero))).
        + rewrite (sumz_add O L). f_equal. rewrite (sumz_delta O L 0 m e); [rewrite Z.eqb_refl; reflexivity|auto|].
          intros k Hk Hne. replace (k =? e) with false by lia. reflexivity.
        + intros j Hj. rewrite nthZ_upd by lia. destruct (Z.eqb_spec j e) as [->|]; ring.
    Qed.

    Lemma untouched_upd : forall y e v, untouched y -> 0 <= e < m -> untouched (upd y e v).
    Proof.
      intros y e v [U1 U2] He. split; [rewrite zlen_upd; auto|]. intros p Hp. rewrite nthZ_upd_other by lia. apply U2; auto.
    Qed.

    Lemma solve_up : forall s0, inv s0 -> (forall i j, 0 <= i < j -> j < m -> M i j = zero) ->
      exists y1 s1, for_ 0 m body (y0, s0) = Some (y1, s1) /\ untouched y1 /\
        forall i, 0 <= i < m -> sumz O 0 m (fun j => M i j *! tn y1 j) = R i.
    Proof.
      intros s0 H0 Hz. destruct (for_inv _ (fun e (st : list T * S) => untouched (fst st) /\ inv (snd st) /\
         forall i, 0 <= i < e -> sumz O 0 m (fun j => M i j *! tn (fst st) j) = R i) 0 m body (y0, s0) Hm) as ([y1 s1] & E & U & _ & H).
      - cbn. split; [split; auto|]. split; auto. intros; lia.
      - intros e [y s] He (U & I & H). cbn [fst snd] in *. destruct (Hbody e y s He (proj1 U) I) as (v & s' & -> & I' & HE).
        eexists; split; [reflexivity|]. cbn [fst snd]. split; [apply untouched_upd; auto|]. split; auto.
        intros i Hi. apply (step (fun i => 0 <= i < e)); auto; try lia; [apply U|]. intros k Hk. split; [lia|]. apply Hz; lia.
      - exists y1, s1. cbn [fst snd] in *. auto.
    Qed.
    Lemma solve_down : forall s0, inv s0 -> (forall i j, 0 <= j < i -> i < m -> M i j = zero) ->
      exists y1 s1, for_down 0 m body (y0, s0) = Some (y1, s1) /\ untouched y1 /\
        forall i, 0 <= i < m -> sumz O 0 m (fun j => M i j *! tn y1 j) = R i.
    Proof.
      intros s0 H0 Hz. destruct (for_down_inv _ (fun e (st : list T * S) => untouched (fst st) /\ inv (snd st) /\
         forall i, e <= i < m -> sumz O 0 m (fun j => M i j *! tn (fst st) j) = R i) 0 m body (y0, s0) Hm) as ([y1 s1] & E & U & _ & H).
      - cbn. split; [split; auto|]. split; auto. intros; lia.
      - intros e [y s] He (U & I & H). cbn [fst snd] in *. destruct (Hbody e y s He (proj1 U) I) as (v & s' & -> & I' & HE).
        eexists; split; [reflexivity|]. cbn [fst snd]. split; [apply untouched_upd; auto|]. split; auto.
        intros i Hi. apply (step (fun i => e < i < m)); auto; try lia; [apply U| |].
        + intros k Hk. split; [lia|]. apply Hz; lia.
        + intros k Hk. apply H. lia.
      - exists y1, s1. cbn [fst snd] in *. auto.
    Qed.
  End Rows.

  Lemma upd_twice : forall (x : list T) i v w, 0 <= i < zlen x -> upd (upd x i v) i w = upd x i w.
  Proof.
    intros x i v w Hi. apply (nthZ_ext _ zero); [rewrite !zlen_upd; reflexivity|].
    intros k Hk. rewrite !zlen_upd in Hk. rewrite !nthZ_upd by (rewrite ?zlen_upd; lia). destruct (k =? i); reflexivity.
  Qed.

  Section Sys.
    Variables (m nnz : Z) (ptr ind : list Z) (val : list T) (dg : diag_type) (alpha : T) (x : list T).
    Hypothesis W : csr_wf m m nnz 0 ptr ind.
    Hypothesis Lv : zlen val = nnz.
    Hypothesis Lx : m <= zlen x.
    Hypothesis Hdg : dg <> dg_zero.
    Hypothesis HF : dg = dg_non_unit -> full_diag m m 0 ptr ind /\ diag_unique m 0 ptr ind /\
      forall i, 0 <= i < m -> csr_mat O 0 ptr ind val i i <> zero.
    Let A := csr_mat O 0 ptr ind val.

    (** The stored diagonal. *)
    Lemma diag_at : forall i k, dg = dg_non_unit -> 0 <= i < m -> in_row ptr 0 i k -> zn ind k = i -> tn val k = A i i /\ 0 <= k < zlen val.
    Proof.
      intros i k Hn Hi Hk Ek. destruct (HF Hn) as (F & U & _).
      assert (Hr : forall k, in_row ptr 0 i k -> 0 <= k < zlen val) by (intros q Hq; rewrite Lv; eapply in_row_range; eauto using wf_ptr).
      split; [|apply Hr; auto]. unfold A. rewrite (csr_mat_sum O L 0 ptr ind val i i Hr).
      rewrite (sumz_delta O L _ _ k).
      - replace (zn ind k =? i + 0) with true by lia. reflexivity.
      - exact Hk.
      - intros q Hq Hne. destruct (Z.eqb_spec (zn ind q) (i + 0)) as [E|]; auto. exfalso. apply Hne. apply (U i); auto; lia.
    Qed.

    Lemma row_part : forall (P : Z -> bool) i (g : Z -> T), 0 <= i < m ->
      sumz O (zn ptr i) (zn ptr (i + 1)) (fun q => if P (zn ind q) then tn val q *! g (zn ind q) else zero) =
      sumz O 0 m (fun j => if P j then A i j *! g j else zero).
    Proof.
      intros P i g Hi. destruct (row_bounds _ _ _ _ _ _ i W Hi) as (L1 & L2 & B1 & B2 & B3).
      pose proof (row_sum_cols O L m m nnz 0 ptr ind val i (zn ptr i) (zn ptr (i + 1)) (fun _ => true) (fun v => v)
        (fun j => if P j then g j else zero) W Lv Hi (additive_id O)) as H.
      rewrite (sumz_ext O (zn ptr i) (zn ptr (i + 1)) _ (fun k => tn val k *! (if P (zn ind k - 0) then g (zn ind k - 0) else zero))).
      - rewrite H; try lia.
        + apply sumz_ext. intros j Hj. fold A. destruct (P j); ring.
        + intros k Hk. unfold in_row in Hk. split; [auto|lia].
      - intros k Hk. rewrite Z.sub_0_r. destruct (P (zn ind k)); ring.
    Qed.

    Definition nondiag (fm : fill_mode) (i j : Z) : bool := match fm with fm_lower => j <? i | fm_upper => i <? j end.
    Definition Msys (fm : fill_mode) : Z -> Z -> T := described O mt_triangular fm dg A.

    Lemma sys_off : forall fm i (g : Z -> T), 0 <= i < m ->
      sumz O 0 m (fun j => if j =? i then zero else Msys fm i j *! g j) =
      sumz O 0 m (fun j => if nondiag fm i j then A i j *! g j else zero).
    Proof.
      intros fm i g Hi. apply sumz_ext. intros j Hj. unfold Msys, described, descr_sem, mL, mU, with_diag, nondiag.
      destruct fm; repeat match goal with
        | |- context [?a <=? ?c] => destruct (Z.leb_spec a c); try lia
        | |- context [?a <? ?c] => destruct (Z.ltb_spec a c); try lia
        | |- context [?a =? ?c] => destruct (Z.eqb_spec a c); try lia
        end; subst; ring.
    Qed.
    Lemma sys_dia : forall fm i, Msys fm i i = if is_nonunit dg then A i i else o1 O.
    Proof.
      intros fm i. unfold Msys, described, descr_sem, mL, mU, with_diag. destruct fm; rewrite Z.leb_refl, Z.eqb_refl; destruct dg; auto; congruence.
    Qed.
    Lemma sys_tri_l : forall i j, 0 <= i < j -> j < m -> Msys fm_lower i j = zero.
    Proof. intros. unfold Msys, described, descr_sem, mL. replace (j <=? i) with false by lia. reflexivity. Qed.
    Lemma sys_tri_u : forall i j, 0 <= j < i -> i < m -> Msys fm_upper i j = zero.
    Proof. intros. unfold Msys, described, descr_sem, mU. replace (i <=? j) with false by lia. reflexivity. Qed.

    (** Finishing a row. *)
    Lemma sv_div_ok : forall fm y i r dj, 0 <= i < m -> m <= zlen y ->
      (dg = dg_non_unit -> in_row ptr 0 i dj /\ zn ind dj = i) ->
      exists v, sv_div O dg val dj i (upd y i r) = Some (upd y i v) /\ Msys fm i i *! v = r.
    Proof.
      intros fm y i r dj Hi Ly Hd. rewrite sys_dia. unfold sv_div.
      assert (C : is_nonunit dg = true /\ dg = dg_non_unit \/ is_nonunit dg = false) by (clear; destruct dg; auto).
      destruct C as [[-> Hn]| ->].
      - destruct (Hd Hn) as [Hr Ei]. destruct (diag_at i dj Hn Hi Hr Ei) as [Ev Hk].
        rewrite (rd_nthZ _ zero) by (rewrite zlen_upd; lia). rewrite (rd_nthZ _ zero) by lia. rewrite wr_upd by (rewrite zlen_upd; lia).
        rewrite upd_twice by lia. rewrite nthZ_upd by lia. rewrite Z.eqb_refl. eexists; split; [reflexivity|]. rewrite Ev.
        transitivity (odiv O r (A i i) *! A i i); [ring|]. apply DL. apply HF; auto.
      - eexists; split; [reflexivity|]. ring.
    Qed.

    Lemma sv_sub_ok : forall y i r q, 0 <= i < m -> m <= zlen y -> in_row ptr 0 i q -> zn ind q <> i ->
      sv_sub O val q i (zn ind q - 0) (upd y i r) = Some (upd y i (r -! tn val q *! tn y (zn ind q))).
    Proof.
      intros y i r q Hi Ly Hq Hne.
      assert (Hr : 0 <= q < nnz) by (eapply in_row_range; eauto using wf_ptr).
      pose proof (wf_ind _ _ _ _ _ _ W q Hr) as Hc. unfold sv_sub. rewrite Z.sub_0_r.
      rewrite (rd_nthZ _ zero) by (rewrite zlen_upd; lia). rewrite (rd_nthZ _ zero) by lia. rewrite (rd_nthZ _ zero) by (rewrite zlen_upd; lia).
      rewrite wr_upd by (rewrite zlen_upd; lia). rewrite upd_twice by lia. rewrite nthZ_upd by lia. rewrite Z.eqb_refl.
      rewrite nthZ_upd_other by lia. reflexivity.
    Qed.

    Lemma lsolve_ok : forall y0, m <= zlen y0 -> rows_grouped m 0 ptr ind ->
      exists y1, csr_lsolve O alpha m val ind ptr x y0 dg 0 = Some y1 /\ untouched m y0 y1 /\
        forall i, 0 <= i < m -> sumz O 0 m (fun j => Msys fm_lower i j *! tn y1 j) = alpha *! tn x i.
    Proof.
      intros y0 Ly G. unfold csr_lsolve. pose proof (wf_m _ _ _ _ _ _ W) as Hm.
      match goal with |- context [for_ 0 m ?f _] =>
        destruct (solve_up m (Msys fm_lower) (fun i => alpha *! tn x i) f y0 (fun _ => True) Hm Ly) with (s0 := 0) as (y1 & s1 & E & U & H) end.
      - intros i y dj Hi Lye _. destruct (row_bounds _ _ _ _ _ _ i W Hi) as (L1 & L2 & B1 & B2 & B3).
        rewrite (rd_nthZ _ zero) by lia. rewrite wr_upd by lia. rewrite (rd_nthZ _ 0) by lia. rewrite (rd_nthZ _ 0) by lia. rewrite !Z.sub_0_r.
        set (D e := sumz O (zn ptr i) e (fun q => tn val q *! tn y (zn ind q))).
        match goal with |- context [forc (zn ptr i) (zn ptr (i + 1)) ?f ?s] =>
          destruct (forc_inv _ unit (fun e (st : list T * Z) => st = (upd y i (alpha *! tn x i -! D e), dj) /\ forall q, zn ptr i <= q < e -> zn ind q < i)
            (fun st => exists e, zn ptr i <= e < zn ptr (i + 1) /\ st = (upd y i (alpha *! tn x i -! D e), if is_nonunit dg && (zn ind e =? i) then e else dj) /\
               (forall q, zn ptr i <= q < e -> zn ind q < i) /\ i <= zn ind e)
            (fun _ => False) (zn ptr i) (zn ptr (i + 1)) f s) as [(st & -> & Q)|(r & _ & [])]; [lia| | |] end.
        + split; [|intros; lia]. unfold D. rewrite (sumz_nil O) by lia. f_equal. f_equal. ring.
        + intros e st He [-> Hlt]. rewrite (rd_nthZ _ 0) by lia.
          destruct (Z.ltb_spec (zn ind e - 0) i) as [Hc|Hc].
          * left. rewrite sv_sub_ok by (unfold in_row; lia). eexists; split; [reflexivity|]. split.
            -- f_equal. f_equal. unfold D. rewrite (sumz_last O L) by lia. ring.
            -- intros q Hq. destruct (Z.eq_dec q e) as [->|]; [lia|apply Hlt; lia].
          * right. left. eexists; split; [reflexivity|]. exists e. split; [lia|]. rewrite Z.sub_0_r. split; [reflexivity|]. split; [auto|lia].
        + assert (Q' : exists e dj', zn ptr i <= e <= zn ptr (i + 1) /\ st = (upd y i (alpha *! tn x i -! D e), dj') /\
             (forall q, zn ptr i <= q < e -> zn ind q < i) /\ (forall q, e <= q < zn ptr (i + 1) -> i <= zn ind q) /\
             (dg = dg_non_unit -> in_row ptr 0 i dj' /\ zn ind dj' = i)).
          { destruct Q as [[-> Hlt]|(e & He & -> & Hlt & Hge)].
            - exists (zn ptr (i + 1)), dj. split; [lia|]. split; [reflexivity|]. split; [auto|]. split; [intros; lia|].
              intros Hn. exfalso. destruct (HF Hn) as (F & _). destruct (F i Hi ltac:(lia)) as (k & Hk & Ek). unfold in_row in Hk.
              specialize (Hlt k ltac:(lia)). lia.
            - assert (Hge' : forall q, e <= q < zn ptr (i + 1) -> i <= zn ind q).
              { intros q Hq. destruct (Z.eq_dec q e) as [->|]; [auto|].
                destruct (G i e q Hi) as [G1 G2]; [unfold in_row; lia|unfold in_row; lia|lia|]. lia. }
              exists e. eexists. split; [lia|]. split; [reflexivity|]. split; [auto|]. split; [auto|].
              intros Hn. destruct (HF Hn) as (F & U & _). destruct (F i Hi ltac:(lia)) as (k & Hk & Ek). unfold in_row in Hk.
              assert (Hke : k = e).
              { destruct (Z.lt_trichotomy k e) as [H|[H|H]]; auto; exfalso.
                - specialize (Hlt k ltac:(lia)). lia.
                - destruct (G i e k Hi) as [G1 G2]; [unfold in_row; lia|unfold in_row; lia|lia|].
                  destruct (Z.eq_dec (zn ind e) i) as [Ee|Ee]; [|lia].
                  pose proof (U i e k Hi ltac:(unfold in_row; lia) ltac:(unfold in_row; lia) ltac:(lia) ltac:(lia)). lia. }
              subst k. rewrite Hn. cbn [is_nonunit andb]. replace (zn ind e =? i) with true by lia. split; [unfold in_row; lia|lia]. }
          destruct Q' as (e & dj' & He & -> & Hlt & Hge & Hd).
          destruct (sv_div_ok fm_lower y i (alpha *! tn x i -! D e) dj' Hi ltac:(lia) Hd) as (v & -> & Hv).
          exists v, dj'. split; [reflexivity|]. split; [exact I|]. rewrite Hv, sys_off by auto. cbn [nondiag].
          rewrite <- (row_part (fun j => j <? i) i (tn y) Hi).
          rewrite (sumz_split O L (zn ptr i) e) by lia. rewrite (sumz_zero O L e).
          2:{ intros q Hq. specialize (Hge q Hq). replace (zn ind q <? i) with false by lia. reflexivity. }
          rewrite (sumz_ext O (zn ptr i) e _ (fun q => tn val q *! tn y (zn ind q))).
          2:{ intros q Hq. specialize (Hlt q Hq). replace (zn ind q <? i) with true by lia. reflexivity. }
          fold (D e). ring.
      - exact I.
      - exact sys_tri_l.
      - exists y1. rewrite E. auto.
    Qed.

    Lemma usolve_ok : forall y0, m <= zlen y0 ->
      exists y1, csr_usolve O alpha m val ind ptr x y0 dg 0 = Some y1 /\ untouched m y0 y1 /\
        forall i, 0 <= i < m -> sumz O 0 m (fun j => Msys fm_upper i j *! tn y1 j) = alpha *! tn x i.
    Proof.
      intros y0 Ly. unfold csr_usolve. pose proof (wf_m _ _ _ _ _ _ W) as Hm.
      match goal with |- context [for_down 0 m ?f _] =>
        destruct (solve_down m (Msys fm_upper) (fun i => alpha *! tn x i) f y0 (fun _ => True) Hm Ly) with (s0 := 0) as (y1 & s1 & E & U & H) end.
      - intros i y dj Hi Lye _. destruct (row_bounds _ _ _ _ _ _ i W Hi) as (L1 & L2 & B1 & B2 & B3).
        rewrite (rd_nthZ _ zero) by lia. rewrite wr_upd by lia. rewrite (rd_nthZ _ 0) by lia. rewrite (rd_nthZ _ 0) by lia. rewrite !Z.sub_0_r.
        set (D e := sumz O (zn ptr i) e (fun q => if i <? zn ind q then tn val q *! tn y (zn ind q) else zero)).
        match goal with |- context [for_ (zn ptr i) (zn ptr (i + 1)) ?f ?s] =>
          destruct (for_inv _ (fun e (st : list T * Z) => exists dj', st = (upd y i (alpha *! tn x i -! D e), dj') /\
             (dg = dg_non_unit -> forall k, zn ptr i <= k < e -> zn ind k = i -> zn ptr i <= dj' < e /\ zn ind dj' = i))
            (zn ptr i) (zn ptr (i + 1)) f s) as (st & -> & dj' & -> & Hd); [lia| | |] end.
        + exists dj. split; [|intros; lia]. unfold D. rewrite (sumz_nil O) by lia. f_equal. f_equal. ring.
        + intros e st He (dj' & -> & Hd). rewrite (rd_nthZ _ 0) by lia.
          assert (Es : (if i <? zn ind e - 0 then sv_sub O val e i (zn ind e - 0) (upd y i (alpha *! tn x i -! D e)) else Some (upd y i (alpha *! tn x i -! D e)))
             = Some (upd y i (alpha *! tn x i -! D (e + 1)))).
          { unfold D at 3. rewrite (sumz_last O L) by lia. fold (D e). rewrite Z.sub_0_r. destruct (Z.ltb_spec i (zn ind e)) as [Hc|Hc].
            - rewrite <- (Z.sub_0_r (zn ind e)) at 1. rewrite sv_sub_ok by (unfold in_row; lia). f_equal. f_equal. ring.
            - f_equal. f_equal. ring. }
          rewrite Es. eexists; split; [reflexivity|]. eexists; split; [reflexivity|].
          intros Hn k Hk Ek. rewrite Hn. cbn [is_nonunit andb]. rewrite Z.sub_0_r. destruct (Z.eqb_spec (zn ind e) i) as [Ee|Ee]; [split; lia|].
          destruct (Z.eq_dec k e) as [->|]; [lia|]. destruct (Hd Hn k ltac:(lia) Ek). lia.
        + destruct (sv_div_ok fm_upper y i (alpha *! tn x i -! D (zn ptr (i + 1))) dj' Hi ltac:(lia)) as (v & -> & Hv).
          { intros Hn. destruct (HF Hn) as (F & _). destruct (F i Hi ltac:(lia)) as (k & Hk & Ek). unfold in_row in *.
            destruct (Hd Hn k); lia. }
          exists v, dj'. split; [reflexivity|]. split; [exact I|]. rewrite Hv, sys_off by auto. cbn [nondiag].
          rewrite <- (row_part (fun j => i <? j) i (tn y) Hi). fold (D (zn ptr (i + 1))). ring.
      - exact I.
      - exact sys_tri_u.
      - exists y1. rewrite E. auto.
    Qed.
  End Sys.

  Lemma csrsv_ok : forall d alpha m nnz val ind ptr x y,
    csr_wf m m nnz 0 ptr ind -> zlen val = nnz -> m <= zlen x -> m <= zlen y ->
    d_base d = 0 -> d_type d = mt_general \/ d_type d = mt_symmetric -> d_diag d <> dg_zero ->
    (d_fill d = fm_lower -> rows_grouped m 0 ptr ind) ->
    (d_diag d = dg_non_unit -> full_diag m m 0 ptr ind /\ diag_unique m 0 ptr ind /\
       forall i, 0 <= i < m -> csr_mat O 0 ptr ind val i i <> zero) ->
    exists y1, csrsv O op_none (Some alpha) m (Some val) (Some ind) (Some ptr) (Some d) (Some x) (Some y) = Some (success, Some y1) /\
      only_strided O m 1 y y1 /\
      solves O m alpha (described O mt_triangular (d_fill d) (d_diag d) (csr_mat O 0 ptr ind val)) x 1 y1 1.
  Proof.
    intros d alpha m nnz val ind ptr x y W Lv Lx Ly Hb Hty Hdz HG HF. pose proof (wf_m _ _ _ _ _ _ W) as Hm. unfold csrsv.
    rewrite Hb. cbn [Z.eqb negb].
    replace (match d_type d with mt_general | mt_symmetric => false | _ => true end) with false by (destruct Hty as [-> | ->]; reflexivity).
    replace (m <? 0) with false by lia.
    assert (FIN : forall y1, untouched m y y1 -> (forall i, 0 <= i < m -> sumz O 0 m (fun j => Msys ptr ind val (d_diag d) (d_fill d) i j *! tn y1 j) = alpha *! tn x i) ->
       only_strided O m 1 y y1 /\ solves O m alpha (described O mt_triangular (d_fill d) (d_diag d) (csr_mat O 0 ptr ind val)) x 1 y1 1).
    { intros y1 [U1 U2] H. split.
      - split; auto. intros p Hp Hne. apply U2. specialize (Hne p). lia.
      - intros i Hi. unfold comp. rewrite Z.mul_1_r. rewrite <- (H i Hi). apply sumz_ext. intros j Hj. rewrite Z.mul_1_r. reflexivity. }
    destruct (Z.eqb_spec m 0) as [->|].
    { exists y. split; [reflexivity|]. apply FIN; [split; auto|]. intros; lia. }
    destruct (d_fill d) eqn:Ef.
    - destruct (lsolve_ok m nnz ptr ind val (d_diag d) alpha x W Lv Lx Hdz HF y Ly (HG eq_refl)) as (y1 & -> & U & H).
      exists y1. split; [reflexivity|]. apply FIN; auto.
    - destruct (usolve_ok m nnz ptr ind val (d_diag d) alpha x W Lv Lx Hdz HF y Ly) as (y1 & -> & U & H).
      exists y1. split; [reflexivity|]. apply FIN; auto.
  Qed.
End P.
