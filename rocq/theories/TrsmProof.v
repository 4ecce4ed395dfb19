(** Triangular solves with several right-hand sides: every column solves its system and
    the order of the columns does not matter. *)
From Coq Require Import ZArith List Bool Lia ZifyBool Permutation.
From Verif Require Import Base BaseFacts Algebra Vec UtilModel UtilProof DoidModel DoidSpec DoidProof Csr CsrFacts CheckSpec SortSpec
  DenseSpec DenseProof MvModel MvSpec MvFacts MvProof CsrmvModel HandleModel HandleSpec HandleFacts OptProof TrsvModel TrsvSpec
  TrsvProof TrsvKernProof TrsvHandleProof CsrmmKernProof TrsmModel TrsmSpec.
Import ListNotations.
Open Scope Z_scope.

Lemma nthZ_skipn : forall A (d : A) l k p, 0 <= k -> 0 <= p -> nthZ d (skipn (Z.to_nat k) l) p = nthZ d l (k + p).
Proof.
  intros A d l k p Hk Hp. unfold nthZ. replace (Z.to_nat (k + p)) with (Z.to_nat k + Z.to_nat p)%nat by lia.
  generalize (Z.to_nat k) as a. clear. induction l as [|y l IH]; intros a.
  - rewrite skipn_nil. destruct (a + Z.to_nat p)%nat, (Z.to_nat p); reflexivity.
  - destruct a; [reflexivity|]. cbn [skipn Nat.add nth]. apply IH.
Qed.
Lemma zlen_firstn : forall A k (l : list A), 0 <= k <= zlen l -> zlen (firstn (Z.to_nat k) l) = k.
Proof. intros A k l H. unfold zlen in *. rewrite firstn_length. lia. Qed.
Lemma nthZ_splice : forall A (d : A) l x k p, 0 <= k <= zlen l -> 0 <= p ->
  nthZ d (firstn (Z.to_nat k) l ++ x) p = if p <? k then nthZ d l p else nthZ d x (p - k).
Proof.
  intros A d l x k p Hk Hp. pose proof (zlen_firstn A k l Hk) as E. destruct (p <? k) eqn:C.
  - rewrite nthZ_app1 by lia. rewrite <- (firstn_skipn (Z.to_nat k) l) at 2. rewrite nthZ_app1 by lia. reflexivity.
  - rewrite nthZ_app2 by lia. rewrite E. reflexivity.
Qed.

Section Fit.
    Context {T : Type}.
    Variables (order m n ldb ldx : Z) (B X : list T).
    Let incb := if order =? 0 then ldb else 1.
    Let incx := if order =? 0 then ldx else 1.
    Let b_off := if order =? 0 then 1 else ldb.
    Let x_off := if order =? 0 then 1 else ldx.
    Hypothesis Hord : order = 0 \/ order = 1.
    Hypothesis Hm : 0 < m.
    Hypothesis Hn : 0 < n.
    Hypothesis FB : window_fits order ldb m n B.
    Hypothesis FX : window_fits order ldx m n X.

    Lemma at_x : forall i j, dense_at order ldx i j = j * x_off + i * incx.
    Proof. intros. unfold dense_at, x_off, incx. destruct Hord as [-> | ->]; cbn; lia. Qed.
    Lemma at_b : forall i j, dense_at order ldb i j = j * b_off + i * incb.
    Proof. intros. unfold dense_at, b_off, incb. destruct Hord as [-> | ->]; cbn; lia. Qed.

    Lemma inc_pos : 0 < incx /\ 0 < incb /\ 0 < x_off /\ 0 < b_off.
    Proof. unfold window_fits, incx, incb, x_off, b_off in *. destruct Hord as [-> | ->]; cbn in *; lia. Qed.

    Lemma x_holds : forall (X' : list T) j, zlen X' = zlen X -> 0 <= j < n -> holds m incx (skipn (Z.to_nat (j * x_off)) X') /\ 0 <= j * x_off <= zlen X.
    Proof.
      intros X' j Hz Hj. destruct inc_pos as (P1 & P2 & P3 & P4).
      pose proof (fits_range order ldx m n X (m - 1) j FX ltac:(lia) Hj) as R1.
      rewrite at_x in R1.
      assert (P : 0 <= j * x_off) by nia. assert (P' : 0 <= (m - 1) * incx) by nia. split; [|lia].
      split; [lia|]. rewrite zlen_skipn; lia.
    Qed.
    Lemma b_holds : forall j, 0 <= j < n -> holds m incb (skipn (Z.to_nat (j * b_off)) B) /\ 0 <= j * b_off <= zlen B.
    Proof.
      intros j Hj. destruct inc_pos as (P1 & P2 & P3 & P4).
      pose proof (fits_range order ldb m n B (m - 1) j FB ltac:(lia) Hj) as R1.
      rewrite at_b in R1.
      assert (P : 0 <= j * b_off) by nia. assert (P' : 0 <= (m - 1) * incb) by nia. split; [|lia].
      split; [lia|]. rewrite zlen_skipn; lia.
    Qed.

End Fit.

Section P.
  Context {T : Type} (O : ops T).
  Local Notation zero := (o0 O).
  Local Notation tn := (nthZ (o0 O)).
  Variable srt : (Z -> Z -> bool) -> list Z -> list Z.
  Variables (fz : Z -> list Z) (ft : Z -> list T).
  Variables (dt : dtype) (choice : Z -> option Z).

  Ltac step2 :=
    repeat match goal with
    | |- (if ?b then _ else _) = _ -> _ => destruct b
    | |- match ?l with [] => _ | _ => _ end = _ -> _ => destruct l
    | |- match ?l with Some _ => _ | None => _ end = _ -> _ => destruct l
    | |- match ?l with success => _ | _ => _ end = _ -> _ => destruct l
    | |- (let '(_, _) := ?p in _) = _ -> _ => destruct p
    | |- _ => progress cbv beta iota zeta
    end.

  Ltac allstep := repeat (step2; match goal with
      | |- match ?e with Some _ => _ | None => _ end = _ -> _ => destruct e
      | |- None = _ -> _ => discriminate
      end).

  (** Status and handle do not depend on the vectors. *)
  Lemma trsv_lockstep : forall w op alpha h d r1 r2 incb x1 x2 incx kid s1 y1 g1 s2 y2 g2,
    trsv O dt choice srt fz ft w op alpha (Some h) (Some d) (Some r1) incb (Some x1) incx kid = Some (s1, y1, g1) ->
    trsv O dt choice srt fz ft w op alpha (Some h) (Some d) (Some r2) incb (Some x2) incx kid = Some (s2, y2, g2) ->
    s1 = s2 /\ g1 = g2.
  Proof.
    intros until g2. unfold trsv.
    allstep; step2; (let E1 := fresh in intros E1; inversion E1; subst; clear E1); allstep; step2;
    (let E2 := fresh in intros E2; inversion E2; subst; auto).
  Qed.

  (** An optimised handle is left alone. *)
  Lemma trsv_fix : forall w op alpha h d rhs incb x incx kid r s y g,
    csr_csc_optimize O srt fz ft h = Some (success, h, r) ->
    trsv O dt choice srt fz ft w op alpha (Some h) (Some d) (Some rhs) incb (Some x) incx kid = Some (s, y, g) -> g = Some h.
  Proof.
    intros until g. intros E. unfold trsv. rewrite E.
    allstep; step2; (let E2 := fresh in intros E2; inversion E2; subst; auto).
  Qed.

  Definition col_out (m incb incx : Z) (alpha : T) (M : Z -> Z -> T) (Q : status -> Prop) (rhs x : list T) (st : status) (xr : option (list T)) : Prop :=
    st = success /\ (exists x1, xr = Some x1 /\ only_strided O m incx x x1 /\ solves O m alpha M rhs incb x1 incx) \/
    st <> success /\ xr = None /\ Q st.

  Section Columns.
    Variables (w : Z) (op : operation) (alpha : T) (d : descr) (order m n ldb ldx kid : Z) (B X : list T) (h1 : hnd T) (r : option Z).
    Variables (M : Z -> Z -> T) (Q : status -> Prop).
    Let incb := if order =? 0 then ldb else 1.
    Let incx := if order =? 0 then ldx else 1.
    Let b_off := if order =? 0 then 1 else ldb.
    Let x_off := if order =? 0 then 1 else ldx.
    Hypothesis Hord : order = 0 \/ order = 1.
    Hypothesis Hm : 0 < m.
    Hypothesis Hn : 0 < n.
    Hypothesis FB : window_fits order ldb m n B.
    Hypothesis FX : window_fits order ldx m n X.
    Hypothesis Fix_ : csr_csc_optimize O srt fz ft h1 = Some (success, h1, r).
    Hypothesis Col : forall rhs x, holds m incb rhs -> holds m incx x -> exists st xr h',
      trsv O dt choice srt fz ft w op alpha (Some h1) (Some d) (Some rhs) incb (Some x) incx kid = Some (st, xr, Some h') /\
      col_out m incb incx alpha M Q rhs x st xr.

    Let at_x' := at_x order m n ldb ldx B X Hord FB FX : forall i j, dense_at order ldx i j = j * x_off + i * incx.
    Let at_b' := at_b order m n ldb ldx B X Hord FB FX : forall i j, dense_at order ldb i j = j * b_off + i * incb.
    Let b_holds' := b_holds order m n ldb ldx B X Hord Hm Hn FB FX.
    Let x_holds' := x_holds order m n ldb ldx B X Hord Hm Hn FB FX.

    Lemma columns_ok : forall sched, Permutation sched (zrange 0 n) -> exists st X1,
      foldM (trsm_column O dt choice srt fz ft w op alpha d B b_off incb x_off incx kid) sched (success, X, h1) = Some (st, X1, h1) /\
      (st = success /\ only_window zero order ldx m n X X1 /\ solves_many O m n alpha M order B ldb X1 ldx \/
       st <> success /\ X1 = X /\ Q st).
    Proof.
      intros sched PM. pose proof (inc_pos order m n ldb ldx B X Hord Hm Hn FB FX) as (P1 & P2 & P3 & P4).
      assert (InS : forall j, In j sched <-> 0 <= j < n).
      { intros j. rewrite <- in_zrange. split; apply Permutation_in; auto using Permutation_sym. }
      assert (ND : NoDup sched) by (apply (Permutation_NoDup (Permutation_sym PM)); apply NoDup_zrange).
      destruct (Col _ _ (proj1 (b_holds' 0 ltac:(lia))) (proj1 (x_holds' X 0 eq_refl ltac:(lia)))) as (s0 & xr0 & g0 & E0 & C0).
      assert (Step : forall X' j, zlen X' = zlen X -> 0 <= j < n -> exists xr,
        trsv O dt choice srt fz ft w op alpha (Some h1) (Some d) (Some (skipn (Z.to_nat (j * b_off)) B)) incb
          (Some (skipn (Z.to_nat (j * x_off)) X')) incx kid = Some (s0, xr, Some h1) /\
        col_out m incb incx alpha M Q (skipn (Z.to_nat (j * b_off)) B) (skipn (Z.to_nat (j * x_off)) X') s0 xr).
      { intros X' j Hz Hj. destruct (Col _ _ (proj1 (b_holds' j Hj)) (proj1 (x_holds' X' j Hz Hj))) as (s1 & xr1 & g1 & E1 & C1).
        destruct (trsv_lockstep _ _ _ _ _ _ _ _ _ _ _ _ _ _ _ _ _ _ E0 E1) as [<- Eg]. inversion Eg; subst g1.
        rewrite (trsv_fix _ _ _ _ _ _ _ _ _ _ _ _ _ _ Fix_ E1) in E1. exists xr1. auto. }
      assert (NE : sched <> []) by (intros ->; apply (proj2 (InS 0)); lia).
      assert (Es : s0 = success \/ s0 <> success) by (destruct s0; first [left; reflexivity | right; discriminate]). destruct Es as [Es|Es].
      - (* every column is solved *)
        subst s0.
        destruct (foldM_inv _ _ (trsm_column O dt choice srt fz ft w op alpha d B b_off incb x_off incx kid)
          (fun pre s => exists X1, s = (success, X1, h1) /\ zlen X1 = zlen X /\
             (forall j, In j pre -> forall i, 0 <= i < m ->
                sumz O 0 m (fun l => omul O (M i l) (tn X1 (dense_at order ldx l j))) = omul O alpha (tn B (dense_at order ldb i j))) /\
             (forall p, 0 <= p < zlen X -> (forall i j, 0 <= i < m -> In j pre -> dense_at order ldx i j <> p) -> tn X1 p = tn X p))
          sched (success, X, h1)) as (s & Es & X1 & -> & LX & SV & OUT).
        { exists X. ands; auto. intros j []. }
        { intros pre j post s El (X1 & -> & LX & SV & OUT).
          assert (Hj : 0 <= j < n) by (apply InS; rewrite El; apply in_or_app; right; left; reflexivity).
          assert (Hpre : forall k, In k pre -> 0 <= k < n /\ k <> j).
          { intros k Hk. split; [apply InS; rewrite El; apply in_or_app; left; auto|]. intros ->.
            rewrite El in ND. apply NoDup_remove_2 in ND. apply ND. apply in_or_app; left; auto. }
          destruct (Step X1 j LX Hj) as (xr & Et & [[_ (x1 & -> & [LS OS] & SO)]|[Ne _]]); [|congruence].
          unfold trsm_column. rewrite Et.
          destruct (x_holds' X1 j LX Hj) as [_ RX]. destruct (b_holds' j Hj) as [_ RB].
          rewrite zlen_skipn in LS by lia.
          set (X2 := firstn (Z.to_nat (j * x_off)) X1 ++ x1).
          assert (LX2 : zlen X2 = zlen X) by (unfold X2; rewrite zlen_app, zlen_firstn by lia; lia).
          assert (G : forall p, 0 <= p < zlen X -> (forall i, 0 <= i < m -> p <> dense_at order ldx i j) -> tn X2 p = tn X1 p).
          { intros p Hp Hd. unfold X2. rewrite nthZ_splice by lia. destruct (p <? j * x_off) eqn:C; [reflexivity|].
            rewrite OS.
            - rewrite nthZ_skipn by lia. f_equal; lia.
            - rewrite zlen_skipn by lia. lia.
            - intros i Hi He. apply (Hd i Hi). rewrite at_x'. lia. }
          eexists. split; [reflexivity|]. exists X2. split; [reflexivity|]. split; [exact LX2|]. split.
          - intros k Hk i Hi. apply in_app_or in Hk. destruct Hk as [Hk|[<-|[]]].
            + rewrite <- (SV k Hk i Hi). apply sumz_ext. intros l Hl. f_equal. apply G.
              * apply (fits_range order ldx m n); auto. apply Hpre; auto.
              * intros i' Hi' He. destruct (Hpre k Hk) as [Hk1 Hk2].
                destruct (at_inj order ldx m n X l k i' j FX) as [_ E']; auto.
            + specialize (SO i Hi). unfold comp in SO. rewrite nthZ_skipn in SO by nia.
              rewrite at_b'. rewrite <- SO. apply sumz_ext. intros l Hl. f_equal. rewrite at_x'. unfold X2.
              assert (0 <= l * incx) by nia. rewrite nthZ_splice by lia.
              replace (j * x_off + l * incx <? j * x_off) with false by lia. f_equal; lia.
          - intros p Hp Hd. rewrite G; auto.
            + apply OUT; auto. intros i k Hi Hk. apply Hd; auto. apply in_or_app; left; auto.
            + intros i Hi He. apply (Hd i j Hi); auto. apply in_or_app; right; left; reflexivity. }
        exists success, X1. split; [exact Es|]. left. split; [reflexivity|]. split.
        + split; [exact LX|]. intros p Hp Hd. apply OUT; auto. intros i j Hi Hj. apply Hd; auto. apply InS; auto.
        + intros i j Hi Hj. apply SV; auto. apply InS; auto.
      - (* no column is written *)
        assert (QS : Q s0) by (destruct C0 as [[C0 _]|(_ & _ & C0)]; [contradiction|exact C0]).
        destruct (foldM_inv _ _ (trsm_column O dt choice srt fz ft w op alpha d B b_off incb x_off incx kid)
          (fun pre s => s = (match pre with [] => success | _ => s0 end, X, h1)) sched (success, X, h1)) as (s & E & ->).
        { reflexivity. }
        { intros pre j post s El ->.
          assert (Hj : 0 <= j < n) by (apply InS; rewrite El; apply in_or_app; right; left; reflexivity).
          destruct (Step X j eq_refl Hj) as (xr & Et & [[Ne _]|(_ & -> & _)]); [contradiction|].
          unfold trsm_column. rewrite Et. eexists. split; [reflexivity|]. destruct pre; reflexivity. }
        exists s0, X. split; [destruct sched; [congruence|exact E]|]. right. auto.
    Qed.
  End Columns.
End P.

Section H.
  Context {T : Type} (O : ops T) (L : laws O) (DL : div_law O).
  Local Notation zero := (o0 O).
  Variable srt : (Z -> Z -> bool) -> list Z -> list Z.
  Variables (fz : Z -> list Z) (ft : Z -> list T).
  Hypothesis Hsrt : sort_contract srt.
  Hypothesis Hfz : forall z, 0 <= z -> zlen (fz z) = z.
  Hypothesis Hft : forall z, 0 <= z -> zlen (ft z) = z.
  Variables (dt : dtype) (choice : Z -> option Z).
  Hypothesis Hreal : is_cplx dt = false -> forall a, ocj O a = a.

  Lemma trsm_ok : forall w sched h u d op alpha order B n ldb X ldx kid,
    hnd_ok zero h u -> sortable u -> diag_flag_ok h u -> H_m h = H_n h -> 0 < H_m h -> 0 < H_nnz h -> 0 < n ->
    d_base d = c_b u -> valid_op op = true -> d_type d = mt_triangular \/ d_type d = mt_symmetric -> d_diag d <> dg_zero ->
    order = 0 \/ order = 1 ->
    0 < w -> H_m h <= 2 ^ w - 1 -> n <= 2 ^ w - 1 -> ldx <= 2 ^ w - 1 -> ldb <= 2 ^ w - 1 ->
    window_fits order ldb (H_m h) n B -> window_fits order ldx (H_m h) n X ->
    Permutation sched (zrange 0 n) ->
    (d_diag d = dg_non_unit -> full_diag (c_m u) (c_n u) (c_b u) (c_ptr u) (c_ind u) ->
       forall i, 0 <= i < H_m h -> hnd_mat O u i i <> zero) ->
    (choice kid = Some 0 \/ (if c_doid u =? gt then is_none op else negb (is_none op)) = false \/
       alpha <> zero /\ rows_distinct (c_m u) (c_b u) (c_ptr u) (c_ind u)) ->
    exists st X1 h' u',
      trsm O dt choice srt fz ft w sched op alpha (Some h) (Some d) order (Some B) n ldb (Some X) ldx kid = Some (st, Some X1, Some h') /\
      hnd_ok zero h' u' /\ same_data u u' /\ diag_flag_ok h' u' /\
      H_m h' = H_m h /\ H_n h' = H_n h /\ H_nnz h' = H_nnz h /\ H_hints h' = H_hints h /\
      (st = success /\ only_window zero order ldx (H_m h) n X X1 /\
         solves_many O (H_m h) n alpha (op_sem O op (described O mt_triangular (d_fill d) (d_diag d) (hnd_mat O u))) order B ldb X1 ldx \/
       X1 = X /\
       (st = invalid_value /\ d_diag d = dg_non_unit /\ ~ full_diag (c_m u) (c_n u) (c_b u) (c_ptr u) (c_ind u) \/
        st = invalid_kid /\ choice kid = None \/
        st = invalid_size /\ (2 ^ w - 1 < (if order =? 0 then H_m h - 1 else n) * ldx \/ 2 ^ w - 1 < (if order =? 0 then H_m h - 1 else n) * ldb))).
  Proof.
    intros w sched h u d op alpha order B n ldb X ldx kid HOK HS HF Hsq Hm Hz Hn Hb Hop Hty Hdz Hord Hw Bm Bn Bx Bb FB FX PM NZ Hcol.
    pose proof HOK as (UM & rest & EM & HO & HFo).
    pose proof UM as ((W & U & Lv & Hbase) & _).
    pose proof (inc_pos order (H_m h) n ldb ldx B X Hord Hm Hn FB FX) as (P1 & P2 & P3 & P4).
    set (incb := if order =? 0 then ldb else 1) in *. set (incx := if order =? 0 then ldx else 1) in *.
    set (b_off := if order =? 0 then 1 else ldb) in *. set (x_off := if order =? 0 then 1 else ldx) in *.
    destruct (optimize_twice O srt fz ft Hsrt Hfz Hft h u HOK HS) as (h1 & i1 & E1 & E2).
    assert (Ix : 0 < incx <= 2 ^ w - 1) by (unfold incx in *; destruct (order =? 0); lia).
    assert (Ib : 0 < incb <= 2 ^ w - 1) by (unfold incb in *; destruct (order =? 0); lia).
    (* the first solve tells what the optimised handle is *)
    destruct (b_holds order (H_m h) n ldb ldx B X Hord Hm Hn FB FX 0 ltac:(lia)) as [HB0 _].
    destruct (x_holds order (H_m h) n ldb ldx B X Hord Hm Hn FB FX X 0 eq_refl ltac:(lia)) as [HX0 _].
    destruct (trsv_handle_ok O L DL srt fz ft Hsrt Hfz Hft dt choice Hreal w h u d op alpha _ incb _ incx kid
      HOK HS HF Hsq Hm Hz Hb Hop Hty Hdz Hw Bm (proj2 Ix) (proj2 Ib) HX0 HB0 NZ Hcol)
      as (s0 & xr0 & g0 & u' & E0 & HOK' & SD & DF & D1 & D2 & D3 & D4 & _).
    assert (g0 = h1) as ->.
    { revert E0. unfold trsv. rewrite EM, E1.
      replace ((H_m h <=? 0) || (H_nnz h <=? 0)) with false by lia.
      replace (negb (H_m h =? H_n h) || (incb <=? 0) || (incx <=? 0)) with false by lia.
      replace (negb (c_b u =? d_base d)) with false by lia.
      replace (negb ((d_base d =? 0) || (d_base d =? 1))) with false by lia. rewrite Hop. cbn [negb].
      replace (match d_type d with mt_symmetric | mt_triangular => false | _ => true end) with false by (destruct Hty as [-> | ->]; reflexivity).
      replace (diag_eqb (d_diag d) dg_zero) with false by (destruct (d_diag d); auto; congruence).
      clear. intros E.
      repeat (match type of E with
        | (if ?b then _ else _) = _ => destruct b
        | match ?l with Some _ => _ | None => _ end = _ => destruct l
        | None = _ => discriminate
        | _ => progress cbv beta iota zeta in E
        end); inversion E; subst; auto. }
    pose proof SD as (S1 & S2 & S3 & S4 & S5 & S6 & S7 & S8).
    assert (ME : hnd_mat O u' = hnd_mat O u) by (unfold hnd_mat; rewrite S4, S5, S6, S7, S8; reflexivity).
    unfold trsm. rewrite EM.
    replace (negb (c_b u =? d_base d)) with false by lia.
    replace ((H_m h <? 0) || (H_nnz h <? 0) || (n <? 0)) with false by lia.
    replace ((H_m h =? 0) || (H_n h =? 0) || (H_nnz h =? 0) || (n =? 0)) with false by lia.
    replace (negb (H_m h =? H_n h)) with false by lia.
    assert (Lx : 0 <= ldx /\ 0 <= ldb) by (unfold window_fits in *; destruct (order =? 1); lia).
    replace ((ldb <? 0) || (ldx <? 0)) with false by lia.
    replace (negb ((d_base d =? 0) || (d_base d =? 1))) with false by lia. rewrite Hop. cbn [negb].
    replace (match d_type d with mt_symmetric | mt_triangular => false | _ => true end) with false by (destruct Hty as [-> | ->]; reflexivity).
    rewrite E1. replace (negb ((order =? 0) || (order =? 1))) with false by lia. cbv zeta.
    fold incb incx b_off x_off.
    destruct (int_product_exact_nonneg w n b_off) as (o1 & -> & O1); [lia|unfold int_max; lia|unfold int_max, b_off; destruct (order =? 0); lia|].
    destruct (int_product_exact_nonneg w n x_off) as (o2 & -> & O2); [lia|unfold int_max; lia|unfold int_max, x_off; destruct (order =? 0); lia|].
    unfold int_max in O1, O2.
    destruct (o1 || o2) eqn:Eo.
    { exists invalid_size, X, h1, u'. split; [reflexivity|]. ands; auto. right. split; [reflexivity|]. right. right. split; [reflexivity|].
      unfold b_off, x_off in *. destruct (order =? 0); destruct o1, o2; try discriminate; intuition lia. }
    destruct (columns_ok O srt fz ft dt choice w op alpha d order (H_m h) n ldb ldx kid B X h1 (Some i1)
      (op_sem O op (described O mt_triangular (d_fill d) (d_diag d) (hnd_mat O u)))
      (fun st => st = invalid_value /\ d_diag d = dg_non_unit /\ ~ full_diag (c_m u) (c_n u) (c_b u) (c_ptr u) (c_ind u) \/
        st = invalid_kid /\ choice kid = None \/
        st = invalid_size /\ (2 ^ w - 1 < (H_m h - 1) * incx \/ 2 ^ w - 1 < (H_m h - 1) * incb))
      Hord Hm Hn FB FX E2) with (sched := sched) as (st & X1 & EF & OUT); auto.
    - intros rhs x HB HX. fold incb in HB |- *. fold incx in HX |- *.
      destruct (trsv_handle_ok O L DL srt fz ft Hsrt Hfz Hft dt choice Hreal w h1 u' d op alpha rhs incb x incx kid)
        as (st & xr & h2 & u2 & ET & _ & _ & _ & _ & _ & _ & _ & CASES); auto; try lia.
      + destruct HS as [HS|HS]; [left|right]; rewrite S1, S5, S6, S7; exact HS.
      + rewrite D1. exact HX.
      + rewrite D1. exact HB.
      + rewrite S1, S2, S5, S6, S7, D1. intros Hu Hfd q Hq. rewrite ME. apply NZ; auto.
      + rewrite S1, S4, S5, S6, S7. exact Hcol.
      + exists st, xr, h2. split; [exact ET|]. rewrite S1, S2, S5, S6, S7, D1 in CASES.
        destruct CASES as [(-> & x1 & -> & OS & SV)|[(-> & -> & C)|[(-> & -> & C)|(-> & -> & C)]]].
        * left. split; [reflexivity|]. exists x1. split; [reflexivity|]. split; [exact OS|]. rewrite ME in SV. exact SV.
        * right. split; [discriminate|]. auto.
        * right. split; [discriminate|]. auto.
        * right. split; [discriminate|]. split; [reflexivity|]. auto.
    - fold incb incx b_off x_off in EF. rewrite EF. exists st, X1, h1, u'. split; [reflexivity|]. ands; auto.
      destruct OUT as [(-> & OW & SM)|(Ne & -> & [C|[C|(-> & C)]])]; auto.
      right. split; [reflexivity|]. right. right. split; [reflexivity|].
      unfold incx, incb in C. destruct (order =? 0) eqn:Eord; [exact C|]. lia.
  Qed.
End H.
