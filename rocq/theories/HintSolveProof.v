(** Copies made for hinted products play no part in the triangular solves. *)
From Coq Require Import ZArith List Bool Lia ZifyBool Permutation.
From Verif Require Import Base BaseFacts Algebra Csr CheckModel CheckSpec SortSpec DoidModel DoidSpec DenseSpec
  UtilModel MvModel MvSpec CsrmvModel HandleModel HandleSpec HandleFacts OptProof ExpandSpec CsrmmSpec HintMvSpec HintMvProof TrsvModel TrsvSpec TrsvProof TrsvHandleProof
  TrsmModel TrsmSpec TrsmProof.
Import ListNotations.
Open Scope Z_scope.

Section P.
  Context {T : Type} (O : ops T) (L : laws O).
  Variable srt : (Z -> Z -> bool) -> list Z -> list Z.
  Variables (fz : Z -> list Z) (ft : Z -> list T).
  Hypothesis Hsrt : sort_contract srt.
  Hypothesis Hfz : forall z, 0 <= z -> zlen (fz z) = z.
  Hypothesis Hft : forall z, 0 <= z -> zlen (ft z) = z.
  Variables (dt : dtype) (choice : Z -> option Z).

  Hypothesis Hreal : is_cplx dt = false -> forall a, ocj O a = a.

  Definition is_opt (e : option (cmat T)) : bool := match e with Some c => c_opt c | None => false end.
  (** [h0] is [h] without the copies made for hinted products *)
  Definition stripped (h h0 : hnd T) : Prop :=
    exists u rest, H_mats h = Some u :: rest /\ h0 = set_mats h (Some u :: filter is_opt rest).

  Lemma stripped_dims : forall h h0, stripped h h0 -> H_m h0 = H_m h /\ H_n h0 = H_n h /\ H_nnz h0 = H_nnz h /\ H_optfull h0 = H_optfull h /\ H_hints h0 = H_hints h.
  Proof. intros h h0 (u & rest & _ & ->). cbn. auto. Qed.

  Lemma hint_strip : forall h u, hint_hnd O h u -> exists h0, stripped h h0 /\ hnd_ok (o0 O) h0 u.
  Proof.
    intros h u (UM & rest & EM & HO & HF). exists (set_mats h (Some u :: filter is_opt rest)). split; [exists u, rest; auto|].
    split; [exact UM|]. exists (filter is_opt rest). split; [reflexivity|]. split; [exact HO|].
    apply Forall_forall. intros e He. apply filter_In in He. destruct He as [He Ho]. rewrite Forall_forall in HF.
    destruct (HF e He) as (c & -> & [(K1 & K2 & K3 & K4 & K5 & K6)|(_ & K & _)]); [exists c; auto 10|]. cbn in Ho. congruence.
  Qed.
  Lemma strip_flag : forall h h0 u, stripped h h0 -> diag_flag_ok h0 u <-> diag_flag_ok h u.
  Proof.
    intros h h0 u (v & rest & EM & ->). unfold diag_flag_ok. cbn [set_mats H_mats H_optfull]. rewrite EM.
    split; intros K (c & Ic & Oc); apply K; exists c; (split; [|exact Oc]); destruct Ic as [->|Ic]; try (left; reflexivity); right.
    - apply filter_In. auto.
    - apply filter_In in Ic. tauto.
  Qed.

  Lemma first_opt_filter : forall l k k', match first_opt l k, first_opt (filter is_opt l) k' with
    | Some (_, c), Some (_, c') => c = c' | None, None => True | _, _ => False end.
  Proof.
    induction l as [|[c|] l IH]; intros k k'; cbn [first_opt filter is_opt]; [exact I| |exact (IH _ _)].
    destruct (c_opt c) eqn:E; [|exact (IH _ _)]. cbn [first_opt]. rewrite E. reflexivity.
  Qed.
  Lemma filter_none : forall (l : list (option (cmat T))) k, first_opt l k = None -> filter is_opt l = [].
  Proof.
    induction l as [|[c|] l IH]; intros k E; cbn [first_opt filter is_opt] in *; auto; [|eauto].
    destruct (c_opt c); [discriminate|]. eauto.
  Qed.
  Lemma set_self : forall h : hnd T, set_mats h (H_mats h) = h.
  Proof. intros []. reflexivity. Qed.

  Lemma rd_end : forall (l : list (option (cmat T))) a, rd (l ++ [a]) (zlen l) = Some a.
  Proof.
    intros l a. unfold rd, zlen. replace (Z.of_nat (length l) <? 0) with false by lia. rewrite Nat2Z.id, nth_error_app2 by lia.
    rewrite Nat.sub_diag. reflexivity.
  Qed.
  (** the optimised matrix is the same with and without the hinted copies *)
  Lemma strip_optimize : forall h h0 h0' i0 c, stripped h h0 -> csr_csc_optimize O srt fz ft h0 = Some (success, h0', Some i0) ->
    rd (H_mats h0') i0 = Some (Some c) -> c_opt c = true ->
    exists h' i, csr_csc_optimize O srt fz ft h = Some (success, h', Some i) /\ stripped h' h0' /\ rd (H_mats h') i = Some (Some c).
  Proof.
    intros h h0 h0' i0 c HS E R Oc. pose proof HS as (u & rest & EM & E0). unfold csr_csc_optimize in *. rewrite EM. rewrite E0 in E. cbn [set_mats H_mats] in E.
    cbn [first_opt] in *. destruct (c_opt u) eqn:Eu.
    - injection E as <- <-. cbn in R. injection R as <-. exists h, 0. rewrite EM. split; [reflexivity|]. split; [|reflexivity]. exists u, rest. auto.
    - pose proof (first_opt_filter rest (0 + 1) (0 + 1)) as FF.
      destruct (first_opt rest (0 + 1)) as [[i c']|] eqn:E1, (first_opt (filter is_opt rest) (0 + 1)) as [[i' c'']|] eqn:E2; try contradiction.
      + subst c''. injection E as <- <-. cbn [set_mats H_mats] in R.
        assert (F1 : first_opt (Some u :: rest) 0 = Some (i, c')) by (cbn [first_opt]; rewrite Eu; exact E1).
        assert (F2 : first_opt (Some u :: filter is_opt rest) 0 = Some (i', c')) by (cbn [first_opt]; rewrite Eu; exact E2).
        destruct (first_opt_rd _ _ _ _ _ F1) as (_ & R1 & _). destruct (first_opt_rd _ _ _ _ _ F2) as (_ & R2 & _).
        rewrite Z.sub_0_r in R1, R2. rewrite R2 in R. injection R as <-. exists h, i. split; [reflexivity|]. rewrite EM. split; [exists u, rest; auto|exact R1].
      + cbn [first_csr] in *. destruct (negb ((c_b u =? 0) || (c_b u =? 1))); [discriminate|].
        rewrite (filter_none _ _ E1) in E. destruct (slow_lift O srt fz ft h rest u h0' i0 E) as (c1 & j & l & R1 & E3 & D).
        assert (c1 = c) by congruence. subst c1.
        rewrite <- EM, set_self in E3. rewrite E3. exists (set_mats h0' l), j. split; [reflexivity|].
        destruct D as [(D1 & -> & ->)|(D1 & -> & ->)].
        * split; [|reflexivity]. exists c, rest. split; [reflexivity|]. rewrite (filter_none _ _ E1). rewrite <- D1. destruct h0'; reflexivity.
        * split.
          { exists u, (rest ++ [Some c]). split; [reflexivity|]. rewrite filter_app, (filter_none _ _ E1). cbn [filter is_opt app]. rewrite Oc, <- D1. destruct h0'; reflexivity. }
          cbn [set_mats H_mats]. replace (1 + zlen rest) with (zlen (Some u :: rest)) by (rewrite zlen_cons; lia).
          apply (rd_end (Some u :: rest)).
  Qed.

  Lemma same_data_trans : forall u v w : cmat T, same_data u v -> same_data v w -> same_data u w.
  Proof.
    intros u v w (S1 & S2 & S3 & S4 & S5 & S6 & S7 & S8) (R1 & R2 & R3 & R4 & R5 & R6 & R7 & R8). unfold same_data.
    rewrite R1, R2, R3, R4, R5, R6, R7, R8. auto 10.
  Qed.
  Lemma same_sortable : forall u u' : cmat T, same_data u u' -> sortable u -> sortable u'.
  Proof. intros u u' (S1 & S2 & S3 & S4 & S5 & S6 & S7 & S8). unfold sortable. rewrite S1, S5, S6, S7. auto. Qed.

  (** as [strip_optimize], on handles with hinted copies *)
  Lemma hint_strip_optimize : forall h h0 u, hint_hnd O h u -> sortable u -> stripped h h0 ->
    exists h0' i0 h' i c u', csr_csc_optimize O srt fz ft h0 = Some (success, h0', Some i0) /\ rd (H_mats h0') i0 = Some (Some c) /\
      csr_csc_optimize O srt fz ft h = Some (success, h', Some i) /\ rd (H_mats h') i = Some (Some c) /\
      stripped h' h0' /\ hint_hnd O h' u' /\ same_data u u'.
  Proof.
    intros h h0 u HH Hs ST. destruct (hint_strip h u HH) as (h1 & ST1 & HOK).
    assert (h1 = h0). { destruct ST as (a & l & EA & ->), ST1 as (b & l' & EB & ->). rewrite EA in EB. injection EB as <- <-. reflexivity. }
    subst h1.
    destruct (optimize_ok O srt fz ft Hsrt Hfz Hft h0 u HOK Hs) as (h0' & i0 & c & u' & E & _ & _ & _ & _ & _ & _ & R & Oc & _).
    destruct (strip_optimize h h0 h0' i0 c ST E R Oc) as (h' & i & E' & ST' & R').
    destruct (hint_optimize O srt fz ft Hsrt Hfz Hft (fun _ => true) eq_refl dt choice 1 [] (or_introl (Z.le_refl 1)) Hreal h u HH Hs) as (h'' & i'' & c'' & u'' & E'' & HH'' & SD & _).
    rewrite E' in E''. injection E'' as <- <-. exists h0', i0, h', i, c, u''. auto 10.
  Qed.

  Lemma trsv_sim : forall h h0 u w op alpha d rhs incb x incx kid st xr h0', hint_hnd O h u -> sortable u -> stripped h h0 ->
    trsv O dt choice srt fz ft w op alpha (Some h0) (Some d) (Some rhs) incb (Some x) incx kid = Some (st, xr, Some h0') ->
    exists h' u', trsv O dt choice srt fz ft w op alpha (Some h) (Some d) (Some rhs) incb (Some x) incx kid = Some (st, xr, Some h') /\
      stripped h' h0' /\ hint_hnd O h' u' /\ same_data u u'.
  Proof.
    intros h h0 u w op alpha d rhs incb x incx kid st xr h0' HH Hs ST.
    destruct (hint_strip_optimize h h0 u HH Hs ST) as (g0 & i0 & g & i & c & u' & E0 & R0 & E & R & ST' & HH' & SD).
    destruct (stripped_dims _ _ ST) as (D1 & D2 & D3 & _). destruct (stripped_dims _ _ ST') as (G1 & _ & _ & G4 & _).
    pose proof HH as (_ & rest & EM & _). assert (EM0 : H_mats h0 = Some u :: filter is_opt rest).
    { destruct ST as (a & l & EA & ->). rewrite EM in EA. injection EA as <- <-. reflexivity. }
    unfold trsv. rewrite EM, EM0, E, E0, D1, D2, D3. cbv beta iota zeta. rewrite R, R0, G1, G4. cbv beta iota zeta.
    repeat match goal with
      | |- (if ?b then _ else _) = _ -> _ => destruct b
      | |- match ?e with Some _ => _ | None => _ end = _ -> _ => destruct e
      | |- None = _ -> _ => discriminate
      | |- Some _ = _ -> _ => let K := fresh in intros K; injection K as <- <- <-;
            first [exists h, u; do 3 (split; [first [reflexivity|assumption]|]); apply same_data_refl | exists g, u'; auto; fail]
      | |- _ => progress cbv beta iota zeta
      end.
  Qed.

  Lemma fold_sim : forall w op alpha d B b_off incb x_off incx kid sched st0 X0 h h0 u st X1 h0',
    hint_hnd O h u -> sortable u -> stripped h h0 ->
    foldM (trsm_column O dt choice srt fz ft w op alpha d B b_off incb x_off incx kid) sched (st0, X0, h0) = Some (st, X1, h0') ->
    exists h' u', foldM (trsm_column O dt choice srt fz ft w op alpha d B b_off incb x_off incx kid) sched (st0, X0, h) = Some (st, X1, h') /\
      stripped h' h0' /\ hint_hnd O h' u' /\ same_data u u'.
  Proof.
    intros w op alpha d B b_off incb x_off incx kid. induction sched as [|j sched IH]; intros st0 X0 h h0 u st X1 h0' HH Hs ST E.
    - cbn [foldM] in *. injection E as <- <- <-. exists h, u. auto using same_data_refl.
    - cbn [foldM] in *. unfold trsm_column at 1 in E. unfold trsm_column at 1.
      destruct (trsv O dt choice srt fz ft w op alpha (Some h0) (Some d) _ incb _ incx kid) as [[[s xr] [g0|]]|] eqn:Et; try discriminate.
      destruct (trsv_sim _ _ _ _ _ _ _ _ _ _ _ _ _ _ _ HH Hs ST Et) as (g & v & Eg & ST' & HH' & SD). rewrite Eg. cbv beta iota zeta in *.
      destruct (IH _ _ _ _ _ _ _ _ HH' (same_sortable _ _ SD Hs) ST' E) as (h' & u' & E' & K1 & K2 & K3).
      exists h', u'. split; [exact E'|]. split; [exact K1|]. split; [exact K2|]. eapply same_data_trans; eauto.
  Qed.

  Lemma trsm_sim : forall h h0 u w sched op alpha d order B n ldb X ldx kid st Xr h0', hint_hnd O h u -> sortable u -> stripped h h0 ->
    trsm O dt choice srt fz ft w sched op alpha (Some h0) (Some d) order (Some B) n ldb (Some X) ldx kid = Some (st, Xr, Some h0') ->
    exists h' u', trsm O dt choice srt fz ft w sched op alpha (Some h) (Some d) order (Some B) n ldb (Some X) ldx kid = Some (st, Xr, Some h') /\
      stripped h' h0' /\ hint_hnd O h' u' /\ same_data u u'.
  Proof.
    intros h h0 u w sched op alpha d order B n ldb X ldx kid st Xr h0' HH Hs ST.
    destruct (hint_strip_optimize h h0 u HH Hs ST) as (g0 & i0 & g & i & c & u' & E0 & R0 & E & R & ST' & HH' & SD).
    destruct (stripped_dims _ _ ST) as (D1 & D2 & D3 & _).
    pose proof HH as (_ & rest & EM & _). assert (EM0 : H_mats h0 = Some u :: filter is_opt rest).
    { destruct ST as (a & l & EA & ->). rewrite EM in EA. injection EA as <- <-. reflexivity. }
    unfold trsm. rewrite EM, EM0, E, E0, D1, D2, D3. cbv beta iota zeta.
    repeat match goal with
      | |- (if ?b then _ else _) = _ -> _ => destruct b
      | |- match foldM ?a ?b ?c with Some _ => _ | None => _ end = _ -> _ => fail 1
      | |- match ?e with Some _ => _ | None => _ end = _ -> _ => destruct e
      | |- None = _ -> _ => discriminate
      | |- Some _ = _ -> _ => let K := fresh in intros K; injection K as <- <- <-;
            first [exists h, u; do 3 (split; [first [reflexivity|assumption]|]); apply same_data_refl | exists g, u'; auto; fail]
      | |- _ => progress cbv beta iota zeta
      end.
    all: match goal with |- match foldM ?f ?s ?x with Some _ => _ | None => _ end = _ -> _ => destruct (foldM f s x) as [[[s' X1] h2]|] eqn:EF end; [|discriminate];
      intros K; injection K as <- <- <-;
      destruct (fold_sim _ _ _ _ _ _ _ _ _ _ _ _ _ _ _ _ _ _ _ HH' (same_sortable _ _ SD Hs) ST' EF) as (h' & v & E' & K1 & K2 & K3); rewrite E'; exists h', v;
      (split; [reflexivity|]); (split; [exact K1|]); (split; [exact K2|]); eapply same_data_trans; eauto.
  Qed.
End P.
