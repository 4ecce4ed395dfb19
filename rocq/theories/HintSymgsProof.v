(** Symmetric Gauss-Seidel on handles with copies made for hinted products. *)
From Coq Require Import ZArith List Bool Lia ZifyBool Ring Permutation.
From Verif Require Import Base BaseFacts Algebra DoidModel DoidSpec Csr CsrFacts CheckModel SortSpec MvModel MvSpec MvFacts CsrmvModel HandleModel HandleSpec HandleFacts OptProof MvHandleProof
  ExpandSpec CsrmmSpec HintMvSpec HintMvProof HintMvMain TrsvModel TrsvSpec TrsvHandleProof SymgsModel SymgsSpec SymgsProof HintSolveProof.
Import ListNotations.
Open Scope Z_scope.

Section P.
  Context {T : Type} (O : ops T) (L : laws O).
  Variable srt : (Z -> Z -> bool) -> list Z -> list Z.
  Variables (fz : Z -> list Z) (ft : Z -> list T).
  Hypothesis Hsrt : sort_contract srt.
  Hypothesis Hfz : forall z, 0 <= z -> zlen (fz z) = z.
  Hypothesis Hft : forall z, 0 <= z -> zlen (ft z) = z.
  Variables (sup : Z -> bool) (dt : dtype) (choice : Z -> option Z) (nthreads : Z) (team : list Z).
  Hypothesis Hsup : sup 1 = true.
  Hypothesis Hteam : nthreads <= 1 \/ Permutation team (zrange 0 nthreads).
  Hypothesis Hreal : is_cplx dt = false -> forall a, ocj O a = a.

  Definition full (u : cmat T) := full_diag (c_m u) (c_n u) (c_b u) (c_ptr u) (c_ind u).
  Lemma opt_flag : forall h u, hint_hnd O h u -> sortable u -> diag_flag_ok h u ->
    exists h' i c u', csr_csc_optimize O srt fz ft h = Some (success, h', Some i) /\ rd (H_mats h') i = Some (Some c) /\ c_opt c = true /\
      hint_hnd O h' u' /\ same_data u u' /\ (H_optfull h' = true <-> full u).
  Proof.
    intros h u HH Hs FL. destruct (hint_strip O h u HH) as (h0 & ST & HOK).
    destruct (hint_strip_optimize O srt fz ft Hsrt Hfz Hft dt choice Hreal h h0 u HH Hs ST) as (h0' & i0 & h' & i & c & u' & E0 & R0 & E & R & ST' & HH' & SD).
    destruct (optimize_ok O srt fz ft Hsrt Hfz Hft h0 u HOK Hs) as (h1 & i1 & c1 & u1 & E1 & _ & _ & _ & _ & _ & _ & R1 & Oc & _ & _ & _ & _ & _ & D).
    rewrite E0 in E1. injection E1 as <- <-. assert (c1 = c) by congruence. subst c1.
    exists h', i, c, u'. do 5 (split; [assumption|]). destruct (stripped_dims _ _ ST') as (_ & _ & _ & G & _). rewrite <- G.
    destruct D as [-> |(_ & _ & _ & D)]; [|exact D]. apply (proj2 (strip_flag h h0 u ST) FL). exists c. split; [|exact Oc].
    unfold rd in R0. destruct (i0 <? 0); [discriminate|]. eapply nth_error_In; eauto.
  Qed.

  Lemma In_upd : forall A (l : list A) i a b, In b (upd l i a) -> b = a \/ In b l.
  Proof.
    intros A l i a b. unfold upd. generalize (Z.to_nat i). induction l as [|c l IH]; intros n I; [destruct I|].
    destruct n; cbn in I |- *; destruct I as [->|I]; auto. destruct (IH _ I); auto.
  Qed.
  Lemma rd_In : forall A (l : list A) i a, rd l i = Some a -> In a l.
  Proof. intros A l i a R. unfold rd in R. destruct (i <? 0); [discriminate|]. eapply nth_error_In; eauto. Qed.
  Lemma doid_range : forall b ty fm op r, valid_op op = true -> get_doid b ty fm op = Some r -> 0 <= r < 20.
  Proof. intros [] [] [] [] r V; try discriminate V; intros E; vm_compute in E; injection E as <-; vm_compute; split; congruence. Qed.
  Lemma set_diag_opt : forall m dg (c c' : cmat T) st, set_mat_diag O m dg c = Some (st, c') -> c_opt c' = c_opt c.
  Proof.
    intros m dg c c' st. unfold set_mat_diag. destruct (c_dval c); [|intros E; injection E as <- <-; reflexivity].
    destruct (c_idiag c); [|intros E; injection E as <- <-; reflexivity]. destruct (for_ _ _ _ _); [|discriminate].
    intros E. injection E as <- <-. reflexivity.
  Qed.

  (** a product keeps the record of the diagonal right *)
  Lemma mv_flag : forall h u d op alpha beta x y st yr h' u', hint_hnd O h u -> sortable u -> diag_flag_ok h u -> same_data u u' ->
    mv O srt fz ft sup dt choice nthreads team op (Some alpha) (Some h) (Some d) (Some x) (Some beta) (Some y) = Some (st, yr, Some h') ->
    diag_flag_ok h' u'.
  Proof.
    intros h u d op alpha beta x y st yr h' u' HH Hs FL SD E.
    assert (FU : forall g, (H_optfull g = true <-> full u) -> diag_flag_ok g u').
    { intros g K _. destruct SD as (S1 & S2 & S3 & S4 & S5 & S6 & S7 & S8). rewrite S1, S2, S5, S6, S7. exact K. }
    assert (FS : forall g, H_optfull g = H_optfull h -> (forall c, In (Some c) (H_mats g) -> c_opt c = true -> exists c0, In (Some c0) (H_mats h) /\ c_opt c0 = true) -> diag_flag_ok g u').
    { intros g K1 K2 (c & Ic & Oc). destruct (K2 c Ic Oc) as (c0 & I0 & O0). rewrite K1. destruct SD as (S1 & S2 & S3 & S4 & S5 & S6 & S7 & S8). rewrite S1, S2, S5, S6, S7.
      apply FL. eauto. }
    assert (FH : diag_flag_ok h u') by (apply FS; eauto).
    destruct (opt_flag h u HH Hs FL) as (g & i & c & v & Eo & Ro & Oc & _ & _ & FO).
    pose proof HH as ((_ & _ & _ & _ & EDIM) & rest & EM & _ & HF).
    assert (HFd : Forall (fun o : option (cmat T) => exists c, o = Some c /\ 0 <= c_doid c < 20) (H_mats h)).
    { rewrite EM. assert (Hdr : 0 <= c_doid u < 20) by (clear - EDIM; unfold gn, gt in EDIM; lia).
      constructor; [exists u; split; [reflexivity|exact Hdr]|]. eapply Forall_impl; [|exact HF]. cbn. intros o (c0 & -> & [X|X]); exists c0; (split; [reflexivity|]).
      - destruct X as (_ & _ & _ & (_ & _ & -> & _) & _). exact Hdr.
      - destruct X as (X & _). apply X. }
    assert (BP : forall r b, 0 <= r < 20 -> get_best_matrix sup dt (H_mats h) r = Some b -> match b with Some (j, cb) => rd (H_mats h) j = Some (Some cb) | None => True end).
    { intros r b Hr Eb. destruct (best_any O fz ft Hfz Hft sup Hsup dt choice nthreads Hreal (H_mats h) r Hr HFd) as (b' & Eb' & K). rewrite Eb in Eb'. injection Eb' as <-.
      destruct b as [[j cb]|]; [apply K|exact I]. }
    clear HFd HF EDIM.
    unfold mv in E. rewrite EM in E.
    destruct (negb (c_b u =? d_base d)); [injection E as _ _ <-; exact FH|].
    destruct (valid_op op) eqn:Vo; cbn [negb] in E; [|injection E as _ _ <-; exact FH].
    destruct (_ && negb (H_m h =? H_n h)); [injection E as _ _ <-; exact FH|].
    destruct (negb (is_cplx dt) && _); [injection E as _ _ <-; exact FH|].
    set (op' := if is_cplx dt then op else match op with op_conjugate_transpose => op_transpose | o => o end) in *.
    assert (Vo' : valid_op op' = true) by (unfold op'; destruct (is_cplx dt), op; try discriminate Vo; reflexivity).
    destruct (_ || _ || _). { destruct (vscale _ _ _ _); [|discriminate]. injection E as _ _ <-. exact FH. }
    destruct (get_doid _ _ _ _) as [r|] eqn:Er; [|discriminate]. apply doid_range in Er; [|exact Vo'].
    rewrite <- EM in E. destruct (get_best_matrix _ _ _ _) as [b|] eqn:Eb; [|discriminate]. specialize (BP r b Er Eb). cbv beta zeta in E.
    destruct b as [[ib cb]|]; [|injection E as _ _ <-; exact FH].
    (* after the choice of the matrix *)
    assert (FIN : forall h1 i1 c1 X, diag_flag_ok h1 u' -> rd (H_mats h1) i1 = Some (Some c1) ->
      (let* (st, c, h2) := (if (c_doid c1 =? r) && negb (diag_eqb (d_diag d) (c_mdiag c1)) then
                       let* (st, c') := set_mat_diag O (H_m h1) (d_diag d) c1 in
                       Some (st, c', set_mats h1 (upd (H_mats h1) i1 (Some c')))
                     else Some (success, c1, h1)) in
       match st with success => let* (st, y) := X c in Some (st, y, Some h2) | _ => Some (st, None, Some h2) end) = Some (st, yr, Some h') -> diag_flag_ok h' u').
    { intros h1 i1 c1 X F1 R1 E1. destruct ((c_doid c1 =? r) && _).
      - destruct (set_mat_diag O (H_m h1) (d_diag d) c1) as [[s c']|] eqn:Es; [|discriminate].
        assert (F2 : diag_flag_ok (set_mats h1 (upd (H_mats h1) i1 (Some c'))) u').
        { intros (c0 & I0 & O0). cbn [set_mats H_mats H_optfull] in *. apply F1. apply In_upd in I0. destruct I0 as [I0|I0]; [|eauto].
          injection I0 as ->. exists c1. split; [eapply rd_In; eauto|]. rewrite <- (set_diag_opt _ _ _ _ _ Es). exact O0. }
        destruct s; try (injection E1 as _ _ <-; exact F2). destruct (X c') as [[]|]; [|discriminate]. injection E1 as _ _ <-. exact F2.
      - destruct (X c1) as [[]|]; [|discriminate]. injection E1 as _ _ <-. exact F1. }
    destruct (negb _ && negb (c_opt cb) && negb (c_doid cb =? r)).
    - rewrite Eo in E. cbv beta iota zeta in E. rewrite Ro in E. cbv beta iota zeta in E.
      destruct (if c_doid c =? r then Some gn else get_effective_doid (c_doid c) r) as [eff|]; [|discriminate].
      eapply FIN; [apply FU, FO|exact Ro|exact E].
    - cbv beta iota zeta in E. destruct (if c_doid cb =? r then Some gn else get_effective_doid (c_doid cb) r) as [eff|]; [|discriminate].
      eapply FIN; [exact FH|exact BP|exact E].
  Qed.
End P.

Section G.
  Context {T : Type} (O : ops T) (L : laws O) (HD : div_law O).
  Let rth := l_ring L.
  Add Ring TrGh : rth.
  Local Notation zero := (o0 O).
  Local Notation tn := (nthZ zero).
  Variable srt : (Z -> Z -> bool) -> list Z -> list Z.
  Variables (fz : Z -> list Z) (ft : Z -> list T).
  Hypothesis Hsrt : sort_contract srt.
  Hypothesis Hfz : forall z, 0 <= z -> zlen (fz z) = z.
  Hypothesis Hft : forall z, 0 <= z -> zlen (ft z) = z.
  Variables (sup : Z -> bool) (dt : dtype) (mvc : Z -> option Z) (nthreads : Z) (team : list Z) (tsc : Z -> option Z) (w : Z).
  Hypothesis Hsup : sup 1 = true.
  Hypothesis Hteam : nthreads <= 1 \/ Permutation team (zrange 0 nthreads).
  Hypothesis Hreal : is_cplx dt = false -> forall a, ocj O a = a.
  Hypothesis Hmvc : forall k, mvc k <> None.
  Hypothesis Htsc : tsc (-1) <> None.

  Lemma hint_trsv_ok : forall w h u d op alpha rhs incb x incx kid,
    hint_hnd O h u -> sortable u -> diag_flag_ok h u -> H_m h = H_n h -> 0 < H_m h -> 0 < H_nnz h ->
    d_base d = c_b u -> valid_op op = true -> d_type d = mt_triangular \/ d_type d = mt_symmetric -> d_diag d <> dg_zero ->
    0 < w -> H_m h <= 2 ^ w - 1 -> incx <= 2 ^ w - 1 -> incb <= 2 ^ w - 1 ->
    holds (H_m h) incx x -> holds (H_m h) incb rhs ->
    (d_diag d = dg_non_unit -> full_diag (c_m u) (c_n u) (c_b u) (c_ptr u) (c_ind u) ->
       forall i, 0 <= i < H_m h -> hnd_mat O u i i <> zero) ->
    (tsc kid = Some 0 \/ (if c_doid u =? gt then is_none op else negb (is_none op)) = false \/
       alpha <> zero /\ rows_distinct (c_m u) (c_b u) (c_ptr u) (c_ind u)) ->
    exists st xr h' u',
      trsv O dt tsc srt fz ft w op alpha (Some h) (Some d) (Some rhs) incb (Some x) incx kid = Some (st, xr, Some h') /\
      hint_hnd O h' u' /\ same_data u u' /\ diag_flag_ok h' u' /\
      H_m h' = H_m h /\ H_n h' = H_n h /\ H_nnz h' = H_nnz h /\ H_hints h' = H_hints h /\
      (st = success /\ (exists x1, xr = Some x1 /\ only_strided O (H_m h) incx x x1 /\
         solves O (H_m h) alpha (op_sem O op (described O mt_triangular (d_fill d) (d_diag d) (hnd_mat O u))) rhs incb x1 incx) \/
       st = invalid_value /\ xr = None /\ d_diag d = dg_non_unit /\ ~ full_diag (c_m u) (c_n u) (c_b u) (c_ptr u) (c_ind u) \/
       st = invalid_kid /\ xr = None /\ tsc kid = None \/
       st = invalid_size /\ xr = None /\ (2 ^ w - 1 < (H_m h - 1) * incx \/ 2 ^ w - 1 < (H_m h - 1) * incb)).
  Proof.
    intros w0 h u d op alpha rhs incb x incx kid HH Hs FL SQ M0 N0 Hb Hop Hty Hdg Hw Hm Hx Hbb Hx2 Hb2 NZ HC.
    destruct (hint_strip O h u HH) as (h0 & ST & HOK). destruct (stripped_dims _ _ ST) as (T1 & T2 & T3 & T4 & T5).
    destruct (trsv_handle_ok O L HD srt fz ft Hsrt Hfz Hft dt tsc Hreal w0 h0 u d op alpha rhs incb x incx kid HOK Hs (proj2 (strip_flag _ _ _ ST) FL))
      as (st & xr & g0 & v & E & K1 & K2 & K3 & D1 & D2 & D3 & D4 & R); rewrite ?T1, ?T2, ?T3; auto.
    rewrite ?T1, ?T2, ?T3, ?T5 in *.
    destruct (trsv_sim O srt fz ft Hsrt Hfz Hft dt tsc Hreal _ _ u w0 op alpha d rhs incb x incx kid st xr g0 HH Hs ST E) as (h' & u' & E' & ST' & HH' & SD).
    assert (u' = v). { destruct ST' as (a & l & EA & Eg), HH' as (_ & r & EM & _), K1 as (_ & r' & EM' & _). rewrite Eg in EM'. cbn in EM'. congruence. }
    subst v. destruct (stripped_dims _ _ ST') as (G1 & G2 & G3 & G4 & G5).
    exists st, xr, h', u'. split; [exact E'|]. split; [exact HH'|]. split; [exact SD|]. split; [apply (strip_flag _ _ _ ST'); exact K3|].
    rewrite <- G1, <- G2, <- G3, <- G5. split; [exact D1|]. split; [exact D2|]. split; [exact D3|]. split; [exact D4|]. exact R.
  Qed.

  Section U.
    Variables (u0 : cmat T) (m nnz0 : Z).
    Hypothesis (Hm : 0 < m <= 2 ^ w - 1) (Hw : 0 < w) (Hz : 0 < nnz0).
    Hypothesis HS : sortable u0.
    Hypothesis HC : tsc (-1) = Some 0 \/ rows_distinct (c_m u0) (c_b u0) (c_ptr u0) (c_ind u0).
    Hypothesis HF : full_diag (c_m u0) (c_n u0) (c_b u0) (c_ptr u0) (c_ind u0).
    Hypothesis NZ : forall i, 0 <= i < m -> hnd_mat O u0 i i <> zero.
    Definition stH (h : hnd T) : Prop := exists u, hint_hnd O h u /\ diag_flag_ok h u /\ same_data u0 u /\ H_m h = m /\ H_n h = m /\ H_nnz h = nnz0.

    Lemma one_nz : o1 O <> zero.
    Proof. intros E. apply (NZ 0); [lia|]. transitivity (omul O (o1 O) (hnd_mat O u0 0 0)); [ring|]. rewrite E. ring. Qed.

    Lemma smv_ok : forall h d op alpha x y, stH h -> d_base d = c_b u0 -> valid_op op = true ->
      declined dt (d_type d) op (c_doid u0) = false ->
      d_type d = mt_triangular /\ d_diag d <> dg_unit \/ d_diag d = dg_non_unit /\ (d_type d = mt_hermitian -> is_cplx dt = true /\ real_diag O (hnd_mat O u0)) ->
      zlen x = m -> zlen y = m ->
      exists y' h', smv O srt fz ft sup dt mvc nthreads team op alpha h d x zero y = Some (success, y', h') /\ stH h' /\ zlen y' = m /\
        forall i, 0 <= i < m -> tn y' i = omul O alpha (rowx O m (op_sem O op (described O (d_type d) (d_fill d) (d_diag d) (hnd_mat O u0))) x i).
    Proof.
      intros h d op alpha x y (u & HOK & FL & SD & D1 & D2 & D3) Hb Hop Hdc Hty Lx Ly. pose proof SD as (S1 & S2 & S3 & S4 & S5 & S6 & S7 & S8).
      unfold smv. pose proof (same_data_mat O _ _ SD) as ME.
      assert (SO : sortable u) by (eapply same_data_sortable; eauto).
      destruct (hint_mv O L srt fz ft Hsrt Hfz Hft sup Hsup dt mvc nthreads team Hteam Hreal h u d op alpha zero x y HOK) as (st & yr & h' & u' & E & E1 & E2 & E3 & E4 & E5 & E6 & R).
      - constructor; auto; try congruence.
        + intros Q. destruct Hty as [(Q' & _)|(_ & Q')]; [congruence|]. now apply Q'.
        + intros Q _. destruct Hty as [(Q' & _)|(_ & Q')]; [congruence|]. rewrite ME. now apply Q'.
        + intros Q. destruct Hty as [(Q' & _)|(Q' & _)]; [congruence|auto].
        + intros _ _. pose proof HOK as (UM & _). unfold user_mat in UM. lia.
        + intros _ Q Q'. destruct Hty as [(_ & Q2)|(Q2 & _)]; congruence.
      - destruct op; lia.
      - destruct op; lia.
      - pose proof (mv_flag O srt fz ft Hsrt Hfz Hft sup dt mvc nthreads team Hsup Hreal h u d op alpha zero x y st yr h' u' HOK SO FL E2 E) as E7.
        rewrite E. destruct R as [(-> & y' & -> & Ly' & R)|[(-> & -> & (k & K))|(-> & -> & K)]].
        + exists y', h'. split; [reflexivity|]. split.
          * exists u'. ands; auto; try congruence. eapply same_data_trans; eauto.
          * replace (match op with op_none => H_m h | _ => H_n h end) with m in * by (destruct op; lia).
            replace (match op with op_none => H_n h | _ => H_m h end) with m in * by (destruct op; lia).
            split; auto. intros i Hi. rewrite R by auto. rewrite ME. unfold rowx. ring.
        + exfalso. exact (Hmvc k K).
        + rewrite S4 in K. congruence.
    Qed.

    Lemma strsv_ok : forall h d op rhs x, stH h -> d_base d = c_b u0 -> valid_op op = true -> d_type d = mt_triangular -> d_diag d = dg_non_unit ->
      zlen x = m -> zlen rhs = m ->
      exists x' h', strsv O srt fz ft dt tsc w op (o1 O) h d rhs x = Some (success, x', h') /\ stH h' /\ zlen x' = m /\
        forall i, 0 <= i < m -> rowx O m (op_sem O op (described O mt_triangular (d_fill d) (d_diag d) (hnd_mat O u0))) x' i = tn rhs i.
    Proof.
      intros h d op rhs x (u & HOK & FL & SD & D1 & D2 & D3) Hb Hop Hty Hdg Lx Lr. pose proof SD as (S1 & S2 & S3 & S4 & S5 & S6 & S7 & S8).
      unfold strsv. pose proof (same_data_mat O _ _ SD) as ME.
      destruct (hint_trsv_ok w h u d op (o1 O) rhs 1 x 1 (-1)) as (st & xr & h' & u' & E & E1 & E2 & E3 & E4 & E5 & E6 & E7 & R); auto; try lia; try congruence.
      - eapply same_data_sortable; eauto.
      - split; lia.
      - split; lia.
      - intros _ _ i Hi. rewrite ME. apply NZ. lia.
      - destruct HC as [HC'|HC']; [left; exact HC'|right; right]. split; [exact one_nz|]. now rewrite S1, S5, S6, S7.
      - rewrite E. assert (FIN : stH h') by (exists u'; ands; auto; try congruence; eapply same_data_trans; eauto).
        destruct R as [(-> & x1 & -> & (Q1 & Q2) & R)|[(-> & -> & _ & K)|[(-> & -> & K)|(-> & -> & K)]]].
        + exists x1, h'. split; [reflexivity|]. split; auto. split; [lia|]. intros i Hi. rewrite ME in R.
          specialize (R i ltac:(lia)). unfold comp in R. rewrite D1 in R. unfold rowx.
          rewrite (sumz_ext O 0 m _ (fun j => omul O (op_sem O op (described O mt_triangular (d_fill d) (d_diag d) (hnd_mat O u0)) i j) (tn x1 (j * 1)))) by (intros j Hj; now rewrite Z.mul_1_r).
          rewrite R. rewrite Z.mul_1_r. ring.
        + exfalso. apply K. now rewrite S1, S2, S5, S6, S7.
        + congruence.
        + exfalso. rewrite !Z.mul_1_r in K. lia.
    Qed.

  End U.

  Theorem hint_symgs_ok : forall h h0 u d op alpha b x y_p fuse, hint_hnd O h u -> diag_flag_ok h u -> stripped h h0 -> symgs_pre O dt tsc w h0 u d op b x ->
    (fuse = true -> exists y, y_p = Some y /\ zlen y = H_m h) ->
    exists x' yr h' u', symgs O srt fz ft sup dt mvc nthreads team tsc w op (Some h) (Some d) alpha (Some b) (Some x) y_p fuse = Some (success, Some x', yr, Some h') /\
      hint_hnd O h' u' /\ diag_flag_ok h' u' /\ same_data u u' /\ H_m h' = H_m h /\ H_n h' = H_n h /\ H_nnz h' = H_nnz h /\
      symgs_sweep O (H_m h) (req_mat O u d op) alpha b x x' /\
      (fuse = false -> yr = y_p) /\
      (fuse = true -> exists y', yr = Some y' /\ zlen y' = H_m h /\ forall i, 0 <= i < H_m h -> tn y' i = rowx O (H_m h) (req_mat O u d op) x' i).
  Proof.
    intros h h0 u d op alpha b x y_p fuse HOK FL ST PRE Hy. destruct PRE as [_ _ HS HC SQ SZ Hw NN Hb Hdg Hop HF NZ Hge Hsy Hhe Htr Lx Lb].
    destruct (stripped_dims _ _ ST) as (T1 & T2 & T3 & _ & _). rewrite T1 in *. rewrite T2 in *. rewrite T3 in *.
    pose proof HOK as ((AR & UM) & rest & EM & _ & _). unfold arrays_ok in AR. pose proof AR as (W & DU & Lv & HB). pose proof UM as (UN & _ & _ & DIM).
    assert (Em : c_m u = H_m h) by lia.
    unfold symgs. replace (fuse && match y_p with None => true | Some _ => false end) with false.
    2: { destruct fuse; auto. destruct (Hy eq_refl) as (y & -> & _). reflexivity. }
    rewrite EM. replace (negb (c_b u =? d_base d)) with false by lia.
    replace (negb ((d_base d =? 0) || (d_base d =? 1))) with false by lia. rewrite Hop, Hdg. cbn [negb].
    replace (match d_type d, op with mt_general, op_conjugate_transpose => true | _, _ => false end) with false.
    2: { destruct (d_type d) eqn:Et, op; auto. exfalso. now apply Hge. }
    replace ((H_m h <? 0) || (H_nnz h <? 0) || (H_n h <? 0)) with false by lia.
    replace ((H_m h =? 0) || (H_n h =? 0) || (H_nnz h =? 0)) with false by lia.
    replace (negb (H_m h =? H_n h)) with false by lia.
    destruct (opt_flag O srt fz ft Hsrt Hfz Hft dt mvc Hreal h u HOK HS FL) as (h1 & i1 & c & u1 & E & Rc & Oc & HOK1 & SD & FL1).
    destruct (hint_optimize O srt fz ft Hsrt Hfz Hft sup Hsup dt mvc nthreads team Hteam Hreal h u HOK HS) as (h1' & i1' & c' & u1' & E' & _ & _ & D1 & D2 & D3 & _).
    rewrite E in E'. injection E' as <- <-. unfold full in FL1.
    rewrite E. cbv beta iota. pose proof SD as (S1 & S2 & S3 & S4 & S5 & S6 & S7 & S8).
    replace (negb (H_optfull h1)) with false by (rewrite (proj2 FL1 HF); reflexivity).
    set (m := H_m h) in *.
    assert (G1 : stH u m (H_nnz h) h1).
    { exists u1. ands; auto; try lia. intros _. rewrite S1, S2, S5, S6, S7. exact FL1. }
    unfold symgs_ref. rewrite D1. fold m.
    set (y := match y_p with Some y => y | None => [] end).
    assert (FUSE : forall h2 x', stH u m (H_nnz h) h2 -> zlen x' = m -> symgs_sweep O m (req_mat O u d op) alpha b x x' ->
      exists x'' yr h' u',
      (let* (st, x, y, h) := (if fuse then let* (st, y, h) := smv O srt fz ft sup dt mvc nthreads team op (o1 O) h2 d x' zero y in Some (st, x', y, h) else Some (success, x', y, h2)) in
       Some (st, Some x, match y_p with Some _ => Some y | None => None end, Some h)) = Some (success, Some x'', yr, Some h') /\
      hint_hnd O h' u' /\ diag_flag_ok h' u' /\ same_data u u' /\ H_m h' = m /\ H_n h' = H_n h /\ H_nnz h' = H_nnz h /\
      symgs_sweep O m (req_mat O u d op) alpha b x x'' /\
      (fuse = false -> yr = y_p) /\
      (fuse = true -> exists y', yr = Some y' /\ zlen y' = m /\ forall i, 0 <= i < m -> tn y' i = rowx O m (req_mat O u d op) x'' i)).
    { intros h2 x' G2 Lx' SW. destruct fuse.
      - destruct (Hy eq_refl) as (y0 & Ey & Ly). subst y y_p.
        assert (Dc : declined dt (d_type d) op (c_doid u) = false).
        { unfold declined. destruct (is_cplx dt) eqn:Ec; auto. destruct (Z.eqb_spec (c_doid u) gt) as [Eg|]; auto. destruct (d_type d) eqn:Et; auto; destruct op; auto; exfalso.
          - now apply Hge.
          - now apply Htr. }
        assert (Ty : d_type d = mt_triangular /\ d_diag d <> dg_unit \/ d_diag d = dg_non_unit /\ (d_type d = mt_hermitian -> is_cplx dt = true /\ real_diag O (hnd_mat O u))).
        { right. split; auto. intros Et. destruct (Hhe Et) as (? & ? & ? & ?). auto. }
        destruct (smv_ok u m (H_nnz h) SZ Hw NN HS NZ h2 d op (o1 O) x' y0 G2 Hb Hop Dc Ty Lx' Ly) as (y' & h3 & E3 & (u3 & K1 & K2 & K3 & K4 & K5 & K6) & Ly' & Ry).
        rewrite E3. exists x', (Some y'), h3, u3. ands; auto; try lia; try discriminate.
        intros _. exists y'. ands; auto. intros i Hi. rewrite Ry by auto. unfold req_mat. ring.
      - destruct G2 as (u3 & K1 & K2 & K3 & K4 & K5 & K6). exists x', y_p, h2, u3. ands; auto; try lia; try discriminate.
        subst y. destruct y_p; reflexivity. }
    assert (NT : d_type d = mt_triangular \/ d_type d <> mt_triangular) by (destruct (d_type d); auto; right; discriminate).
    destruct NT as [Et|Et].
    - rewrite Et. destruct (strsv_ok u m (H_nnz h) SZ Hw NN HS HC HF NZ h1 d op b x G1 Hb Hop Et Hdg Lx Lb) as (x' & h2 & E2 & G2 & Lx' & Rx). rewrite E2. apply FUSE; auto.
      assert (RM : req_mat O u d op = op_sem O op (described O mt_triangular (d_fill d) (d_diag d) (hnd_mat O u))) by (unfold req_mat; now rewrite Et).
      rewrite RM. apply (tri_sweep O L HD fz ft Hfz Hft sup dt mvc w Hsup Hreal Hmvc); auto; try lia.
      + intros i Hi. pose proof (NZ i Hi) as Q. unfold op_sem, described, descr_sem, with_diag, mT, mC, mL, mU. rewrite Hdg.
        destruct op, (d_fill d); rewrite ?Z.leb_refl, ?Z.eqb_refl; auto; intros Q2; apply Q; rewrite <- (l_cj_cj L (hnd_mat O u i i)), Q2; apply (cj_0 O L).
      + rewrite Hdg. unfold op_sem, described, descr_sem, with_diag, mT, mC, mL, mU. pose proof (cj_0 O L).
        destruct op; try discriminate Hop; destruct (d_fill d); [left|right|right|left|right|left]; intros i j Hij; clear - Hij H L; try replace (j <=? i) with false by lia; try replace (i <=? j) with false by lia; auto.
    - assert (EQ : forall (Q1 Q2 : option (status * list T * list T * hnd T)), match d_type d with mt_triangular => Q1 | _ => Q2 end = Q2) by (intros; destruct (d_type d); auto; congruence).
      rewrite EQ. clear EQ. destruct (symgs_parts (d_type d) (d_fill d) op) as (((uf, lf), ut), lt) eqn:Ep.
      destruct (parts_ok O L fz ft Hfz Hft sup dt mvc w Hsup Hreal Hmvc (hnd_mat O u) (d_type d) (d_fill d) op uf lf ut lt Et Hop Hge Hsy) as (Vu & Vl & Nct & PT); auto.
      { intros Eh. destruct (Hhe Eh) as (? & ? & ? & ?). auto. }
      set (R := op_sem O op (described O (d_type d) (d_fill d) dg_non_unit (hnd_mat O u))) in *.
      assert (Dcl : declined dt mt_triangular ut (c_doid u) = false /\ declined dt mt_triangular lt (c_doid u) = false).
      { unfold declined. destruct (is_cplx dt) eqn:Ec; auto. destruct (Z.eqb_spec (c_doid u) gt) as [Eg|]; auto.
        assert (Nh : d_type d <> mt_hermitian) by (intros Q; destruct (Hhe Q) as (_ & _ & Q2 & _); rewrite Q2 in Eg; discriminate).
        destruct (Nct Nh). destruct ut, lt; auto; congruence. }
      destruct Dcl as (Du & Dl).
      destruct (smv_ok u m (H_nnz h) SZ Hw NN HS NZ h1 (tri_descr uf dg_zero (d_base d)) ut alpha x (zrep m zero) G1 Hb Vu Du) as (q1 & h2 & E2 & G2 & Lq1 & Rq1); auto.
      { left. split; [reflexivity|discriminate]. } { clear - SZ; now rewrite zlen_zrep by lia. }
      rewrite E2. destruct (vdiff_ok O fz ft Hfz Hft sup dt mvc w Hsup Hreal Hmvc u m (H_nnz h) SZ Hw NN NZ b q1 (zrep m zero) Lb Lq1) as (r1 & E3 & Lr1 & Rr1). { clear - SZ; now rewrite zlen_zrep by lia. }
      rewrite E3. destruct (strsv_ok u m (H_nnz h) SZ Hw NN HS HC HF NZ h2 (tri_descr lf dg_non_unit (d_base d)) lt r1 q1 G2 Hb Vl eq_refl eq_refl Lq1 Lr1) as (x1 & h3 & E4 & G3 & Lx1 & Rx1).
      rewrite E4. destruct (smv_ok u m (H_nnz h) SZ Hw NN HS NZ h3 (tri_descr lf dg_zero (d_base d)) lt (o1 O) x1 r1 G3 Hb Vl Dl) as (q2 & h4 & E5 & G4 & Lq2 & Rq2); auto.
      { left. split; [reflexivity|discriminate]. }
      rewrite E5. destruct (vdiff_ok O fz ft Hfz Hft sup dt mvc w Hsup Hreal Hmvc u m (H_nnz h) SZ Hw NN NZ b q2 x1 Lb Lq2 Lx1) as (r2 & E6 & Lr2 & Rr2).
      rewrite E6. destruct (strsv_ok u m (H_nnz h) SZ Hw NN HS HC HF NZ h4 (tri_descr uf dg_non_unit (d_base d)) ut r2 x G4 Hb Vu eq_refl eq_refl Lx Lr2) as (x2 & h5 & E7 & G5 & Lx2 & Rx2).
      rewrite E7. apply FUSE; auto. split; auto. exists x1. split; auto. unfold req_mat. rewrite Hdg. fold R. split; intros i Hi.
      + rewrite (rowx_ext O m _ _ x1 i (fun j _ => eq_sym (proj2 (proj2 (proj2 (PT i j)))))). cbn [tri_descr d_fill d_diag d_type] in Rx1, Rq1. rewrite Rx1, Rr1, Rq1 by auto.
        f_equal. f_equal. apply rowx_ext. intros j _. apply PT.
      + rewrite (rowx_ext O m _ _ x2 i (fun j _ => eq_sym (proj1 (proj2 (PT i j))))). cbn [tri_descr d_fill d_diag d_type] in Rx2, Rq2. rewrite Rx2, Rr2, Rq2 by auto. 
        rewrite (rowx_ext O m (pL O R) _ x1 i (fun j _ => eq_sym (proj1 (proj2 (proj2 (PT i j)))))). ring.
  Qed.
End G.
