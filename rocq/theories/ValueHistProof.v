From Coq Require Import ZArith List Bool Lia ZifyBool Ring Permutation.
From Verif Require Import Base BaseFacts Algebra DoidModel DoidSpec Csr CsrFacts CheckModel SortSpec MvModel MvSpec MvFacts CsrmvModel HandleModel HandleSpec HandleFacts OptProof MvHandleProof
  UtilModel TrsvModel TrsvSpec TrsvHandleProof ValueModel ValueSpec ValueProof.
Import ListNotations.
Open Scope Z_scope.

Lemma no_slots : forall T (rest : list (option (cmat T))), filter some_slot (map (fun _ : option (cmat T) => None : option (cmat T)) rest) = [].
Proof. induction rest as [|a r IH]; [reflexivity|exact IH]. Qed.

Lemma all_slots : forall T (l : list (option (cmat T))), Forall (fun e => some_slot e = true) l -> filter some_slot l = l.
Proof. induction l as [|a r IH]; intros F; [reflexivity|]. inversion F; subst. cbn [filter]. destruct (some_slot a); [|discriminate]. now rewrite IH. Qed.

Section P.
  Context {T : Type} (O : ops T) (L : laws O) (HD : div_law O).
  Local Notation zero := (o0 O).
  Local Notation tn := (nthZ zero).
  Variable srt : (Z -> Z -> bool) -> list Z -> list Z.
  Variables (fz : Z -> list Z) (ft : Z -> list T).
  Hypothesis Hsrt : sort_contract srt.
  Hypothesis Hfz : forall z, 0 <= z -> zlen (fz z) = z.
  Hypothesis Hft : forall z, 0 <= z -> zlen (ft z) = z.
  Variables (sup : Z -> bool) (dt : dtype) (mvc : Z -> option Z) (nthreads : Z) (team : list Z) (tsc : Z -> option Z) (w : Z).
  Hypothesis Hsup : sup 1 = true.
  Hypothesis Hteam : nthreads <= 1 \/ Permutation team (zrange 0 nthreads).
  Hypothesis Hreal : is_cplx dt = false -> forall a, ocj O a = a.
  Hypothesis Hw : 0 < w.

  Local Notation trsvh op alpha h d rhs incb x incx kid := (trsv O dt tsc srt fz ft w op alpha (Some h) (Some d) (Some rhs) incb (Some x) incx kid).

  Lemma trsv_strip : forall op alpha h d rhs incb x incx kid u rest, H_mats h = Some u :: rest ->
    match trsvh op alpha (strip h) d rhs incb x incx kid with
    | Some (st, xr, Some hs) => exists h' u' rest', trsvh op alpha h d rhs incb x incx kid = Some (st, xr, Some h') /\ hs = strip h' /\ H_mats h' = Some u' :: rest'
    | _ => True
    end.
  Proof.
    intros op alpha h d rhs incb x incx kid u rest EM. unfold trsv.
    assert (ES : H_mats (strip h) = Some u :: filter some_slot rest) by (unfold strip; cbn [set_mats H_mats]; rewrite EM; reflexivity).
    change (H_m (strip h)) with (H_m h). change (H_n (strip h)) with (H_n h). change (H_nnz (strip h)) with (H_nnz h).
    rewrite ES, EM.
    assert (SAME : forall st xr, exists h' u' rest', Some (st, xr, Some h) = Some (st : status, xr : option (list T), Some h') /\ strip h = strip h' /\ H_mats h' = Some u' :: rest') by (intros; eauto 10).
    repeat match goal with |- match (if ?b then _ else _) with _ => _ end => destruct b; [now apply SAME|] end.
    pose proof (opt_strip O srt fz ft h u rest EM) as OS.
    destruct (csr_csc_optimize O srt fz ft (strip h)) as [((st, hs), r)|]; [|exact I].
    destruct OS as (h' & r' & u' & rest' & E & -> & EM' & RR). rewrite E.
    assert (SAME' : forall st xr, exists h0 u0 rest0, Some (st, xr, Some h') = Some (st : status, xr : option (list T), Some h0) /\ strip h' = strip h0 /\ H_mats h0 = Some u0 :: rest0) by (intros; eauto 10).
    destruct st; try apply SAME'.
    change (H_optfull (strip h')) with (H_optfull h'). change (H_m (strip h')) with (H_m h').
    destruct (negb (H_optfull h') && negb (diag_eqb (d_diag d) dg_unit)); [apply SAME'|].
    destruct (get_doid (negb (is_cplx dt)) mt_triangular (d_fill d) op) as [d_id|]; [|exact I].
    destruct r as [i|], r' as [i'|]; try contradiction; [|apply SAME'].
    rewrite RR. destruct (rd (H_mats h') i') as [[c|]|]; try exact I.
    set (dd := if c_doid c =? gt then trans_doid d_id else d_id).
    destruct ((dd - 12 <? 0) || (7 <? dd - 12)); [apply SAME'|].
    destruct (tsc kid) as [k|]; [|apply SAME'].
    destruct (int_product_overflow w (H_m h' - 1) incx) as [o1|]; [|exact I].
    destruct (int_product_overflow w (H_m h' - 1) incb) as [o2|]; [|exact I].
    destruct (o1 || o2); [apply SAME'|].
    match goal with |- context [match ?e with Some x0 => Some (success, Some x0, Some (strip h')) | None => None end] => destruct e as [xx|] end; [apply SAME'|exact I].
  Qed.

  (** ** One handle, its user matrix and its values *)
  Section H.
    Variables (h0 : hnd T) (u0 : cmat T).
    Definition inv (h : hnd T) (l : list T) : Prop :=
      exists u rest, H_mats h = Some u :: rest /\ hnd_ok zero (strip h) u /\ diag_flag_ok (strip h) u /\ same_data (with_val u0 l) u /\
        H_m h = H_m h0 /\ H_n h = H_n h0 /\ H_nnz h = H_nnz h0.
    Hypothesis HS : sortable u0.

    Lemma sd_val : forall l u, same_data (with_val u0 l) u ->
      c_m u = c_m u0 /\ c_n u = c_n u0 /\ c_nnz u = c_nnz u0 /\ c_doid u = c_doid u0 /\ c_b u = c_b u0 /\ c_ptr u = c_ptr u0 /\ c_ind u = c_ind u0 /\ c_val u = l.
    Proof. intros l u H. exact H. Qed.
    Lemma sd_mat : forall l u, same_data (with_val u0 l) u -> hnd_mat O u = hnd_mat O (with_val u0 l).
    Proof. intros l u (E1 & E2 & E3 & E4 & E5 & E6 & E7 & E8). unfold hnd_mat. now rewrite E4, E5, E6, E7, E8. Qed.
    Lemma sd_sortable : forall l u, same_data (with_val u0 l) u -> sortable u.
    Proof. intros l u (E1 & E2 & E3 & E4 & E5 & E6 & E7 & E8). unfold sortable. rewrite E1, E5, E6, E7. exact HS. Qed.
    Lemma sd_trans : forall a b c : cmat T, same_data a b -> same_data b c -> same_data a c.
    Proof. unfold same_data. intros a b c H1 H2. destruct H1 as (?&?&?&?&?&?&?&?), H2 as (?&?&?&?&?&?&?&?). ands; congruence. Qed.

    Lemma new_vals : forall h l l1 u rest, H_mats h = Some u :: rest -> hnd_ok zero (strip h) u -> diag_flag_ok (strip h) u -> same_data (with_val u0 l) u ->
      H_m h = H_m h0 -> H_n h = H_n h0 -> H_nnz h = H_nnz h0 -> zlen l1 = zlen l ->
      inv (set_mats h (drop_copies (Some (with_val u l1) :: rest))) l1.
    Proof.
      intros h l l1 u rest EM HOK FL SD D1 D2 D3 Ll. unfold inv. cbn [drop_copies set_mats H_mats H_m H_n H_nnz].
      exists (with_val u l1), (map (fun _ => None) rest). split; [reflexivity|].
      assert (ES : strip (set_mats h (Some (with_val u l1) :: map (fun _ => None) rest)) = set_mats h [Some (with_val u l1)]).
      { assert (FN : filter some_slot (map (fun _ : option (cmat T) => None) rest) = []) by apply no_slots. unfold strip, set_mats. cbn [H_m H_n H_nnz H_mats H_sort H_full H_optfull H_optimized H_hints filter some_slot]. now rewrite FN. }
      rewrite ES. destruct HOK as ((AR & U1 & U2 & U3 & U4) & rest' & EM' & HO & HF). destruct AR as (W & DU & Lv & Hb).
      unfold strip in EM'. cbn [set_mats H_mats] in EM'. rewrite EM in EM'. cbn [filter some_slot] in EM'. inversion EM'; subst rest'.
      destruct (sd_val _ _ SD) as (S1 & S2 & S3 & S4 & S5 & S6 & S7 & S8).
      split; [split|split; [|split; [|auto]]].
      - split; [|split; [exact U1|split; [exact U2|split; [exact U3|exact U4]]]]. split; [exact W|split; [exact DU|split; [cbn [with_val c_val c_nnz]; congruence|exact Hb]]].
      - exists []. split; [reflexivity|]. split; [exact HO|constructor].
      - intros (c & [Hc|[]] & Oc). inversion Hc; subst c. cbn [with_val c_opt] in Oc. apply FL. exists u. split; auto.
        unfold strip. cbn [set_mats H_mats]. rewrite EM. cbn [filter some_slot]. now left.
      - unfold same_data. cbn [with_val c_m c_n c_nnz c_doid c_b c_ptr c_ind c_val]. cbn [with_val c_m c_n c_nnz c_doid c_b c_ptr c_ind c_val] in *. auto 10.
    Qed.

    Lemma set_call : forall h l i j v, inv h l ->
      exists st h' l', do_call O srt fz ft sup dt mvc nthreads team tsc w h (k_set i j v) = Some (st, None, h') /\ inv h' l' /\
        vals_step (H_m h0) (H_n h0) u0 l (k_set i j v) l' /\ observes O dt mvc tsc w h0 (with_val u0 l) (k_set i j v) (st, None) /\ zlen (H_mats h') = zlen (H_mats h).
    Proof.
      intros h l i j v INV. pose proof INV as (u & rest & EM & HOK & FL & SD & D1 & D2 & D3). destruct (sd_val _ _ SD) as (S1 & S2 & S3 & S4 & S5 & S6 & S7 & S8).
      pose proof HOK as ((AR & U1 & U2 & U3 & U4) & _). unfold do_call, set_value. rewrite EM, D1, D2.
      assert (NO : forall st, st <> success -> ~ (0 <= i - c_b u0 < H_m h0 /\ 0 <= j - c_b u0 < H_n h0 /\ stored u0 (i - c_b u0) (j - c_b u0)) ->
        exists st' h' l', Some (st, None, h) = Some (st', None : option (list T), h') /\ inv h' l' /\
          vals_step (H_m h0) (H_n h0) u0 l (k_set i j v) l' /\ observes O dt mvc tsc w h0 (with_val u0 l) (k_set i j v) (st', None) /\ zlen (H_mats h') = zlen (Some u :: rest)).
      { intros st Hst Hno. exists st, h, l. split; [reflexivity|]. split; [exact INV|]. split; [right; auto|]. split; [|now rewrite EM]. cbn [observes]. split; [congruence|]. intros Hy. exfalso. apply Hno. exact Hy. }
      destruct ((H_m h0 + c_b u <=? i) || (i <? c_b u) || ((H_n h0 + c_b u <=? j) || (j <? c_b u))) eqn:Eb.
      { apply NO; [discriminate|]. rewrite <- S5. lia. }
      set (R := if c_doid u =? gt then j else i). set (C := if c_doid u =? gt then i else j).
      replace (if c_doid u =? gt then set_csr_value u j i v else set_csr_value u i j v) with (set_csr_value u R C v) by (unfold R, C; destruct (c_doid u =? gt); reflexivity).
      assert (ST : forall k, stored_at u0 (i - c_b u0) (j - c_b u0) k <-> in_row (c_ptr u) (c_b u) (R - c_b u) k /\ zn (c_ind u) k = C).
      { intros k. unfold stored_at. rewrite <- S4, <- S5, <- S6, <- S7. unfold R, C. destruct (c_doid u =? gt); split; intros (Q1 & Q2); (split; [exact Q1|lia]). }
      assert (HR : 0 <= R - c_b u < c_m u).
      { unfold R. change (H_m (strip h)) with (H_m h) in U4. change (H_n (strip h)) with (H_n h) in U4. destruct U4 as [(Q & Q1 & Q2)|(Q & Q1 & Q2)]; rewrite Q; [replace (gn =? gt) with false by reflexivity|rewrite Z.eqb_refl]; lia. }
      destruct (set_csr_value_ok u R C v AR HR) as [(k & K1 & K2 & K3 & K4)|(K1 & K2)].
      - rewrite K4. eexists success, _, (upd l k v). split; [reflexivity|].
        pose proof (in_row_val u _ k AR HR K1) as (B1 & B2 & B3).
        assert (AL : 0 <= i - c_b u0 < H_m h0 /\ 0 <= j - c_b u0 < H_n h0) by (rewrite <- S5; lia).
        split; [rewrite S8; apply (new_vals h l); auto; apply zlen_upd|].
        split; [left; split; [lia|split; [lia|]]; exists k; split; [apply ST; auto|split; [|reflexivity]]; intros k' Hk'; apply ST in Hk'; apply K3; tauto|].
        split; [cbn [observes]; split; [intros _|reflexivity]; split; [apply AL|split; [apply AL|]]; exists k; apply ST; auto|].
        cbn [drop_copies set_mats H_mats]. unfold zlen. cbn [length]. now rewrite map_length.
      - rewrite K2. apply NO; [discriminate|]. intros (_ & _ & k & Hk). apply ST in Hk. destruct Hk as (Q1 & Q2). now apply (K1 k).
    Qed.

    Lemma update_call : forall h l v, inv h l ->
      exists st h' l', do_call O srt fz ft sup dt mvc nthreads team tsc w h (k_update v) = Some (st, None, h') /\ inv h' l' /\
        vals_step (H_m h0) (H_n h0) u0 l (k_update v) l' /\ observes O dt mvc tsc w h0 (with_val u0 l) (k_update v) (st, None) /\ zlen (H_mats h') = zlen (H_mats h).
    Proof.
      intros h l v INV. pose proof INV as (u & rest & EM & HOK & FL & SD & D1 & D2 & D3). destruct (sd_val _ _ SD) as (S1 & S2 & S3 & S4 & S5 & S6 & S7 & S8).
      pose proof HOK as ((AR & U1 & U2 & U3 & U4) & _). pose proof AR as (W & DU & Lv & Hb). change (H_nnz (strip h)) with (H_nnz h) in U1. unfold do_call, update_values. rewrite EM.
      destruct (Z.eqb_spec (zlen v) (H_nnz h)) as [Eq|Ne]; cbn [negb].
      - rewrite (update_loop O v (c_val u)) by lia. eexists success, _, v. split; [reflexivity|]. split; [apply (new_vals h l); auto; rewrite <- S8; lia|].
        split; [left; split; [lia|reflexivity]|]. split; [cbn; split; [lia|reflexivity]|].
        cbn [drop_copies set_mats H_mats]. unfold zlen. cbn [length]. now rewrite map_length.
      - exists invalid_size, h, l. split; [reflexivity|]. split; [exact INV|]. split; [right; split; [lia|reflexivity]|]. split; [|now rewrite EM]. cbn. split; [discriminate|lia].
    Qed.

    Lemma optimize_call : forall h l, inv h l ->
      exists h' i, csr_csc_optimize O srt fz ft h = Some (success, h', Some i) /\ inv h' l.
    Proof.
      intros h l (u & rest & EM & HOK & FL & SD & D1 & D2 & D3).
      destruct (optimize_ok O srt fz ft Hsrt Hfz Hft (strip h) u HOK (sd_sortable _ _ SD)) as (h1 & i1 & c & u1 & E & HOK1 & SD1 & E1 & E2 & E3 & E4 & Rc & Oc & _ & _ & _ & _ & _ & HH).
      pose proof (opt_strip O srt fz ft h u rest EM) as OS. rewrite E in OS. destruct OS as (h' & r' & u' & rest' & E' & -> & EM' & RR).
      destruct r' as [i'|]; [|contradiction]. exists h', i'. split; auto.
      assert (EQ : u1 = u').
      { destruct HOK1 as (_ & rr & EE & _). unfold strip in EE. cbn [set_mats H_mats] in EE. rewrite EM' in EE. cbn [filter some_slot] in EE. now inversion EE. }
      subst u1. exists u', rest'. split; auto. split; auto. split.
      - destruct SD1 as (S1 & S2 & S3 & S4 & S5 & S6 & S7 & S8). intros _. rewrite S1, S2, S5, S6, S7.
        destruct HH as [HH|HH]; [|tauto]. rewrite HH. apply FL. exists c. split; auto. rewrite HH in Rc. unfold rd in Rc. destruct (i1 <? 0); [discriminate|]. eapply nth_error_In; eauto.
      - split; [eapply sd_trans; eauto|]. change (H_m (strip h')) with (H_m h') in E1. change (H_n (strip h')) with (H_n h') in E2. change (H_nnz (strip h')) with (H_nnz h') in E3.
        change (H_m (strip h)) with (H_m h) in E1. change (H_n (strip h)) with (H_n h) in E2. change (H_nnz (strip h)) with (H_nnz h) in E3. lia.
    Qed.

    Lemma trsv_call : forall h l op alpha d rhs incb x incx kid, inv h l -> valid_call O dt tsc w h0 (with_val u0 l) (k_trsv op alpha d rhs incb x incx kid) ->
      exists st xr h', trsvh op alpha h d rhs incb x incx kid = Some (st, xr, Some h') /\ inv h' l /\
        observes O dt mvc tsc w h0 (with_val u0 l) (k_trsv op alpha d rhs incb x incx kid) (st, xr).
    Proof.
      intros h l op alpha d rhs incb x incx kid INV V. pose proof INV as (u & rest & EM & HOK & FL & SD & D1 & D2 & D3). destruct (sd_val _ _ SD) as (S1 & S2 & S3 & S4 & S5 & S6 & S7 & S8).
      destruct V as (V1 & V2 & V3 & V4 & V5 & V6 & V7 & V8 & V9 & V10 & V11 & V12 & V13). pose proof (sd_mat _ _ SD) as ME.
      assert (Q1 : H_m (strip h) = H_m h0) by exact D1. assert (Q2 : H_n (strip h) = H_n h0) by exact D2. assert (Q3 : H_nnz (strip h) = H_nnz h0) by exact D3.
      destruct (trsv_handle_ok O L HD srt fz ft Hsrt Hfz Hft dt tsc Hreal w (strip h) u d op alpha rhs incb x incx kid) as (st & xr & h1 & u1 & E & E1 & E2 & E3 & E4 & E5 & E6 & E7 & R); auto; try lia; try congruence.
      - exact (sd_sortable _ _ SD).
      - rewrite V4. cbn [with_val c_b]. congruence.
      - intros Hd Hf i Hi. rewrite ME. apply V12; auto; [|lia]. cbn [with_val c_m c_n c_b c_ptr c_ind]. now rewrite <- S1, <- S2, <- S5, <- S6, <- S7.
      - rewrite S1, S4, S5, S6, S7. exact V13.
      - pose proof (trsv_strip op alpha h d rhs incb x incx kid u rest EM) as TS. rewrite E in TS. destruct TS as (h' & u' & rest' & E' & -> & EM').
        exists st, xr, h'. split; auto. split.
        + assert (EQ : u1 = u').
          { destruct E1 as (_ & rr & EE & _). unfold strip in EE. cbn [set_mats H_mats] in EE. rewrite EM' in EE. cbn [filter some_slot] in EE. now inversion EE. }
          subst u1. exists u', rest'. split; auto. split; auto. split; auto. split; [eapply sd_trans; eauto|].
          change (H_m (strip h')) with (H_m h') in E4. change (H_n (strip h')) with (H_n h') in E5. change (H_nnz (strip h')) with (H_nnz h') in E6. lia.
        + rewrite Q1 in R. rewrite S1, S2, S5, S6, S7, ME in R. exact R.
    Qed.
    Lemma mv_pre_data : forall l u h d op, same_data (with_val u0 l) u -> H_m h = H_m h0 -> H_n h = H_n h0 ->
      mv_pre O dt h0 (with_val u0 l) d op -> mv_pre O dt h u d op.
    Proof.
      intros l u h d op SD D1 D2 [M1 M2 M3 M4 M5 M6 M7 M8 M9]. pose proof (sd_mat _ _ SD) as ME. destruct (sd_val _ _ SD) as (S1 & S2 & S3 & S4 & S5 & S6 & S7 & S8).
      assert (CE : forall i, upper_count u i = upper_count (with_val u0 l) i) by (intros i; unfold upper_count, centries; now rewrite S2, S5, S6, S7, S8).
      cbn [with_val c_m c_n c_b c_doid] in *. constructor; auto; try congruence.
      - intros Q. rewrite D1, D2. auto.
      - intros Q1 Q2. rewrite ME. auto.
      - intros _. exact (sd_sortable _ _ SD).
      - intros Q1 Q2. rewrite S1, S2. auto.
      - intros Q1 Q2 Q3 Q4 i Hi. rewrite CE. rewrite S4 in Q4. apply M9; auto. lia.
    Qed.

    Local Notation mvh op alpha h d x beta y := (mv O srt fz ft sup dt mvc nthreads team op (Some alpha) (Some h) (Some d) (Some x) (Some beta) (Some y)).

    Lemma strip_full : forall h : hnd T, Forall (fun e => some_slot e = true) (H_mats h) -> strip h = h.
    Proof.
      intros h F. unfold strip. rewrite all_slots by exact F. destruct h; reflexivity.
    Qed.

    Lemma mv_call : forall h l op alpha d x beta y, inv h l -> Forall (fun e => some_slot e = true) (H_mats h) ->
      valid_call O dt tsc w h0 (with_val u0 l) (k_mv op alpha d x beta y) ->
      exists st yr h', mvh op alpha h d x beta y = Some (st, yr, Some h') /\ inv h' l /\ Forall (fun e => some_slot e = true) (H_mats h') /\
        observes O dt mvc tsc w h0 (with_val u0 l) (k_mv op alpha d x beta y) (st, yr).
    Proof.
      intros h l op alpha d x beta y INV NF (V1 & V2 & V3). pose proof INV as (u & rest & EM & HOK & FL & SD & D1 & D2 & D3).
      rewrite strip_full in HOK, FL by auto. pose proof (sd_mat _ _ SD) as ME. destruct (sd_val _ _ SD) as (S1 & S2 & S3 & S4 & S5 & S6 & S7 & S8).
      destruct (mv_handle_flag O L srt fz ft Hsrt Hfz Hft sup Hsup dt mvc nthreads team Hteam Hreal h u d op alpha beta x y HOK (mv_pre_data l u h d op SD D1 D2 V1)) as (st & yr & h' & u' & E & E1 & E2 & E3 & E4 & E5 & E6 & E7 & R).
      - rewrite D1, D2. exact V2.
      - rewrite D1, D2. exact V3.
      - exists st, yr, h'. split; auto. pose proof E1 as (_ & rest' & EM' & _ & HF').
        assert (NF' : Forall (fun e => some_slot e = true) (H_mats h')).
        { rewrite EM'. constructor; [reflexivity|]. eapply Forall_impl; [|exact HF']. intros e (c & -> & _). reflexivity. }
        split; [|split; auto].
        + exists u', rest'. rewrite strip_full by auto. split; auto. split; auto. split; auto. split; [eapply sd_trans; eauto|]. lia.
        + rewrite D1, D2, S4, ME in R. exact R.
    Qed.

    (** ** Histories without products *)
    Lemma history_solves : forall calls h l, inv h l -> valid_calls O dt tsc w h0 u0 l calls -> forallb (fun c => negb (is_product c)) calls = true ->
      exists obs h' l', run O srt fz ft sup dt mvc nthreads team tsc w h calls = Some (obs, h') /\ inv h' l' /\ served O dt mvc tsc w h0 u0 l calls obs l'.
    Proof.
      induction calls as [|c calls IH]; intros h l INV V NP.
      - exists [], h, l. split; [reflexivity|]. split; auto. constructor.
      - inversion V as [|l0 c0 calls0 V1 V2]; subst. cbn [forallb] in NP. apply andb_true_iff in NP. destruct NP as (NP1 & NP2).
        assert (ST : exists st out h1 l1, do_call O srt fz ft sup dt mvc nthreads team tsc w h c = Some (st, out, h1) /\ inv h1 l1 /\ vals_step (H_m h0) (H_n h0) u0 l c l1 /\ observes O dt mvc tsc w h0 (with_val u0 l) c (st, out)).
        { destruct c as [i j v|v| |op alpha d x beta y|op alpha d rhs incb x incx kid]; try discriminate.
          - destruct (set_call h l i j v INV) as (st & h1 & l1 & E & I1 & Vs & Ob & _). eauto 10.
          - destruct (update_call h l v INV) as (st & h1 & l1 & E & I1 & Vs & Ob & _). eauto 10.
          - destruct (optimize_call h l INV) as (h1 & i & E & I1). exists success, None, h1, l. unfold do_call. rewrite E. cbn. auto.
          - destruct (trsv_call h l op alpha d rhs incb x incx kid INV V1) as (st & xr & h1 & E & I1 & Ob). exists st, xr, h1, l. unfold do_call. rewrite E. split; [reflexivity|]. split; auto. split; [reflexivity|auto]. }
        destruct ST as (st & out & h1 & l1 & E & I1 & Vs & Ob). cbn [run]. rewrite E.
        destruct (IH h1 l1 I1 (V2 l1 Vs) NP2) as (obs & h' & l' & E' & I' & Sv). rewrite E'. exists ((st, out) :: obs), h', l'. split; auto. split; auto. econstructor; eauto.
    Qed.

    (** ** Histories on matrices that are optimised in place *)
    Hypothesis HG : rows_grouped (c_m u0) (c_b u0) (c_ptr u0) (c_ind u0).
    Hypothesis HFD : full_diag (c_m u0) (c_n u0) (c_b u0) (c_ptr u0) (c_ind u0).
    Definition inv1 (h : hnd T) (l : list T) : Prop := inv h l /\ zlen (H_mats h) = 1.

    Lemma inv1_mats : forall h l, inv1 h l -> exists u, H_mats h = [Some u] /\ same_data (with_val u0 l) u /\ hnd_ok zero h u.
    Proof.
      intros h l ((u & rest & EM & HOK & FL & SD & _) & L1). rewrite EM in L1. destruct rest as [|e r].
      - exists u. split; auto. split; auto. rewrite strip_full in HOK; auto. rewrite EM. constructor; auto.
      - exfalso. unfold zlen in L1. cbn [length] in L1. lia.
    Qed.

    Lemma opt1 : forall h l h' i, inv1 h l -> csr_csc_optimize O srt fz ft h = Some (success, h', i) -> zlen (H_mats h') = 1.
    Proof.
      intros h l h' i I1 E. destruct (inv1_mats h l I1) as (u & EM & SD & HOK). destruct (sd_val _ _ SD) as (S1 & S2 & S3 & S4 & S5 & S6 & S7 & S8).
      destruct (optimize_in_place O srt fz ft Hfz h u HOK EM) as (h2 & u2 & E2 & EM2 & _).
      - now rewrite S1, S5, S6, S7.
      - now rewrite S1, S2, S5, S6, S7.
      - rewrite E2 in E. inversion E; subst. rewrite EM2. reflexivity.
    Qed.

    Lemma trsv_mats : forall op alpha h d rhs incb x incx kid st xr h', trsvh op alpha h d rhs incb x incx kid = Some (st, xr, Some h') ->
      h' = h \/ exists s r, csr_csc_optimize O srt fz ft h = Some (s, h', r).
    Proof.
      intros op alpha h d rhs incb x incx kid st xr h' E. unfold trsv in E.
      repeat match type of E with
      | (if ?b then _ else _) = _ => destruct b; [inversion E; auto; fail|]
      | (match H_mats h with _ => _ end) = _ => destruct (H_mats h) as [|[u|] rest] eqn:EM; [inversion E; auto; fail| |inversion E; auto; fail]
      end.
      destruct (csr_csc_optimize O srt fz ft h) as [((s, h1), r)|] eqn:Eo; [|discriminate]. right. exists s, r.
      assert (h' = h1) as ->; auto.
      destruct s; try (inversion E; reflexivity).
      repeat match type of E with
      | (if ?b then _ else _) = _ => destruct b; [inversion E; reflexivity|]
      | (match ?e with _ => _ end) = _ => destruct e; try discriminate; try (inversion E; reflexivity)
      end.
    Qed.

    Lemma mv_mats : forall op alpha h d x beta y st yr h', mvh op alpha h d x beta y = Some (st, yr, Some h') ->
      zlen (H_mats h') = zlen (H_mats h) \/ exists s h1 r, csr_csc_optimize O srt fz ft h = Some (s, h1, r) /\ zlen (H_mats h') = zlen (H_mats h1).
    Proof.
      intros op alpha h d x beta y st yr h' E. unfold mv in E.
      destruct (H_mats h) as [|[u|] rest] eqn:EM; [inversion E; subst; rewrite EM; auto| |inversion E; subst; rewrite EM; auto]. rewrite <- EM in *. clear EM.
      repeat match type of E with
      | (if ?b then Some (?s, None, Some h) else _) = _ => destruct b; [inversion E; auto; fail|]
      end.
      match type of E with (if ?b then _ else _) = _ => destruct b end.
      { match type of E with (match ?e with _ => _ end) = _ => destruct e; [|discriminate] end. inversion E; auto. }
      match type of E with (match ?e with _ => _ end) = _ => destruct e as [d_id|]; [|discriminate] end.
      match type of E with (match ?e with _ => _ end) = _ => destruct e as [best|]; [|discriminate] end.
      match type of E with (match ?e with _ => _ end) = _ => destruct e as [((s1, h1), best1)|] eqn:E1; [|discriminate] end.
      assert (K : zlen (H_mats h1) = zlen (H_mats h) \/ exists s r, csr_csc_optimize O srt fz ft h = Some (s, h1, r)).
      { destruct best as [(i, c)|]; [|inversion E1; auto].
        match type of E1 with (if ?b then _ else _) = _ => destruct b; [|inversion E1; auto] end.
        destruct (csr_csc_optimize O srt fz ft h) as [((s, h2), r)|] eqn:Eo; [|discriminate]. right. exists s, r.
        destruct s, r as [i'|]; try discriminate; try (inversion E1; reflexivity).
        destruct (rd (H_mats h2) i') as [[c'|]|]; try discriminate. inversion E1; reflexivity. }
      assert (G : zlen (H_mats h') = zlen (H_mats h1)).
      { destruct s1; try (inversion E; reflexivity). destruct best1 as [(i, c)|]; [|inversion E; reflexivity].
        match type of E with (match ?e with _ => _ end) = _ => destruct e as [eff|]; [|discriminate] end.
        match type of E with (match ?e with _ => _ end) = _ => destruct e as [((s2, c2), h2)|] eqn:E2; [|discriminate] end.
        assert (G2 : zlen (H_mats h2) = zlen (H_mats h1)).
        { match type of E2 with (if ?b then _ else _) = _ => destruct b; [|inversion E2; reflexivity] end.
          destruct (set_mat_diag O (H_m h1) (d_diag d) c) as [(s3, c3)|]; [|discriminate]. inversion E2; subst. cbn [set_mats H_mats]. apply zlen_upd. }
        destruct s2; try (inversion E; subst; auto; fail).
        match type of E with (match ?e with _ => _ end) = _ => destruct e as [(s3, y3)|]; [|discriminate] end. inversion E; subst; auto. }
      destruct K as [K|(s & r & K)]; [left; congruence|right; eauto].
    Qed.

    Lemma history_in_place : forall calls h l, inv1 h l -> valid_calls O dt tsc w h0 u0 l calls ->
      exists obs h' l', run O srt fz ft sup dt mvc nthreads team tsc w h calls = Some (obs, h') /\ inv1 h' l' /\ served O dt mvc tsc w h0 u0 l calls obs l'.
    Proof.
      induction calls as [|c calls IH]; intros h l I1 V.
      - exists [], h, l. split; [reflexivity|]. split; auto. constructor.
      - inversion V as [|l0 c0 calls0 V1 V2]; subst. pose proof I1 as (INV & L1).
        assert (OPT : forall s h1 r, csr_csc_optimize O srt fz ft h = Some (s, h1, r) -> zlen (H_mats h1) = 1).
        { intros s h1 r E. destruct (optimize_call h l INV) as (h2 & i & E2 & _). rewrite E2 in E. inversion E; subst. eapply opt1; eauto. }
        assert (ST : exists st out h1 l1, do_call O srt fz ft sup dt mvc nthreads team tsc w h c = Some (st, out, h1) /\ inv1 h1 l1 /\ vals_step (H_m h0) (H_n h0) u0 l c l1 /\ observes O dt mvc tsc w h0 (with_val u0 l) c (st, out)).
        { destruct c as [i j v|v| |op alpha d x beta y|op alpha d rhs incb x incx kid].
          - destruct (set_call h l i j v INV) as (st & h1 & l1 & E & I2 & Vs & Ob & LL). exists st, None, h1, l1. split; auto. split; [split; auto; lia|auto].
          - destruct (update_call h l v INV) as (st & h1 & l1 & E & I2 & Vs & Ob & LL). exists st, None, h1, l1. split; auto. split; [split; auto; lia|auto].
          - destruct (optimize_call h l INV) as (h1 & i & E & I2). exists success, None, h1, l. unfold do_call. rewrite E. split; auto. split; [split; auto; eapply OPT; eauto|]. cbn. auto.
          - assert (NF : Forall (fun e => some_slot e = true) (H_mats h)) by (destruct (inv1_mats h l I1) as (u & -> & _); constructor; auto).
            destruct (mv_call h l op alpha d x beta y INV NF V1) as (st & yr & h1 & E & I2 & _ & Ob). exists st, yr, h1, l. unfold do_call. rewrite E. split; [reflexivity|]. split; [|split; [reflexivity|auto]].
            split; auto. destruct (mv_mats _ _ _ _ _ _ _ _ _ _ E) as [Q|(s & h2 & r & Q1 & Q2)]; [congruence|]. rewrite Q2. eapply OPT; eauto.
          - destruct (trsv_call h l op alpha d rhs incb x incx kid INV V1) as (st & xr & h1 & E & I2 & Ob). exists st, xr, h1, l. unfold do_call. rewrite E. split; [reflexivity|]. split; [|split; [reflexivity|auto]].
            split; auto. destruct (trsv_mats _ _ _ _ _ _ _ _ _ _ _ _ E) as [-> |(s & r & Q)]; auto. eapply OPT; eauto. }
        destruct ST as (st & out & h1 & l1 & E & I2 & Vs & Ob). cbn [run]. rewrite E.
        destruct (IH h1 l1 I2 (V2 l1 Vs)) as (obs & h' & l' & E' & I' & Sv). rewrite E'. exists ((st, out) :: obs), h', l'. split; auto. split; auto. econstructor; eauto.
    Qed.
  End H.

  (** A null slot is dereferenced by every product that reaches the choice of a matrix. *)
  Lemma mv_null : forall h u rest d op alpha beta x y, H_mats h = Some u :: rest -> In None rest ->
    mv_pre O dt h u d op -> 0 < H_m h -> 0 < H_n h -> 0 < H_nnz h ->
    mv O srt fz ft sup dt mvc nthreads team op (Some alpha) (Some h) (Some d) (Some x) (Some beta) (Some y) = None.
  Proof.
    intros h u rest d op alpha beta x y EM HIn [M1 M2 M3 M4 M5 M6 M7 M8 M9] Pm Pn Pz. unfold mv.
    assert (BN : forall q, get_best_matrix sup dt (H_mats h) q = None).
    { intros q. unfold get_best_matrix. destruct (In_nth_error (H_mats h) None) as (n & Hn); [rewrite EM; now right|].
      assert (Hlt : (n < length (H_mats h))%nat) by (apply nth_error_Some; congruence).
      rewrite (for_split _ 0 (Z.of_nat n) (zlen (H_mats h))) by (unfold zlen; lia).
      match goal with |- context [for_ 0 (Z.of_nat n) ?f ?s] => destruct (for_ 0 (Z.of_nat n) f s) as [(ms, bs)|] end; [|reflexivity].
      unfold for_. rewrite zrange_first by (unfold zlen; lia). cbn [foldM].
      assert (RN : rd (H_mats h) (Z.of_nat n) = Some None) by (unfold rd; replace (Z.of_nat n <? 0) with false by lia; rewrite Nat2Z.id; exact Hn).
      now rewrite RN. }
    rewrite EM in *. replace (negb (c_b u =? d_base d)) with false by lia. rewrite M2. cbn [negb].
    match goal with |- context [if ?b && negb (H_m h =? H_n h) then _ else _] => replace (b && negb (H_m h =? H_n h)) with false end.
    2: { destruct (d_type d) eqn:Et; auto; rewrite M3 by auto; now rewrite Z.eqb_refl. }
    match goal with |- context [if negb (is_cplx dt) && ?b then _ else _] => replace (negb (is_cplx dt) && b) with false end.
    2: { destruct (d_type d) eqn:Et; rewrite ?andb_false_r; auto. now rewrite M4. }
    match goal with |- context [if ?b then _ else _] => replace b with false by lia end.
    match goal with |- match ?e with _ => _ end = _ => destruct e as [d_id|]; [|reflexivity] end. now rewrite BN.
  Qed.
End P.
