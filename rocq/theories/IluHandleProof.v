From Coq Require Import ZArith List Bool Lia ZifyBool Ring.
From Verif Require Import Base BaseFacts Algebra DoidModel DoidSpec Csr CsrFacts CheckModel MvModel MvFacts HandleModel HandleSpec IluModel IluSpec IluProof.
Import ListNotations.
Open Scope Z_scope.

Section H.
  Context {T : Type} (O : ops T) (L : laws O) (HD : div_law O).
  Variables (near0 : T -> bool) (fz : Z -> list Z).
  Hypothesis N0 : near0 (o0 O) = true.
  Hypothesis FZ : forall m, 0 <= m -> zlen (fz m) = m.

  Lemma guards : forall (h : hnd T) u d, ilu_pre h u d ->
    (c_b u =? d_base d) = true /\ H_sort h = fully_sorted /\ H_full h = true /\ d_type d = mt_general /\
    ((H_m h <? 0) || (H_n h <? 0) || negb (H_m h =? H_n h)) = false /\ ((H_m h =? 0) || (H_n h =? 0)) = false /\
    c_m u = H_n h /\ c_n u = H_n h /\ H_nnz h = c_nnz u.
  Proof.
    intros h u d [U M C Q P S1 S2 F1 F2 Ty B I]. destruct U as (_ & NN & _ & _ & [(D & D1 & D2)|(D & _)]); [|rewrite C in D; discriminate].
    ands; auto; lia.
  Qed.

  Lemma smoother_fresh : forall h u d x bv, ilu_pre h u d -> zlen x = H_m h -> zlen bv = H_m h ->
    exists st x' out s', ilu_smoother O near0 fz op_none (Some h) None (Some d) true (Some x) (Some bv) = Some (st, Some x', out, Some s') /\
      (st = success /\ out = factors /\ il_fact s' = true /\ factored O near0 u (il_diag s') (il_val s') /\
         lu_solves O (c_m u) (csr_mat O (c_b u) (c_ptr u) (c_ind u) (il_val s')) x' bv \/
       st = numerical_error /\ out = null_ptr /\ x' = x /\ exists v i, zlen v = c_nnz u /\ 0 <= i < c_m u /\ let F := csr_mat O (c_b u) (c_ptr u) (c_ind u) v in
         ilu_rows O (c_m u) (c_b u) (c_ptr u) (c_ind u) F (csr_mat O (c_b u) (c_ptr u) (c_ind u) (c_val u)) (i + 1) /\
         near0 (F i i) = true /\ forall r, 0 <= r < i -> near0 (F r r) = false).
  Proof.
    intros h u d x bv PRE Lx Lb. destruct (guards h u d PRE) as (G1 & G2 & G3 & G4 & G5 & G6 & G7 & G8 & G9).
    destruct PRE as [U (rest & M) C Q P S1 S2 F1 F2 Ty B (I1 & I2)]. pose proof U as ((W & DU & Lv & Hb) & _).
    unfold ilu_smoother. rewrite M, G1, G2, G3, G4, G5, G6. cbn [negb]. unfold optimize_ilu. cbn [il_fact il_diag il_val]. rewrite G9.
    assert (FN : firstn (Z.to_nat (c_nnz u)) (c_val u) = c_val u) by (apply firstn_all2; unfold zlen in Lv; lia). rewrite FN.
    rewrite G7, G8 in *.
    destruct (fact_ok O L HD near0 N0 (H_n h) (c_b u) (c_nnz u) (c_ptr u) (c_ind u) W S1 DU F1 ltac:(lia) ltac:(lia) (c_val u) Lv (fz (H_m h)) ltac:(rewrite FZ by lia; lia) ltac:(lia))
      as (st & lu & v & E & Ll & Lv' & R). rewrite E. destruct R as [(-> & (_ & _ & PIV & IR))|(-> & i & R)].
    - cbn [il_diag il_val].
      destruct (solve_ok O L HD near0 N0 (H_n h) (c_b u) (c_nnz u) (c_ptr u) (c_ind u) W S1 DU F1 ltac:(lia) ltac:(lia) (c_val u) Lv lu v bv Ll Lv' ltac:(lia) PIV x ltac:(lia)) as (x' & Ex & Sx).
      rewrite Ex. exists success, x', factors. eexists. split; [reflexivity|]. left. cbn [il_fact il_diag il_val]. ands; auto.
      unfold factored. rewrite G7. ands; auto.
      + intros i Hi. destruct (PIV i Hi) as ((D1 & D2) & _). unfold in_row. lia.
      + intros i Hi. destruct (PIV i Hi) as (D & N). rewrite (diag_val O L near0 N0 (H_n h) (c_b u) (c_nnz u) (c_ptr u) (c_ind u) W S1 DU v i (zn lu i)) by auto. exact N.
    - exists numerical_error, x, null_ptr. eexists. split; [reflexivity|]. right. ands; auto. exists v, i. destruct R as (R1 & R2 & R3 & R4). split; [exact Lv'|]. split; [lia|]. split; [exact R2|]. split; [exact R3|exact R4].
  Qed.

  Lemma smoother_again : forall h u d lu v x bv, ilu_pre h u d -> zlen x = H_m h -> zlen bv = H_m h -> factored O near0 u lu v ->
    exists x', ilu_smoother O near0 fz op_none (Some h) (Some (mkIlu true lu v)) (Some d) true (Some x) (Some bv) = Some (success, Some x', factors, Some (mkIlu true lu v)) /\
      lu_solves O (c_m u) (csr_mat O (c_b u) (c_ptr u) (c_ind u) v) x' bv.
  Proof.
    intros h u d lu v x bv PRE Lx Lb FA. destruct (guards h u d PRE) as (G1 & G2 & G3 & G4 & G5 & G6 & G7 & G8 & G9).
    destruct PRE as [U (rest & M) C Q P S1 S2 F1 F2 Ty B (I1 & I2)]. pose proof U as ((W & DU & Lv & Hb) & _).
    unfold ilu_smoother. rewrite M, G1, G2, G3, G4, G5, G6. cbn [negb]. unfold optimize_ilu. cbn [il_fact il_diag il_val].
    unfold factored in FA. rewrite G7, G8 in *. destruct FA as (Ll & Lv' & PD & PN & IR).
    destruct (solve_ok O L HD near0 N0 (H_n h) (c_b u) (c_nnz u) (c_ptr u) (c_ind u) W S1 DU F1 ltac:(lia) ltac:(lia) (c_val u) Lv lu v bv Ll Lv' ltac:(lia)) with (x := x) as (x' & Ex & Sx); [|lia|].
    - intros r Hr. destruct (PD r Hr) as (D1 & D2). unfold in_row in D1.
      assert (D : isdiag (c_b u) (c_ptr u) (c_ind u) r (zn lu r)) by (split; lia). split; auto.
      specialize (PN r Hr). rewrite (diag_val O L near0 N0 (H_n h) (c_b u) (c_nnz u) (c_ptr u) (c_ind u) W S1 DU v r (zn lu r)) in PN by auto. exact PN.
    - rewrite Ex. exists x'. auto.
  Qed.

  (** later calls *)
  Inductive later (A : option (hnd T)) : option (ilu_st (T:=T)) -> Prop :=
    | later_0 : later A None
    | later_S : forall s op d pre x bv st x' out s', later A s -> ilu_smoother O near0 fz op A s d pre x bv = Some (st, x', out, s') -> later A s'.

  Lemma smoother_cases : forall op A s d pre x bv,
    (exists st, forall s, ilu_smoother O near0 fz op A s d pre x bv = Some (st, x, untouched, s)) \/
    exists h u rest dd x0 b0, A = Some h /\ d = Some dd /\ x = Some x0 /\ bv = Some b0 /\ H_mats h = Some u :: rest /\
    ilu_smoother O near0 fz op A s d pre x bv =
      (let s := optimize_ilu fz h u s in
       let* (st, s) :=
         (if il_fact s then Some (success, s)
          else
            let* (st, lu, val) := ilu0_fact O near0 (H_n h) (c_b u) (c_ptr u) (c_ind u) (il_diag s) (il_val s) in
            Some (st, mkIlu (match st with success => true | _ => false end) lu val)) in
       match st with
       | success =>
           let* x := ilu_solve O near0 (H_n h) (c_b u) (c_ptr u) (c_ind u) (il_diag s) (il_val s) b0 x0 in
           Some (success, Some x, factors, Some s)
       | _ => Some (st, Some x0, null_ptr, Some s)
       end) /\
    forall s', ilu_smoother O near0 fz op A s' d pre x bv =
      (let s := optimize_ilu fz h u s' in
       let* (st, s) :=
         (if il_fact s then Some (success, s)
          else
            let* (st, lu, val) := ilu0_fact O near0 (H_n h) (c_b u) (c_ptr u) (c_ind u) (il_diag s) (il_val s) in
            Some (st, mkIlu (match st with success => true | _ => false end) lu val)) in
       match st with
       | success =>
           let* x := ilu_solve O near0 (H_n h) (c_b u) (c_ptr u) (c_ind u) (il_diag s) (il_val s) b0 x0 in
           Some (success, Some x, factors, Some s)
       | _ => Some (st, Some x0, null_ptr, Some s)
       end).
  Proof.
    intros op A s d pre x bv. unfold ilu_smoother.
    destruct d as [dd|]; [|left; eexists; reflexivity]. destruct A as [h|]; [|left; eexists; reflexivity].
    destruct x as [x0|]; [|left; eexists; reflexivity]. destruct bv as [b0|]; [|left; eexists; reflexivity].
    destruct pre; cbn [negb]; [|left; eexists; reflexivity].
    destruct (H_mats h) as [|[u|] rest] eqn:M; try (left; eexists; reflexivity).
    destruct (negb (c_b u =? d_base dd)); [left; eexists; reflexivity|].
    destruct (negb _); [left; eexists; reflexivity|]. destruct (negb _); [left; eexists; reflexivity|]. destruct (negb _); [left; eexists; reflexivity|].
    destruct (negb _); [left; eexists; reflexivity|]. destruct (_ || _ || _); [left; eexists; reflexivity|]. destruct (_ || _); [left; eexists; reflexivity|].
    right. exists h, u, rest, dd, x0, b0. auto 10.
  Qed.

  Lemma smoother_stable : forall A op d pre x bv st x' out s1 s,
    ilu_smoother O near0 fz op A None d pre x bv = Some (st, x', out, s1) -> out <> null_ptr -> later A s ->
    exists s', ilu_smoother O near0 fz op A s d pre x bv = Some (st, x', out, s').
  Proof.
    intros A op d pre x bv st x' out s1 s E NN LT.
    destruct (smoother_cases op A None d pre x bv) as [(st0 & G)|(h & u & rest & dd & x0 & b0 & -> & -> & -> & -> & M & _ & G)].
    { rewrite G in E. injection E as <- <- <- <-. exists s. apply G. }
    rewrite G in E. cbn [optimize_ilu il_fact il_diag il_val] in E. cbv zeta in E.
    destruct (ilu0_fact O near0 (H_n h) (c_b u) (c_ptr u) (c_ind u) (fz (H_m h)) (firstn (Z.to_nat (H_nnz h)) (c_val u))) as [((st1 & lu) & v)|] eqn:FA; [|discriminate].
    destruct st1; try (injection E as <- <- <- <-; congruence).
    assert (INV : s = None \/ s = Some (mkIlu true lu v)).
    { clear E G. induction LT as [|s op' d' pre' x2 bv' st' x2' out' s' LT IH E]; auto.
      destruct (smoother_cases op' (Some h) s d' pre' x2 bv') as [(st0 & G)|(h' & u' & rest' & dd' & x0' & b0' & Q & -> & -> & -> & M' & _ & G)].
      { rewrite G in E. injection E as <- <- <- <-. exact IH. }
      injection Q as <-. rewrite M in M'. injection M' as <- <-. rewrite G in E. right.
      destruct IH as [-> | ->]; cbn [optimize_ilu il_fact il_diag il_val] in E; cbv zeta in E.
      - rewrite FA in E. cbn [il_diag il_val] in E. destruct (ilu_solve _ _ _ _ _ _ _ _ _ _); [|discriminate]. injection E as <- <- <- <-. reflexivity.
      - destruct (ilu_solve _ _ _ _ _ _ _ _ _ _); [|discriminate]. injection E as <- <- <- <-. reflexivity. }
    rewrite G. destruct INV as [-> | ->]; cbn [optimize_ilu il_fact il_diag il_val]; cbv zeta.
    - rewrite FA. exists s1. exact E.
    - cbn [il_diag il_val] in *. exists s1. exact E.
  Qed.
End H.
