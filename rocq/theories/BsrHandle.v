(** Proofs about BSR handles. *)
From Coq Require Import ZArith List Bool Lia ZifyBool Ring.
From Verif Require Import Base BaseFacts Algebra UtilModel DoidModel DoidSpec MvModel MvSpec MvFacts Csr CsrFacts CheckModel CheckSpec CheckProof CsrmvModel HandleModel BsrSpec BsrmvModel BsrmvSpec BsrmvProof BsrHandleModel.
Import ListNotations.
Open Scope Z_scope.

Lemma chk_in : forall w v, - 2 ^ w <= v <= int_max w -> chk w v = Some v.
Proof. intros w v H. unfold chk, in_int, int_min. replace ((- 2 ^ w <=? v) && (v <=? int_max w)) with true by lia. reflexivity. Qed.
Lemma chk_inv : forall w v r, chk w v = Some r -> r = v /\ - 2 ^ w <= v <= int_max w.
Proof. intros w v r. unfold chk, in_int, int_min. destruct ((- 2 ^ w <=? v) && (v <=? int_max w)) eqn:E; [|discriminate]. intros H; inversion H. lia. Qed.

Section P.
  Context {T : Type} (O : ops T) (L : laws O).
  Let rth := l_ring L. Add Ring BH : rth.
  Notation tn := (nthZ (o0 O)).

  (** What a successful creation stores. *)
  Definition bsr_handle (b : Z) (row : bool) (bM bN bd : Z) (ptr ind : list Z) (val : list T) (so : msort) : bhnd T :=
    let nz := zn ptr bM - b in
    mkBhnd (bM * bd) (bN * bd) (nz * bd * bd) (mkBmat (bM * bd) (bN * bd) (nz * bd * bd) gn b bd row ptr ind val bM bN nz) so false.

  Lemma create_bsr_ok : forall w b row bM bN bd ptr ind (val : list T),
    (0 <= bM -> zlen ptr = bM + 1) ->
    let nz := zn ptr bM - b in
    (0 <= bM -> 0 <= nz -> zlen ind = nz) ->
    - 2 ^ w <= nz <= int_max w ->
    (0 < bd -> 0 <= bM -> 0 <= bN -> 0 <= nz -> bM * bd <= int_max w /\ bN * bd <= int_max w /\ nz * bd * bd <= int_max w) ->
    let sizes := 0 <= bM /\ 0 <= bN /\ 0 <= nz in
    let bad := bad_index shape_general bM bN b ptr ind in
    let dup := dup_diag bM b ptr ind in
    exists st h, create_bsr w false true b row bM bN bd (Some ptr) (Some ind) (Some val) false = Some (st, h) /\
      ( (st = success /\ 0 < bd /\ sizes /\ csr_wf bM bN nz b ptr ind /\ diag_unique bM b ptr ind /\
          exists so, h = Some (bsr_handle b row bM bN bd ptr ind val so) /\ sort_says so bM b ptr ind) \/
        (st = invalid_value /\ h = None /\ bd <= 0) \/
        (st = invalid_size /\ h = None /\ 0 < bd /\ ~ sizes) \/
        (st = invalid_value /\ h = None /\ 0 < bd /\ sizes /\ ~ ptr_ok bM nz b ptr) \/
        (st = invalid_index_value /\ h = None /\ 0 < bd /\ sizes /\ ptr_ok bM nz b ptr /\
           exists k, bad k /\ forall k', k' < k -> ~ bad k' /\ ~ dup k') \/
        (st = invalid_value /\ h = None /\ 0 < bd /\ sizes /\ ptr_ok bM nz b ptr /\
           exists k, dup k /\ ~ bad k /\ forall k', k' < k -> ~ bad k' /\ ~ dup k') ).
  Proof.
    intros w b row bM bN bd ptr ind val LP nz LI NI FIT sizes bad dup. unfold create_bsr.
    destruct (Z.leb_spec bd 0). { eexists _, _; split; [reflexivity|]. tauto. }
    destruct (Z.ltb_spec bM 0).
    { eexists _, _; split; [reflexivity|]. do 2 right; left. ands; auto. unfold sizes. lia. }
    rewrite (rd_nthZ _ 0) by lia. fold nz. rewrite chk_in by auto.
    destruct (mat_check_spec shape_general bM bN nz b ptr ind ltac:(auto) ltac:(auto)) as (st & res & E & C). rewrite E.
    destruct C as [C|[C|[C|[C|C]]]].
    - destruct C as (-> & (s1 & s2 & s3) & SO & so & fd & -> & SS & _).
      destruct FIT as (f1 & f2 & f3); auto.
      assert (P : 0 <= 2 ^ w) by (apply Z.pow_nonneg; lia).
      assert (0 <= bM * bd) by nia. assert (0 <= bN * bd) by nia. assert (0 <= nz * bd) by nia. assert (0 <= nz * bd * bd) by nia.
      assert (nz * bd <= nz * bd * bd) by nia.
      rewrite !chk_in by lia.
      apply (structure_ok_wf bM bN nz b ptr ind) in SO; auto.
      eexists _, _; split; [reflexivity|]. left. ands; try tauto; try lia.
      + unfold sizes; lia.
      + exists so. split; auto.
    - destruct C as (-> & C). eexists _, _; split; [reflexivity|]. do 2 right; left. ands; auto. unfold sizes. lia.
    - destruct C as (-> & (? & ? & ?) & C). eexists _, _; split; [reflexivity|]. do 3 right; left. ands; auto; try (unfold sizes; lia).
    - destruct C as (-> & (? & ? & ?) & C). eexists _, _; split; [reflexivity|]. do 4 right; left. ands; auto; try (unfold sizes; lia); apply C.
    - destruct C as (-> & (? & ? & ?) & C). eexists _, _; split; [reflexivity|]. do 5 right. ands; auto; try (unfold sizes; lia); apply C.
  Qed.

  Lemma create_bsr_inv : forall w b row bM bN bd ptr ind (val : list T) h,
    zlen ptr = bM + 1 -> zlen ind = zn ptr bM - b ->
    create_bsr w false true b row bM bN bd (Some ptr) (Some ind) (Some val) false = Some (success, Some h) ->
    let nz := zn ptr bM - b in
    0 < bd /\ 0 <= bM /\ 0 <= bN /\ 0 <= nz /\ csr_wf bM bN nz b ptr ind /\
    bM * bd <= int_max w /\ bN * bd <= int_max w /\ nz * bd * bd <= int_max w /\
    exists so, h = bsr_handle b row bM bN bd ptr ind val so.
  Proof.
    intros w b row bM bN bd ptr ind val h LP LI E nz. unfold create_bsr in E.
    destruct (Z.leb_spec bd 0); [discriminate|]. destruct (Z.ltb_spec bM 0); [discriminate|].
    rewrite (rd_nthZ _ 0) in E by lia. fold nz in E.
    destruct (chk w nz) as [z|] eqn:CZ; [|discriminate]. apply chk_inv in CZ. destruct CZ as (-> & CZ).
    destruct (mat_check_spec shape_general bM bN nz b ptr ind ltac:(auto) ltac:(auto)) as (st & res & E' & C). rewrite E' in E.
    destruct C as [C|[C|[C|[C|C]]]]; [|destruct C as (-> & _); discriminate..].
    destruct C as (-> & (s1 & s2 & s3) & SO & so & fd & -> & SS & _).
    destruct (chk w (bM * bd)) as [m|] eqn:C1; [|discriminate]. apply chk_inv in C1. destruct C1 as (-> & C1).
    destruct (chk w (bN * bd)) as [m|] eqn:C2; [|discriminate]. apply chk_inv in C2. destruct C2 as (-> & C2).
    destruct (chk w (nz * bd)) as [m|] eqn:C3; [|discriminate]. apply chk_inv in C3. destruct C3 as (-> & C3).
    destruct (chk w (nz * bd * bd)) as [m|] eqn:C4; [|discriminate]. apply chk_inv in C4. destruct C4 as (-> & C4).
    apply (structure_ok_wf bM bN nz b ptr ind) in SO; auto.
    inversion E; subst h. ands; try tauto; try lia. exists so. reflexivity.
  Qed.

  Lemma sup_pos : forall sup, sup 1 = true -> get_supported sup [3; 2; 1] =? 0 = false.
  Proof. intros sup H. unfold get_supported. cbn [fold_left]. rewrite H. destruct (sup 3), (sup 2); reflexivity. Qed.

  Lemma bsr_mv_ok : forall sup w dt a512 b row bM bN bd ptr ind val so d op x y alpha beta,
    sup 1 = true -> w = 31 \/ w = 63 -> 0 < bd -> 0 <= bM -> 0 <= bN -> (b = 0 \/ b = 1) ->
    let nz := zn ptr bM - b in
    csr_wf bM bN nz b ptr ind -> zlen val = nz * bd * bd ->
    bM * bd <= int_max w -> bN * bd <= int_max w -> nz * bd * bd <= int_max w ->
    d_base d = b -> d_type d = mt_general -> valid_op op = true ->
    let rows := match op with op_none => bM * bd | _ => bN * bd end in
    let cols := match op with op_none => bN * bd | _ => bM * bd end in
    zlen x = cols -> zlen y = rows ->
    (op = op_none /\ row = false) \/ bM = 0 \/ bN = 0 \/ nz = 0 ->
    exists y', bsr_mv O sup w dt a512 op (Some alpha) (Some (bsr_handle b row bM bN bd ptr ind val so)) (Some d) (Some x) (Some beta) (Some y)
        = Some (success, Some y') /\
      mv_spec O rows cols alpha beta (op_sem O op (bsr_elem O row b bd ptr ind val)) x y y'.
  Proof.
    intros sup w dt a512 b row bM bN bd ptr ind val so d op x y alpha beta S1 Hw Hbd HM HN Hb nz WF LV F1 F2 F3 Db Dt Vop rows cols LX LY CASES.
    unfold bsr_mv. cbn [B_mat B_m B_n B_nnz bsr_handle b_b b_bm b_bn b_bd b_val b_ind b_ptr b_row b_doid]. cbv zeta.
    rewrite Db, Z.eqb_refl, Vop, Dt. cbn [negb andb]. rewrite !andb_false_r. cbn [andb]. rewrite andb_true_r.
    assert (NZ0 : 0 <= nz) by (destruct WF; lia).
    fold nz. clearbody nz.
    destruct ((bM * bd =? 0) || (bN * bd =? 0) || (nz * bd * bd =? 0)) eqn:Q.
    - replace (match (if is_cplx dt then op else match op with op_conjugate_transpose => op_transpose | o => o end) with op_none => bM * bd | _ => bN * bd end) with rows
        by (unfold rows; destruct (is_cplx dt), op; reflexivity).
      destruct (vscale_ok O L beta rows y) as (y' & E & Ly' & R); [unfold rows; destruct op; nia|auto|].
      rewrite E. exists y'. split; [reflexivity|]. split; [exact Ly'|]. intros i Hi. rewrite R by auto.
      match goal with |- _ = oadd O (omul O alpha ?s) _ => assert (Hs : s = o0 O) end.
      { assert (Z0 : bM = 0 \/ bN = 0 \/ nz = 0) by (clear - Q Hbd; apply orb_true_iff in Q; destruct Q as [Q|Q]; [apply orb_true_iff in Q; destruct Q as [Q|Q]|]; apply Z.eqb_eq in Q; [left|right;left|right;right]; nia).
        assert (QQ : cols <= 0 \/ rows <= 0 \/ nz = 0).
        { clear - Z0 HM HN. unfold cols, rows. destruct Z0 as [e|[e|Z0]]; [| |right; right; exact Z0]; destruct op; nia. }
        destruct QQ as [QQ|[QQ|QQ]]; [apply (sumz_nil O); exact QQ|lia|].
        apply (sumz_zero O L). intros j Hj.
        assert (NE : forall i j, 0 <= i < bM * bd -> bsr_elem O row b bd ptr ind val i j = o0 O).
        { clear - WF QQ L Hbd. intros i j Hi. unfold bsr_elem. apply (sumz_nil O).
          assert (0 <= i / bd < bM) by (split; [apply Z.div_pos; lia|apply Z.div_lt_upper_bound; nia]).
          pose proof (ptr_range _ _ _ _ (wf_ptr _ _ _ _ _ _ WF) (i / bd) ltac:(lia)). pose proof (ptr_range _ _ _ _ (wf_ptr _ _ _ _ _ _ WF) (i / bd + 1) ltac:(lia)). lia. }
        unfold op_sem, mC, mT, rows, cols in *. destruct op; try discriminate Vop; rewrite NE by lia; try rewrite (cj_0 O L); ring. }
      rewrite Hs. ring.
    - destruct CASES as [(-> & ->)|CASES]; [|exfalso; clear - Q CASES; destruct CASES as [->|[->|CASES]]; try rewrite CASES in Q; cbn in Q; rewrite ?orb_true_r in Q; discriminate].
      assert (P1 : 0 < bM) by nia. assert (P2 : 0 < bN) by nia. assert (P3 : 0 < nz) by nia.
      replace (if is_cplx dt then op_none else op_none) with op_none by (destruct (is_cplx dt); reflexivity).
      replace (get_doid (negb (is_cplx dt)) mt_general (d_fill d) op_none) with (Some gn) by (destruct (is_cplx dt); reflexivity).
      unfold bsr_best. cbn [b_doid]. replace (get_effective_doid gn gn) with (Some gn) by reflexivity.
      replace (doid_score gn) with (Some 100) by reflexivity. cbn [Z.eqb]. unfold bsr_arch_score.
      rewrite Z.eqb_refl, sup_pos by auto. cbn [negb].
      apply (bsrmv_ok O L w dt a512 bM bN bd nz ptr ind val (mkDescr mt_general fm_lower dg_non_unit b) x y alpha beta); cbn [d_base d_type]; auto; nia.
  Qed.

  Lemma bsr_mv_unserved : forall sup w dt a512 b row bM bN bd ptr ind val so d op x y alpha beta,
    0 < bd ->
    let h := bsr_handle b row bM bN bd ptr ind val so in
    let nz := zn ptr bM - b in
    let r := bsr_mv O sup w dt a512 op (Some alpha) (Some h) (Some d) (Some x) (Some beta) (Some y) in
    (d_base d <> b \/ valid_op op = false -> r = Some (invalid_value, None)) /\
    (d_base d = b -> valid_op op = true -> (d_type d = mt_symmetric \/ d_type d = mt_hermitian) -> bM <> bN -> r = Some (invalid_size, None)) /\
    (d_base d = b -> valid_op op = true -> bM <> 0 -> bN <> 0 ->
       (d_type d = mt_general -> nz <> 0 /\ (op <> op_none \/ row = true)) ->
       (d_type d = mt_symmetric \/ d_type d = mt_hermitian -> bM = bN) ->
       r = Some (not_implemented, None)).
  Proof.
    intros sup w dt a512 b row bM bN bd ptr ind val so d op x y alpha beta Hbd h nz r. unfold r, h, bsr_mv.
    cbn [B_mat B_m B_n B_nnz bsr_handle b_b b_bm b_bn b_bd b_val b_ind b_ptr b_row b_doid]. cbv zeta. fold nz.
    split; [|split].
    - intros [H|H]; [replace (b =? d_base d) with false by lia; reflexivity|].
      rewrite H. destruct (b =? d_base d); reflexivity.
    - intros -> -> Ht Hne. rewrite Z.eqb_refl. cbn [negb].
      replace (bM * bd =? bN * bd) with false by nia. destruct Ht as [-> | ->]; reflexivity.
    - intros -> Vop HM HN HG HS. rewrite Vop. rewrite Z.eqb_refl. cbn [negb].
      replace (bM * bd =? 0) with false by nia. replace (bN * bd =? 0) with false by nia. cbn [orb].
      destruct d as [ty fm dg bb]. cbn [d_type d_fill d_diag] in *. destruct ty; cbn [andb negb].
      + rewrite andb_false_r, andb_true_r. destruct HG as (HZ & HG); auto.
        replace (nz * bd * bd =? 0) with false by nia.
        destruct HG as [HG | ->].
        * assert (BB : exists r, get_doid (negb (is_cplx dt)) mt_general fm (if is_cplx dt then op else match op with op_conjugate_transpose => op_transpose | o => o end) = Some r /\
            forall c : bmat T, b_doid c = gn -> bsr_best sup c r = Some false).
          { destruct op; try congruence; try discriminate Vop; destruct (is_cplx dt); eexists; (split; [reflexivity|]); intros c Hc; unfold bsr_best; rewrite Hc; reflexivity. }
          destruct BB as (r0 & B1 & B2). rewrite B1, B2 by reflexivity. reflexivity.
        * destruct (get_doid _ _ _ _) as [r0|] eqn:E0.
          2:{ destruct op; try discriminate Vop; destruct (is_cplx dt); discriminate E0. }
          assert (BB : exists v, bsr_best sup (mkBmat (bM * bd) (bN * bd) (nz * bd * bd) gn b bd true ptr ind val bM bN nz) r0 = Some v).
          { destruct op; try discriminate Vop; destruct (is_cplx dt); inversion E0; unfold bsr_best; cbn; repeat match goal with |- context [if ?b then _ else _] => destruct b end; eexists; reflexivity. }
          destruct BB as (v & ->). destruct v; reflexivity.
      + specialize (HS (or_introl eq_refl)). subst bN. rewrite Z.eqb_refl. cbn [negb]. rewrite andb_false_r. rewrite andb_false_r.
        destruct op; try discriminate Vop; destruct (is_cplx dt), fm; reflexivity.
      + specialize (HS (or_intror eq_refl)). subst bN. rewrite Z.eqb_refl. cbn [negb]. rewrite andb_true_r. rewrite andb_false_r.
        destruct op; try discriminate Vop; destruct (is_cplx dt), fm; reflexivity.
      + rewrite andb_false_r. rewrite andb_false_r.
        destruct op; try discriminate Vop; destruct (is_cplx dt), fm; reflexivity.
  Qed.
End P.
