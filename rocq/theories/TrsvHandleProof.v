(** aoclsparse_?trsv on a handle solves the system the descriptor and operation denote. *)
From Coq Require Import ZArith List Bool Lia ZifyBool Ring.
From Verif Require Import Base BaseFacts Algebra Vec UtilModel UtilProof DoidModel DoidSpec DoidProof Csr CsrFacts CheckSpec SortSpec
  MvModel MvSpec MvFacts MvProof CsrmvModel HandleModel HandleSpec HandleFacts OptProof TrsvModel TrsvSpec TrsvProof TrsvKernProof.
Import ListNotations.
Open Scope Z_scope.

(** Counting by a sum of zeros and ones. *)
Lemma count_two : forall (P : Z -> bool) lo hi q q', lo <= q < q' -> q' < hi -> P q = true -> P q' = true ->
  2 <= sumz Zops lo hi (fun k => if P k then 1 else 0).
Proof.
  intros P lo hi q q' H1 H2 H3 H4.
  assert (NN : forall a b, 0 <= sumz Zops a b (fun k => if P k then 1 else 0)).
  { intros a b. unfold sumz, suml. induction (zrange a b) as [|k l IH]; cbn [fold_right oadd o0 Zops] in *; [lia|]. destruct (P k); lia. }
  rewrite (sumz_split Zops Zlaws lo q hi) by lia. rewrite (sumz_first Zops q hi) by lia.
  rewrite (sumz_split Zops Zlaws (q + 1) q' hi) by lia. rewrite (sumz_first Zops q' hi) by lia. rewrite H3, H4. cbn [oadd Zops].
  pose proof (NN lo q). pose proof (NN (q + 1) q'). pose proof (NN (q' + 1) hi). lia.
Qed.
Lemma count_one : forall (P : Z -> bool) lo hi, (forall q q', lo <= q < hi -> lo <= q' < hi -> P q = true -> P q' = true -> q = q') ->
  sumz Zops lo hi (fun k => if P k then 1 else 0) <= 1.
Proof.
  intros P lo hi H. unfold sumz, suml.
  assert (G : forall l, NoDup l -> (forall q q', In q l -> In q' l -> P q = true -> P q' = true -> q = q') ->
    fold_right (fun x acc => oadd Zops (if P x then 1 else 0) acc) (o0 Zops) l <= 1 /\
    ((forall q, In q l -> P q = false) -> fold_right (fun x acc => oadd Zops (if P x then 1 else 0) acc) (o0 Zops) l = 0)).
  { induction l as [|k l IH]; intros ND U; cbn [fold_right oadd o0 Zops]; [lia|]. inversion ND; subst. destruct IH as [I1 I2]; auto; cbn [oadd o0 Zops] in *.
    { intros; apply U; cbn; auto. }
    cbn [oadd o0 Zops] in I1, I2. destruct (P k) eqn:E.
    - split; [|intros Hq; rewrite (Hq k) in E by (cbn; auto); discriminate]. rewrite I2; [lia|].
      intros q Hq. destruct (P q) eqn:Eq; auto. exfalso. assert (k = q) by (apply U; cbn; auto). subst. contradiction.
    - split; [lia|]. intros Hq. rewrite I2; [lia|]. intros; apply Hq; cbn; auto. }
  apply G; [apply NoDup_zrange|]. intros q q' I1 I2. apply in_zrange in I1, I2. apply H; lia.
Qed.

Section P.
  Context {T : Type} (O : ops T) (L : laws O) (DL : div_law O).
  Local Notation zero := (o0 O).
  Local Notation tn := (nthZ (o0 O)).
  Local Infix "+!" := (oadd O) (at level 50, left associativity).
  Local Infix "*!" := (omul O) (at level 40, left associativity).
  Let rth := l_ring L.
  Add Ring Tring_trsvh : rth.

  Lemma cjh_nz : forall cj v, v <> zero -> cjh O cj v <> zero.
  Proof. intros [] v H E; cbn in E; auto. apply H. rewrite <- (l_cj_cj L v), E. apply (cj_0 O L). Qed.
  Lemma cjh_1 : forall cj, cjh O cj (o1 O) = o1 O.
  Proof. intros []; cbn; auto. apply (cj_1 O L). Qed.
  Lemma cjh_0 : forall cj, cjh O cj zero = zero.
  Proof. intros []; cbn; auto. apply (cj_0 O L). Qed.

  (** Rows of a distinct matrix stay distinct in a copy with the same entries. *)
  Lemma distinct_copy : forall u c : cmat T, arrays_ok u -> arrays_ok c -> same_entries zero u c ->
    rows_distinct (c_m u) (c_b u) (c_ptr u) (c_ind u) -> rows_distinct (c_m c) (c_b c) (c_ptr c) (c_ind c).
  Proof.
    intros u c (Wu & _ & Lu & Bu) (Wc & _ & Lc & Bc) (Em & En & Ed & EE) D i k k' Hi Hk Hk' Hne E.
    assert (G : forall k k', in_row (c_ptr c) (c_b c) i k -> in_row (c_ptr c) (c_b c) i k' -> k < k' -> zn (c_ind c) k = zn (c_ind c) k' -> False).
    2:{ destruct (Z.lt_total k k') as [H|[H|H]]; eauto. }
    clear k k' Hk Hk' Hne E. intros k k' Hk Hk' Hlt E. rewrite Em in Hi.
    set (j := zn (c_ind c) k - c_b c).
    assert (2 <= zlen (centries c i j)).
    { unfold centries. rewrite (zlen_ents _ _ _ _ _ _ _ i j Wc Lc) by lia. unfold in_row in *.
      apply (count_two (fun k => zn (c_ind c) k =? j + c_b c)) with (q := k) (q' := k'); unfold j; lia. }
    assert (zlen (centries u i j) <= 1).
    { unfold centries. rewrite (zlen_ents _ _ _ _ _ _ _ i j Wu Lu) by lia.
      apply (count_one (fun k => zn (c_ind u) k =? j + c_b u)). intros q q' Hq Hq' E1 E2.
      destruct (Z.eq_dec q q'); auto. exfalso. apply (D i q q'); auto. lia. }
    rewrite (EE i j) in H by lia. destruct (centries u i j) as [|v l] eqn:El; [|lia].
    destruct (_ && _); unfold zlen in H; cbn in H; lia.
  Qed.

  (** An optimised square matrix in terms of the kernels' row ranges. *)
  Section Ready.
    Variables (m nnz b : Z) (ptr ind idiag iurow : list Z) (val : list T).
    Hypothesis R : tri_ready m m nnz b ptr ind idiag iurow.
    Hypothesis F : full_diag m m b ptr ind.
    Hypothesis Lv : zlen val = nnz.
    Let A := csr_mat O b ptr ind val.
    Let W : csr_wf m m nnz b ptr ind := tr_wf _ _ _ _ _ _ _ _ R.

    Lemma diag_val : forall i, 0 <= i < m -> 0 <= zn idiag i - b < zlen val /\ zn iurow i = zn idiag i + 1 /\ tn val (zn idiag i - b) = A i i.
    Proof.
      intros i Hi. destruct (diag_one _ _ _ _ _ _ _ _ i R ltac:(lia) F Hi) as (D1 & D2 & D3).
      assert (Hr : forall k, in_row ptr b i k -> 0 <= k < zlen val) by (intros k Hk; rewrite Lv; eapply in_row_range; eauto using wf_ptr).
      split; [apply Hr; auto|]. split; auto. unfold A. rewrite (csr_mat_sum O L b ptr ind val i i Hr).
      rewrite (sumz_delta O L _ _ (zn idiag i - b)).
      - replace (zn ind (zn idiag i - b) =? i + b) with true by lia. reflexivity.
      - exact D1.
      - intros k Hk Hne. destruct (Z.eqb_spec (zn ind k) (i + b)) as [E|]; auto.
        exfalso. apply Hne. apply (tr_uniq _ _ _ _ _ _ _ _ R i); auto.
    Qed.

    Lemma rng_sub : forall i lo hi, 0 <= i < m -> zn ptr i <= lo -> lo <= hi -> hi <= zn ptr (i + 1) -> rng m b val ind lo hi.
    Proof.
      intros i lo hi Hi H1 H2 H3. destruct (row_bounds _ _ _ _ _ _ i W Hi) as (L1 & L2 & B1 & B2 & B3).
      unfold rng. repeat (split; [lia|]). intros q Hq. pose proof (wf_ind _ _ _ _ _ _ W q ltac:(lia)). lia.
    Qed.

    Variables (cj unit : bool).
    Hypothesis NZ : unit = false -> forall i, 0 <= i < m -> A i i <> zero.

    Lemma ready_lower : lower_rows O m b val ind ptr idiag cj unit.
    Proof.
      destruct W as [Hm _ _ [L1 L2] _ _]. pose proof (tr_ld _ _ _ _ _ _ _ _ R).
      unfold lower_rows. repeat (split; [lia|]). split; [|split].
      - intros i Hi. destruct (tr_split _ _ _ _ _ _ _ _ R i Hi) as (H1 & H2 & _). apply (rng_sub i); lia.
      - intros i q Hi Hq. destruct (tr_split _ _ _ _ _ _ _ _ R i Hi) as (H1 & H2 & S). destruct (S q) as ([S1 _] & _); [unfold in_row; lia|]. lia.
      - intros Hu i Hi. destruct (diag_val i Hi) as (D1 & _ & D2). split; auto. rewrite D2. apply cjh_nz; auto.
    Qed.
    Lemma ready_upper : upper_rows O m b val ind ptr iurow cj unit.
    Proof.
      destruct W as [Hm _ _ [L1 L2] _ _]. pose proof (tr_lu _ _ _ _ _ _ _ _ R).
      unfold upper_rows. repeat (split; [lia|]). split; [|split].
      - intros i Hi. destruct (tr_split _ _ _ _ _ _ _ _ R i Hi) as (H1 & H2 & _). apply (rng_sub i); lia.
      - intros i q Hi Hq. destruct (tr_split _ _ _ _ _ _ _ _ R i Hi) as (H1 & H2 & S). destruct (S q) as (_ & _ & [S1 _]); [unfold in_row; lia|]. lia.
      - intros Hu i Hi. destruct (diag_val i Hi) as (D1 & D3 & D2). replace (zn iurow i - 1 - b) with (zn idiag i - b) by lia.
        split; auto. rewrite D2. apply cjh_nz; auto.
    Qed.

    Lemma offL_val : forall i j, 0 <= i < m -> 0 <= j < m -> offL O b val ind ptr idiag cj i j = if j <? i then cjh O cj (A i j) else zero.
    Proof.
      intros i j Hi Hj. unfold offL, off. destruct (tr_split _ _ _ _ _ _ _ _ R i Hi) as (H1 & H2 & S).
      rewrite (sumz_ext O _ _ _ (fun k => if zn ind k - b =? j then cjh O cj (tn val k) *! o1 O else zero)).
      2:{ intros k Hk. destruct (_ =? _); [ring|reflexivity]. }
      rewrite (row_scatter_col O L m m nnz b ptr ind val i _ _ (fun c => c <? i)); auto; try lia.
      - fold A. destruct (j <? i); [ring|reflexivity].
      - apply (additive_cjh O L).
      - intros k Hk. destruct (S k Hk) as (S1 & _). unfold in_row in Hk. cbv beta. lia.
    Qed.
    Lemma offU_val : forall i j, 0 <= i < m -> 0 <= j < m -> offU O b val ind ptr iurow cj i j = if i <? j then cjh O cj (A i j) else zero.
    Proof.
      intros i j Hi Hj. unfold offU, off. destruct (tr_split _ _ _ _ _ _ _ _ R i Hi) as (H1 & H2 & S).
      rewrite (sumz_ext O _ _ _ (fun k => if zn ind k - b =? j then cjh O cj (tn val k) *! o1 O else zero)).
      2:{ intros k Hk. destruct (_ =? _); [ring|reflexivity]. }
      rewrite (row_scatter_col O L m m nnz b ptr ind val i _ _ (fun c => i <? c)); auto; try lia.
      - fold A. destruct (i <? j); [ring|reflexivity].
      - apply (additive_cjh O L).
      - intros k Hk. destruct (S k Hk) as (_ & _ & S1). unfold in_row in Hk. cbv beta. lia.
    Qed.
    Definition udg : diag_type := if unit then dg_unit else dg_non_unit.
    Lemma diaL_val : forall i, 0 <= i < m -> diaL O b val idiag cj unit i = cjh O cj (with_diag O udg A i i).
    Proof.
      intros i Hi. unfold diaL, dia, with_diag, udg. rewrite Z.eqb_refl. destruct unit; [symmetry; apply cjh_1|].
      destruct (diag_val i Hi) as (_ & _ & ->). reflexivity.
    Qed.
    Lemma diaU_val : forall i, 0 <= i < m -> diaU O b val iurow cj unit i = cjh O cj (with_diag O udg A i i).
    Proof.
      intros i Hi. unfold diaU, dia, with_diag, udg. rewrite Z.eqb_refl. destruct unit; [symmetry; apply cjh_1|].
      destruct (diag_val i Hi) as (_ & D & E). replace (zn iurow i - 1 - b) with (zn idiag i - b) by lia. rewrite E. reflexivity.
    Qed.

    Variables (alpha : T) (rhs x : list T) (incb incx : Z).

    (** Sum with the diagonal separated. *)
    Lemma sep_diag : forall (M : Z -> T) (G : Z -> T) (D : T) (g : Z -> T) i, 0 <= i < m ->
      (forall j, 0 <= j < m -> M j = if j =? i then D else G j) -> G i = zero ->
      sumz O 0 m (fun j => M j *! g j) = sumz O 0 m (fun j => G j *! g j) +! D *! g i.
    Proof.
      intros M G D g i Hi HM HG.
      rewrite (sumz_ext O 0 m _ (fun j => G j *! g j +! (if j =? i then D *! g i else zero))).
      - rewrite (sumz_add O L). f_equal. rewrite (sumz_delta O L 0 m i); [rewrite Z.eqb_refl; reflexivity|auto|].
        intros k Hk Hne. replace (k =? i) with false by lia. reflexivity.
      - intros j Hj. rewrite HM by auto. destruct (Z.eqb_spec j i) as [->|]; [rewrite HG|]; ring.
    Qed.

    Definition delivers (M : Z -> Z -> T) (r : option (list T)) : Prop :=
      exists x1, r = Some x1 /\ only_strided O m incx x x1 /\ solves O m alpha M rhs incb x1 incx.

    Ltac cell := unfold mC, mT, mL, mU, with_diag; cbn [cjh];
      repeat match goal with
        | |- context [?a <=? ?c] => destruct (Z.leb_spec a c); try lia
        | |- context [?a <? ?c] => destruct (Z.ltb_spec a c); try lia
        | |- context [?a =? ?c] => destruct (Z.eqb_spec a c); try lia
        end; subst; try reflexivity; try apply (cj_0 O L); try lia.

    Lemma rows_lower : forall r, solved_rows O m incx incb alpha rhs x (offL O b val ind ptr idiag cj) (diaL O b val idiag cj unit) r ->
      delivers (fun i j => cjh O cj (mL O (with_diag O udg A) i j)) r.
    Proof.
      intros r (x1 & E & S & H). exists x1. split; [exact E|]. split; [exact S|]. intros i Hi. rewrite <- (H i Hi).
      apply sep_diag; auto.
      - intros j Hj. rewrite offL_val, diaL_val by auto. destruct cj; cell.
      - rewrite offL_val by auto. replace (i <? i) with false by lia. reflexivity.
    Qed.
    Lemma rows_upper : forall r, solved_rows O m incx incb alpha rhs x (offU O b val ind ptr iurow cj) (diaU O b val iurow cj unit) r ->
      delivers (fun i j => cjh O cj (mU O (with_diag O udg A) i j)) r.
    Proof.
      intros r (x1 & E & S & H). exists x1. split; [exact E|]. split; [exact S|]. intros i Hi. rewrite <- (H i Hi).
      apply sep_diag; auto.
      - intros j Hj. rewrite offU_val, diaU_val by auto. destruct cj; cell.
      - rewrite offU_val by auto. replace (i <? i) with false by lia. reflexivity.
    Qed.
    Lemma cols_lower : forall r, solved_cols O m incx incb alpha rhs x (offL O b val ind ptr idiag cj) (diaL O b val idiag cj unit) r ->
      delivers (fun i j => cjh O cj (mT (mL O (with_diag O udg A)) i j)) r.
    Proof.
      intros r (x1 & E & S & H). exists x1. split; [exact E|]. split; [exact S|]. intros i Hi. rewrite <- (H i Hi).
      apply (sep_diag _ (fun j => offL O b val ind ptr idiag cj j i)); auto.
      - intros j Hj. rewrite offL_val, diaL_val by auto. destruct cj; cell.
      - rewrite offL_val by auto. replace (i <? i) with false by lia. reflexivity.
    Qed.
    Lemma cols_upper : forall r, solved_cols O m incx incb alpha rhs x (offU O b val ind ptr iurow cj) (diaU O b val iurow cj unit) r ->
      delivers (fun i j => cjh O cj (mT (mU O (with_diag O udg A)) i j)) r.
    Proof.
      intros r (x1 & E & S & H). exists x1. split; [exact E|]. split; [exact S|]. intros i Hi. rewrite <- (H i Hi).
      apply (sep_diag _ (fun j => offU O b val ind ptr iurow cj j i)); auto.
      - intros j Hj. rewrite offU_val, diaU_val by auto. destruct cj; cell.
      - rewrite offU_val by auto. replace (i <? i) with false by lia. reflexivity.
    Qed.
  End Ready.

  (** Row-operation ids with a column-oriented kernel. *)
  Definition col_kernel (e : Z) : bool := match e with 14 | 15 | 18 | 19 => true | _ => false end.

  Lemma trsv_kernel_ok : forall dt k e alpha m nnz b val ind ptr idiag iurow rhs incb x incx unit,
    tri_ready m m nnz b ptr ind idiag iurow -> full_diag m m b ptr ind -> zlen val = nnz ->
    (unit = false -> forall i, 0 <= i < m -> csr_mat O b ptr ind val i i <> zero) ->
    holds m incx x -> holds m incb rhs -> 12 <= e < 20 ->
    (k = 0 \/ col_kernel e = false \/ alpha <> zero /\ rows_distinct m b ptr ind) ->
    exists x1, trsv_kernel O dt k e alpha m b val ind ptr idiag iurow rhs incb x incx unit = Some x1 /\
      only_strided O m incx x x1 /\
      solves O m alpha (doid_sem O e (with_diag O (udg unit) (csr_mat O b ptr ind val))) rhs incb x1 incx.
  Proof.
    intros dt k e alpha m nnz b val ind ptr idiag iurow rhs incb x incx unit R F Lv NZ Hx Hb He Hk.
    assert (Ht : 1 < tbl_tsz dt k) by (unfold tbl_tsz, tsz512, tsz256; destruct (k =? 3), dt; lia).
    assert (DL1 : rows_distinct m b ptr ind -> (forall i, 0 <= i < m -> cols_distinct b ind (zn ptr i) (zn idiag i)) /\
        (forall i, 0 <= i < m -> cols_distinct b ind (zn iurow i) (zn ptr (i + 1)))).
    { intros D. split; intros i Hi q q' Hq Hq' E; destruct (tr_split _ _ _ _ _ _ _ _ R i Hi) as (H1 & H2 & _);
      (destruct (Z.eq_dec q q'); auto; exfalso; apply (D i q q'); auto; unfold in_row; lia). }
    unfold trsv_kernel.
    assert (C : e = 12 \/ e = 13 \/ e = 14 \/ e = 15 \/ e = 16 \/ e = 17 \/ e = 18 \/ e = 19) by lia.
    pose proof (fun cj => ready_lower m nnz b ptr ind idiag iurow val R F Lv cj unit NZ) as RL.
    pose proof (fun cj => ready_upper m nnz b ptr ind idiag iurow val R F Lv cj unit NZ) as RU.
    pose proof (fun cj => rows_lower m nnz b ptr ind idiag iurow val R F Lv cj unit NZ alpha rhs x incb incx) as PL.
    pose proof (fun cj => rows_upper m nnz b ptr ind idiag iurow val R F Lv cj unit NZ alpha rhs x incb incx) as PU.
    pose proof (fun cj => cols_lower m nnz b ptr ind idiag iurow val R F Lv cj unit NZ alpha rhs x incb incx) as CL.
    pose proof (fun cj => cols_upper m nnz b ptr ind idiag iurow val R F Lv cj unit NZ alpha rhs x incb incx) as CU.
    destruct C as [-> |[-> |[-> |[-> |[-> |[-> |[-> | -> ]]]]]]]; cbn [Z.sub Z.opp Z.add Z.pos_sub Pos.pred_double Z.succ_double Z.pred_double Z.double]; cbn [doid_sem];
      try (destruct Hk as [-> |[Hk|[Ha Hd]]]; [|discriminate|]); try (cbn [Z.eqb]);
      try (destruct (Z.eqb_spec k 0)).
    all: try (first
      [ refine (PL false _ _); (apply ref_trsv_l_ok || apply kt_trsv_l_ok); auto
      | refine (PL true _ _); (apply ref_trsv_l_ok || apply kt_trsv_l_ok); auto
      | refine (PU false _ _); (apply ref_trsv_u_ok || apply kt_trsv_u_ok); auto
      | refine (PU true _ _); (apply ref_trsv_u_ok || apply kt_trsv_u_ok); auto
      | refine (CL false _ _); (apply ref_trsv_lth_ok || (apply kt_trsv_lt_ok; try apply DL1)); auto
      | refine (CL true _ _); (apply ref_trsv_lth_ok || (apply kt_trsv_lt_ok; try apply DL1)); auto
      | refine (CU false _ _); (apply ref_trsv_uth_ok || (apply kt_trsv_ut_ok; try apply DL1)); auto
      | refine (CU true _ _); (apply ref_trsv_uth_ok || (apply kt_trsv_ut_ok; try apply DL1)); auto ]).
  Qed.

  Lemma request_tri : forall dt fm op d, (is_cplx dt = false -> forall a, ocj O a = a) -> valid_op op = true -> d = gn \/ d = gt ->
    exists r, get_doid (negb (is_cplx dt)) mt_triangular fm op = Some r /\
      let e := if d =? gt then trans_doid r else r in
      12 <= e < 20 /\ col_kernel e = (if d =? gt then is_none op else negb (is_none op)) /\
      forall dg A i j, doid_sem O e (with_diag O dg A) i j = op_sem O op (described O mt_triangular fm dg (stored_as d A)) i j.
  Proof.
    intros dt fm op d Hr Hop Hd.
    destruct (is_cplx dt) eqn:Ec; [clear Hr|specialize (Hr eq_refl)];
    destruct Hd as [-> | ->]; destruct fm; destruct op; try discriminate Hop;
      (eexists; split; [vm_compute; reflexivity|]);
      match goal with |- context [if ?d0 =? gt then trans_doid ?r0 else _] =>
         let v := eval vm_compute in (if d0 =? gt then trans_doid r0 else r0) in
         change (if d0 =? gt then trans_doid r0 else r0) with v end;
      cbv zeta; (split; [lia|]); (split; [reflexivity|]);
      intros dg A i j; cbn -[with_diag Z.leb]; unfold mC, mT, mL, mU, with_diag;
      repeat match goal with
        | |- context [?a <=? ?c] => destruct (Z.leb_spec a c)
        | |- context [?a =? ?c] => destruct (Z.eqb_spec a c)
        end; try lia; subst; try reflexivity; destruct dg; rewrite ?Hr; auto; symmetry; apply Hr.
  Qed.

  Variable srt : (Z -> Z -> bool) -> list Z -> list Z.
  Variables (fz : Z -> list Z) (ft : Z -> list T).
  Hypothesis Hsrt : sort_contract srt.
  Hypothesis Hfz : forall z, 0 <= z -> zlen (fz z) = z.
  Hypothesis Hft : forall z, 0 <= z -> zlen (ft z) = z.
  Variables (dt : dtype) (choice : Z -> option Z).
  Hypothesis Hreal : is_cplx dt = false -> forall a, ocj O a = a.

  Lemma trsv_handle_ok : forall w h u d op alpha rhs incb x incx kid,
    hnd_ok zero h u -> sortable u -> diag_flag_ok h u -> H_m h = H_n h -> 0 < H_m h -> 0 < H_nnz h ->
    d_base d = c_b u -> valid_op op = true -> d_type d = mt_triangular \/ d_type d = mt_symmetric -> d_diag d <> dg_zero ->
    0 < w -> H_m h <= 2 ^ w - 1 -> incx <= 2 ^ w - 1 -> incb <= 2 ^ w - 1 ->
    holds (H_m h) incx x -> holds (H_m h) incb rhs ->
    (d_diag d = dg_non_unit -> full_diag (c_m u) (c_n u) (c_b u) (c_ptr u) (c_ind u) ->
       forall i, 0 <= i < H_m h -> hnd_mat O u i i <> zero) ->
    (choice kid = Some 0 \/ (if c_doid u =? gt then is_none op else negb (is_none op)) = false \/
       alpha <> zero /\ rows_distinct (c_m u) (c_b u) (c_ptr u) (c_ind u)) ->
    exists st xr h' u',
      trsv O dt choice srt fz ft w op alpha (Some h) (Some d) (Some rhs) incb (Some x) incx kid = Some (st, xr, Some h') /\
      hnd_ok zero h' u' /\ same_data u u' /\ diag_flag_ok h' u' /\
      H_m h' = H_m h /\ H_n h' = H_n h /\ H_nnz h' = H_nnz h /\ H_hints h' = H_hints h /\
      (st = success /\ (exists x1, xr = Some x1 /\ only_strided O (H_m h) incx x x1 /\
         solves O (H_m h) alpha (op_sem O op (described O mt_triangular (d_fill d) (d_diag d) (hnd_mat O u))) rhs incb x1 incx) \/
       st = invalid_value /\ xr = None /\ d_diag d = dg_non_unit /\ ~ full_diag (c_m u) (c_n u) (c_b u) (c_ptr u) (c_ind u) \/
       st = invalid_kid /\ xr = None /\ choice kid = None \/
       st = invalid_size /\ xr = None /\ (2 ^ w - 1 < (H_m h - 1) * incx \/ 2 ^ w - 1 < (H_m h - 1) * incb)).
  Proof.
    intros w h u d op alpha rhs incb x incx kid HOK HS HF Hsq Hm Hz Hb Hop Hty Hdz Hw Bm Bx Bb Hx Hrhs NZ Hcol.
    pose proof HOK as (UM & rest & EM & HO & HFo).
    pose proof UM as (AOK & EN & EMD & EDV & EDIM). pose proof AOK as (W & U & Lv & Hbase).
    assert (Hd : c_doid u = gn \/ c_doid u = gt) by tauto.
    assert (Dm : c_m u = H_m h /\ c_n u = H_m h) by lia.
    pose proof Hx as [X1 X2]. pose proof Hrhs as [R1 R2].
    unfold trsv.
    replace ((H_m h <=? 0) || (H_nnz h <=? 0)) with false by lia.
    replace (negb (H_m h =? H_n h) || (incb <=? 0) || (incx <=? 0)) with false by lia.
    rewrite EM. replace (negb (c_b u =? d_base d)) with false by lia.
    replace (negb ((d_base d =? 0) || (d_base d =? 1))) with false by lia. rewrite Hop. cbn [negb].
    replace (match d_type d with mt_symmetric | mt_triangular => false | _ => true end) with false by (destruct Hty as [-> | ->]; reflexivity).
    replace (diag_eqb (d_diag d) dg_zero) with false by (destruct (d_diag d); auto; congruence).
    destruct (optimize_ok O srt fz ft Hsrt Hfz Hft h u HOK HS) as (h' & i & c & u' & E & HOK' & SD & D1 & D2 & D3 & D4 & Rc & Oc & OR & AC & SE & MD & _ & HH).
    rewrite E. pose proof SD as (S1 & S2 & S3 & S4 & S5 & S6 & S7 & S8).
    assert (FL : H_optfull h' = true <-> full_diag (c_m u) (c_n u) (c_b u) (c_ptr u) (c_ind u)).
    { destruct HH as [-> |HH]; [|tauto]. apply HF. exists c. split; auto. unfold rd in Rc. destruct (i <? 0); [discriminate|]. eapply nth_error_In; eauto. }
    assert (FL' : diag_flag_ok h' u') by (intros _; rewrite S1, S2, S5, S6, S7; exact FL).
    assert (FIN : forall st xr, 
      (st = success /\ (exists x1, xr = Some x1 /\ only_strided O (H_m h) incx x x1 /\
         solves O (H_m h) alpha (op_sem O op (described O mt_triangular (d_fill d) (d_diag d) (hnd_mat O u))) rhs incb x1 incx) \/
       st = invalid_value /\ xr = None /\ d_diag d = dg_non_unit /\ ~ full_diag (c_m u) (c_n u) (c_b u) (c_ptr u) (c_ind u) \/
       st = invalid_kid /\ xr = None /\ choice kid = None \/
       st = invalid_size /\ xr = None /\ (2 ^ w - 1 < (H_m h - 1) * incx \/ 2 ^ w - 1 < (H_m h - 1) * incb)) ->
      exists st0 xr0 h'0 u'0, Some (st, xr, Some h') = Some (st0, xr0, Some h'0) /\
      hnd_ok zero h'0 u'0 /\ same_data u u'0 /\ diag_flag_ok h'0 u'0 /\
      H_m h'0 = H_m h /\ H_n h'0 = H_n h /\ H_nnz h'0 = H_nnz h /\ H_hints h'0 = H_hints h /\
      (st0 = success /\ (exists x1, xr0 = Some x1 /\ only_strided O (H_m h) incx x x1 /\
         solves O (H_m h) alpha (op_sem O op (described O mt_triangular (d_fill d) (d_diag d) (hnd_mat O u))) rhs incb x1 incx) \/
       st0 = invalid_value /\ xr0 = None /\ d_diag d = dg_non_unit /\ ~ full_diag (c_m u) (c_n u) (c_b u) (c_ptr u) (c_ind u) \/
       st0 = invalid_kid /\ xr0 = None /\ choice kid = None \/
       st0 = invalid_size /\ xr0 = None /\ (2 ^ w - 1 < (H_m h - 1) * incx \/ 2 ^ w - 1 < (H_m h - 1) * incb))).
    { intros st xr Q. exists st, xr, h', u'. split; [reflexivity|]. ands; auto. }
    destruct (negb (H_optfull h') && negb (diag_eqb (d_diag d) dg_unit)) eqn:Eg.
    { apply FIN. right. left. split; [reflexivity|]. split; [reflexivity|]. split.
      - destruct (d_diag d); auto; cbn in Eg; try congruence. rewrite andb_false_r in Eg. discriminate.
      - rewrite <- FL. destruct (H_optfull h'); [discriminate|]. discriminate. }
    destruct (request_tri dt (d_fill d) op (c_doid u) Hreal Hop Hd) as (r & -> & He & Hck & Hsem).
    rewrite Rc. pose proof SE as (E1 & E2 & E3 & _). rewrite E3. cbv zeta in He, Hck, Hsem.
    set (e := if c_doid u =? gt then trans_doid r else r) in *. cbv zeta.
    replace ((e - 12 <? 0) || (7 <? e - 12)) with false by lia.
    destruct (choice kid) as [k|] eqn:Ek; [|apply FIN; right; right; left; auto].
    rewrite D1.
    destruct (int_product_exact_nonneg w (H_m h - 1) incx) as (o1 & -> & O1); [lia|unfold int_max; lia|unfold int_max; lia|]; unfold int_max in O1.
    destruct (int_product_exact_nonneg w (H_m h - 1) incb) as (o2 & -> & O2); [lia|unfold int_max; lia|unfold int_max; lia|]; unfold int_max in O2.
    destruct (o1 || o2) eqn:Eo.
    { apply FIN. right. right. right. split; [reflexivity|]. split; [reflexivity|].
      rewrite <- O1, <- O2. destruct o1, o2; auto; discriminate. }
    destruct OR as (idg & iur & Ei & Eu & TR & FD). rewrite Ei, Eu. cbn [onull].
    assert (Cm : c_m c = H_m h) by lia. assert (Cn : c_n c = H_m h) by lia.
    pose proof (same_entries_mat O L u c AOK AC SE) as ME.
    destruct (trsv_kernel_ok dt k e alpha (H_m h) (c_nnz c) (c_b c) (c_val c) (c_ind c) (c_ptr c) idg iur rhs incb x incx (diag_eqb (d_diag d) dg_unit)) as (x1 & -> & SX & SV); auto.
    - rewrite <- Cm. rewrite Cm at 2. rewrite <- Cn. exact TR.
    - rewrite <- Cm. rewrite Cm at 2. rewrite <- Cn. exact FD.
    - apply AC.
    - intros Hu q Hq. rewrite ME.
      assert (hnd_mat O u q q = csr_mat O (c_b u) (c_ptr u) (c_ind u) (c_val u) q q) as <- by (unfold hnd_mat, stored_as, mT; destruct (c_doid u =? gt); reflexivity).
      apply NZ; auto.
      + destruct (d_diag d); auto; cbn in Hu; congruence.
      + apply FL. rewrite Hu in Eg. destruct (H_optfull h'); auto; discriminate.
    - destruct Hcol as [Hc|[Hc|[Ha Hdst]]]; [left; congruence|right; left; congruence|right; right]. split; auto.
      rewrite <- Cm. apply (distinct_copy u c); auto.
    - apply FIN. left. split; [reflexivity|]. exists x1. split; [reflexivity|]. split; [exact SX|].
      intros q Hq. rewrite <- (SV q Hq). apply sumz_ext. intros j Hj. f_equal. unfold hnd_mat. rewrite <- Hsem.
      assert (Eudg : udg (diag_eqb (d_diag d) dg_unit) = d_diag d) by (destruct (d_diag d); auto; congruence). rewrite Eudg.
      assert (WD : forall a b, with_diag O (d_diag d) (csr_mat O (c_b u) (c_ptr u) (c_ind u) (c_val u)) a b = with_diag O (d_diag d) (csr_mat O (c_b c) (c_ptr c) (c_ind c) (c_val c)) a b).
      { intros a0 b0. unfold with_diag. rewrite ME. reflexivity. }
      clearbody e. clear - WD He. assert (C : e = 12 \/ e = 13 \/ e = 14 \/ e = 15 \/ e = 16 \/ e = 17 \/ e = 18 \/ e = 19) by lia.
      destruct C as [-> |[-> |[-> |[-> |[-> |[-> |[-> | -> ]]]]]]]; cbn; unfold mC, mT, mL, mU; rewrite ?WD; reflexivity.
  Qed.
End P.
