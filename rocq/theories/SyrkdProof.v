(** The product of a sparse matrix with its own conjugate transpose. *)
From Coq Require Import ZArith List Bool Lia ZifyBool Permutation Ring.
From Verif Require Import Base BaseFacts Algebra UtilModel UtilProof Csr CsrFacts Csr2CscModel Csr2CscProof CheckModel CheckSpec SortSpec DoidModel DoidSpec MvModel MvFacts MvProof HandleModel HandleSpec
  DenseSpec DenseProof WinFacts CsrmvModel AddSpec AddProof Csr2mModel Csr2mSpec Csr2mHandleProof Sp2mdModel Sp2mdSpec Sp2mdProof OftModel OftProof SyrkdModel SyrkdSpec.
Import ListNotations.
Open Scope Z_scope.

Section P.
  Context {T : Type} (O : ops T).
  Local Notation z := (o0 O).
  Local Notation tn := (nthZ (o0 O)).
  Local Infix "+!" := (oadd O) (at level 50, left associativity).
  Local Infix "*!" := (omul O) (at level 40, left associativity).

  Lemma wacc_foldM : forall order ld m n X (l : list X) (cs : X -> Z -> Z -> list T) body (A : list T), window_fits order ld m n A ->
    (forall x B, In x l -> window_fits order ld m n B -> zlen B = zlen A -> exists B', body x B = Some B' /\ wacc O order ld m n (cs x) B B') ->
    exists A', foldM body l A = Some A' /\ wacc O order ld m n (fun i j => flat_map (fun x => cs x i j) l) A A'.
  Proof.
    intros order ld m n X l cs body. induction l as [|x l IH]; intros A F Hb.
    - exists A. split; [reflexivity|]. apply wacc_nil. reflexivity.
    - destruct (Hb x A (or_introl eq_refl) F eq_refl) as (B & E & R). pose proof (hw_len O _ _ _ _ _ _ _ R) as LB.
      destruct (IH B) as (C & E2 & R2); [exact (fits_len order ld m n A B LB F)| |].
      + intros y D Hy FD LD. apply Hb; auto; [now right|congruence].
      + exists C. split; [cbn; rewrite E; exact E2|]. cbn [flat_map]. exact (wacc_app O _ _ _ _ _ _ _ _ _ R R2).
  Qed.

  (** Scaling of the upper triangle. *)
  Lemma upper_scale_ok : forall w layout ldc n beta (C : list T), dense_ok w layout ldc n n C ->
    exists C', upper_scale O w layout ldc n beta C = Some C' /\
      holds_window z layout ldc n n (fun i j => let c := tn C (dense_at layout ldc i j) in if i <=? j then (if oeqb O beta z then z else beta *! c) else c) C C'.
  Proof.
    intros w layout ldc n beta C D. pose proof D as [_ _ Hn _ _ F _]. unfold upper_scale. set (G := fun c => if oeqb O beta z then z else beta *! c).
    set (Inv := fun (dn : Z -> Z -> bool) (B : list T) => zlen B = zlen C /\
      (forall i j, 0 <= i < n -> 0 <= j < n -> tn B (dense_at layout ldc i j) = if dn i j then G (tn C (dense_at layout ldc i j)) else tn C (dense_at layout ldc i j)) /\
      (forall p, 0 <= p < zlen C -> (forall i j, 0 <= i < n -> 0 <= j < n -> dense_at layout ldc i j <> p) -> tn B p = tn C p)).
    assert (IE : forall dn dn' B, (forall i j, 0 <= i < n -> 0 <= j < n -> dn i j = dn' i j) -> Inv dn B -> Inv dn' B).
    { intros dn dn' B E (L1 & H1 & H2). split; auto. split; auto. intros i j Hi Hj. rewrite <- E by auto. auto. }
    match goal with |- context [for_ 0 n ?f C] => destruct (for_inv _ (fun e B => Inv (fun i j => (i <? e) && (i <=? j)) B) 0 n f C) as (B & E & R) end; [lia| | |].
    - split; [reflexivity|]. split; [|reflexivity]. intros i j Hi Hj. replace ((i <? 0) && (i <=? j)) with false by lia. reflexivity.
    - intros i0 B Hi0 HB.
      match goal with |- context [for_ i0 n ?f B] => destruct (for_inv _ (fun e B => Inv (fun i j => ((i <? i0) && (i <=? j)) || ((i =? i0) && (i <=? j) && (j <? e))) B) i0 n f B) as (B1 & E1 & R1) end; [lia| | |].
      + revert HB. apply IE. intros i j Hi Hj. lia.
      + intros j0 B1 Hj0 (L1 & H1 & H2). rewrite (addr_ok0 w layout ldc n n C) by (auto; lia).
        pose proof (fits_range layout ldc n n C i0 j0 F ltac:(lia) ltac:(lia)) as R0.
        assert (OLD : tn B1 (dense_at layout ldc i0 j0) = tn C (dense_at layout ldc i0 j0)).
        { rewrite H1 by lia. replace (((i0 <? i0) && (i0 <=? j0)) || ((i0 =? i0) && (i0 <=? j0) && (j0 <? j0))) with false by lia. reflexivity. }
        exists (upd B1 (dense_at layout ldc i0 j0) (G (tn C (dense_at layout ldc i0 j0)))). split.
        { unfold G. destruct (oeqb O beta z); [rewrite wr_upd by lia; reflexivity|]. rewrite (rd_nthZ _ z) by lia. rewrite wr_upd by lia. rewrite OLD. reflexivity. }
        split; [rewrite zlen_upd; auto|]. split.
        * intros i j Hi Hj. pose proof (fits_range layout ldc n n C i j F Hi Hj) as R'. rewrite nthZ_upd by lia.
          destruct (Z.eqb_spec (dense_at layout ldc i j) (dense_at layout ldc i0 j0)) as [Q|Q].
          -- destruct (at_inj layout ldc n n C i j i0 j0 F Hi Hj ltac:(lia) ltac:(lia) Q) as ( -> & -> ).
             replace (((i0 <? i0) && (i0 <=? j0)) || ((i0 =? i0) && (i0 <=? j0) && (j0 <? j0 + 1))) with true by lia. reflexivity.
          -- rewrite H1 by auto. assert (Nij : ~ (i = i0 /\ j = j0)) by (intros ( -> & -> ); apply Q; reflexivity).
             replace (((i <? i0) && (i <=? j)) || ((i =? i0) && (i <=? j) && (j <? j0 + 1))) with (((i <? i0) && (i <=? j)) || ((i =? i0) && (i <=? j) && (j <? j0))) by lia. reflexivity.
        * intros p Hp Np. rewrite nthZ_upd by lia. replace (p =? dense_at layout ldc i0 j0) with false; [auto|]. symmetry. apply Z.eqb_neq. intros ->. apply (Np i0 j0); lia.
      + exists B1. split; [exact E1|]. revert R1. apply IE. intros i j Hi Hj. lia.
    - exists B. split; [exact E|]. destruct R as (L1 & H1 & H2). split; [exact L1|]. split; [|exact H2]. intros i j Hi Hj. rewrite H1 by auto. replace (i <? n) with true by lia. reflexivity.
  Qed.

  (** One row of the product. *)
  Definition out_terms (cl : bool) (b : Z) (ptr ind : list Z) (val : list T) (va : T) (i0 r i j : Z) : list T :=
    if (i =? i0) && (i0 <=? j) then map (fun v => va *! (if cl then v else ocj O v)) (ents b ptr ind val r j) else [].
  Lemma output_row_ok : forall w cl layout ldc n mm nnz b ptr ind (val : list T) va i0 r (C : list T), dense_ok w layout ldc n n C ->
    csr_wf mm n nnz b ptr ind -> zlen val = nnz -> 0 <= i0 < n -> 0 <= r < mm ->
    exists C', compute_output_row O w cl layout ldc i0 va (zn ptr r - b) (zn ptr (r + 1) - b) ind val b C = Some C' /\
      wacc O layout ldc n n (out_terms cl b ptr ind val va i0 r) C C'.
  Proof.
    intros w cl layout ldc n mm nnz b ptr ind val va i0 r C D W Lv Hi0 Hr. unfold compute_output_row. pose proof D as [_ _ _ _ _ F _].
    destruct (wf_len _ _ _ _ _ _ W) as (Lp & Li). pose proof (ptr_range _ _ _ _ (wf_ptr _ _ _ _ _ _ W)) as PR. pose proof (ptr_mono _ _ _ _ (wf_ptr _ _ _ _ _ _ W) r (r + 1) ltac:(lia) ltac:(lia)) as PM.
    match goal with |- context [for_ ?lo ?hi ?f ?s] => destruct (wacc_for O layout ldc n n lo hi (fun k i j => if (i =? i0) && (i0 <=? j) && (j =? zn ind k - b) then [va *! (if cl then tn val k else ocj O (tn val k))] else []) f s F ltac:(lia)) as (C' & E & R) end.
    - intros k B Hk FB LB. pose proof (PR r ltac:(lia)). pose proof (PR (r + 1) ltac:(lia)). pose proof (wf_ind _ _ _ _ _ _ W k ltac:(lia)) as Hc.
      rewrite (rd_nthZ _ 0 ind) by lia. destruct (Z.ltb_spec (zn ind k - b) i0) as [Lt|Ge].
      + exists B. split; [reflexivity|]. apply wacc_nil. intros i j Hi Hj. replace ((i =? i0) && (i0 <=? j) && (j =? zn ind k - b)) with false by lia. reflexivity.
      + rewrite (rd_nthZ _ z val) by lia. rewrite (addr_ok0 w layout ldc n n C) by (auto; lia).
        pose proof (fits_range layout ldc n n B i0 (zn ind k - b) FB Hi0 ltac:(lia)) as R. rewrite (rd_nthZ _ z B) by lia. rewrite wr_upd by lia. eexists. split; [reflexivity|].
        eapply (wacc_ext O); [|apply wacc_one; auto; lia]. intros i j Hi Hj. cbv beta.
        replace ((i =? i0) && (i0 <=? j) && (j =? zn ind k - b)) with ((i =? i0) && (j =? zn ind k - b)) by lia. reflexivity.
    - exists C'. split; auto. revert R. apply wacc_ext. intros i j Hi Hj. unfold out_terms, ents. destruct ((i =? i0) && (i0 <=? j)) eqn:Q; cbn [andb].
      + rewrite map_flat_map. apply flat_map_ext_in. intros k Hk. apply in_zrange in Hk. pose proof (PR r ltac:(lia)). pose proof (PR (r + 1) ltac:(lia)).
        destruct (Z.eqb_spec (zn ind k) (j + b)) as [E'|E'].
        * replace (j =? zn ind k - b) with true by lia. rewrite (rd_nthZ _ z val) by lia. reflexivity.
        * replace (j =? zn ind k - b) with false by lia. reflexivity.
      + induction (zrange (zn ptr r - b) (zn ptr (r + 1) - b)); cbn; auto.
  Qed.

  Definition cj_if (c : bool) (v : T) : T := if c then ocj O v else v.
  (** All the terms of cell (i, j). *)
  Definition atb_terms (cl : bool) (b : Z) (ptr ind : list Z) (val : list T) (alpha : T) (V : Z -> list (Z * Z)) (i j : Z) : list T :=
    if i <=? j then flat_map (fun rk => map (fun v => alpha *! cj_if cl (tn val (snd rk)) *! cj_if (negb cl) v) (ents b ptr ind val (fst rk) j)) (V i) else [].

  Lemma atb_ok : forall w cl layout ldc n mm nnz b ptr ind (val : list T) alpha,
    csr_wf mm n nnz b ptr ind -> zlen val = nnz -> rows_sorted mm b ptr ind -> rows_distinct mm b ptr ind ->
    exists V, (forall i, 0 <= i < n -> NoDup (V i) /\ forall r k, In (r, k) (V i) <-> 0 <= r < mm /\ in_row ptr b r k /\ zn ind k - b = i) /\
      forall C, dense_ok w layout ldc n n C -> exists C', syrkd_atb O w cl mm n b ptr ind val alpha layout ldc C = Some (success, C') /\
      wacc O layout ldc n n (atb_terms cl b ptr ind val alpha V) C C'.
  Proof.
    intros w cl layout ldc n mm nnz b ptr ind val alpha W Lv So Di. unfold syrkd_atb. pose proof (wf_n _ _ _ _ _ _ W) as Hn.
    destruct (wf_len _ _ _ _ _ _ W) as (Lp & Li). pose proof (ptr_range _ _ _ _ (wf_ptr _ _ _ _ _ _ W)) as PR. pose proof (wf_m _ _ _ _ _ _ W) as Hm.
    assert (EN : forall r, 0 <= r < mm -> zn (skipn 1 ptr) r = zn ptr (r + 1)) by (intros r Hr; destruct ptr as [|p0 ptr']; [cbn in Lp; unfold zlen in Lp; cbn in Lp; lia|]; unfold nthZ; cbn [skipn]; replace (Z.to_nat (r + 1)) with (Datatypes.S (Z.to_nat r)) by lia; reflexivity).
    assert (LE : mm <= zlen (skipn 1 ptr)) by (destruct ptr as [|p0 ptr']; unfold zlen in *; cbn [skipn length] in *; lia).
    assert (Wr : forall r k, 0 <= r < mm -> zn ptr r - b <= k < zn (skipn 1 ptr) r - b -> 0 <= k < zlen ind /\ 0 <= zn ind k - b < n).
    { intros r k Hr Hk. rewrite EN in Hk by auto. pose proof (PR r ltac:(lia)). pose proof (PR (r + 1) ltac:(lia)). pose proof (wf_ind _ _ _ _ _ _ W k ltac:(lia)). lia. }
    assert (Ws : forall r k k', 0 <= r < mm -> zn ptr r - b <= k -> k < k' -> k' < zn (skipn 1 ptr) r - b -> zn ind k - b < zn ind k' - b).
    { intros r k k' Hr H1 H2 H3. rewrite EN in H3 by auto. assert (K : in_row ptr b r k) by (unfold in_row; lia). assert (K' : in_row ptr b r k') by (unfold in_row; lia).
      pose proof (So r k k' Hr K K' H2). pose proof (Di r k k' Hr K K' ltac:(lia)). lia. }
    destruct (init_ok mm n ptr b (skipn 1 ptr) b ind b Hm ltac:(lia) ltac:(lia) LE Wr Ws) as (o & -> & RO).
    set (body := fun i row idx (C : list T) => let* v := rd val idx in
          let va := alpha *! (if cl then ocj O v else v) in
          let* s := rd ptr row in
          let* e := rd ptr (row + 1) in
          compute_output_row O w cl layout ldc i va (s - b) (e - b) ind val b C).
    destruct (columns_visit mm n ptr b (skipn 1 ptr) b ind b Hm ltac:(lia) LE Wr Ws body o RO) as (V & HV & EV).
    assert (HV' : forall i, 0 <= i < n -> NoDup (V i) /\ forall r k, In (r, k) (V i) <-> 0 <= r < mm /\ in_row ptr b r k /\ zn ind k - b = i).
    { intros i Hi. destruct (HV i Hi) as (N1 & N2). split; [exact N1|]. intros r k. rewrite N2. split.
      - intros (Q1 & Q2 & Q3). rewrite EN in Q2 by auto. split; [exact Q1|]. split; [exact Q2|exact Q3].
      - intros (Q1 & Q2 & Q3). rewrite EN by auto. split; [exact Q1|]. split; [exact Q2|exact Q3]. }
    exists V. split; [exact HV'|]. intros C D. pose proof D as [_ _ _ _ _ F _]. specialize (EV C).
    destruct (wacc_for O layout ldc n n 0 n (fun i0 i j => flat_map (fun rk => out_terms cl b ptr ind val (alpha *! cj_if cl (tn val (snd rk))) i0 (fst rk) i j) (V i0))
      (fun i s => foldM (fun rk s => body i (fst rk) (snd rk) s) (V i) s) C F ltac:(lia)) as (C' & E & R).
    { intros i B Hi FB LB. apply wacc_foldM; auto. intros (r, k) B' Hin FB' LB'. apply HV' in Hin; auto. destruct Hin as (Q1 & Q2 & Q3). unfold in_row in Q2.
      pose proof (PR r ltac:(lia)). pose proof (PR (r + 1) ltac:(lia)). unfold body. cbn [fst snd]. rewrite (rd_nthZ _ z val) by lia. rewrite !(rd_nthZ _ 0) by lia.
      apply (output_row_ok w cl layout ldc n mm nnz); auto. apply (dense_ok_len w layout ldc n n C); auto. congruence. }
    exists C'. rewrite E in EV.
    match type of EV with (match ?x with _ => _ end) = _ => destruct x as [(o', C2)|] eqn:EX; [|discriminate] end. cbn in EV. inversion EV; subst C2. split.
    - change (for_ 0 n (fun i oC => oft_column (skipn 1 ptr) b ind b mm (body i) i oC) (o, C) = Some (o', C')) in EX. unfold body in EX. rewrite EX. reflexivity.
    - revert R. apply wacc_ext. intros i j Hi Hj. unfold atb_terms, out_terms.
      assert (G : forall t, 0 <= t <= n -> flat_map (fun i0 => flat_map (fun rk => if (i =? i0) && (i0 <=? j) then map (fun v => alpha *! cj_if cl (tn val (snd rk)) *! (if cl then v else ocj O v)) (ents b ptr ind val (fst rk) j) else []) (V i0)) (zrange 0 t)
        = if (i <? t) && (i <=? j) then flat_map (fun rk => map (fun v => alpha *! cj_if cl (tn val (snd rk)) *! (if cl then v else ocj O v)) (ents b ptr ind val (fst rk) j)) (V i) else []).
      { intros t Ht. pose proof Ht as Hle. revert Hle. pattern t. apply natlike_ind; [| |lia]; clear t Ht.
        - intros _. replace ((i <? 0) && (i <=? j)) with false by lia. reflexivity.
        - intros t Ht IH Hle. replace (Z.succ t) with (t + 1) by lia. rewrite zrange_last by lia. rewrite flat_map_app, IH by lia. cbn [flat_map]. rewrite app_nil_r.
          destruct (Z.eqb_spec i t) as [ -> |Nt].
          + replace (t <? t) with false by lia. replace (t <? t + 1) with true by lia. cbn [andb app]. destruct (t <=? j); [reflexivity|]. apply flat_map_nil. reflexivity.
          + replace (i <? t + 1) with (i <? t) by lia. cbn [andb]. rewrite (flat_map_nil _ _ _ (V t)) by reflexivity. rewrite app_nil_r. reflexivity. }
      rewrite (G n) by lia. replace (i <? n) with true by lia. cbn [andb]. destruct (i <=? j); [|reflexivity]. apply flat_map_ext. intros rk. apply map_ext. intros v. unfold cj_if. destruct cl; reflexivity.
  Qed.
End P.

Section Q.
  Context {T : Type} (O : ops T) (L : laws O).
  Local Notation z := (o0 O).
  Local Notation tn := (nthZ (o0 O)).
  Local Infix "+!" := (oadd O) (at level 50, left associativity).
  Local Infix "*!" := (omul O) (at level 40, left associativity).
  Add Ring Tring4 : (l_ring L).

  Lemma cj_if_sum : forall c l, suml O (cj_if O c) l = cj_if O c (suml O (fun v => v) l).
  Proof. intros [|] l; unfold cj_if; [symmetry; apply (suml_cj O L)|reflexivity]. Qed.

  (** The visited elements of a column, summed row by row. *)
  Lemma visits_sum : forall mm b ptr ind i V (f : Z -> Z -> T),
    (NoDup V /\ forall r k, In (r, k) V <-> 0 <= r < mm /\ in_row ptr b r k /\ zn ind k - b = i) ->
    suml O (fun rk => f (fst rk) (snd rk)) V = sumz O 0 mm (fun r => suml O (f r) (filter (fun k => zn ind k =? i + b) (zrange (zn ptr r - b) (zn ptr (r + 1) - b)))).
  Proof.
    intros mm b ptr ind i V f (N & M).
    set (E := flat_map (fun r => map (fun k => (r, k)) (filter (fun k => zn ind k =? i + b) (zrange (zn ptr r - b) (zn ptr (r + 1) - b)))) (zrange 0 mm)).
    assert (PE : Permutation V E).
    { apply NoDup_Permutation; auto.
      - unfold E. generalize (NoDup_zrange 0 mm). generalize (zrange 0 mm). induction l as [|x l IH]; intros Nl; [constructor|]. inversion Nl; subst. cbn [flat_map].
        assert (NI : forall q, In q (map (fun k => (x, k)) (filter (fun k => zn ind k =? i + b) (zrange (zn ptr x - b) (zn ptr (x + 1) - b)))) -> ~ In q (flat_map (fun r => map (fun k => (r, k)) (filter (fun k => zn ind k =? i + b) (zrange (zn ptr r - b) (zn ptr (r + 1) - b)))) l)).
        { intros q Q1 Q2. apply in_map_iff in Q1. destruct Q1 as (k & <- & _). apply in_flat_map in Q2. destruct Q2 as (r & Hr & Q2). apply in_map_iff in Q2. destruct Q2 as (k' & Q2 & _). inversion Q2; subst. contradiction. }
        assert (N1 : NoDup (map (fun k => (x, k)) (filter (fun k => zn ind k =? i + b) (zrange (zn ptr x - b) (zn ptr (x + 1) - b))))).
        { apply FinFun.Injective_map_NoDup; [intros p q Q; congruence|]. apply NoDup_filter. apply NoDup_zrange. }
        specialize (IH H2). revert N1 NI. generalize (map (fun k => (x, k)) (filter (fun k => zn ind k =? i + b) (zrange (zn ptr x - b) (zn ptr (x + 1) - b)))).
        induction l0 as [|y l0 IH0]; intros N1 NI; [exact IH|]. inversion N1; subst. cbn [app]. constructor.
        + rewrite in_app_iff. intros [Q|Q]; [contradiction|]. apply (NI y); auto. now left.
        + apply IH0; auto. intros q Q. apply NI. now right.
      - intros (r, k). rewrite M. unfold E. rewrite in_flat_map. split.
        + intros (Q1 & Q2 & Q3). exists r. split; [apply in_zrange; auto|]. apply in_map. apply filter_In. split; [apply in_zrange; exact Q2|]. lia.
        + intros (r' & Q1 & Q2). apply in_map_iff in Q2. destruct Q2 as (k' & Q2 & Q3). inversion Q2; subst. apply in_zrange in Q1. apply filter_In in Q3. destruct Q3 as (Q3 & Q4). apply in_zrange in Q3. split; [exact Q1|]. split; [exact Q3|lia]. }
    rewrite (suml_perm O L _ _ _ _ PE). unfold E. rewrite (suml_flat_map O L). unfold sumz. apply suml_ext. intros r Hr. apply (suml_map O).
  Qed.
  Lemma filter_ents : forall nnz b ptr ind (val : list T) (g : T -> T) r i, zlen val = nnz -> 0 <= zn ptr r - b -> zn ptr (r + 1) - b <= nnz ->
    suml O (fun k => g (tn val k)) (filter (fun k => zn ind k =? i + b) (zrange (zn ptr r - b) (zn ptr (r + 1) - b))) = suml O g (ents b ptr ind val r i).
  Proof.
    intros nnz b ptr ind val g r i Lv H1 H2. unfold ents.
    assert (G : forall l, (forall k, In k l -> 0 <= k < nnz) -> suml O (fun k => g (tn val k)) (filter (fun k => zn ind k =? i + b) l) = suml O g (flat_map (fun k => if zn ind k =? i + b then olist (rd val k) else []) l)).
    { induction l as [|k l IH]; intros Hl; [reflexivity|]. cbn [filter flat_map]. rewrite (suml_app O L). rewrite <- IH by (intros; apply Hl; now right).
      destruct (zn ind k =? i + b); [|change (suml O g []) with z; ring]. pose proof (Hl k (or_introl eq_refl)). rewrite (rd_nthZ _ z) by lia. set (X := filter _ l). change (g (tn val k) +! suml O (fun k => g (tn val k)) X = g (tn val k) +! z +! suml O (fun k => g (tn val k)) X). ring. }
    apply G. intros k Hk. apply in_zrange in Hk. lia.
  Qed.

  Lemma atb_sum : forall cl mm n nnz b ptr ind (val : list T) alpha V i j, csr_wf mm n nnz b ptr ind -> zlen val = nnz -> i <= j ->
    (NoDup (V i) /\ forall r k, In (r, k) (V i) <-> 0 <= r < mm /\ in_row ptr b r k /\ zn ind k - b = i) ->
    suml O (fun v => v) (atb_terms O cl b ptr ind val alpha V i j) =
    alpha *! sumz O 0 mm (fun r => cj_if O cl (csr_mat O b ptr ind val r i) *! cj_if O (negb cl) (csr_mat O b ptr ind val r j)).
  Proof.
    intros cl mm n nnz b ptr ind val alpha V i j W Lv Hij HV. unfold atb_terms. replace (i <=? j) with true by lia. rewrite (suml_flat_map O L).
    rewrite (suml_ext O _ _ (fun rk => (fun r k => alpha *! cj_if O cl (tn val k) *! cj_if O (negb cl) (csr_mat O b ptr ind val r j)) (fst rk) (snd rk))).
    2:{ intros rk _. rewrite (suml_map O). rewrite (suml_mul_l O L). f_equal. rewrite cj_if_sum. reflexivity. }
    rewrite (visits_sum mm b ptr ind i (V i) (fun r k => alpha *! cj_if O cl (tn val k) *! cj_if O (negb cl) (csr_mat O b ptr ind val r j)) HV). rewrite <- (sumz_mul_l O L). apply sumz_ext. intros r Hr.
    destruct (row_bounds _ _ _ _ _ _ r W Hr) as (_ & _ & B1 & B2 & B3).
    rewrite (filter_ents nnz b ptr ind val (fun v => alpha *! cj_if O cl v *! cj_if O (negb cl) (csr_mat O b ptr ind val r j))) by auto.
    rewrite (suml_mul_r O L). rewrite (suml_mul_l O L). rewrite cj_if_sum. unfold csr_mat. ring.
  Qed.
End Q.

Section R.
  Context {T : Type} (O : ops T) (is_real : bool) (HR : is_real = true -> forall v : T, ocj O v = v).
  Local Notation z := (o0 O).
  Local Notation tn := (nthZ (o0 O)).

  Lemma no_entries : forall m n nnz b ptr ind (val : list T) i j, csr_wf m n nnz b ptr ind -> nnz = 0 -> 0 <= i < m -> csr_mat O b ptr ind val i j = z.
  Proof.
    intros m n nnz b ptr ind val i j W E Hi. destruct (row_bounds _ _ _ _ _ _ i W Hi) as (_ & _ & B1 & B2 & B3). unfold csr_mat, ents. rewrite zrange_nil by lia. reflexivity.
  Qed.

  (** The matrix whose rows are walked, and the operand. *)
  Lemma gram_direct : forall op (a : cmat T) i j r, (c_doid a = gn \/ c_doid a = gt) -> valid_op op = true -> (is_real = false -> op <> op_transpose) -> laws O ->
    swp op (c_doid a) = true ->
    omul O (cj_if O (negb (c_doid a =? gt)) (csr_mat O (c_b a) (c_ptr a) (c_ind a) (c_val a) r i)) (cj_if O (negb (negb (c_doid a =? gt))) (csr_mat O (c_b a) (c_ptr a) (c_ind a) (c_val a) r j))
    = omul O (op_sem O op (hnd_mat O a) i r) (ocj O (op_sem O op (hnd_mat O a) j r)).
  Proof.
    intros op a i j r Hd Ho Hc L Hs. unfold hnd_mat, stored_as. destruct Hd as [E|E]; rewrite E in *; destruct op; try discriminate; cbn [op_sem cj_if negb gt gn Z.eqb]; unfold mT, mC, cj_if; cbn [negb]; try reflexivity.
    - destruct is_real; [|exfalso; apply (Hc eq_refl eq_refl)]. rewrite !(HR eq_refl). reflexivity.
    - rewrite (l_cj_cj L). reflexivity.
  Qed.
  Lemma gram_transposed : forall op (a : cmat T) i j r (M : Z -> Z -> T), (c_doid a = gn \/ c_doid a = gt) -> valid_op op = true -> (is_real = false -> op <> op_transpose) -> laws O ->
    swp op (c_doid a) = false -> M r i = csr_mat O (c_b a) (c_ptr a) (c_ind a) (c_val a) i r -> M r j = csr_mat O (c_b a) (c_ptr a) (c_ind a) (c_val a) j r ->
    omul O (cj_if O (c_doid a =? gt) (M r i)) (cj_if O (negb (c_doid a =? gt)) (M r j))
    = omul O (op_sem O op (hnd_mat O a) i r) (ocj O (op_sem O op (hnd_mat O a) j r)).
  Proof.
    intros op a i j r M Hd Ho Hc L Hs -> ->. unfold hnd_mat, stored_as. destruct Hd as [E|E]; rewrite E in *; destruct op; try discriminate; cbn [op_sem cj_if negb gt gn Z.eqb]; unfold mT, mC, cj_if; cbn [negb]; try reflexivity.
    - destruct is_real; [|exfalso; apply (Hc eq_refl eq_refl)]. rewrite !(HR eq_refl). reflexivity.
    - rewrite (l_cj_cj L). reflexivity.
  Qed.

  Lemma syrkd_run : forall w op (A : hnd T) a alpha beta layout ldc, holds A a -> valid_op op = true -> (is_real = false -> op <> op_transpose) ->
    sort_says (H_sort A) (c_m a) (c_b a) (c_ptr a) (c_ind a) -> (stored_rows op a = true -> H_sort A = fully_sorted) ->
    rows_distinct (c_m a) (c_b a) (c_ptr a) (c_ind a) ->
    exists F : Z -> Z -> list T,
      (laws O -> forall i j, 0 <= i <= j -> j < rows_of op A -> suml O (fun v => v) (F i j) = omul O alpha (gram O op (cols_of op A) a i j)) /\
      forall C, dense_ok w layout ldc (rows_of op A) (rows_of op A) C ->
      exists C', syrkd O is_real w op (Some A) alpha beta (Some C) layout ldc = Some (success, Some C') /\
        holds_window z layout ldc (rows_of op A) (rows_of op A) (fun i j => let c := tn C (dense_at layout ldc i j) in
          if i <=? j then fold_left (oadd O) (F i j) (if oeqb O beta z then z else omul O beta c) else c) C C'.
  Proof.
    intros w op A a alpha beta layout ldc HA Ho Hc So Hs Di.
    destruct (dims_of op A a HA Ho) as (RA & CA).
    assert (UA : arrays_ok a /\ H_nnz A = c_nnz a /\ (c_doid a = gn \/ c_doid a = gt)) by (destruct HA as ((? & ? & _ & _ & ?) & _); intuition). destruct UA as ((WA & _ & LA & BA) & NZ & DA).
    assert (MA : get_mtx (H_mats A) = Some a) by (destruct HA as (_ & rest & ->); reflexivity).
    assert (SW : stored_rows op a = swp op (c_doid a)) by (unfold stored_rows, swp; destruct DA as [-> | ->], op; try discriminate; reflexivity). rewrite SW in Hs.
    set (Z0 := (H_m A =? 0) || (H_n A =? 0) || (H_nnz A =? 0)).
    (* the part after the checks and the scaling *)
    assert (K : exists F : Z -> Z -> list T,
      (laws O -> forall i j, 0 <= i <= j -> j < rows_of op A -> suml O (fun v => v) (F i j) = omul O alpha (gram O op (cols_of op A) a i j)) /\
      (forall i j, j < i -> F i j = []) /\
      forall C, dense_ok w layout ldc (rows_of op A) (rows_of op A) C -> exists C',
        (if Z0 then Some (success, Some C)
         else if negb (swp op (c_doid a)) then
           let nnz := H_nnz A in
           let* r := csr2csc (c_m a) (c_n a) nnz (c_b a) (c_b a) (Some (c_ptr a)) (Some (c_ind a)) (Some (c_val a)) (Some (zrep nnz 0)) (Some (zrep (c_n a + 1) 0)) (Some (zrep nnz (o0 O))) in
           match r with
           | (success, Some cp, Some ri, Some cv) => let* (st, C) := syrkd_atb O w (c_doid a =? gt) (c_n a) (c_m a) (c_b a) cp ri cv alpha layout ldc C in Some (st, Some C)
           | (st, _, _, _) => Some (st, Some C)
           end
         else let* (st, C) := syrkd_atb O w (negb (c_doid a =? gt)) (c_m a) (c_n a) (c_b a) (c_ptr a) (c_ind a) (c_val a) alpha layout ldc C in Some (st, Some C)) = Some (success, Some C') /\
        wacc O layout ldc (rows_of op A) (rows_of op A) F C C').
    { destruct Z0 eqn:EZ.
      { assert (N0 : c_nnz a = 0).
        { apply (wf_zero _ _ _ _ _ _ WA). unfold Z0 in EZ. destruct HA as ((_ & _ & _ & _ & Hd) & _). lia. }
        exists (fun _ _ => []). split; [|split; [reflexivity|]].
        - intros L i j Hij Hj. change (z = omul O alpha (gram O op (cols_of op A) a i j)). unfold gram. rewrite (sumz_zero O L); [destruct (l_ring L); rewrite Rmul_comm; symmetry; apply (alpha_zero O L)|].
          intros l Hl. assert (X : forall p q, 0 <= p < c_m a -> csr_mat O (c_b a) (c_ptr a) (c_ind a) (c_val a) p q = z) by (intros p q Hp; apply (no_entries (c_m a) (c_n a) (c_nnz a)); auto).
          assert (Y : op_sem O op (hnd_mat O a) i l = z).
          { rewrite <- (sem_of O is_real HR op a i l DA Ho). destruct (swp op (c_doid a)); rewrite X by lia; unfold cjh; destruct (cjf is_real op); auto; apply (cj_0 O L). }
          rewrite Y. apply (alpha_zero O L).
        - intros C D. exists C. split; [reflexivity|]. apply wacc_nil. reflexivity. }
      destruct (swp op (c_doid a)) eqn:ES; cbn [negb].
      - specialize (Hs eq_refl). rewrite Hs in So. cbn in So.
        destruct (atb_ok O w (negb (c_doid a =? gt)) layout ldc (c_n a) (c_m a) (c_nnz a) (c_b a) (c_ptr a) (c_ind a) (c_val a) alpha WA LA So Di) as (V & HV & R).
        exists (atb_terms O (negb (c_doid a =? gt)) (c_b a) (c_ptr a) (c_ind a) (c_val a) alpha V). rewrite RA, CA. split; [|split].
        + intros L i j Hij Hj. rewrite (atb_sum O L (negb (c_doid a =? gt)) (c_m a) (c_n a) (c_nnz a)); auto; [|lia|apply HV; lia]. f_equal. unfold gram. apply sumz_ext. intros r Hr. apply gram_direct; auto.
        + intros i j Hij. unfold atb_terms. replace (i <=? j) with false by lia. reflexivity.
        + intros C D. destruct (R C D) as (C' & E & H). exists C'. rewrite E. auto.
      - rewrite NZ. pose proof (wf_nnz _ _ _ _ _ _ WA). pose proof (wf_n _ _ _ _ _ _ WA).
        destruct (csr2csc_ok _ (c_m a) (c_n a) (c_nnz a) (c_b a) (c_b a) (c_ptr a) (c_ind a) (c_val a) (zrep (c_n a + 1) 0) (zrep (c_nnz a) 0) (zrep (c_nnz a) z) BA BA WA LA) as (cp & ri & cv & E1 & W1 & L1 & S1 & X1); try (rewrite zlen_zrep; lia).
        assert (D1 : rows_distinct (c_n a) (c_b a) cp ri).
        { apply (ents_distinct _ (c_n a) (c_m a) (c_nnz a) (c_b a) cp ri cv W1 L1). intros i j Hi Hj. rewrite X1 by auto. apply (distinct_ents _ (c_m a) (c_n a) (c_nnz a)); auto. }
        destruct (atb_ok O w (c_doid a =? gt) layout ldc (c_m a) (c_n a) (c_nnz a) (c_b a) cp ri cv alpha W1 L1 S1 D1) as (V & HV & R).
        exists (atb_terms O (c_doid a =? gt) (c_b a) cp ri cv alpha V). rewrite RA, CA. cbv zeta. split; [|split].
        + intros L i j Hij Hj. rewrite (atb_sum O L (c_doid a =? gt) (c_n a) (c_m a) (c_nnz a)); auto; [|lia|apply HV; lia]. f_equal. unfold gram. apply sumz_ext. intros r Hr.
          apply gram_transposed with (M := csr_mat O (c_b a) cp ri cv); auto; unfold csr_mat; rewrite X1 by lia; reflexivity.
        + intros i j Hij. unfold atb_terms. replace (i <=? j) with false by lia. reflexivity.
        + intros C D. destruct (R C D) as (C' & E & H1). exists C'. rewrite E1, E. auto. }
    destruct K as (F & FS & FL & K). exists F. split; [exact FS|]. intros C D. pose proof D as [Hw Hl Hm _ Hd Ff Fx].
    destruct (upper_scale_ok O w layout ldc (rows_of op A) beta C D) as (C1 & E1 & H1). pose proof (hw_len O _ _ _ _ _ _ _ H1) as L1.
    destruct (K C1) as (C2 & E2 & H2); [apply (dense_ok_len w layout ldc (rows_of op A) (rows_of op A) C); auto|].
    exists C2. split.
    - unfold syrkd. rewrite Ho. cbn [negb]. replace (negb (layout =? 0) && negb (layout =? 1)) with false by lia.
      replace (negb is_real && match op with op_transpose => true | _ => false end) with false by (destruct is_real; [reflexivity|]; destruct op; try reflexivity; exfalso; apply (Hc eq_refl eq_refl)).
      rewrite MA. replace (negb (c_doid a =? gt) && negb (c_doid a =? gn)) with false by (destruct DA as [-> | ->]; reflexivity). cbv zeta.
      replace (if c_doid a =? gt then negb (match op with op_none => true | _ => false end) else match op with op_none => true | _ => false end) with (negb (swp op (c_doid a))) by (unfold swp; destruct DA as [-> | ->], op; try discriminate; reflexivity).
      replace (negb match H_sort A with fully_sorted => true | _ => false end && negb (negb (swp op (c_doid a)))) with false by (destruct (swp op (c_doid a)); [rewrite (Hs eq_refl)|rewrite andb_false_r]; reflexivity).
      replace (if negb (swp op (c_doid a)) then c_m a else c_n a) with (rows_of op A) by (rewrite RA; destruct (swp op (c_doid a)); reflexivity).
      assert (F1 : rows_of op A <= ldc /\ rows_of op A * ldc <= int_max w) by (unfold window_fits in Ff; destruct Hl as [-> | ->]; cbn in Ff, Fx |- *; lia). destruct F1 as (F1 & F2).
      replace (ldc <? rows_of op A) with false by lia.
      assert (OV : int_product_overflow w (rows_of op A) ldc = Some false).
      { pose proof (pow_w w Hw) as Hp. rewrite int_product_overflow_spec by (auto; unfold in_int, int_min, int_max in *; lia). f_equal.
        assert (0 <= rows_of op A * ldc) by nia. unfold in_int, int_min, int_max in *. set (P := rows_of op A * ldc) in *. clearbody P. lia. }
      rewrite OV, E1. exact E2.
    - eapply (hw_ext O); [|exact (hw_trans O _ _ _ _ _ _ _ _ _ H1 H2)]. intros i j Hi Hj. cbv beta zeta. destruct H1 as (_ & H1 & _). rewrite H1 by auto. cbv zeta.
      destruct (i <=? j) eqn:Q; [reflexivity|]. rewrite FL by lia. reflexivity.
  Qed.

  Lemma syrkd_ok : laws O -> forall w op (A : hnd T) a alpha beta (C : list T) layout ldc, holds A a -> valid_op op = true -> (is_real = false -> op <> op_transpose) ->
    sort_says (H_sort A) (c_m a) (c_b a) (c_ptr a) (c_ind a) -> (stored_rows op a = true -> H_sort A = fully_sorted) ->
    rows_distinct (c_m a) (c_b a) (c_ptr a) (c_ind a) -> dense_ok w layout ldc (rows_of op A) (rows_of op A) C ->
    exists C', syrkd O is_real w op (Some A) alpha beta (Some C) layout ldc = Some (success, Some C') /\
      holds_window z layout ldc (rows_of op A) (rows_of op A) (upper_update O layout ldc alpha beta (gram O op (cols_of op A) a) C) C C'.
  Proof.
    intros L w op A a alpha beta C layout ldc HA Ho Hc So Hs Di D. destruct (syrkd_run w op A a alpha beta layout ldc HA Ho Hc So Hs Di) as (F & FS & R).
    destruct (R C D) as (C' & E & H). exists C'. split; [exact E|]. revert H. apply (hw_ext O). intros i j Hi Hj. cbv zeta. unfold upper_update. destruct (i <=? j) eqn:Q; [|reflexivity].
    rewrite (fold_sum O L), (FS L) by lia. f_equal. destruct (oeqb O beta z) eqn:E0; [|reflexivity]. apply (l_eqb L) in E0. subst beta. symmetry. apply (alpha_zero O L).
  Qed.
End R.
