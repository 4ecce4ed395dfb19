(** The sparse product of a matrix with its own conjugate transpose. *)
From Coq Require Import ZArith List Bool Lia ZifyBool Permutation Ring.
From Verif Require Import Base BaseFacts Algebra UtilModel UtilProof Csr CsrFacts CheckModel CheckSpec SortSpec DoidModel DoidSpec MvModel MvFacts MvProof CsrmvModel HandleModel HandleSpec
  AddSpec AddProof Csr2CscModel Csr2CscProof Csr2mModel Csr2mSpec Csr2mProof Csr2mHandleProof RowProg OftModel OftProof SyrkdSpec SyrkdProof SyrkModel SyrkSpec AtbProof EstProof.
Import ListNotations.
Open Scope Z_scope.
Local Notation zs := (sumz Zops).

(** ** A result built row by row *)
Section U.
  Context {T : Type} (O : ops T) (L : laws O).
  Local Notation z := (o0 O).
  Lemma built_upper : forall m b cap (R : Z -> list (Z * T)) F ic jc vc, 0 <= m -> built O m b R ic jc vc ->
    (forall i p, 0 <= i < m -> In p (R i) -> i + b <= fst p < b + m) -> (forall i, 0 <= i < m -> NoDup (map fst (R i))) ->
    (forall i j, 0 <= i <= j -> j < m -> colsum O (j + b) (R i) = F i j) ->
    exists c, upper_result O m b F (syrk_handle m b cap (offs R m) ic jc vc) c.
  Proof.
    intros m b cap R F ic jc vc Hm B HC ND HF. eexists. pose proof B as (B1 & B2 & B3 & B4 & B5).
    assert (HC' : forall i p, 0 <= i < m -> In p (R i) -> b <= fst p < b + m) by (intros i p Hi Hp; specialize (HC i p Hi Hp); lia).
    destruct (built_wf O m m b R Hm ic jc vc B Hm HC') as (W & Lv).
    assert (OM : forall i, 0 <= i <= m -> 0 <= offs R i <= offs R m) by (intros; apply offs_mono; lia).
    constructor; cbn [H_m H_n H_nnz H_mats syrk_handle c_m c_n c_doid c_b c_ind c_val c_ptr]; try reflexivity.
    - auto.
    - exact W.
    - intros i k k' Hi Hk Hk' Ne E. unfold in_row in Hk, Hk'. rewrite !B2 in Hk, Hk' by lia. pose proof (OM i ltac:(lia)). pose proof (OM (i + 1) ltac:(lia)).
      change (prefix (offs R m) jc) with (cut (offs R m) jc) in E. rewrite !nthZ_cut in E by lia. specialize (ND i Hi). rewrite <- (B5 i Hi) in ND. unfold rowl in ND. rewrite map_map in ND. cbn [fst] in ND.
      apply Ne. apply (NoDup_map_eq _ _ _ _ ND); auto; apply in_zrange; lia.
    - intros i k Hi Hk. unfold in_row in Hk. rewrite !B2 in Hk by lia.
      assert (I : In (zn jc k, nthZ z vc k) (R i)). { rewrite <- (B5 i Hi). unfold rowl. apply (in_map (fun k => (zn jc k, nthZ z vc k))). apply in_zrange. lia. }
      apply (HC i _ Hi I).
    - intros i j Hij Hj. rewrite <- (HF i j) by lia. exact (built_mat O L m m b R Hm ic jc vc B Hm HC' i j ltac:(lia)).
  Qed.
End U.

(** ** Room for the rows *)
Lemma meet_1 : forall mm (N : Z -> Z -> Z) i j r, (forall r i, 0 <= r < mm -> 0 <= N r i) -> 0 <= r < mm -> 1 <= N r i -> 1 <= N r j -> meet mm N i j = 1.
Proof.
  intros mm N i j r NN Hr H1 H2. unfold meet. assert (1 <= zs 0 mm (fun r => N r i * N r j)).
  { transitivity (zs 0 mm (fun q => if q =? r then N q i * N q j else 0)); [rewrite (zs_delta 0 mm r (fun q => N q i * N q j)) by auto; nia|].
    apply zs_le. intros q Hq. pose proof (NN q i Hq). pose proof (NN q j Hq). destruct (q =? r); nia. }
  replace (0 <? _) with true by lia. reflexivity.
Qed.
Lemma rows_room : forall T mm K (N : Z -> Z -> Z) b (R : Z -> list (Z * T)), 0 <= K ->
  (forall r i, 0 <= r < mm -> 0 <= i < K -> 0 <= N r i <= 1) ->
  (forall i, 0 <= i < K -> NoDup (map fst (R i))) ->
  (forall i p, 0 <= i < K -> In p (R i) -> i <= fst p - b < K /\ meet mm N i (fst p - b) = 1) ->
  offs R K <= zs 0 K (fun i => est_row (K - 1) (others mm K N i)).
Proof.
  intros T mm K N b R HK N01 ND HC. etransitivity; [|apply (upper_bound mm K N HK N01)]. unfold offs. apply zs_le. intros i Hi.
  replace (zlen (R i)) with (zlen (map (fun p : Z * T => fst p - b) (R i))) by apply zlen_map.
  rewrite (count_nodup K).
  - apply zs_le. intros j Hj. destruct (inb j _) eqn:E; [|pose proof (meet_le mm K N N01 i j Hi Hj); destruct (i <=? j); lia].
    apply inb_iff, in_map_iff in E. destruct E as (p & <- & Hp). destruct (HC i p Hi Hp) as (H1 & ->). replace (i <=? fst p - b) with true by lia. lia.
  - lia.
  - rewrite <- (map_map fst (fun x => x - b)). apply FinFun.Injective_map_NoDup; [intros x y; lia|auto].
  - intros x Hx. apply in_map_iff in Hx. destruct Hx as (p & <- & Hp). destruct (HC i p Hi Hp). lia.
Qed.

Section G.
  Context {T : Type} (O : ops T).
  Variables (conjA conjB : bool) (m n nnz b : Z) (ptr ind : list Z) (val : list T).
  Hypothesis (W : csr_wf m n nnz b ptr ind) (Lv : zlen val = nnz) (HD : rows_distinct m b ptr ind).
  Local Notation Nt := (Nt b ptr ind val).
  Local Notation arow := (arow O true conjA conjB val b ptr ind val).

  Lemma arow_meet : forall b0 V i p, visits m n b ptr ind V -> 0 <= i < n -> In p (arow b0 V i) -> i <= fst p - b0 < n /\ meet m Nt i (fst p - b0) = 1.
  Proof.
    intros b0 V i p HV Hi Hp. destruct (arow_cols O true conjA conjB m n n val b nnz ptr ind val W b0 V i p (visits_ok m n b nnz ptr ind val W Lv V HV) Hi Hp) as (C1 & C2). unfold keep in C2. split; [lia|].
    unfold AtbProof.arow in Hp. apply in_map_iff in Hp. destruct Hp as (c & <- & Hc). cbn [fst]. replace (c + b0 - b0) with c by lia. apply firsts_in, in_map_iff in Hc. destruct Hc as ((c', v) & E & Hc). cbn [fst] in E. subst c'.
    unfold contribs in Hc. apply in_flat_map in Hc. destruct Hc as ((r, q) & Hrq & Hc). apply (HV i Hi) in Hrq. destruct Hrq as (Hr & Hq & Ei). cbn [fst snd] in Hc. unfold terms in Hc.
    apply in_flat_map in Hc. destruct Hc as (x & Hx & Hc). apply in_zrange in Hx. destruct (keep _ _ _); [|destruct Hc]. destruct Hc as [E|[]]. injection E as Ec _.
    apply (meet_1 m Nt i c r); auto.
    - intros r' i' Hr'. apply (Nt_01 m n nnz b ptr ind val W Lv HD r' i' Hr').
    - rewrite <- Ei. rewrite (Nt_in m n nnz b ptr ind val W Lv HD); auto. lia.
    - rewrite <- Ec. rewrite (Nt_in m n nnz b ptr ind val W Lv HD); auto. lia.
  Qed.
  Lemma arow_room : forall V, visits m n b ptr ind V -> offs (arow 0 V) n <= zs 0 n (fun i => est_row (n - 1) (others m n Nt i)).
  Proof.
    intros V HV. pose proof (wf_n _ _ _ _ _ _ W). apply (rows_room T m n Nt 0); auto.
    - intros r i Hr Hi. apply (Nt_01 m n nnz b ptr ind val W Lv HD r i Hr).
    - intros i Hi. apply arow_nodup.
    - intros i p Hi Hp. exact (arow_meet 0 V i p HV Hi Hp).
  Qed.

  (** The product through the transposed traversal *)
  Lemma atb_upper : laws O -> forall cap ic jc vc F, (b = 0 \/ b = 1) -> rows_sorted m b ptr ind -> zlen ic = n + 1 ->
    zs 0 n (fun i => est_row (n - 1) (others m n Nt i)) <= zlen jc -> zs 0 n (fun i => est_row (n - 1) (others m n Nt i)) <= zlen vc ->
    (forall i j, 0 <= i <= j -> j < n -> sumz O 0 m (fun r => omul O (cj_if O conjA (csr_mat O b ptr ind val r i)) (cj_if O conjB (csr_mat O b ptr ind val r j))) = F i j) ->
    exists ic' jc' vc' nz c, online_atb O true conjA conjB m n n b ptr ind val b ptr ind val b ic jc vc = Some (ic', jc', vc', nz) /\ nz <= zs 0 n (fun i => est_row (n - 1) (others m n Nt i)) /\
      upper_result O n b F (syrk_handle n b cap nz ic' jc' vc') c.
  Proof.
    intros L cap ic jc vc F Hb So Li Lj Lc HF. destruct (atb_built O L true conjA conjB m n n b nnz ptr ind val b nnz ptr ind val W Lv W Lv So HD) as (V & HV & R). pose proof (arow_room V HV) as RM.
    destruct (R b ic jc vc Hb Li ltac:(lia) ltac:(lia)) as (ic' & jc' & vc' & E & B & L1 & L2). destruct (built_upper O L n b cap (arow b V) F ic' jc' vc') as (c & Hc); auto.
    - apply (wf_n _ _ _ _ _ _ W).
    - intros i p Hi Hp. destruct (arow_meet b V i p HV Hi Hp). lia.
    - intros i Hi. apply arow_nodup.
    - intros i j Hij Hj. rewrite (arow_colsum O L true conjA conjB m n val b nnz ptr ind val W Lv). rewrite (contribs_sum O L true conjA conjB m n n b nnz ptr ind val b nnz ptr ind val W Lv W Lv V i j HV); [apply HF; lia|lia|unfold keep; lia].
    - exists ic', jc', vc', (offs (arow b V) n), c. split; auto. split; auto.
      replace (offs (arow b V) n) with (offs (arow 0 V) n); auto. unfold offs. apply zs_ext. intros i Hi. unfold AtbProof.arow. now rewrite !zlen_map.
  Qed.
End G.

(** ** The dense row kernel *)
Section D.
  Context {T : Type} (O : ops T) (L : laws O).
  Local Notation z := (o0 O).
  Local Notation tn := (nthZ (o0 O)).
  Local Infix "+!" := (oadd O) (at level 50, left associativity).
  Local Infix "*!" := (omul O) (at level 40, left associativity).
  Add Ring Tring6 : (l_ring L).
  Variables (m n nnz b : Z) (ptr ind : list Z) (val : list T).
  Hypothesis (W : csr_wf m n nnz b ptr ind) (Lv : zlen val = nnz) (HD : rows_distinct m b ptr ind).
  Local Notation lo i := (zn ptr i - b).
  Local Notation hi i := (zn ptr (i + 1) - b).
  Local Notation A := (csr_mat O b ptr ind val).
  Definition cdot (i j : Z) : T := sumz O 0 n (fun l => A i l *! ocj O (A j l)).
  Definition dpart (i e : Z) : list (Z * T) := flat_map (fun j => if oeqb O (cdot i j) z then [] else [(j + b, cdot i j)]) (zrange i e).
  Definition drow (i : Z) : list (Z * T) := dpart i m.

  Lemma scatter_ok : forall i trow, 0 <= i < m -> zlen trow = n -> (forall j, 0 <= j < n -> tn trow j = z) ->
    exists trow', for_ (lo i) (hi i) (fun k trow => let* c := rd ind k in let* v := rd val k in wr trow (c - b) v) trow = Some trow' /\ zlen trow' = n /\ forall j, 0 <= j < n -> tn trow' j = A i j.
  Proof.
    intros i trow Hi Hl H0. destruct (row_bounds _ _ _ _ _ _ i W Hi) as (_ & Li & B1 & B2 & B3).
    destruct (for_inv _ (fun k (t : list T) => zlen t = n /\ forall j, 0 <= j < n -> tn t j = sumz O (lo i) k (fun q => if zn ind q =? j + b then tn val q else z)) (lo i) (hi i)
      (fun k trow => let* c := rd ind k in let* v := rd val k in wr trow (c - b) v) trow) as (t & E & Lt & Ht); [lia| | |].
    - split; auto. intros j Hj. rewrite (sumz_nil O (lo i) (lo i)) by lia. auto.
    - intros k t Hk (Lt & Ht). pose proof (wf_ind _ _ _ _ _ _ W k ltac:(lia)). rewrite (rd_nthZ _ 0) by lia. rewrite (rd_nthZ _ z) by lia. rewrite wr_upd by lia. eexists. split; [reflexivity|]. rewrite zlen_upd. split; auto.
      intros j Hj. rewrite (sumz_last O L) by lia. rewrite nthZ_upd by lia. destruct (Z.eqb_spec j (zn ind k - b)) as [->|Ne].
      + replace (zn ind k =? zn ind k - b + b) with true by lia. rewrite (sumz_zero O L); [ring|]. intros q Hq. destruct (Z.eqb_spec (zn ind q) (zn ind k - b + b)) as [E|]; auto. exfalso. apply (HD i q k Hi); unfold in_row; lia.
      + replace (zn ind k =? j + b) with false by lia. rewrite Ht by auto. ring.
    - exists t. split; auto. split; auto. intros j Hj. rewrite Ht by auto. rewrite (csr_mat_sum O L); [reflexivity|]. unfold in_row. lia.
  Qed.
  Lemma clear_ok : forall i trow, 0 <= i < m -> zlen trow = n -> (forall j, 0 <= j < n -> tn trow j = A i j) ->
    exists trow', for_ (lo i) (hi i) (fun k trow => let* c := rd ind k in wr trow (c - b) z) trow = Some trow' /\ zlen trow' = n /\ forall j, 0 <= j < n -> tn trow' j = z.
  Proof.
    intros i trow Hi Hl H0. destruct (row_bounds _ _ _ _ _ _ i W Hi) as (_ & Li & B1 & B2 & B3).
    destruct (for_inv _ (fun k (t : list T) => zlen t = n /\ forall j, 0 <= j < n -> tn t j = sumz O k (hi i) (fun q => if zn ind q =? j + b then tn val q else z)) (lo i) (hi i)
      (fun k trow => let* c := rd ind k in wr trow (c - b) z) trow) as (t & E & Lt & Ht); [lia| | |].
    - split; auto. intros j Hj. rewrite H0 by auto. rewrite (csr_mat_sum O L); [reflexivity|]. unfold in_row. lia.
    - intros k t Hk (Lt & Ht). pose proof (wf_ind _ _ _ _ _ _ W k ltac:(lia)). rewrite (rd_nthZ _ 0) by lia. rewrite wr_upd by lia. eexists. split; [reflexivity|]. rewrite zlen_upd. split; auto.
      intros j Hj. rewrite nthZ_upd by lia. destruct (Z.eqb_spec j (zn ind k - b)) as [->|Ne].
      + rewrite (sumz_zero O L); [reflexivity|]. intros q Hq. destruct (Z.eqb_spec (zn ind q) (zn ind k - b + b)) as [E|]; auto. exfalso. apply (HD i q k Hi); unfold in_row; lia.
      + rewrite Ht by auto. rewrite (sumz_first O k) by lia. replace (zn ind k =? j + b) with false by lia. ring.
    - exists t. split; auto. split; auto. intros j Hj. rewrite Ht by auto. now rewrite (sumz_nil O (hi i) (hi i)) by lia.
  Qed.
  Lemma cdot_ok : forall i j trow, 0 <= j < m -> zlen trow = n -> (forall l, 0 <= l < n -> tn trow l = A i l) ->
    for_ (lo j) (hi j) (fun k acc => let* c := rd ind k in let* t := rd trow (c - b) in let* v := rd val k in Some (acc +! t *! ocj O v)) z = Some (cdot i j).
  Proof.
    intros i j trow Hj Hl H0. destruct (row_bounds _ _ _ _ _ _ j W Hj) as (_ & Li & B1 & B2 & B3).
    destruct (for_inv _ (fun k acc => acc = sumz O (lo j) k (fun q => ocj O (tn val q) *! A i (zn ind q - b))) (lo j) (hi j)
      (fun k acc => let* c := rd ind k in let* t := rd trow (c - b) in let* v := rd val k in Some (acc +! t *! ocj O v)) z) as (acc & E & Ha); [lia| | |].
    - now rewrite (sumz_nil O (lo j) (lo j)) by lia.
    - intros k acc Hk ->. pose proof (wf_ind _ _ _ _ _ _ W k ltac:(lia)). rewrite (rd_nthZ _ 0) by lia. rewrite (rd_nthZ _ z trow) by lia. rewrite (rd_nthZ _ z) by lia. eexists. split; [reflexivity|].
      rewrite (sumz_last O L) by lia. rewrite H0 by lia. ring.
    - rewrite E, Ha. f_equal. rewrite (full_row_sum O L m n nnz b ptr ind val j (ocj O) (fun l => A i l) W Lv Hj). 2:{ exact (l_cj_add L). }
      unfold cdot. apply sumz_ext. intros l Hl'. ring.
  Qed.
  Lemma dpart_S : forall i e, i <= e -> dpart i (e + 1) = dpart i e ++ if oeqb O (cdot i e) z then [] else [(e + b, cdot i e)].
  Proof. intros i e H. unfold dpart. rewrite zrange_last by lia. rewrite flat_map_app. cbn [flat_map]. now rewrite app_nil_r. Qed.
  Lemma dpart_le : forall i e, i <= e <= m -> zlen (dpart i e) <= zlen (drow i).
  Proof. intros i e H. unfold drow, dpart. rewrite (zrange_app i e m) by lia. rewrite flat_map_app, zlen_app. pose proof (zlen_nonneg _ (flat_map (fun j => if oeqb O (cdot i j) z then [] else [(j + b, cdot i j)]) (zrange e m))). lia. Qed.
  Lemma drow_in : forall i p, 0 <= i -> In p (drow i) -> i <= fst p - b < m /\ snd p = cdot i (fst p - b) /\ cdot i (fst p - b) <> z.
  Proof.
    intros i p Hi H. unfold drow, dpart in H. apply in_flat_map in H. destruct H as (j & Hj & H). apply in_zrange in Hj. destruct (oeqb O (cdot i j) z) eqn:E; [destruct H|]. destruct H as [ <- |[]]. cbn [fst snd].
    replace (j + b - b) with j by lia. split; auto. split; auto. intros X. rewrite X in E. assert (Y : oeqb O z z = true) by now apply (l_eqb L). congruence.
  Qed.
  Lemma drow_nodup : forall i, NoDup (map fst (drow i)).
  Proof.
    intros i. unfold drow, dpart. assert (G : forall l, NoDup l -> NoDup (map fst (flat_map (fun j => if oeqb O (cdot i j) z then [] else [(j + b, cdot i j)]) l)) /\
       forall x, In x (map fst (flat_map (fun j => if oeqb O (cdot i j) z then [] else [(j + b, cdot i j)]) l)) -> In (x - b) l).
    { induction l as [|j l IH]; intros ND; [split; [constructor|intros x []]|]. inversion ND; subst. destruct (IH H2) as (I1 & I2). cbn [flat_map]. destruct (oeqb O (cdot i j) z); cbn [app map fst].
      - split; auto. intros x Hx. right. auto.
      - split; [constructor; auto; intros X; apply I2 in X; replace (j + b - b) with j in X by lia; contradiction|]. intros x [ <- |Hx]; [left; lia|right; auto]. }
    apply G, NoDup_zrange.
  Qed.
  Lemma drow_colsum : forall i j, 0 <= i <= j -> j < m -> colsum O (j + b) (drow i) = cdot i j.
  Proof.
    intros i j Hij Hj. unfold drow, dpart, colsum. rewrite (suml_flat_map O L). change (sumz O i m (fun x => suml O (fun p : Z * T => if fst p =? j + b then snd p else z) (if oeqb O (cdot i x) z then [] else [(x + b, cdot i x)])) = cdot i j).
    rewrite (sumz_delta O L i m j).
    - destruct (oeqb O (cdot i j) z) eqn:E; [apply (l_eqb L) in E; rewrite E; reflexivity|]. cbn [suml fold_right fst snd]. rewrite Z.eqb_refl. ring.
    - lia.
    - intros k Hk Ne. destruct (oeqb O (cdot i k) z); [reflexivity|]. cbn [suml fold_right fst snd]. replace (k + b =? j + b) with false by lia. ring.
  Qed.

  Lemma products_ok : forall i s trow jc vc, 0 <= i < m -> 0 <= s -> zlen trow = n -> (forall l, 0 <= l < n -> tn trow l = A i l) -> s + zlen (drow i) <= zlen jc -> s + zlen (drow i) <= zlen vc ->
    exists jc' vc', for_ i m (fun j st =>
        let '(jc, vc, tot) := st in
        let* s := rd ptr j in
        let* e := rd ptr (j + 1) in
        let* cij := for_ (s - b) (e - b) (fun k acc =>
          let* c := rd ind k in
          let* t := rd trow (c - b) in
          let* v := rd val k in
          Some (oadd O acc (omul O t (ocj O v)))) (o0 O) in
        if oeqb O cij (o0 O) then Some st
        else
          let* jc := wr jc tot (j + b) in
          let* vc := wr vc tot cij in
          Some (jc, vc, tot + 1)) (jc, vc, s) = Some (jc', vc', s + zlen (drow i)) /\
      zlen jc' = zlen jc /\ zlen vc' = zlen vc /\ rowl z s (s + zlen (drow i)) jc' vc' = drow i /\ forall q, 0 <= q < s -> zn jc' q = zn jc q /\ tn vc' q = tn vc q.
  Proof.
    intros i s trow jc vc Hi Hs Lt Ht Lj Lc. pose proof (proj1 (wf_len _ _ _ _ _ _ W)) as Lp.
    match goal with |- context [for_ i m ?F _] => destruct (for_inv _ (fun j (st : list Z * list T * Z) => let '(jc', vc', tot) := st in
        tot = s + zlen (dpart i j) /\ zlen jc' = zlen jc /\ zlen vc' = zlen vc /\ rowl z s tot jc' vc' = dpart i j /\ forall q, 0 <= q < s -> zn jc' q = zn jc q /\ tn vc' q = tn vc q) i m F (jc, vc, s)) as (((jc' & vc') & tot) & E & H1 & H2 & H3 & H4 & H5) end.
    - lia.
    - unfold dpart. rewrite zrange_nil by lia. cbn [flat_map]. change (zlen (@nil (Z * T))) with 0. ands; auto; [lia|]. unfold rowl. rewrite zrange_nil by lia. reflexivity.
    - intros j ((jc1 & vc1) & tot) Hj (H1 & H2 & H3 & H4 & H5). rewrite !(rd_nthZ _ 0) by lia. rewrite (cdot_ok i j trow) by (auto; lia). pose proof (dpart_S i j ltac:(lia)) as DS. pose proof (dpart_le i (j + 1) ltac:(lia)) as DL. pose proof (zlen_nonneg _ (dpart i j)).
      rewrite DS in *. destruct (oeqb O (cdot i j) z) eqn:E0.
      + eexists. split; [reflexivity|]. rewrite app_nil_r. auto.
      + rewrite zlen_app in *. change (zlen [(j + b, cdot i j)]) with 1 in *. rewrite !wr_upd by lia. eexists. split; [reflexivity|]. cbv beta iota. rewrite !zlen_upd. ands; auto.
        * lia.
        * rewrite <- H4. unfold rowl. rewrite zrange_last by lia. rewrite map_app. cbn [map]. rewrite !nthZ_upd_same by lia. f_equal. apply map_ext_in. intros q Hq. apply in_zrange in Hq. rewrite !nthZ_upd by lia. replace (q =? tot) with false by lia. reflexivity.
        * intros q Hq. rewrite !nthZ_upd by lia. replace (q =? tot) with false by lia. apply H5; lia.
    - subst tot. fold (drow i) in *. rewrite E. exists jc', vc'. ands; auto.
  Qed.

  Lemma dense_row_built : forall ic jc vc, zlen ic = m + 1 -> offs drow m <= zlen jc -> offs drow m <= zlen vc ->
    exists ic' jc' vc', aat_dense_row O m n b ptr ind val ic jc vc = Some (ic', jc', vc', offs drow m) /\ built O m b drow ic' jc' vc'.
  Proof.
    intros ic jc vc Li Lj Lc. pose proof (wf_m _ _ _ _ _ _ W) as M0. pose proof (wf_n _ _ _ _ _ _ W) as N0. pose proof (proj1 (wf_len _ _ _ _ _ _ W)) as Lp. unfold aat_dense_row. rewrite wr_upd by lia.
    match goal with |- context [for_ 0 m ?F ?S0] => destruct (for_inv _ (fun i (st : list T * list Z * list Z * list T * Z) => let '(trow, ic', jc', vc', tot) := st in
        zlen trow = n /\ (forall l, 0 <= l < n -> tn trow l = z) /\ tot = offs drow i /\ zlen ic' = m + 1 /\ zlen jc' = zlen jc /\ zlen vc' = zlen vc /\
        (forall r, 0 <= r <= i -> zn ic' r = b + offs drow r) /\ (forall r, 0 <= r < i -> rowl z (offs drow r) (offs drow (r + 1)) jc' vc' = drow r)) 0 m F S0) as (((((trow & ic') & jc') & vc') & tot) & E & H1 & H2 & H3 & H4 & H5 & H6 & H7 & H8) end.
    - lia.
    - ands; auto.
      + now rewrite zlen_zrep by lia.
      + intros l Hl. now rewrite nthZ_zrep by lia.
      + rewrite zlen_upd. auto.
      + intros r Hr. assert (r = 0) by lia. subst r. rewrite nthZ_upd_same by lia. rewrite offs_0. lia.
      + intros; lia.
    - intros i ((((trow & ic1) & jc1) & vc1) & tot) Hi (H1 & H2 & H3 & H4 & H5 & H6 & H7 & H8). rewrite !(rd_nthZ _ 0 ptr) by lia.
      destruct (scatter_ok i trow Hi H1 H2) as (trow1 & -> & T1 & T2). pose proof (offs_S drow i ltac:(lia)) as OS. pose proof (offs_mono drow 0 i ltac:(lia)) as OM1. pose proof (offs_mono drow (i + 1) m ltac:(lia)) as OM2.
      destruct (products_ok i tot trow1 jc1 vc1 Hi ltac:(lia) T1 T2 ltac:(lia) ltac:(lia)) as (jc2 & vc2 & E & P1 & P2 & P3 & P4). rewrite E. rewrite wr_upd by lia.
      destruct (clear_ok i trow1 Hi T1 T2) as (trow2 & -> & T3 & T4). eexists. split; [reflexivity|]. cbv beta iota. rewrite zlen_upd. ands; auto; try lia.
      + intros r Hr. rewrite nthZ_upd by lia. destruct (Z.eqb_spec r (i + 1)) as [->|]; [lia|apply H7; lia].
      + intros r Hr. destruct (Z.eq_dec r i) as [->|].
        * rewrite OS, <- H3. exact P3.
        * rewrite <- H8 by lia. pose proof (offs_mono drow 0 r ltac:(lia)). pose proof (offs_mono drow (r + 1) i ltac:(lia)). apply rowl_ext. intros q Hq. apply P4. lia.
    - rewrite E. subst tot. exists ic', jc', vc'. split; auto. unfold built. ands; auto; lia.
  Qed.

  Lemma cdot_meet : forall i j, 0 <= i < m -> 0 <= j < m -> cdot i j <> z -> meet n (fun r i => Nt b ptr ind val i r) i j = 1.
  Proof.
    intros i j Hi Hj H. destruct (Z.eq_dec (meet n (fun r i => Nt b ptr ind val i r) i j) 1) as [|Ne]; auto. exfalso. apply H. unfold cdot. apply (sumz_zero O L). intros l Hl.
    assert (X : Nt b ptr ind val i l = 0 \/ Nt b ptr ind val j l = 0).
    { pose proof (Nt_01 m n nnz b ptr ind val W Lv HD i l Hi). pose proof (Nt_01 m n nnz b ptr ind val W Lv HD j l Hj). destruct (Z.eq_dec (Nt b ptr ind val i l) 0); auto. destruct (Z.eq_dec (Nt b ptr ind val j l) 0); auto. exfalso. apply Ne.
      unfold meet. assert (1 <= zs 0 n (fun r => Nt b ptr ind val i r * Nt b ptr ind val j r)).
      { transitivity (zs 0 n (fun q => if q =? l then Nt b ptr ind val i q * Nt b ptr ind val j q else 0)); [rewrite (zs_delta 0 n l (fun q => Nt b ptr ind val i q * Nt b ptr ind val j q)) by auto; nia|].
        apply zs_le. intros q Hq. pose proof (Nt_01 m n nnz b ptr ind val W Lv HD i q Hi). pose proof (Nt_01 m n nnz b ptr ind val W Lv HD j q Hj). destruct (q =? l); nia. }
      replace (0 <? _) with true by lia. reflexivity. }
    assert (Y : forall p, Nt b ptr ind val p l = 0 -> A p l = z).
    { intros p Hp. unfold csr_mat. unfold Nt, zlen in Hp. destruct (ents b ptr ind val p l); [reflexivity|cbn [length] in Hp; lia]. }
    destruct X as [X|X]; rewrite (Y _ X); [ring|rewrite (cj_0 O L); ring].
  Qed.

  Lemma dense_upper : forall cap ic jc vc F, zlen ic = m + 1 ->
    zs 0 m (fun i => est_row (m - 1) (others n m (fun r i => Nt b ptr ind val i r) i)) <= zlen jc -> zs 0 m (fun i => est_row (m - 1) (others n m (fun r i => Nt b ptr ind val i r) i)) <= zlen vc ->
    (forall i j, 0 <= i <= j -> j < m -> cdot i j = F i j) ->
    exists ic' jc' vc' nz c, aat_dense_row O m n b ptr ind val ic jc vc = Some (ic', jc', vc', nz) /\ nz <= zs 0 m (fun i => est_row (m - 1) (others n m (fun r i => Nt b ptr ind val i r) i)) /\
      upper_result O m b F (syrk_handle m b cap nz ic' jc' vc') c.
  Proof.
    intros cap ic jc vc F Li Lj Lc HF. pose proof (wf_m _ _ _ _ _ _ W) as M0.
    assert (RM : offs drow m <= zs 0 m (fun i => est_row (m - 1) (others n m (fun r i => Nt b ptr ind val i r) i))).
    { apply (rows_room T n m (fun r i => Nt b ptr ind val i r) b); auto.
      - intros r i Hr Hi. apply (Nt_01 m n nnz b ptr ind val W Lv HD i r Hi).
      - intros i Hi. apply drow_nodup.
      - intros i p Hi Hp. destruct (drow_in i p ltac:(lia) Hp) as (P1 & P2 & P3). split; auto. apply cdot_meet; auto. lia. }
    destruct (dense_row_built ic jc vc Li ltac:(lia) ltac:(lia)) as (ic' & jc' & vc' & E & B). destruct (built_upper O L m b cap drow F ic' jc' vc') as (c & Hc); auto.
    - intros i p Hi Hp. destruct (drow_in i p ltac:(lia) Hp) as (P1 & _). lia.
    - intros i Hi. apply drow_nodup.
    - intros i j Hij Hj. rewrite drow_colsum by lia. apply HF; lia.
    - exists ic', jc', vc', (offs drow m), c. auto.
  Qed.
End D.

(** ** The call *)
Section R.
  Context {T : Type} (O : ops T) (L : laws O) (is_real : bool) (HR : is_real = true -> forall v : T, ocj O v = v).
  Local Notation z := (o0 O).
  Add Ring Tring7 : (l_ring L).
  Variables (w : Z) (fz : Z -> list Z) (ft : Z -> list T).
  Hypothesis (Hw : 0 < w <= 63) (Hfz : forall k, 0 <= k -> zlen (fz k) = k) (Hft : forall k, 0 <= k -> zlen (ft k) = k).

  (** The size of the result is always more than its rows, and fits when half of a square does. *)
  Lemma est_total : forall K f, 0 <= K -> (forall i, 0 <= i < K -> 0 <= f i) ->
    K <= zs 0 K (fun i => est_row (K - 1) (f i)) /\ zs 0 K (fun i => est_row (K - 1) (f i)) <= K * (K / 2 + 1).
  Proof.
    intros K f HK Hf. split.
    - transitivity (zs 0 K (fun _ => 1)); [rewrite zs_1; lia|]. apply zs_le. intros i Hi. apply est_row_le; [lia|auto].
    - transitivity (zs 0 K (fun _ => (K / 2 + 1) * 1)); [|rewrite zs_mul, zs_1; lia]. apply zs_le. intros i Hi. pose proof (est_row_le (K - 1) (f i) ltac:(lia) (Hf i Hi)). replace (K - 1 + 1) with K in * by lia. lia.
  Qed.
  Lemma others_nonneg : forall mm K N i, 0 <= i < K -> (forall r i, 0 <= r < mm -> 0 <= i < K -> 0 <= N r i <= 1) -> 0 <= others mm K N i.
  Proof. intros mm K N i Hi H. pose proof (off_row_bounds mm K N ltac:(lia) H i Hi). lia. Qed.

  (** The test of the size *)
  Lemma not_over : forall v, int_sum_overflow 63 w v = (int_max w <? v) \/ w = 63.
  Proof. intros v. unfold int_sum_overflow. destruct (Z.ltb_spec w 63); [left; reflexivity|right; lia]. Qed.

  Lemma syrk_run : forall op (A : hnd T) a, holds A a -> valid_op op = true -> (is_real = false -> op <> op_transpose) ->
    (stored_rows op a = true -> rows_sorted (c_m a) (c_b a) (c_ptr a) (c_ind a)) -> (stored_rows op a = true -> H_sort A = fully_sorted) ->
    rows_distinct (c_m a) (c_b a) (c_ptr a) (c_ind a) -> c_nnz a <= int_max w ->
    exists cap, rows_of op A <= cap <= rows_of op A * (rows_of op A / 2 + 1) /\
      if int_sum_overflow 63 w cap then syrk O is_real w fz ft op (Some A) true = Some (invalid_size, None)
      else exists C c, syrk O is_real w fz ft op (Some A) true = Some (success, Some C) /\ H_nnz C <= cap /\
        upper_result O (rows_of op A) (c_b a) (gram O op (cols_of op A) a) C c.
  Proof.
    intros op A a HA Ho Hc So Hs Di Hz.
    destruct (dims_of op A a HA Ho) as (RA & CA).
    assert (UA : arrays_ok a /\ H_nnz A = c_nnz a /\ (c_doid a = gn \/ c_doid a = gt)) by (destruct HA as ((? & ? & _ & _ & ?) & _); intuition). destruct UA as ((WA & _ & LA & BA) & NZ & DA).
    assert (MA : get_mtx (H_mats A) = Some a) by (destruct HA as (_ & rest & ->); reflexivity).
    assert (SW : stored_rows op a = swp op (c_doid a)) by (unfold stored_rows, swp; destruct DA as [-> | ->], op; try discriminate; reflexivity). rewrite SW in Hs, So.
    pose proof (wf_m _ _ _ _ _ _ WA) as M0. pose proof (wf_n _ _ _ _ _ _ WA) as N0. pose proof (wf_nnz _ _ _ _ _ _ WA) as Z0.
    set (N := Nt (c_b a) (c_ptr a) (c_ind a) (c_val a)).
    pose proof (Nt_01 (c_m a) (c_n a) (c_nnz a) (c_b a) (c_ptr a) (c_ind a) (c_val a) WA LA Di) as N01. fold N in N01.
    set (cap := if swp op (c_doid a) then zs 0 (c_n a) (fun i => est_row (c_n a - 1) (others (c_m a) (c_n a) N i)) else zs 0 (c_m a) (fun i => est_row (c_m a - 1) (others (c_n a) (c_m a) (fun r i => N i r) i))).
    assert (CB : rows_of op A <= cap <= rows_of op A * (rows_of op A / 2 + 1)).
    { rewrite RA. unfold cap. destruct (swp op (c_doid a)).
      - apply est_total; auto. intros i Hi. apply others_nonneg; auto.
      - apply est_total; auto. intros i Hi. apply others_nonneg; auto. }
    exists cap. split; auto.
    assert (ES : (if negb (swp op (c_doid a)) then estimate_aat w (c_b a) (c_ptr a) (c_ind a) (c_m a) (c_n a) else estimate_ata w (c_b a) (c_ptr a) (c_ind a) (c_m a) (c_n a)) = Some cap).
    { unfold cap. destruct (swp op (c_doid a)); cbn [negb].
      - apply (ata_ok (c_m a) (c_n a) (c_nnz a) (c_b a) (c_ptr a) (c_ind a) (c_val a) WA LA Di w); lia.
      - apply (aat_ok (c_m a) (c_n a) (c_nnz a) (c_b a) (c_ptr a) (c_ind a) (c_val a) WA LA Di w); lia. }
    assert (S1 : syrk O is_real w fz ft op (Some A) true =
      if int_sum_overflow 63 w cap then Some (invalid_size, None) else
        let ic := if cap =? 0 then zrep (rows_of op A + 1) (c_b a) else fz (rows_of op A + 1) in
        if (H_m A =? 0) || (H_n A =? 0) || (H_nnz A =? 0) then
          let* ic := for_ 0 (rows_of op A + 1) (fun i ic => wr ic i (c_b a)) ic in
          Some (success, Some (syrk_handle (rows_of op A) (c_b a) cap 0 ic (fz cap) (ft cap)))
        else
          let finish r := let* (ic, jc, vc, nnz) := r in Some (success, Some (syrk_handle (rows_of op A) (c_b a) cap nnz ic jc vc)) in
          if negb (swp op (c_doid a)) then
            if negb (c_doid a =? gt) && ((c_m a <? 3000) && (c_m a <? c_n a) && (H_nnz A <=? c_m a * 10)) then
              finish (aat_dense_row O (c_m a) (c_n a) (c_b a) (c_ptr a) (c_ind a) (c_val a) ic (fz cap) (ft cap))
            else
              let* r := csr2csc (c_m a) (c_n a) (H_nnz A) (c_b a) (c_b a) (Some (c_ptr a)) (Some (c_ind a)) (Some (c_val a))
                          (Some (zrep (H_nnz A) 0)) (Some (zrep (c_n a + 1) 0)) (Some (zrep (H_nnz A) (o0 O))) in
              match r with
              | (success, Some cp, Some ri, Some cv) =>
                  let* cv := if c_doid a =? gt then Some cv else for_ 0 (H_nnz A) (fun q cv => let* x := rd cv q in wr cv q (ocj O x)) cv in
                  finish (online_atb O true true false (c_n a) (c_m a) (c_m a) (c_b a) cp ri cv (c_b a) cp ri cv (c_b a) ic (fz cap) (ft cap))
              | (st, _, _, _) => Some (st, None)
              end
          else
            finish (online_atb O true (negb (c_doid a =? gt)) (c_doid a =? gt) (c_m a) (c_n a) (c_n a) (c_b a) (c_ptr a) (c_ind a) (c_val a)
                      (c_b a) (c_ptr a) (c_ind a) (c_val a) (c_b a) ic (fz cap) (ft cap))).
    { unfold syrk. rewrite Ho. cbn [negb].
      replace (negb is_real && match op with op_transpose => true | _ => false end) with false by (destruct is_real; [reflexivity|]; destruct op; try reflexivity; exfalso; apply (Hc eq_refl eq_refl)).
      rewrite MA. replace (negb (c_doid a =? gt) && negb (c_doid a =? gn)) with false by (destruct DA as [-> | ->]; reflexivity). cbv zeta.
      replace (if c_doid a =? gt then negb (match op with op_none => true | _ => false end) else match op with op_none => true | _ => false end) with (negb (swp op (c_doid a))) by (unfold swp; destruct DA as [-> | ->], op; try discriminate; reflexivity).
      replace (negb match H_sort A with fully_sorted => true | _ => false end && negb (negb (swp op (c_doid a)))) with false by (destruct (swp op (c_doid a)); [rewrite (Hs eq_refl)|rewrite andb_false_r]; reflexivity).
      unfold estimate_nnz. rewrite ES. destruct (int_sum_overflow 63 w cap); [reflexivity|].
      replace (if negb (swp op (c_doid a)) then c_m a else c_n a) with (rows_of op A) by (rewrite RA; destruct (swp op (c_doid a)); reflexivity). reflexivity. }
    rewrite S1. destruct CB as (CB & CB2). clear S1 ES CB2. destruct (int_sum_overflow 63 w cap) eqn:EO; [reflexivity|]. clear EO. cbv zeta.
    set (K := rows_of op A) in *. assert (K0 : 0 <= K) by (rewrite RA; destruct (swp op (c_doid a)); auto). assert (Lj : zlen (fz cap) = cap) by (apply Hfz; lia). assert (Lc : zlen (ft cap) = cap) by (apply Hft; lia).
    set (ic := if cap =? 0 then zrep (K + 1) (c_b a) else fz (K + 1)). assert (Li : zlen ic = K + 1) by (unfold ic; destruct (cap =? 0); [apply zlen_zrep; lia|apply Hfz; lia]).
    destruct ((H_m A =? 0) || (H_n A =? 0) || (H_nnz A =? 0)) eqn:EZ.
    { assert (NN : c_nnz a = 0). { apply (wf_zero _ _ _ _ _ _ WA). destruct HA as ((_ & _ & _ & _ & Hd) & _). lia. }
      destruct (for_inv _ (fun i (p : list Z) => zlen p = K + 1 /\ forall r, 0 <= r < i -> zn p r = c_b a) 0 (K + 1) (fun i ic => wr ic i (c_b a)) ic) as (ic' & -> & L1 & H1); [lia| | |].
      - split; auto. intros; lia.
      - intros i p Hi (Lp & Hp). rewrite wr_upd by lia. eexists. split; [reflexivity|]. rewrite zlen_upd. split; auto. intros r Hr. rewrite nthZ_upd by lia. destruct (Z.eqb_spec r i); auto. apply Hp. lia.
      - destruct (built_upper O L K (c_b a) cap (fun _ => []) (gram O op (cols_of op A) a) ic' (fz cap) (ft cap)) as (c & Hc'); auto.
        + assert (OZ : forall i, offs (fun _ : Z => @nil (Z * T)) i = 0) by (intros i; unfold offs; now apply (sumz_zero Zops Zlaws)). unfold built.
          split; [exact L1|split; [intros i Hi; rewrite OZ, H1 by lia; lia|split; [rewrite OZ; lia|split; [rewrite OZ; lia|intros i Hi; rewrite !OZ; reflexivity]]]].
        + intros i p Hi [].
        + intros i Hi. constructor.
        + intros i j Hij Hj. change (z = gram O op (cols_of op A) a i j). unfold gram. rewrite (sumz_zero O L); [reflexivity|]. intros l Hl.
          assert (X : forall p q, 0 <= p < c_m a -> csr_mat O (c_b a) (c_ptr a) (c_ind a) (c_val a) p q = z) by (intros p q Hp; apply (no_entries O is_real HR (c_m a) (c_n a) (c_nnz a)); auto).
          assert (Y : op_sem O op (hnd_mat O a) i l = z).
          { rewrite <- (sem_of O is_real HR op a i l DA Ho). rewrite RA, CA in *. destruct (swp op (c_doid a)); rewrite X by lia; unfold cjh; destruct (cjf is_real op); auto; apply (cj_0 O L). }
          rewrite Y. ring.
        + replace (offs (fun _ : Z => @nil (Z * T)) K) with 0 in Hc' by (unfold offs; symmetry; now apply (sumz_zero Zops Zlaws)).
          eexists. exists c. split; [reflexivity|]. split; [cbn [syrk_handle H_nnz]; lia|exact Hc']. }
    destruct (swp op (c_doid a)) eqn:ESW; cbn [negb].
    - specialize (So eq_refl). clearbody ic. subst K. rewrite RA in *. rewrite CA.
      destruct (atb_upper O (negb (c_doid a =? gt)) (c_doid a =? gt) (c_m a) (c_n a) (c_nnz a) (c_b a) (c_ptr a) (c_ind a) (c_val a) WA LA Di L cap ic (fz cap) (ft cap) (gram O op (c_m a) a) BA So Li) as (ic' & jc' & vc' & nz & c & E & Hn & Hr).
      + rewrite Lj. unfold cap. reflexivity.
      + rewrite Lc. unfold cap. reflexivity.
      + intros i j Hij Hj. unfold gram. apply sumz_ext. intros r Hr. pose proof (gram_direct O is_real HR op a i j r DA Ho Hc L ESW) as GD. rewrite negb_involutive in GD. exact GD.
      + rewrite E. eexists. exists c. split; [reflexivity|]. split; [exact Hn|exact Hr].
    - clearbody ic. subst K. rewrite RA in *. rewrite CA. destruct (negb (c_doid a =? gt) && _) eqn:EK.
      + assert (DG : c_doid a = gn) by (destruct DA as [?|E]; auto; rewrite E in EK; discriminate).
        destruct (dense_upper O L (c_m a) (c_n a) (c_nnz a) (c_b a) (c_ptr a) (c_ind a) (c_val a) WA LA Di cap ic (fz cap) (ft cap) (gram O op (c_n a) a) Li) as (ic' & jc' & vc' & nz & c & E & Hn & Hr).
        * rewrite Lj. unfold cap. reflexivity.
        * rewrite Lc. unfold cap. reflexivity.
        * intros i j Hij Hj. unfold gram, cdot. apply sumz_ext. intros r Hr. unfold swp in ESW. rewrite DG in ESW. unfold hnd_mat, stored_as. rewrite DG. destruct op; try discriminate. reflexivity.
        * rewrite E. eexists. exists c. split; [reflexivity|]. split; [exact Hn|exact Hr].
      + rewrite NZ. destruct (csr2csc_ok _ (c_m a) (c_n a) (c_nnz a) (c_b a) (c_b a) (c_ptr a) (c_ind a) (c_val a) (zrep (c_n a + 1) 0) (zrep (c_nnz a) 0) (zrep (c_nnz a) z) BA BA WA LA) as (cp & ri & cv & E1 & W1 & L1 & S2 & X1); try (rewrite zlen_zrep; lia).
        assert (D1 : rows_distinct (c_n a) (c_b a) cp ri).
        { apply (ents_distinct _ (c_n a) (c_m a) (c_nnz a) (c_b a) cp ri cv W1 L1). intros i j Hi Hj. rewrite X1 by auto. apply (distinct_ents _ (c_m a) (c_n a) (c_nnz a)); auto. }
        rewrite E1.
        assert (CV : exists cv', (if c_doid a =? gt then Some cv else for_ 0 (c_nnz a) (fun q cv => let* x := rd cv q in wr cv q (ocj O x)) cv) = Some cv' /\ zlen cv' = c_nnz a /\
          forall k, 0 <= k < c_nnz a -> nthZ z cv' k = cj_if O (negb (c_doid a =? gt)) (nthZ z cv k)).
        { destruct (c_doid a =? gt); cbn [negb cj_if]; [exists cv; auto|].
          destruct (for_inv _ (fun k (v : list T) => zlen v = c_nnz a /\ forall q, 0 <= q < c_nnz a -> nthZ z v q = if q <? k then ocj O (nthZ z cv q) else nthZ z cv q) 0 (c_nnz a) (fun q cv => let* x := rd cv q in wr cv q (ocj O x)) cv) as (cv' & E2 & L2 & H2); auto.
          - split; auto. intros q Hq. replace (q <? 0) with false by lia. reflexivity.
          - intros k v Hk (Lv & Hv). rewrite (rd_nthZ _ z) by lia. rewrite wr_upd by lia. eexists. split; [reflexivity|]. rewrite zlen_upd. split; auto. intros q Hq. rewrite nthZ_upd by lia. destruct (Z.eqb_spec q k) as [->|Ne].
            + replace (k <? k + 1) with true by lia. rewrite Hv by lia. replace (k <? k) with false by lia. reflexivity.
            + rewrite Hv by lia. replace (q <? k + 1) with (q <? k) by lia. reflexivity.
          - exists cv'. split; auto. split; auto. intros k Hk. rewrite H2 by lia. replace (k <? c_nnz a) with true by lia. reflexivity. }
        destruct CV as (cv' & -> & L2 & H2).
        assert (M1 : forall r i, 0 <= r < c_n a -> 0 <= i < c_m a -> csr_mat O (c_b a) cp ri cv' r i = cj_if O (negb (c_doid a =? gt)) (csr_mat O (c_b a) (c_ptr a) (c_ind a) (c_val a) i r)).
        { intros r i Hr Hi. transitivity (cj_if O (negb (c_doid a =? gt)) (csr_mat O (c_b a) cp ri cv r i)); [|unfold csr_mat; rewrite X1 by lia; reflexivity].
          destruct (row_bounds _ _ _ _ _ _ r W1 Hr) as (_ & _ & B1 & B2 & B3). unfold csr_mat at 2. rewrite <- (cj_if_sum O L). rewrite <- (filter_ents O L (c_nnz a)) by auto.
          unfold csr_mat. rewrite <- (filter_ents O L (c_nnz a) (c_b a) cp ri cv' (fun v => v)) by auto. apply suml_ext. intros k Hk. apply filter_In in Hk. destruct Hk as (Hk & _). apply in_zrange in Hk. apply H2. lia. }
        assert (NT : forall r i, 0 <= r < c_n a -> 0 <= i < c_m a -> Nt (c_b a) cp ri cv' r i = N i r).
        { intros r i Hr Hi. rewrite (Nt_sum (c_n a) (c_m a) (c_nnz a) (c_b a) cp ri cv' W1 L2) by auto. rewrite <- (Nt_sum (c_n a) (c_m a) (c_nnz a) (c_b a) cp ri cv W1 L1) by auto. unfold N, Nt. rewrite X1 by auto. reflexivity. }
        assert (EC : zs 0 (c_m a) (fun i => est_row (c_m a - 1) (others (c_n a) (c_m a) (Nt (c_b a) cp ri cv') i)) = cap).
        { unfold cap. apply zs_ext. intros i Hi. f_equal. unfold others. apply zs_ext. intros r Hr. rewrite NT by auto. f_equal. f_equal. unfold rowlen. apply zs_ext. intros i' Hi'. apply NT; auto. }
        destruct (atb_upper O true false (c_n a) (c_m a) (c_nnz a) (c_b a) cp ri cv' W1 L2 D1 L cap ic (fz cap) (ft cap) (gram O op (c_n a) a) BA S2 Li) as (ic' & jc' & vc' & nz & c & E & Hn & Hr).
        * rewrite Lj, EC. lia.
        * rewrite Lc, EC. lia.
        * intros i j Hij Hj. unfold gram. apply sumz_ext. intros r Hr. rewrite !M1 by (clear - Hr Hij Hj; lia).
          pose proof (gram_transposed O is_real HR op a i j r (fun r i => csr_mat O (c_b a) (c_ptr a) (c_ind a) (c_val a) i r) DA Ho Hc L ESW eq_refl eq_refl) as GT. cbv beta in GT. rewrite <- GT.
          unfold cj_if. destruct (c_doid a =? gt); cbn [negb]; [reflexivity|]. rewrite (l_cj_cj L). reflexivity.
        * rewrite E. eexists. exists c. split; [reflexivity|]. rewrite EC in Hn. split; [exact Hn|exact Hr].
  Qed.
End R.
