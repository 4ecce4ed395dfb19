From Coq Require Import ZArith List Bool Lia.
From Verif Require Import Base BaseFacts Algebra Csr CsrFacts DescrModel DiaModel DiaSpec Writes DenseProof.
Import ListNotations.
Open Scope Z_scope.

(** Diagonals marked in [dx] (shifted by m), up to position [hi]. *)
Definition marked (dx : list Z) (hi : Z) : list Z := filter (fun o => negb (zn dx o =? 0)) (zrange 0 hi).

Lemma marked_step : forall dx i, 0 <= i -> marked dx (i + 1) = marked dx i ++ (if zn dx i =? 0 then [] else [i]).
Proof. intros. unfold marked. rewrite zrange_last, filter_app by lia. f_equal. cbn. destruct (zn dx i =? 0); reflexivity. Qed.
Lemma marked_mono : forall dx i j, 0 <= i <= j -> zlen (marked dx i) <= zlen (marked dx j).
Proof.
  intros. unfold marked. rewrite (zrange_app 0 i j) by lia. rewrite filter_app, zlen_app.
  pose proof (zlen_nonneg _ (filter (fun o => negb (zn dx o =? 0)) (zrange i j))). lia.
Qed.
Lemma marked_ext : forall dx dx' hi, (forall o, 0 <= o < hi -> zn dx o = zn dx' o) -> marked dx hi = marked dx' hi.
Proof.
  intros. unfold marked. apply filter_ext_in. intros o Ho. apply in_zrange in Ho. now rewrite H.
Qed.
Lemma marked_upd : forall dx o N, zlen dx = N -> 0 <= o < N -> zn dx o = 0 ->
  zlen (marked (upd dx o 1) N) = zlen (marked dx N) + 1.
Proof.
  intros dx o N L Ho H0. unfold marked. rewrite (zrange_app 0 o N), (zrange_first o N) by lia.
  rewrite !filter_app. cbn [filter]. rewrite H0, nthZ_upd_same by lia. cbn [Z.eqb negb].
  rewrite !zlen_app, zlen_cons.
  rewrite (filter_ext_in (fun o0 => negb (zn (upd dx o 1) o0 =? 0)) (fun o0 => negb (zn dx o0 =? 0)) (zrange 0 o)).
  2:{ intros x Hx. apply in_zrange in Hx. rewrite nthZ_upd_other by lia. reflexivity. }
  rewrite (filter_ext_in (fun o0 => negb (zn (upd dx o 1) o0 =? 0)) (fun o0 => negb (zn dx o0 =? 0)) (zrange (o + 1) N)).
  2:{ intros x Hx. apply in_zrange in Hx. rewrite nthZ_upd_other by lia. reflexivity. }
  lia.
Qed.

(** Position inside a filtered range. *)
Lemma marked_nth : forall dx i hi, 0 <= i < hi -> zn dx i <> 0 ->
  0 <= zlen (marked dx i) < zlen (marked dx hi) /\ zn (marked dx hi) (zlen (marked dx i)) = i.
Proof.
  intros dx i hi Hi Hx. pose proof (zlen_nonneg _ (marked dx i)).
  pose proof (marked_mono dx (i + 1) hi ltac:(lia)) as M. rewrite marked_step, zlen_app in M by lia.
  replace (zn dx i =? 0) with false in M by lia. rewrite zlen_cons, zlen_nil in M. split; [lia|].
  unfold marked at 1. rewrite (zrange_app 0 i hi), (zrange_first i hi) by lia. rewrite filter_app. fold (marked dx i).
  rewrite nthZ_app2 by lia. rewrite Z.sub_diag. cbn [filter]. replace (zn dx i =? 0) with false by lia. reflexivity.
Qed.

Lemma marked_sorted : forall dx hi p q, 0 <= hi -> 0 <= p < q -> q < zlen (marked dx hi) ->
  zn (marked dx hi) p < zn (marked dx hi) q.
Proof.
  intros dx hi. intros p q Hhi. revert p q.
  assert (H : forall k : nat, forall p q, 0 <= p < q -> q < zlen (marked dx (Z.of_nat k)) ->
    zn (marked dx (Z.of_nat k)) p < zn (marked dx (Z.of_nat k)) q).
  { induction k as [|k IH]; intros p q Hp Hq.
    - cbn in Hq. lia.
    - rewrite Nat2Z.inj_succ, <- Z.add_1_r, marked_step in * by lia.
      destruct (zn dx (Z.of_nat k) =? 0); [rewrite app_nil_r in *; apply IH; auto|].
      rewrite zlen_app, zlen_cons, zlen_nil in Hq.
      destruct (Z.eq_dec q (zlen (marked dx (Z.of_nat k)))) as [->|].
      + rewrite nthZ_app1, nthZ_app2, Z.sub_diag by lia. cbn.
        pose proof (nthZ_In _ 0 (marked dx (Z.of_nat k)) p ltac:(lia)) as I. apply filter_In in I as [I _].
        apply in_zrange in I. cbn in I. lia.
      + rewrite !nthZ_app1 by lia. apply IH; lia. }
  intros p q. rewrite <- (Z2Nat.id hi) by lia. apply H.
Qed.

Section Mark.
  Variables (m n nnz b : Z) (ptr ind : list Z).
  Hypothesis W : csr_wf m n nnz b ptr ind.

  Definition occ_upto (i k o : Z) : Prop :=
    exists i' k', 0 <= i' < m /\ in_row ptr b i' k' /\ zn ind k' - b - i' + m = o /\ (i' < i \/ i' = i /\ k' < k).

  Definition Mk (i k : Z) (dx : list Z) : Prop :=
    zlen dx = m + n /\ forall o, 0 <= o < m + n -> (zn dx o = 0 \/ zn dx o = 1) /\ (zn dx o = 1 <-> occ_upto i k o).

  Lemma Mk0 : Mk 0 0 (zrep (m + n) 0).
  Proof.
    pose proof (wf_m _ _ _ _ _ _ W) as Wm. pose proof (wf_n _ _ _ _ _ _ W) as Wn.
    split; [apply zlen_zrep; lia|]. intros o Ho. rewrite nthZ_zrep by lia. split; [now left|]. split; [lia|].
    intros (i & k & ? & R & ? & ?). pose proof (in_row_range _ _ _ _ (wf_ptr _ _ _ _ _ _ W) i k ltac:(lia) R). lia.
  Qed.

  Lemma off_range : forall i k, 0 <= i < m -> in_row ptr b i k -> 0 <= k < nnz /\ 0 <= zn ind k - b - i + m < m + n.
  Proof.
    intros i k Hi Hk. pose proof (in_row_range _ _ _ _ (wf_ptr _ _ _ _ _ _ W) i k Hi Hk).
    pose proof (wf_ind _ _ _ _ _ _ W k ltac:(lia)). lia.
  Qed.

  Lemma Mk_step : forall i k dx, 0 <= i < m -> in_row ptr b i k -> Mk i k dx ->
    Mk i (k + 1) (if zn dx (zn ind k - b - i + m) =? 0 then upd dx (zn ind k - b - i + m) 1 else dx).
  Proof.
    intros i k dx Hi Hk [L H]. destruct (off_range i k Hi Hk) as [Hk0 Ho].
    set (x := zn ind k - b - i + m) in *.
    assert (Q : forall o, occ_upto i (k + 1) o <-> occ_upto i k o \/ o = x).
    { intros o. split.
      - intros (i' & k' & H1 & H2 & H3 & H4). destruct (Z.eq_dec i' i) as [->|];
          [destruct (Z.eq_dec k' k) as [->|]; [right; subst x; lia|]|]; left; exists i', k' || exists i, k'; ands; auto; lia.
      - intros [(i' & k' & H1 & H2 & H3 & H4) | ->].
        + exists i', k'. ands; auto; lia.
        + exists i, k. ands; auto; lia. }
    destruct (zn dx x =? 0) eqn:E.
    - split; [now rewrite zlen_upd|]. intros o Hoo. rewrite nthZ_upd, Q by lia. destruct (o =? x) eqn:Eo.
      + split; [now right|]. split; [right; lia|reflexivity].
      + destruct (H o Hoo) as [H1 H2]. split; [exact H1|]. rewrite H2. split; [now left|]. intros [?|?]; [assumption|lia].
    - split; [exact L|]. intros o Hoo. destruct (H o Hoo) as [H1 H2]. split; [exact H1|]. rewrite H2, Q. split; [now left|].
      intros [? | ->]; [assumption|]. apply H2. lia.
  Qed.

  Lemma Mk_next : forall i dx, 0 <= i < m -> Mk i (zn ptr (i + 1) - b) dx -> Mk (i + 1) (zn ptr (i + 1) - b) dx.
  Proof.
    intros i dx Hi [L H]. split; [exact L|]. intros o Ho. destruct (H o Ho) as [H1 H2]. split; [exact H1|]. rewrite H2.
    split; intros (i' & k' & A & B & C & D); exists i', k'; (split; [exact A|split; [exact B|split; [exact C|]]]).
    - lia.
    - destruct D as [D|[-> D]].
      + destruct (Z.eq_dec i' i) as [->|]; [|lia]. unfold in_row in B. right; lia.
      + exfalso. unfold in_row in B. lia.
  Qed.

  Lemma Mk_final : forall k dx, Mk m k dx ->
    diagonals m b ptr ind (map (fun o => o - m) (marked dx (m + n))).
  Proof.
    intros k dx [L H]. pose proof (wf_m _ _ _ _ _ _ W) as Wm. pose proof (wf_n _ _ _ _ _ _ W) as Wn. split.
    - intros p q Hp Hq. rewrite zlen_map in Hq. rewrite !(nthZ_map _ _ _ 0) by lia.
      pose proof (marked_sorted dx (m + n) p q ltac:(lia) Hp Hq). lia.
    - intros o. rewrite in_map_iff. split.
      + intros (x & <- & I). apply filter_In in I as [I N]. apply in_zrange in I.
        destruct (H x I) as [H1 H2]. destruct (proj1 H2 ltac:(lia)) as (i & k' & A & B & C & D). exists i, k'. ands; auto; lia.
      + intros (i & k' & A & B & C). destruct (off_range i k' A B) as [R1 R2]. exists (o + m). split; [lia|].
        apply filter_In. split; [apply in_zrange; lia|]. destruct (H (o + m) ltac:(lia)) as [_ H2].
        assert (zn dx (o + m) = 1) as -> by (apply H2; exists i, k'; ands; auto; lia). reflexivity.
  Qed.

  (** [occ_upto i k] at a row start does not depend on [k]. *)
  Lemma Mk_row : forall i k k' dx, 0 <= i < m -> k <= zn ptr i - b -> k' <= zn ptr i - b -> Mk i k dx -> Mk i k' dx.
  Proof.
    intros i k k' dx Hi Hk Hk' [L H]. split; [exact L|]. intros o Ho. destruct (H o Ho) as [H1 H2]. split; [exact H1|]. rewrite H2.
    split; intros (i' & q & A & B & C & D); exists i', q; (split; [exact A|split; [exact B|split; [exact C|]]]);
      destruct D as [D|[-> D]]; [now left|exfalso; unfold in_row in B; lia|now left|exfalso; unfold in_row in B; lia].
  Qed.

  Lemma ndiag_loop :
    exists dx cnt, for_ 0 m (fun i s =>
            let* p := rd ptr i in
            let* q := rd ptr (i + 1) in
            for_ (p - b) (q - b) (fun j '(dx, cnt) =>
              let* c := rd ind j in
              let offset := c - b - i + m in
              let* x := rd dx offset in
              if x =? 0 then
                let* dx := wr dx offset 1 in
                Some (dx, cnt + 1)
              else Some (dx, cnt)) s) (zrep (m + n) 0, 0) = Some (dx, cnt) /\
      Mk m 0 dx /\ cnt = zlen (marked dx (m + n)).
  Proof.
    destruct (wf_len _ _ _ _ _ _ W) as [L1 L2]. pose proof (wf_m _ _ _ _ _ _ W) as Wm. pose proof (wf_n _ _ _ _ _ _ W) as Wn.
    destruct (wf_ptr _ _ _ _ _ _ W) as (P0 & Pm & Hmo).
    match goal with |- context [for_ 0 m ?f ?s] =>
      destruct (for_inv _ (fun i (st : list Z * Z) => Mk i (zn ptr i - b) (fst st) /\ snd st = zlen (marked (fst st) (m + n))) 0 m f s) as (st & E & R) end.
    - lia.
    - cbn [fst snd]. split.
      + replace (zn ptr 0 - b) with 0 by lia. apply Mk0.
      + unfold marked. assert (F : forall l, (forall o, In o l -> 0 <= o < m + n) -> filter (fun o => negb (zn (zrep (m + n) 0) o =? 0)) l = []).
        { induction l as [|x l IH]; intros Hl; [reflexivity|]. cbn [filter]. rewrite nthZ_zrep by (apply Hl; now left). cbn. apply IH. intros; apply Hl; now right. }
        rewrite F; [reflexivity|]. intros o Ho. now apply in_zrange in Ho.
    - intros i st Hi [H1 H2]. rewrite !(rd_nthZ _ 0 ptr) by lia. pose proof (Hmo i Hi) as Hmi.
      match goal with |- context [for_ ?lo ?hi ?f ?s] =>
        destruct (for_inv _ (fun k (st : list Z * Z) => Mk i k (fst st) /\ snd st = zlen (marked (fst st) (m + n))) lo hi f s) as (st' & E & R) end.
      + lia.
      + auto.
      + intros k [dx cnt] Hk [K1 K2]. cbn [fst snd] in *. destruct (off_range i k Hi Hk) as [Rk Ro].
        rewrite (rd_nthZ _ 0 ind) by lia. pose proof (proj1 K1) as Ldx. rewrite (rd_nthZ _ 0 dx) by lia.
        pose proof (Mk_step i k dx Hi Hk K1) as K3.
        destruct (zn dx (zn ind k - b - i + m) =? 0) eqn:E0.
        * rewrite wr_upd by lia. eexists; split; [reflexivity|]. cbn [fst snd]. split; [exact K3|].
          rewrite (marked_upd dx _ (m + n)) by lia. lia.
        * eexists; split; [reflexivity|]. auto.
      + rewrite E. exists st'. split; [reflexivity|]. destruct R as [R1 R2]. split; [|exact R2]. now apply Mk_next.
    - rewrite E. destruct st as [dx cnt]. destruct R as [R1 R2]. exists dx, cnt. split; [reflexivity|]. split; [|exact R2].
      destruct R1 as [L H1]. split; [exact L|]. intros o Ho. destruct (H1 o Ho) as [A B]. split; [exact A|]. rewrite B.
      split; intros (i' & q & C & D & F & G); exists i', q; ands; auto; lia.
  Qed.

  Lemma mark_loop :
    exists dx, for_ 0 m (fun i dx =>
          let* p := rd ptr i in
          let* q := rd ptr (i + 1) in
          for_ (p - b) (q - b) (fun j dx =>
            let* c := rd ind j in
            let offset := c - b - i + m in
            let* x := rd dx offset in
            if x =? 0 then wr dx offset 1 else Some dx) dx) (zrep (m + n) 0) = Some dx /\
      Mk m 0 dx.
  Proof.
    destruct (wf_len _ _ _ _ _ _ W) as [L1 L2]. pose proof (wf_m _ _ _ _ _ _ W) as Wm. pose proof (wf_n _ _ _ _ _ _ W) as Wn.
    destruct (wf_ptr _ _ _ _ _ _ W) as (P0 & Pm & Hmo).
    match goal with |- context [for_ 0 m ?f ?s] =>
      destruct (for_inv _ (fun i dx => Mk i (zn ptr i - b) dx) 0 m f s) as (dx & E & R) end.
    - lia.
    - replace (zn ptr 0 - b) with 0 by lia. apply Mk0.
    - intros i st Hi H1. rewrite !(rd_nthZ _ 0 ptr) by lia. pose proof (Hmo i Hi) as Hmi.
      match goal with |- context [for_ ?lo ?hi ?f ?s] =>
        destruct (for_inv _ (fun k dx => Mk i k dx) lo hi f s) as (st' & E & R) end.
      + lia.
      + auto.
      + intros k dx Hk K1. destruct (off_range i k Hi Hk) as [Rk Ro].
        rewrite (rd_nthZ _ 0 ind) by lia. pose proof (proj1 K1) as Ldx. cbv beta zeta. rewrite (rd_nthZ _ 0 dx) by lia.
        pose proof (Mk_step i k dx Hi Hk K1) as K3.
        destruct (zn dx (zn ind k - b - i + m) =? 0) eqn:E0.
        * rewrite wr_upd by lia. eauto.
        * eauto.
      + rewrite E. exists st'. split; [reflexivity|]. now apply Mk_next.
    - rewrite E. exists dx. split; [reflexivity|].
      destruct R as [L H1]. split; [exact L|]. intros o Ho. destruct (H1 o Ho) as [A B]. split; [exact A|]. rewrite B.
      split; intros (i' & q & C & D & F & G); exists i', q; ands; auto; lia.
  Qed.
End Mark.

(** Increasing lists with the same elements are equal. *)
Lemma diagonals_unique : forall m b ptr ind L L', diagonals m b ptr ind L -> diagonals m b ptr ind L' -> L = L'.
Proof.
  intros m b ptr ind L L' [S1 I1] [S2 I2].
  assert (I : forall o, In o L <-> In o L') by (intros; now rewrite I1, I2). clear I1 I2.
  revert L' S2 I. induction L as [|x L IH]; intros L' S2 I.
  - destruct L' as [|y L']; [reflexivity|]. exfalso. apply (I y). now left.
  - assert (Tl : forall y l, (forall p q, 0 <= p < q -> q < zlen (y :: l) -> zn (y :: l) p < zn (y :: l) q) ->
       (forall o, In o l -> y < o) /\ (forall p q, 0 <= p < q -> q < zlen l -> zn l p < zn l q)).
    { intros y l Sl. split.
      - intros o Ho. destruct (In_nthZ _ 0 l o Ho) as (q & Hq & <-). specialize (Sl 0 (q + 1) ltac:(lia)).
        rewrite zlen_cons in Sl. specialize (Sl ltac:(lia)). unfold nthZ in *. replace (Z.to_nat (q + 1)) with (S (Z.to_nat q)) in Sl by lia.
        exact Sl.
      - intros p q Hp Hq. specialize (Sl (p + 1) (q + 1) ltac:(lia)). rewrite zlen_cons in Sl. specialize (Sl ltac:(lia)).
        unfold nthZ in *. replace (Z.to_nat (q + 1)) with (S (Z.to_nat q)) in Sl by lia.
        replace (Z.to_nat (p + 1)) with (S (Z.to_nat p)) in Sl by lia. exact Sl. }
    destruct L' as [|y L']; [exfalso; apply (I x); now left|].
    destruct (Tl x L S1) as [A1 B1]. destruct (Tl y L' S2) as [A2 B2].
    assert (x = y).
    { destruct (proj1 (I x) ltac:(now left)) as [?|Hx]; [congruence|].
      destruct (proj2 (I y) ltac:(now left)) as [?|Hy]; [congruence|]. specialize (A1 _ Hy). specialize (A2 _ Hx). lia. }
    subst y. f_equal. apply IH; auto. intros o. split; intros Ho.
    + destruct (proj1 (I o) ltac:(now right)) as [<-|?]; [specialize (A1 _ Ho); lia|assumption].
    + destruct (proj2 (I o) ltac:(now right)) as [<-|?]; [specialize (A2 _ Ho); lia|assumption].
Qed.

Lemma ndiag_ok : forall m n nnz d ptr ind o0, csr_wf m n nnz (md_base d) ptr ind ->
  exists L, csr2dia_ndiag m n (Some d) nnz (Some ptr) (Some ind) (Some o0) = Some (success, Some (zlen L)) /\
    diagonals m (md_base d) ptr ind L.
Proof.
  intros m n nnz d ptr ind o0 W. unfold csr2dia_ndiag.
  pose proof (wf_m _ _ _ _ _ _ W) as Wm. pose proof (wf_n _ _ _ _ _ _ W) as Wn. pose proof (wf_nnz _ _ _ _ _ _ W) as Wz.
  replace ((m <? 0) || (n <? 0) || (nnz <? 0)) with false by lia.
  destruct (ndiag_loop m n nnz (md_base d) ptr ind W) as (dx & cnt & E & M & ->). cbv zeta in E |- *. rewrite E.
  exists (map (fun o => o - m) (marked dx (m + n))). rewrite zlen_map. split; [reflexivity|].
  now apply (Mk_final m n nnz (md_base d) ptr ind W 0).
Qed.

Section Conv.
  Context {T : Type} (z : T).

  Lemma csr2dia_ok : forall m n nnz d ptr ind (val : list T) off dv L,
    csr_wf m n nnz (md_base d) ptr ind -> zlen val = nnz ->
    diagonals m (md_base d) ptr ind L -> zlen L <= zlen off -> m * zlen L <= zlen dv ->
    exists off' dv',
      csr2dia m n (Some d) (Some ptr) (Some ind) (Some val) (zlen L) (Some off) (Some dv) = Some (success, Some off', Some dv') /\
      zlen off' = zlen off /\ zlen dv' = zlen dv /\
      (forall q, 0 <= q < zlen L -> zn off' q = zn L q) /\
      (forall i q, 0 <= i < m -> 0 <= q < zlen L ->
         nthZ z dv' (dia_at m i q) = last (ents (md_base d) ptr ind val i (i + zn L q)) (nthZ z dv (dia_at m i q))) /\
      (forall p, m * zlen L <= p < zlen dv -> nthZ z dv' p = nthZ z dv p).
  Proof.
    intros m n nnz d ptr ind val off dv L W Lv HL Lo Ld. unfold csr2dia. set (b := md_base d) in *.
    pose proof (wf_m _ _ _ _ _ _ W) as Wm. pose proof (wf_n _ _ _ _ _ _ W) as Wn. pose proof (wf_nnz _ _ _ _ _ _ W) as Wz.
    pose proof (zlen_nonneg _ L) as LLn. destruct (wf_len _ _ _ _ _ _ W) as [L1 L2].
    replace ((m <? 0) || (n <? 0) || (zlen L <? 0)) with false by lia.
    destruct ((m =? 0) || (n =? 0) || (zlen L =? 0)) eqn:E0.
    { exists off, dv. split; [reflexivity|]. ands; auto.
      - intros q Hq. exfalso. pose proof (nthZ_In _ 0 L q Hq) as I. apply HL in I as (i & k & A & B & C).
        destruct (off_range m n nnz b ptr ind W i k A B). pose proof (wf_ind _ _ _ _ _ _ W k ltac:(lia)). lia.
      - intros i q Hi Hq. exfalso. pose proof (nthZ_In _ 0 L q Hq) as I. apply HL in I as (i' & k & A & B & C).
        destruct (off_range m n nnz b ptr ind W i' k A B). pose proof (wf_ind _ _ _ _ _ _ W k ltac:(lia)). lia. }
    destruct (mark_loop m n nnz b ptr ind W) as (dx & E & M). cbv zeta in E |- *. rewrite E. clear E.
    pose proof (diagonals_unique _ _ _ _ _ _ (Mk_final m n nnz b ptr ind W 0 dx M) HL) as EL.
    set (K := marked dx (m + n)) in *.
    assert (LK : zlen L = zlen K) by (rewrite <- EL; apply zlen_map).
    destruct M as [Ldx HM].
    match goal with |- context [for_ 0 (m + n) ?f ?s] =>
      destruct (for_inv _ (fun i (st : list Z * Z * list Z) => let '(dx', dn, off') := st in
        dn = zlen (marked dx i) /\ zlen dx' = m + n /\ zlen off' = zlen off /\
        (forall q, 0 <= q < dn -> zn off' q = zn K q - m) /\
        (forall o, 0 <= o < i -> zn dx o <> 0 -> zn dx' o = zlen (marked dx o)) /\
        (forall o, i <= o < m + n -> zn dx' o = zn dx o)) 0 (m + n) f s) as (st & E & R) end.
    - lia.
    - cbv beta iota. ands; auto; intros; try lia.
    - intros i [[dx' dn] off'] Hi (-> & Lx & Lof & R1 & R2 & R3). rewrite (rd_nthZ _ 0 dx') by lia. rewrite R3 by lia.
      rewrite marked_step by lia.
      destruct (zn dx i =? 0) eqn:Ei; cbn [negb].
      + eexists; split; [reflexivity|]. cbv beta iota. rewrite app_nil_r. ands; auto.
        * intros o Ho Hx. apply R2; auto. destruct (Z.eq_dec o i) as [->|]; lia.
        * intros o Ho. apply R3; lia.
      + destruct (marked_nth dx i (m + n) Hi ltac:(lia)) as [B1 B2]. fold K in B1, B2.
        rewrite (wr_upd _ dx') by lia. rewrite (wr_upd _ off') by lia. eexists; split; [reflexivity|]. cbv beta iota.
        rewrite zlen_app, zlen_cons, zlen_nil, !zlen_upd. ands; auto; try lia.
        * intros q Hq. rewrite nthZ_upd by lia. destruct (q =? zlen (marked dx i)) eqn:Eq.
          { replace q with (zlen (marked dx i)) by lia. lia. }
          { apply R1; lia. }
        * intros o Ho Hx. rewrite nthZ_upd by lia. destruct (o =? i) eqn:Eo; [now replace o with i by lia|]. apply R2; auto; lia.
        * intros o Ho. rewrite nthZ_upd_other by lia. apply R3; lia.
    - rewrite E. clear E. destruct st as [[dx' dn] off']. destruct R as (-> & Lx & Lof & R1 & R2 & _). fold K in R1.
      set (ws := fun i => flat_map (fun k => [(i + m * zlen (marked dx (zn ind k - b - i + m)), nthZ z val k)]%Z)
                            (zrange (zn ptr i - b) (zn ptr (i + 1) - b))).
      assert (Occ : forall i k, 0 <= i < m -> in_row ptr b i k ->
        let o := zn ind k - b - i + m in
        0 <= o < m + n /\ 0 <= k < nnz /\ zn dx o <> 0 /\ 0 <= zlen (marked dx o) < zlen K /\ zn K (zlen (marked dx o)) = o).
      { intros i k Hi Hk o. destruct (off_range m n nnz b ptr ind W i k Hi Hk) as [A B]. fold o in B. split; [exact B|]. split; [exact A|].
        assert (N : zn dx o <> 0).
        { destruct (HM o B) as [_ Q]. assert (zn dx o = 1); [|lia]. apply Q. exists i, k. ands; auto; lia. }
        split; [exact N|]. apply (marked_nth dx o (m + n)); auto. }
      assert (Run : for_ 0 m (fun i dv =>
          let* p := rd ptr i in
          let* q := rd ptr (i + 1) in
          for_ (p - b) (q - b) (fun j dv =>
            let* c := rd ind j in
            let offset := c - b - i + m in
            let* x := rd dx' offset in
            let* v := rd val j in
            wr dv (i + m * x) v) dv) dv = Some (apply (flat_map ws (zrange 0 m)) dv)).
      { apply for_stores with (len := zlen dv); [reflexivity|]. intros i B Hi HB. rewrite !(rd_nthZ _ 0 ptr) by lia.
        apply for_stores with (len := zlen dv); [assumption|]. intros k C Hk HC.
        destruct (Occ i k Hi Hk) as (O1 & O2 & O3 & O4 & O5).
        rewrite (rd_nthZ _ 0 ind) by lia. cbv beta zeta. rewrite (rd_nthZ _ 0 dx'), (rd_nthZ _ z val) by lia.
        rewrite R2 by (auto; lia). apply wr_apply. rewrite HC. nia. }
      cbv zeta in Run. rewrite Run. eexists _, _; split; [reflexivity|]. rewrite zlen_apply.
      assert (IB : inb (zlen dv) (flat_map ws (zrange 0 m))).
      { apply inb_flat_map. intros i Hi. apply in_zrange in Hi. apply inb_flat_map. intros k Hk w [<-|[]]. apply in_zrange in Hk.
        destruct (Occ i k Hi Hk) as (O1 & O2 & O3 & O4 & O5). cbn [fst]. nia. }
      ands; auto.
      + intros q Hq. rewrite R1 by lia. rewrite <- EL. rewrite (nthZ_map _ _ _ 0) by lia. reflexivity.
      + intros i q Hi Hq. unfold dia_at. rewrite nthZ_apply by (auto; nia). f_equal.
        rewrite at_pos_flat_map, (flat_map_single _ 0 m i); [|lia|].
        * unfold ws. rewrite at_pos_flat_map, (ents_flat _ z m n nnz) by auto. apply flat_map_ext_in. intros k Hk. apply in_zrange in Hk.
          destruct (Occ i k Hi Hk) as (O1 & O2 & O3 & O4 & O5). cbn [at_pos flat_map fst snd].
          assert (Lq : zn L q = zn K q - m) by (rewrite <- EL; rewrite (nthZ_map _ _ _ 0) by lia; reflexivity).
          destruct (zn ind k =? i + zn L q + b) eqn:Ek.
          { assert (Q : zlen (marked dx (zn ind k - b - i + m)) = q).
            { assert (Inj : forall p q, 0 <= p < zlen K -> 0 <= q < zlen K -> zn K p = zn K q -> p = q).
              { intros p1 p2 Hp1 Hp2 Ep. destruct (Z.lt_trichotomy p1 p2) as [Hlt|[?|Hlt]]; [|assumption|].
                - pose proof (marked_sorted dx (m + n) p1 p2 ltac:(lia) ltac:(lia) ltac:(fold K; lia)) as S. fold K in S. lia.
                - pose proof (marked_sorted dx (m + n) p2 p1 ltac:(lia) ltac:(lia) ltac:(fold K; lia)) as S. fold K in S. lia. }
              apply Inj; lia. }
            rewrite Q, Z.eqb_refl. reflexivity. }
          { destruct (_ =? i + m * q) eqn:E2; [|reflexivity]. exfalso.
            assert (zlen (marked dx (zn ind k - b - i + m)) = q) as Q by nia. rewrite Q in O5. lia. }
        * intros r Hr Hn. unfold ws. rewrite at_pos_flat_map. apply flat_map_nil. intros k Hk. apply in_zrange in Hk.
          destruct (Occ r k Hr Hk) as (O1 & O2 & O3 & O4 & O5). cbn [at_pos flat_map fst snd].
          destruct (_ =? i + m * q) eqn:E2; [|reflexivity]. exfalso.
          destruct (addr_inj m (zlen (marked dx (zn ind k - b - r + m))) r q i) as [_ ?]; lia.
      + intros p Hp. assert (0 <= m * zlen L) by nia. rewrite nthZ_apply by (auto; lia).
        replace (at_pos p (flat_map ws (zrange 0 m))) with (@nil T); [reflexivity|]. symmetry.
        rewrite at_pos_flat_map. apply flat_map_nil. intros i Hi. apply in_zrange in Hi. unfold ws. rewrite at_pos_flat_map.
        apply flat_map_nil. intros k Hk. apply in_zrange in Hk.
        destruct (Occ i k Hi Hk) as (O1 & O2 & O3 & O4 & O5). cbn [at_pos flat_map fst snd].
        destruct (_ =? p) eqn:E2; [|reflexivity]. exfalso. nia.
  Qed.
End Conv.

Lemma width_then_dia : forall T (O : ops T), laws O -> forall m n nnz d ptr ind (val : list T) o0_,
  csr_wf m n nnz (md_base d) ptr ind -> zlen val = nnz ->
  exists L, diagonals m (md_base d) ptr ind L /\
  csr2dia_ndiag m n (Some d) nnz (Some ptr) (Some ind) (Some o0_) = Some (success, Some (zlen L)) /\
  forall off dv, zlen off = zlen L -> zlen dv = m * zlen L ->
  exists off' dv',
    csr2dia m n (Some d) (Some ptr) (Some ind) (Some val) (zlen L) (Some off) (Some dv) = Some (success, Some off', Some dv') /\
    off' = L /\ zlen dv' = m * zlen L /\
    (forall i q, 0 <= i < m -> 0 <= q < zlen L ->
       nthZ (o0 O) dv' (dia_at m i q) = last (ents (md_base d) ptr ind val i (i + zn L q)) (nthZ (o0 O) dv (dia_at m i q))) /\
    ((forall i j, 0 <= i < m -> (length (ents (md_base d) ptr ind val i j) <= 1)%nat) ->
     (forall p, 0 <= p < zlen dv -> nthZ (o0 O) dv p = o0 O) ->
       (forall i q, 0 <= i < m -> 0 <= q < zlen L ->
          nthZ (o0 O) dv' (dia_at m i q) = csr_mat O (md_base d) ptr ind val i (i + zn L q)) /\
       (forall i j, 0 <= i < m -> ~ In (j - i) L -> csr_mat O (md_base d) ptr ind val i j = o0 O)).
Proof.
  intros T O LW m n nnz d ptr ind val o0_ W Lv.
  destruct (ndiag_ok m n nnz d ptr ind o0_ W) as (L & E & D). exists L. split; [exact D|]. split; [exact E|].
  intros off dv Lo Ld.
  destruct (csr2dia_ok (o0 O) m n nnz d ptr ind val off dv L W Lv D ltac:(lia) ltac:(lia)) as (off' & dv' & R & H1 & H2 & H3 & H4 & _).
  exists off', dv'. split; [exact R|]. split.
  { apply (nthZ_ext _ 0); [lia|]. intros q Hq. apply H3. lia. }
  split; [lia|]. split; [exact H4|]. intros Hu Hz. split.
  - intros i q Hi Hq. rewrite H4 by auto.
    rewrite (Hz (dia_at m i q)) by (unfold dia_at; nia).
    unfold csr_mat. specialize (Hu i (i + zn L q) Hi).
    destruct (ents (md_base d) ptr ind val i (i + zn L q)) as [|x [|y l]]; cbn in Hu |- *; [reflexivity| |lia].
    unfold suml. cbn. pose proof (l_ring LW) as Rg. now rewrite (Radd_comm Rg), (Radd_0_l Rg).
  - intros i j Hi Hn. unfold csr_mat. replace (ents (md_base d) ptr ind val i j) with (@nil T); [reflexivity|]. symmetry.
    rewrite (ents_flat _ (o0 O) m n nnz) by auto. apply flat_map_nil. intros k Hk. apply in_zrange in Hk.
    destruct (zn ind k =? j + md_base d) eqn:Ek; [|reflexivity]. exfalso. apply Hn. apply D. exists i, k. ands; auto; lia.
Qed.

Lemma dia_reject : forall T m n d_p ptr_p ind_p (val_p : option (list T)) nd off_p dv_p,
  (m < 0 \/ n < 0 \/ nd < 0 -> csr2dia m n d_p ptr_p ind_p val_p nd off_p dv_p = Some (invalid_size, off_p, dv_p)) /\
  (0 < m -> 0 < n -> 0 < nd -> ptr_p = None \/ ind_p = None \/ val_p = None \/ off_p = None \/ dv_p = None ->
     csr2dia m n d_p ptr_p ind_p val_p nd off_p dv_p = Some (invalid_pointer, off_p, dv_p)).
Proof.
  intros. split; intros; unfold csr2dia.
  - replace ((m <? 0) || (n <? 0) || (nd <? 0)) with true by lia. reflexivity.
  - replace ((m <? 0) || (n <? 0) || (nd <? 0)) with false by lia.
    replace ((m =? 0) || (n =? 0) || (nd =? 0)) with false by lia.
    destruct ptr_p, ind_p, val_p, off_p, dv_p; try reflexivity; exfalso; intuition congruence.
Qed.

(** Storage that is not zeroed keeps its old content on occupied diagonals; of two
    stored duplicates only the last is kept. *)
Lemma dia_findings :
  csr2dia 2 2 (Some (mkMD 0 0 0 0)) (Some [0;1;1]) (Some [0]) (Some [5]) 1 (Some [9]) (Some [7;7]) = Some (success, Some [0], Some [5;7]) /\
  csr2dia 1 1 (Some (mkMD 0 0 0 0)) (Some [0;2]) (Some [0;0]) (Some [5;6]) 1 (Some [9]) (Some [0]) = Some (success, Some [0], Some [6]) /\
  csr_mat Zops 0 [0;2] [0;0] [5;6] 0 0 = 11.
Proof. repeat split; reflexivity. Qed.
