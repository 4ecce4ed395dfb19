From Coq Require Import ZArith List Bool Lia ZifyBool Ring.
From Verif Require Import Base BaseFacts Algebra DoidModel DoidSpec Csr CsrFacts CheckModel MvModel MvFacts HandleModel HandleSpec SorModel SorSpec.
Import ListNotations.
Open Scope Z_scope.

Section F.
  Context {T : Type} (O : ops T) (L : laws O).
  Let rth := l_ring L.
  Add Ring TrS : rth.
  Local Notation zero := (o0 O).
  Local Notation tn := (nthZ zero).
  Variables (n b nnz : Z) (ptr ind : list Z) (val : list T).
  Hypothesis W : csr_wf n n nnz b ptr ind.
  Hypothesis DU : diag_unique n b ptr ind.
  Hypothesis Lv : zlen val = nnz.
  Local Notation rlo i := (zn ptr i - b).
  Local Notation col q := (zn ind q - b).
  Local Notation A := (csr_mat O b ptr ind val).

  Lemma sor_wp : ptr_ok n nnz b ptr. Proof. exact (wf_ptr _ _ _ _ _ _ W). Qed.
  Lemma sor_lens : zlen ptr = n + 1 /\ zlen ind = nnz /\ 0 <= n /\ 0 <= nnz.
  Proof. destruct (wf_len _ _ _ _ _ _ W). pose proof (wf_m _ _ _ _ _ _ W). pose proof (wf_nnz _ _ _ _ _ _ W). auto. Qed.
  Lemma sor_rb : forall i, 0 <= i < n -> 0 <= rlo i /\ rlo i <= rlo (i + 1) /\ rlo (i + 1) <= nnz.
  Proof.
    intros i Hi. pose proof (ptr_range _ _ _ _ sor_wp i ltac:(lia)). pose proof (ptr_range _ _ _ _ sor_wp (i + 1) ltac:(lia)).
    pose proof (ptr_mono _ _ _ _ sor_wp i (i + 1) ltac:(lia) ltac:(lia) ltac:(lia)). lia.
  Qed.
  Lemma sor_colb : forall q, 0 <= q < nnz -> 0 <= col q < n.
  Proof. intros q Hq. pose proof (wf_ind _ _ _ _ _ _ W q Hq). lia. Qed.

  Lemma diag_at : forall i q, 0 <= i < n -> rlo i <= q < rlo (i + 1) -> col q = i -> A i i = tn val q.
  Proof.
    intros i q Hi Hq E. pose proof (sor_rb i Hi). rewrite (csr_mat_sum O L) by (intros k Hk; rewrite Lv; exact (in_row_range _ _ _ _ sor_wp i k Hi Hk)).
    rewrite (sumz_delta O L _ _ q); auto.
    - replace (zn ind q =? i + b) with true by lia. reflexivity.
    - intros k Hk Nk. assert (zn ind k <> i + b). { intros Q. apply Nk. apply (DU i k q Hi); unfold in_row; lia. }
      replace (zn ind k =? i + b) with false by lia. reflexivity.
  Qed.
  Lemma diag_none : forall i, 0 <= i < n -> (forall q, rlo i <= q < rlo (i + 1) -> col q <> i) -> A i i = zero.
  Proof.
    intros i Hi N. rewrite (csr_mat_sum O L) by (intros k Hk; rewrite Lv; exact (in_row_range _ _ _ _ sor_wp i k Hi Hk)).
    apply (sumz_zero O L). intros q Hq. specialize (N q Hq). replace (zn ind q =? i + b) with false by lia. reflexivity.
  Qed.

  Lemma diag_row_ok : forall i, 0 <= i < n -> diag_row O b i (rlo i) (rlo (i + 1)) ind val = Some (negb (oeqb O (A i i) zero)).
  Proof.
    intros i Hi. pose proof (sor_rb i Hi). destruct sor_lens as (_ & Li & _). unfold diag_row.
    match goal with |- context [forc ?lo ?hi ?f ?s] => destruct (forc_inv _ _
      (fun e full => (full = false /\ forall q, lo <= q < e -> col q <> i) \/ (full = true /\ exists q, lo <= q < e /\ col q = i /\ tn val q <> zero))
      (fun full => full = false /\ exists q, lo <= q < hi /\ col q = i /\ tn val q = zero) (fun _ => False) lo hi f s ltac:(lia)) as [(full & E & R)|(r & _ & [])] end.
    - left. split; auto. intros; lia.
    - intros j full Hj I. rewrite (rd_nthZ _ 0) by lia. destruct (Z.eqb_spec i (col j)) as [Eq|Ne].
      + destruct I as [(-> & I)|(-> & q & Hq & Cq & _)].
        * rewrite (rd_nthZ _ zero) by lia. destruct (oeqb O (tn val j) zero) eqn:EZ; cbn [negb].
          -- right; left. eexists. split; [reflexivity|]. split; auto. exists j. apply (l_eqb L) in EZ. repeat split; auto; lia.
          -- left. eexists. split; [reflexivity|]. right. split; auto. exists j. apply (eqb_false_o O L) in EZ. repeat split; auto; lia.
        * exfalso. assert (q = j) by (apply (DU i q j Hi); unfold in_row; lia). lia.
      + left. eexists. split; [reflexivity|]. destruct I as [(-> & I)|(-> & q & Hq & Q)].
        * left. split; auto. intros q Hq. destruct (Z.eq_dec q j); [subst; lia|apply I; lia].
        * right. split; auto. exists q. split; [lia|auto].
    - rewrite E. f_equal. destruct R as [[(-> & R)|(-> & q & Hq & Cq & Nz)]|(-> & q & Hq & Cq & Nz)].
      + rewrite diag_none by auto. now rewrite (eqb_refl_o O L).
      + rewrite (diag_at i q) by auto. apply (eqb_false_o O L) in Nz. now rewrite Nz.
      + rewrite (diag_at i q) by auto. rewrite Nz. now rewrite (eqb_refl_o O L).
  Qed.

  Lemma check_ok : 0 < n -> exists ok, check_full_diag O n b ptr ind val = Some ok /\ (ok = true <-> forall i, 0 <= i < n -> A i i <> zero).
  Proof.
    intros Hn. destruct sor_lens as (Lp & _). unfold check_full_diag.
    match goal with |- context [forc ?lo ?hi ?f ?s] => destruct (forc_inv _ _
      (fun e full => (full = true \/ e = 0) /\ forall i, 0 <= i < e -> A i i <> zero)
      (fun full => full = false /\ exists i, 0 <= i < n /\ A i i = zero) (fun _ => False) lo hi f s ltac:(lia)) as [(full & E & R)|(r & _ & [])] end.
    - split; auto. intros; lia.
    - intros i full Hi (_ & I). rewrite !(rd_nthZ _ 0) by lia. rewrite diag_row_ok by auto. rewrite negb_involutive.
      destruct (oeqb O (A i i) zero) eqn:E.
      + right; left. eexists. split; [reflexivity|]. split; auto. exists i. apply (l_eqb L) in E. auto.
      + left. eexists. split; [reflexivity|]. split; auto. intros r Hr. destruct (Z.eq_dec r i) as [->|]; [now apply (eqb_false_o O L)|apply I; lia].
    - exists full. rewrite E. split; auto. destruct R as [([R|R] & I)|(-> & i & Hi & Q)].
      + subst. tauto.
      + lia.
      + split; [discriminate|]. intros H. exfalso. exact (H i Hi Q).
  Qed.

  Lemma sor_row_ok : forall i (x : list T), 0 <= i < n -> n <= zlen x -> A i i <> zero ->
    sor_row O b i (rlo i) (rlo (i + 1)) ind val x = Some (sumz O 0 n (fun j => if i =? j then zero else omul O (A i j) (tn x j)), A i i).
  Proof.
    intros i x Hi Lx NZ. pose proof (sor_rb i Hi). destruct sor_lens as (_ & Li & _). unfold sor_row.
    match goal with |- context [for_ ?lo ?hi ?f ?s] => destruct (for_inv _
      (fun e st => fst st = sumz O lo e (fun q => omul O (tn val q) (if i =? col q then zero else tn x (col q))) /\
        (snd st = A i i \/ forall q, lo <= q < e -> col q <> i)) lo hi f s ltac:(lia)) as ((axi & de) & E & R1 & R2) end.
    - cbn [fst snd]. split; [now rewrite (sumz_nil O) by lia|]. right. intros; lia.
    - intros j (axi & de) Hj (R1 & R2). cbn [fst snd] in R1, R2. pose proof (sor_colb j ltac:(lia)). rewrite (rd_nthZ _ 0) by lia. rewrite (rd_nthZ _ zero) by lia.
      destruct (Z.eqb_spec i (col j)) as [Eq|Ne]; cbn [negb].
      + eexists. split; [reflexivity|]. cbn [fst snd]. split; [|left; symmetry; apply diag_at; auto; lia].
        rewrite (sumz_last O L) by lia. replace (i =? col j) with true by lia. rewrite R1. ring.
      + rewrite (rd_nthZ _ zero) by lia. eexists. split; [reflexivity|]. cbn [fst snd]. split.
        * rewrite (sumz_last O L) by lia. replace (i =? col j) with false by lia. rewrite R1. ring.
        * destruct R2 as [R2|R2]; auto. right. intros q Hq. destruct (Z.eq_dec q j); [subst; lia|apply R2; lia].
    - rewrite E. cbn [fst snd] in R1, R2. f_equal. f_equal.
      + rewrite R1.
        rewrite (row_sum_cols O L n n nnz b ptr ind val i (rlo i) (rlo (i + 1)) (fun _ => true) (fun v => v) (fun j => if i =? j then zero else tn x j)); auto; try lia.
        * apply sumz_ext. intros j Hj. destruct (i =? j); [ring|reflexivity].
        * apply (additive_id O).
        * intros q Hq. unfold in_row in Hq. split; auto.
      + destruct R2 as [R2|R2]; auto. exfalso. apply NZ. now apply diag_none.
  Qed.

  Lemma scale_ok : forall alpha (x : list T), n <= zlen x -> 0 <= n -> exists y, scale_x O n alpha x = Some y /\ zlen y = zlen x /\
    (forall i, n <= i < zlen x -> tn y i = tn x i) /\ forall i, 0 <= i < n -> tn y i = omul O alpha (tn x i).
  Proof.
    intros alpha x Lx Hn. unfold scale_x. destruct (oeqb O alpha zero) eqn:E; cbn [negb].
    - apply (l_eqb L) in E. subst alpha.
      match goal with |- context [for_ ?lo ?hi ?f ?s] => destruct (for_inv _ (fun e y => zlen y = zlen x /\ (forall i, e <= i < zlen x -> tn y i = tn x i) /\ forall i, 0 <= i < e -> tn y i = zero) lo hi f s ltac:(lia)) as (y & Ey & R1 & R2 & R3) end.
      + split; auto. split; auto. intros; lia.
      + intros i y Hi (R1 & R2 & R3). rewrite wr_upd by lia. eexists. split; [reflexivity|]. split; [now rewrite zlen_upd|]. split; intros k Hk; rewrite nthZ_upd by lia.
        * replace (k =? i) with false by lia. apply R2; lia.
        * destruct (Z.eqb_spec k i); auto. apply R3; lia.
      + exists y. split; auto. split; auto. split; auto. intros i Hi. rewrite R3 by auto. ring.
    - match goal with |- context [for_ ?lo ?hi ?f ?s] => destruct (for_inv _ (fun e y => zlen y = zlen x /\ (forall i, e <= i < zlen x -> tn y i = tn x i) /\ forall i, 0 <= i < e -> tn y i = omul O alpha (tn x i)) lo hi f s ltac:(lia)) as (y & Ey & R1 & R2 & R3) end.
      + split; auto. split; auto. intros; lia.
      + intros i y Hi (R1 & R2 & R3). rewrite (rd_nthZ _ zero) by lia. rewrite wr_upd by lia. eexists. split; [reflexivity|]. split; [now rewrite zlen_upd|]. split; intros k Hk; rewrite nthZ_upd by lia.
        * replace (k =? i) with false by lia. apply R2; lia.
        * destruct (Z.eqb_spec k i) as [->|]; [rewrite R2 by lia; auto|]. apply R3; lia.
      + exists y. auto.
  Qed.

  Lemma sweep_ok : forall omega alpha (x bv : list T), 0 <= n -> n <= zlen x -> n <= zlen bv -> (forall i, 0 <= i < n -> A i i <> zero) ->
    exists y x', scale_x O n alpha x = Some y /\ sor_sweep_fwd O n b ptr ind val omega y bv = Some x' /\ sor_sweep O n A omega alpha bv x x'.
  Proof.
    intros omega alpha x bv Hn Lx Lb NZ. destruct (scale_ok alpha x Lx Hn) as (y & Ey & Ly & Y1 & Y2). destruct sor_lens as (Lp & _). exists y. unfold sor_sweep_fwd.
    match goal with |- context [for_ ?lo ?hi ?f ?s] => destruct (for_inv _ (fun e z => zlen z = zlen x /\ (forall i, e <= i < zlen x -> tn z i = tn y i) /\
      forall i, 0 <= i < e -> tn z i = oadd O (omul O (osub O (o1 O) omega) (omul O alpha (tn x i)))
        (omul O omega (odiv O (osub O (tn bv i)
          (sumz O 0 n (fun j => if j <? i then omul O (A i j) (tn z j) else if i <? j then omul O (A i j) (omul O alpha (tn x j)) else zero))) (A i i)))) lo hi f s ltac:(lia)) as (z & Ez & R1 & R2 & R3) end.
    - split; auto. split; auto. intros; lia.
    - intros i z Hi (R1 & R2 & R3). rewrite !(rd_nthZ _ 0) by lia. rewrite (sor_row_ok i z) by (auto; lia). rewrite !(rd_nthZ _ zero) by lia. rewrite wr_upd by lia.
      match goal with |- context [upd z i ?v] => set (nv := v) end.
      eexists. split; [reflexivity|]. split; [now rewrite zlen_upd|]. split.
      + intros k Hk. rewrite nthZ_upd by lia. replace (k =? i) with false by lia. apply R2; lia.
      + intros k Hk. rewrite nthZ_upd by lia.
        rewrite (sumz_ext O 0 n _ (fun j => if j <? k then omul O (A k j) (tn z j) else if k <? j then omul O (A k j) (omul O alpha (tn x j)) else zero)).
        2:{ intros j Hj. destruct (Z.ltb_spec j k); auto. rewrite nthZ_upd by lia. now replace (j =? i) with false by lia. }
        destruct (Z.eqb_spec k i) as [->|]; [|apply R3; lia].
        unfold nv. rewrite (R2 i), (Y2 i) by lia.
        assert (EQ : sumz O 0 n (fun j => if i =? j then zero else omul O (A i j) (tn z j)) =
                     sumz O 0 n (fun j => if j <? i then omul O (A i j) (tn z j) else if i <? j then omul O (A i j) (omul O alpha (tn x j)) else zero)).
        { apply sumz_ext. intros j Hj. destruct (Z.eqb_spec i j), (Z.ltb_spec j i), (Z.ltb_spec i j); try lia; auto. rewrite R2, Y2 by lia. reflexivity. }
        rewrite EQ. ring.
    - exists z. rewrite Ez. split; auto. split; auto. split; auto. split; auto. intros i Hi. rewrite R2 by lia. apply Y1; lia.
  Qed.
End F.

Section H.
  Context {T : Type} (O : ops T) (L : laws O).
  Lemma sorv_ok : forall h u d omega alpha x bv, sor_pre h u d x bv ->
    (H_optfull h = true -> forall i, 0 <= i < H_m h -> hnd_mat O u i i <> o0 O) ->
    exists st x' h', sorv O false sor_forward (Some d) (Some h) omega alpha (Some x) (Some bv) = Some (st, Some x', Some h') /\
      ((forall i, 0 <= i < H_m h -> hnd_mat O u i i <> o0 O) ->
         st = success /\ h' = set_optfull h /\ sor_sweep O (H_m h) (hnd_mat O u) omega alpha bv x x') /\
      ((exists i, 0 <= i < H_m h /\ hnd_mat O u i i = o0 O) -> st = invalid_value /\ x' = x /\ h' = h).
  Proof.
    intros h u d omega alpha x bv [U (rest & M) C Q P Ty B Lx Lb] FH. pose proof U as ((W & DU & Lv & Hb) & _ & _ & _ & DD).
    destruct DD as [(_ & D1 & D2)|(D & _)]; [|rewrite C in D; discriminate].
    unfold sorv. rewrite M, B, Ty. replace (c_b u =? c_b u) with true by lia. replace (H_m h =? H_n h) with true by lia.
    replace (H_m h =? 0) with false by lia. pose proof (wf_nnz _ _ _ _ _ _ W). assert (NN : H_nnz h = c_nnz u) by apply U.
    replace ((H_m h <? 0) || (H_n h <? 0) || (H_nnz h <? 0)) with false by lia. cbn [negb].
    assert (HM : forall i j, hnd_mat O u i j = csr_mat O (c_b u) (c_ptr u) (c_ind u) (c_val u) i j) by (intros; unfold hnd_mat; rewrite C; reflexivity).
    rewrite D1, D2 in *. rewrite <- Q in *.
    destruct (check_ok O L (H_m h) (c_b u) (c_nnz u) (c_ptr u) (c_ind u) (c_val u) W DU Lv P) as (ok & EC & IC).
    destruct (H_optfull h) eqn:HF; cbn [negb].
    - specialize (FH eq_refl).
      destruct (sweep_ok O L (H_m h) (c_b u) (c_nnz u) (c_ptr u) (c_ind u) (c_val u) W DU Lv omega alpha x bv) as (y & x' & Ey & Ex & SW); try lia; [intros i Hi; rewrite <- HM; auto|].
      cbv beta iota. rewrite <- ?Q, Ey, Ex. exists success, x', h. split; auto. split; [|intros (i & Hi & Z0); exfalso; exact (FH i Hi Z0)]. intros _. split; auto. split; [destruct h; unfold set_optfull; cbn in *; congruence|].
      destruct SW as (S1 & S2 & S3). split; auto. split; auto. intros i Hi. rewrite S3 by auto. rewrite HM. do 4 f_equal. apply sumz_ext. intros j Hj. rewrite !HM. reflexivity.
    - rewrite EC. destruct ok; cbn [negb].
      + destruct (sweep_ok O L (H_m h) (c_b u) (c_nnz u) (c_ptr u) (c_ind u) (c_val u) W DU Lv omega alpha x bv) as (y & x' & Ey & Ex & SW); try lia; [now apply IC|].
        cbv beta iota. change (H_n (set_optfull h)) with (H_n h). rewrite <- ?Q, Ey, Ex. exists success, x', (set_optfull h). split; auto. split.
        * intros _. split; auto. split; auto.
          destruct SW as (S1 & S2 & S3). split; auto. split; auto. intros i Hi. rewrite S3 by auto. rewrite HM. do 4 f_equal. apply sumz_ext. intros j Hj. rewrite !HM. reflexivity.
        * intros (i & Hi & Z0). exfalso. rewrite HM in Z0. assert (N : forall i, 0 <= i < H_m h -> csr_mat O (c_b u) (c_ptr u) (c_ind u) (c_val u) i i <> o0 O) by (now apply IC). exact (N i Hi Z0).
      + exists invalid_value, x, h. split; auto. split; auto. intros N. exfalso. assert (false = true); [|discriminate]. apply IC. intros i Hi. rewrite <- HM. auto.
  Qed.
End H.
