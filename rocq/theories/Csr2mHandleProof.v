(** The sparse product on handles. *)
From Coq Require Import ZArith List Bool Lia Permutation.
From Coq Require Import ZifyBool.
From Verif Require Import Base BaseFacts Algebra Csr CsrFacts CountSort MvFacts SortSpec Csr2CscModel Csr2CscProof DoidModel DoidSpec CheckModel MvModel HandleModel HandleSpec RowProg AddSpec Csr2mModel Csr2mSpec OptProof CsrmvModel Csr2mProof.
Import ListNotations.
Open Scope Z_scope.

Definition tr (op : operation) : bool := match op with op_none => false | _ => true end.
Definition swp (op : operation) (d : Z) : bool := xorb (d =? gt) (tr op).
Definition cjf (is_real : bool) (op : operation) : bool := negb is_real && match op with op_conjugate_transpose => true | _ => false end.

Lemma eff_bits : forall is_real fm op d, valid_op op = true -> d = gn \/ d = gt ->
  exists r e, get_doid is_real mt_general fm op = Some r /\ get_effective_doid d r = Some e /\ Z.testbit e 1 = swp op d /\ Z.testbit e 0 = cjf is_real op.
Proof.
  intros is_real fm op d Ho [-> | ->]; destruct op; try discriminate; destruct is_real; eexists; eexists; (split; [reflexivity|]); (split; [reflexivity|]); split; reflexivity.
Qed.

Lemma empty_ents : forall T m n b ptr ind (val : list T) i j, csr_wf m n 0 b ptr ind -> 0 <= i < m -> ents b ptr ind val i j = [].
Proof.
  intros T m n b ptr ind val i j W Hi. unfold ents. pose proof (ptr_range _ _ _ _ (wf_ptr _ _ _ _ _ _ W)) as R. pose proof (R i ltac:(lia)). pose proof (R (i + 1) ltac:(lia)).
  rewrite zrange_nil by lia. reflexivity.
Qed.

(** Positions of a list of rows. *)
Definition positions {T} (R : Z -> list (Z * T)) (m : Z) : list (Z * Z) := flat_map (fun i => map (fun p => (i, fst p)) (R i)) (zrange 0 m).
Lemma positions_len : forall T (R : Z -> list (Z * T)) m, 0 <= m -> zlen (positions R m) = offs R m.
Proof.
  intros T R m Hm. unfold positions. pattern m. apply natlike_ind; [reflexivity| |exact Hm]. intros x Hx IH. unfold Z.succ. rewrite zrange_last by lia. rewrite flat_map_app, zlen_app, IH, offs_S by lia.
  cbn [flat_map]. rewrite app_nil_r, zlen_map. reflexivity.
Qed.
Lemma positions_nodup : forall T (R : Z -> list (Z * T)) m, 0 <= m -> (forall i, NoDup (map fst (R i))) -> NoDup (positions R m).
Proof.
  intros T R m Hm ND. unfold positions. assert (G : forall l, NoDup l -> NoDup (flat_map (fun i => map (fun p : Z * T => (i, fst p)) (R i)) l)).
  { induction l as [|i l IH]; intros N; [constructor|]. inversion N; subst. cbn [flat_map].
    assert (M : NoDup (map (fun p : Z * T => (i, fst p)) (R i))).
    { rewrite <- (map_map fst (fun c => (i, c))). apply FinFun.Injective_map_NoDup; [intros x y E; congruence|apply ND]. }
    revert M. generalize (R i). intros li M. induction li as [|p li IHl]; [now apply IH|]. cbn [map app] in *. inversion M; subst. constructor; auto.
    rewrite in_app_iff. intros [I|I]; [contradiction|]. apply in_flat_map in I. destruct I as (i' & Ii & I). apply in_map_iff in I. destruct I as (q & E & _). congruence. }
  apply G, NoDup_zrange.
Qed.

Section H.
  Context {T : Type} (O : ops T) (L : laws O) (is_real : bool).
  Hypothesis HR : is_real = true -> forall x, ocj O x = x.
  Add Ring HRing : (l_ring L).

  (** [X] stores an element of op(X) at (i, j). *)
  Definition pos (op : operation) (x : cmat T) (i j : Z) : Prop :=
    if swp op (c_doid x) then stored (c_b x) (c_ptr x) (c_ind x) j i else stored (c_b x) (c_ptr x) (c_ind x) i j.

  Lemma cj_sem : forall op F i j, valid_op op = true -> cjh O (cjf is_real op) (match op with op_none => F i j | _ => F j i end) = op_sem O op F i j.
  Proof.
    intros op F i j Ho. unfold cjf, cjh. destruct op; try discriminate; destruct is_real eqn:E; cbn; auto. unfold mC, mT. rewrite (HR eq_refl). reflexivity.
  Qed.
  (** Dimensions of a stored matrix and the operand it stands for. *)
  Lemma dims_of : forall op (X : hnd T) (x : cmat T), holds X x -> valid_op op = true -> rows_of op X = (if swp op (c_doid x) then c_n x else c_m x) /\ cols_of op X = (if swp op (c_doid x) then c_m x else c_n x).
  Proof.
    intros op X x ((_ & _ & _ & _ & Hd) & _) Ho. unfold rows_of, cols_of, swp. destruct Hd as [(-> & D1 & D2)|(-> & D1 & D2)]; destruct op; try discriminate; cbn; auto.
  Qed.
  Lemma sem_of : forall op (x : cmat T) i j, (c_doid x = gn \/ c_doid x = gt) -> valid_op op = true ->
    cjh O (cjf is_real op) (if swp op (c_doid x) then csr_mat O (c_b x) (c_ptr x) (c_ind x) (c_val x) j i else csr_mat O (c_b x) (c_ptr x) (c_ind x) (c_val x) i j) = op_sem O op (hnd_mat O x) i j.
  Proof.
    intros op x i j Hd Ho. rewrite <- cj_sem by auto. f_equal. unfold hnd_mat, stored_as, swp. destruct Hd as [-> | ->]; destruct op; try discriminate; reflexivity.
  Qed.

  Lemma operand : forall fz ft op (X : hnd T) (x : cmat T), (forall k, 0 <= k -> zlen (fz k) = k) -> (forall k, 0 <= k -> zlen (ft k : list T) = k) -> holds X x -> valid_op op = true ->
    exists x', (if swp op (c_doid x) then make_transposed fz ft x else Some (success, x)) = Some (success, x') /\
      c_m x' = rows_of op X /\ c_n x' = cols_of op X /\ c_b x' = c_b x /\
      csr_wf (rows_of op X) (cols_of op X) (c_nnz x) (c_b x) (c_ptr x') (c_ind x') /\ zlen (c_val x') = c_nnz x /\
      (forall i j, 0 <= i < rows_of op X -> 0 <= j < cols_of op X -> (stored (c_b x) (c_ptr x') (c_ind x') i j <-> pos op x i j)) /\
      (forall i j, 0 <= i < rows_of op X -> 0 <= j < cols_of op X -> cjh O (cjf is_real op) (csr_mat O (c_b x) (c_ptr x') (c_ind x') (c_val x') i j) = op_sem O op (hnd_mat O x) i j).
  Proof.
    intros fz ft op X x Hz Ht HX Ho. destruct (dims_of op X x HX Ho) as (-> & ->). destruct HX as (((W & DU & Lv & Hb) & Hn & _ & _ & Hd) & _).
    assert (Hdd : c_doid x = gn \/ c_doid x = gt) by intuition. pose proof (fun i j => sem_of op x i j Hdd Ho) as SM. unfold pos.
    destruct (swp op (c_doid x)).
    - unfold make_transposed. pose proof (wf_n _ _ _ _ _ _ W) as Wn. pose proof (wf_nnz _ _ _ _ _ _ W) as Wz.
      assert (FP : exists p, (if c_nnz x =? 0 then fill_range 0 (c_n x + 1) (c_b x) (fz (c_n x + 1)) else Some (fz (c_n x + 1))) = Some p /\ zlen p = c_n x + 1).
      { pose proof (Hz (c_n x + 1) ltac:(lia)). destruct (c_nnz x =? 0); [|eauto]. destruct (fill_range_ok _ 0 0 (c_n x + 1) (c_b x) (fz (c_n x + 1))) as (p & Ep & Lp & _); try lia. exists p. split; auto. lia. }
      destruct FP as (p & -> & Lp).
      destruct (csr2csc_ok T (c_m x) (c_n x) (c_nnz x) (c_b x) (c_b x) (c_ptr x) (c_ind x) (c_val x) p (fz (c_nnz x)) (ft (c_nnz x))) as (cp & ri & cv & E & W' & Lv' & _ & HE); auto.
      rewrite E. eexists. split; [reflexivity|]. cbn. ands; auto.
      + intros i j Hi Hj. rewrite (stored_ents T (c_n x) (c_m x) (c_nnz x) (c_b x) cp ri cv) by auto. rewrite (stored_ents T (c_m x) (c_n x) (c_nnz x) (c_b x) _ _ (c_val x)) by auto. rewrite (HE j i) by lia. reflexivity.
      + intros i j Hi Hj. rewrite <- SM. f_equal. unfold csr_mat. rewrite (HE j i) by lia. reflexivity.
    - eexists. split; [reflexivity|]. ands; auto. intros; reflexivity.
  Qed.

  Lemma room_ext : forall m n cA cB bA bB Aptr Aind (Aval : list T) Bptr Bind (Bval : list T) cA' cB' bA' bB' Aptr' Aind' (Aval' : list T) Bptr' Bind' (Bval' : list T) o3 C, 0 <= m ->
    (forall i, 0 <= i <= m -> off O cA cB bA bB Aptr Aind Aval Bptr Bind Bval i = off O cA' cB' bA' bB' Aptr' Aind' Aval' Bptr' Bind' Bval' i) ->
    room O cA cB m n bA bB Aptr Aind Aval Bptr Bind Bval o3 C -> room O cA' cB' m n bA' bB' Aptr' Aind' Aval' Bptr' Bind' Bval' o3 C.
  Proof.
    intros m n cA cB bA bB Aptr Aind Aval Bptr Bind Bval cA' cB' bA' bB' Aptr' Aind' Aval' Bptr' Bind' Bval' o3 C Hm HE. unfold room, slot. rewrite <- (HE m) by lia.
    destruct o3.
    - intros (c & p & i & v & (ptr & ind & val & -> & S1 & S2 & S3) & -> & Q). do 4 eexists. split; [exists ptr, ind, val; split; [reflexivity|]; split; auto; split; [intros k Hk; rewrite <- HE by lia; now apply S2|exact S3]|]. split; [reflexivity|exact Q].
    - intros (c & (ptr & ind & val & -> & S1 & S2 & S3) & ->). eexists. split; [exists ptr, ind, val; split; [reflexivity|]; split; auto; split; [intros k Hk; rewrite <- HE by lia; now apply S2|exact S3]|]. reflexivity.
  Qed.

  (** Nothing to multiply. *)
  Definition trivial (opA opB : operation) (A B : hnd T) : bool :=
    (rows_of opA A =? 0) || (cols_of opA A =? 0) || (cols_of opB B =? 0) || (H_nnz A =? 0) || (H_nnz B =? 0).
  Definition o3_of (opA opB : operation) (a b : cmat T) : bool := swp opA (c_doid a) && swp opB (c_doid b).
  Definition opf (opA opB : operation) (a b : cmat T) : Z := (if swp opA (c_doid a) then 1 else 0) + (if swp opB (c_doid b) then 2 else 0).
  Lemma opf3 : forall opA opB (a b : cmat T), (opf opA opB a b =? 3) = o3_of opA opB a b.
  Proof. intros. unfold opf, o3_of. destruct (swp opA (c_doid a)), (swp opB (c_doid b)); reflexivity. Qed.

  Lemma sp2m_steps : forall fz ft imax tc tf opA opB dA dB (A B : hnd T) (a b a' b' : cmat T) rq C0,
    sp2m_pre opA opB dA dB A B a b ->
    (if swp opA (c_doid a) then make_transposed fz ft a else Some (success, a)) = Some (success, a') ->
    (if swp opB (c_doid b) then make_transposed fz ft b else Some (success, b)) = Some (success, b') ->
    sp2m O is_real fz ft imax tc tf opA (Some dA) (Some A) opB (Some dB) (Some B) rq (Some C0) =
      let C := match rq with rq_finalize => C0 | _ => None end in
      if trivial opA opB A B then
        match C with
        | Some _ => Some (success, C)
        | None =>
            match fill_range 0 (rows_of opA A + 1) 0 (fz (rows_of opA A + 1)) with
            | Some ptr => Some (success, Some (mkHnd (rows_of opA A) (cols_of opB B) 0 [Some (mk_csr (rows_of opA A) (cols_of opB B) 0 gn ptr (fz 0) (ft 0))] unknown_sort false false false []))
            | None => None
            end
        end
      else if o3_of opA opB a b then dispatch O fz ft imax tc tf (cjf is_real opB) (cjf is_real opA) b a C (opf opA opB a b) rq
      else dispatch O fz ft imax tc tf (cjf is_real opA) (cjf is_real opB) a' b' C (opf opA opB a b) rq.
  Proof.
    intros fz ft imax tc tf opA opB dA dB A B a b a' b' rq C0 [HA HB OA OB TA TB bA bB Dim] EA EB.
    assert (UA : (c_b a = 0 \/ c_b a = 1) /\ (c_doid a = gn \/ c_doid a = gt)) by (destruct HA as (((_ & _ & _ & ?) & _ & _ & _ & ?) & _); intuition).
    assert (UB : (c_b b = 0 \/ c_b b = 1) /\ (c_doid b = gn \/ c_doid b = gt)) by (destruct HB as (((_ & _ & _ & ?) & _ & _ & _ & ?) & _); intuition).
    destruct UA as (BA & DA). destruct UB as (BB & DB).
    destruct (eff_bits is_real (d_fill dA) opA (c_doid a) OA DA) as (rA & eA & GA & FA & SA & JA). destruct (eff_bits is_real (d_fill dB) opB (c_doid b) OB DB) as (rB & eB & GB & FB & SB & JB).
    assert (MA : get_mtx (H_mats A) = Some a) by (destruct HA as (_ & rest & ->); reflexivity). assert (MB : get_mtx (H_mats B) = Some b) by (destruct HB as (_ & rest & ->); reflexivity).
    unfold sp2m. rewrite MA, MB, bA, bB, TA, TB. replace (negb ((c_b a =? 0) || (c_b a =? 1)) || negb ((c_b b =? 0) || (c_b b =? 1))) with false by (clear - BA BB; lia).
    rewrite !Z.eqb_refl. cbn [negb orb]. rewrite GA, GB, FA, FB, SA, SB, JA, JB, EA, EB.
    replace (negb ((c_doid a =? gn) || (c_doid a =? gt)) || negb ((c_doid b =? gn) || (c_doid b =? gt))) with false by (destruct DA as [-> | ->], DB as [-> | ->]; reflexivity).
    unfold trivial. rewrite <- opf3. unfold opf.
    destruct opA; try discriminate; destruct opB; try discriminate; cbn [rows_of cols_of] in *; rewrite Dim, Z.eqb_refl; cbn [negb]; reflexivity.
  Qed.

  Variables (opA opB : operation) (dA dB : descr).
  (** The operands of the two stages for given handles. *)
  Record plan (A B : hnd T) (a b : cmat T) (cP cQ : bool) (m kk n bP bQ nP nQ : Z) (Pptr Pind : list Z) (Pval : list T) (Qptr Qind : list Z) (Qval : list T) : Prop := mk_plan {
    pl_m : m = if o3_of opA opB a b then cols_of opB B else rows_of opA A;
    pl_n : n = if o3_of opA opB a b then rows_of opA A else cols_of opB B;
    pl_k : kk = cols_of opA A;
    pl_bP : bP = if o3_of opA opB a b then c_b b else c_b a;
    pl_bQ : bQ = if o3_of opA opB a b then c_b a else c_b b;
    pl_P : csr_wf m kk nP bP Pptr Pind; pl_Q : csr_wf kk n nQ bQ Qptr Qind;
    pl_lP : zlen Pval = nP; pl_lQ : zlen Qval = nQ; pl_b : bQ = 0 \/ bQ = 1;
    pl_sP : forall i j, 0 <= i < m -> 0 <= j < kk -> (stored bP Pptr Pind i j <-> if o3_of opA opB a b then pos opB b j i else pos opA a i j);
    pl_sQ : forall i j, 0 <= i < kk -> 0 <= j < n -> (stored bQ Qptr Qind i j <-> if o3_of opA opB a b then pos opA a j i else pos opB b i j);
    pl_F : forall i j, 0 <= i < m -> 0 <= j < n -> prodmat O cP cQ kk bP bQ Pptr Pind Pval Qptr Qind Qval i j = if o3_of opA opB a b then mat_prod O opA opB kk a b j i else mat_prod O opA opB kk a b i j }.

  Lemma plan_ok : forall (e : call_env T) imax (A B : hnd T) (a b : cmat T), call_ok e -> sp2m_pre opA opB dA dB A B a b -> trivial opA opB A B = false ->
    exists cP cQ m kk n bP bQ nP nQ Pptr Pind Pval Qptr Qind Qval, plan A B a b cP cQ m kk n bP bQ nP nQ Pptr Pind Pval Qptr Qind Qval /\
      forall rq C0, sp2m O is_real (e_fz e) (e_ft e) imax (e_tc e) (e_tf e) opA (Some dA) (Some A) opB (Some dB) (Some B) rq (Some C0) =
        let count := nnz_count (e_fz e) (e_ft e) imax (e_tc e) m n bP bQ Pptr Pind Qptr Qind (opf opA opB a b) in
        let final C := finalize O (e_tf e) m n cP cQ bP bQ Pptr Pind Pval Qptr Qind Qval C (opf opA opB a b) in
        match rq with
        | rq_count => count
        | rq_finalize => final C0
        | rq_full => match count with Some (st, C) => match st with success => final C | _ => Some (st, C) end | None => None end
        | rq_other => Some (invalid_value, None)
        end.
  Proof.
    intros e imax A B a b (Hz & Ht & _ & _) PRE Tr. pose proof PRE as [HA HB OA OB TA TB bA bB Dim].
    pose proof (dims_of opA A a HA OA) as (RA & CA). pose proof (dims_of opB B b HB OB) as (RB & CB).
    assert (UA : arrays_ok a /\ (c_doid a = gn \/ c_doid a = gt)) by (destruct HA as ((? & _ & _ & _ & ?) & _); intuition).
    assert (UB : arrays_ok b /\ (c_doid b = gn \/ c_doid b = gt)) by (destruct HB as ((? & _ & _ & _ & ?) & _); intuition).
    destruct UA as ((WA & _ & LA & BA) & DA). destruct UB as ((WB & _ & LB & BB) & DB).
    destruct (operand (e_fz e) (e_ft e) opA A a Hz Ht HA OA) as (a' & EA & MA' & NA' & bA' & WA' & LA' & PA' & FA').
    destruct (operand (e_fz e) (e_ft e) opB B b Hz Ht HB OB) as (b' & EB & MB' & NB' & bB' & WB' & LB' & PB' & FB').
    pose proof (fun rq C0 => sp2m_steps (e_fz e) (e_ft e) imax (e_tc e) (e_tf e) opA opB dA dB A B a b a' b' rq C0 PRE EA EB) as SP. rewrite Tr in SP. cbv zeta in SP.
    destruct (o3_of opA opB a b) eqn:E3.
    - unfold o3_of in E3. apply andb_true_iff in E3. destruct E3 as (EA3 & EB3). rewrite EA3 in *. rewrite EB3 in *.
      exists (cjf is_real opB), (cjf is_real opA), (c_m b), (c_n b), (c_n a), (c_b b), (c_b a), (c_nnz b), (c_nnz a), (c_ptr b), (c_ind b), (c_val b), (c_ptr a), (c_ind a), (c_val a). split.
      + assert (E3 : o3_of opA opB a b = true) by (unfold o3_of; now rewrite EA3, EB3). constructor; rewrite ?E3; auto; try lia.
        * replace (c_n b) with (c_m a) by lia. exact WA.
        * intros i j Hi Hj. unfold pos. rewrite EB3. reflexivity.
        * intros i j Hi Hj. unfold pos. rewrite EA3. reflexivity.
        * intros i j Hi Hj. unfold prodmat, mat_prod. apply (sumz_ext O). intros l Hl. rewrite <- (sem_of opA a) by auto. rewrite <- (sem_of opB b) by auto. rewrite EA3, EB3. ring.
      + intros rq C0. rewrite SP. unfold dispatch. destruct rq; reflexivity.
    - exists (cjf is_real opA), (cjf is_real opB), (rows_of opA A), (cols_of opA A), (cols_of opB B), (c_b a), (c_b b), (c_nnz a), (c_nnz b), (c_ptr a'), (c_ind a'), (c_val a'), (c_ptr b'), (c_ind b'), (c_val b'). split.
      + constructor; rewrite ?E3; auto; try lia.
        * rewrite Dim. exact WB'.
        * rewrite Dim. exact PB'.
        * intros i j Hi Hj. unfold prodmat, mat_prod. apply (sumz_ext O). intros l Hl. rewrite FA', FB' by lia. reflexivity.
      + intros rq C0. rewrite SP. unfold dispatch. rewrite MA', NB', bA', bB'. destruct rq; reflexivity.
  Qed.

  Lemma pos_stored : forall op (X : hnd T) x i j, holds X x -> valid_op op = true -> 0 <= i < rows_of op X -> 0 <= j < cols_of op X -> (pos op x i j <-> op_stored op x i j).
  Proof.
    intros op X x i j HX Ho Hi Hj. destruct (dims_of op X x HX Ho) as (RX & CX). destruct HX as (((W & _ & Lv & _) & _ & _ & _ & Hd) & _). rewrite RX in Hi. rewrite CX in Hj.
    unfold pos, op_stored, stored_at, centries. unfold swp in *.
    destruct Hd as [(E & D1 & D2)|(E & D1 & D2)]; rewrite E in *; change (gn =? gt) with false in *; change (gt =? gt) with true in *; destruct op; try discriminate; cbn [tr xorb] in *;
      apply (stored_ents T (c_m x) (c_n x) (c_nnz x) (c_b x) _ _ (c_val x)); auto.
  Qed.

  Lemma plan_structure : forall A B a b cP cQ m kk n bP bQ nP nQ Pptr Pind Pval Qptr Qind Qval, sp2m_pre opA opB dA dB A B a b ->
    plan A B a b cP cQ m kk n bP bQ nP nQ Pptr Pind Pval Qptr Qind Qval ->
    exists l, structure_list opA opB A B a b l /\ zlen l = off O cP cQ bP bQ Pptr Pind Pval Qptr Qind Qval m.
  Proof.
    intros A B a b cP cQ m kk n bP bQ nP nQ Pptr Pind Pval Qptr Qind Qval [HA HB OA OB TA TB bA bB Dim] [Em En Ek EbP EbQ WP WQ LP LQ Hb SP SQ F].
    set (R := prow O cP cQ bP bQ Pptr Pind Pval Qptr Qind Qval). pose proof (wf_m _ _ _ _ _ _ WP) as Hm.
    pose proof (positions_len T R m Hm) as PL. pose proof (positions_nodup T R m Hm (prow_nodup O cP cQ bP bQ Pptr Pind Pval Qptr Qind Qval)) as PN.
    assert (PI : forall i j, In (i, j) (positions R m) <-> 0 <= i < m /\ 0 <= j < n /\ exists l, 0 <= l < kk /\ stored bP Pptr Pind i l /\ stored bQ Qptr Qind l j).
    { intros i j. unfold positions. rewrite in_flat_map. split.
      - intros (i' & Hi & I). apply in_zrange in Hi. apply in_map_iff in I. destruct I as (p & E & I). injection E as -> <-. split; auto.
        pose proof (prow_cols O cP cQ m kk n bP bQ nP nQ Pptr Pind Pval Qptr Qind Qval WP WQ i p Hi I) as PC. split; [lia|].
        unfold R, prow in I. apply in_map_iff in I. destruct I as (c & <- & I). cbn [fst]. apply (proj1 (firsts_in _ _)) in I. now apply (contrib_in T O cP cQ m kk n bP bQ nP nQ) in I.
      - intros (Hi & Hj & X). exists i. split; [now apply in_zrange|]. apply in_map_iff. exists (j, colsum O (j + bQ) (contrib O cP cQ bP bQ Pptr Pind Pval Qptr Qind Qval i)). split; [reflexivity|].
        unfold R, prow. apply in_map_iff. exists (j + bQ). split; [f_equal; lia|]. apply (proj2 (firsts_in _ _)). apply (contrib_in T O cP cQ m kk n bP bQ nP nQ); auto. replace (j + bQ - bQ) with j by lia. exact X. }
    pose proof (fun i j => pos_stored opA A a i j HA OA) as QA. pose proof (fun i j => pos_stored opB B b i j HB OB) as QB.
    destruct (o3_of opA opB a b).
    - exists (map (fun p => (snd p, fst p)) (positions R m)). split; [|rewrite zlen_map; exact PL]. split.
      + apply FinFun.Injective_map_NoDup; auto. intros (x, y) (x', y') E. cbn in E. congruence.
      + intros i j. rewrite in_map_iff. split.
        * intros ((x, y) & E & I). cbn in E. injection E as -> ->. apply PI in I. destruct I as (Hi & Hj & l & Hl & S1 & S2). split; [lia|]. split; [lia|]. exists l. split; [lia|].
          split; [apply QA; try lia; apply SQ; auto|apply QB; try lia; apply SP; auto].
        * intros (Hi & Hj & q & Hq & S1 & S2). exists (j, i). split; auto. apply PI. split; [lia|]. split; [lia|]. exists q. split; [lia|]. apply QA in S1; try lia. apply QB in S2; try lia.
          split; [apply SP; auto; lia|apply SQ; auto; lia].
    - exists (positions R m). split; [|exact PL]. split; auto. intros i j. rewrite PI. split.
      + intros (Hi & Hj & l & Hl & S1 & S2). split; [lia|]. split; [lia|]. exists l. split; [lia|]. split; [apply QA; try lia; apply SP; auto|apply QB; try lia; apply SQ; auto].
      + intros (Hi & Hj & q & Hq & S1 & S2). split; [lia|]. split; [lia|]. exists q. split; [lia|]. apply QA in S1; try lia. apply QB in S2; try lia. split; [apply SP; auto; lia|apply SQ; auto; lia].
  Qed.

  Lemma holds_eq : forall (X : hnd T) x y, holds X x -> holds X y -> x = y.
  Proof. intros X x y (_ & r & E) (_ & r' & E'). congruence. Qed.
  (** The other handle of the same structure. *)
  Lemma same_pre : forall A B a b A' B', sp2m_pre opA opB dA dB A B a b -> same_structure A A' -> same_structure B B' ->
    exists a' b', sp2m_pre opA opB dA dB A' B' a' b' /\ trivial opA opB A' B' = trivial opA opB A B /\ rows_of opA A' = rows_of opA A /\ cols_of opA A' = cols_of opA A /\ cols_of opB B' = cols_of opB B /\
      c_b a' = c_b a /\ c_b b' = c_b b /\ o3_of opA opB a' b' = o3_of opA opB a b /\ (forall i j, pos opA a' i j = pos opA a i j) /\ (forall i j, pos opB b' i j = pos opB b i j).
  Proof.
    intros A B a b A' B' [HA HB OA OB TA TB bA bB Dim] (A1 & A2 & A3 & x & x' & Hx & Hx' & X1 & X2 & X3 & X4 & X5 & X6) (B1 & B2 & B3 & y & y' & Hy & Hy' & Y1 & Y2 & Y3 & Y4 & Y5 & Y6).
    pose proof (holds_eq _ _ _ HA Hx). subst x. pose proof (holds_eq _ _ _ HB Hy). subst y. exists x', y'.
    assert (R1 : rows_of opA A' = rows_of opA A) by (unfold rows_of; now rewrite A1, A2). assert (R2 : cols_of opA A' = cols_of opA A) by (unfold cols_of; now rewrite A1, A2).
    assert (R3 : cols_of opB B' = cols_of opB B) by (unfold cols_of; now rewrite B1, B2). assert (R4 : rows_of opB B' = rows_of opB B) by (unfold rows_of; now rewrite B1, B2).
    split; [constructor; auto; congruence|]. split; [unfold trivial; now rewrite R1, R2, R3, A3, B3|]. ands; auto.
    - unfold o3_of. now rewrite X1, Y1.
    - intros. unfold pos. now rewrite X1, X4, X5, X6.
    - intros. unfold pos. now rewrite Y1, Y4, Y5, Y6.
  Qed.
  Lemma same_room : forall A B a b A' B' a' b' cP cQ m kk n bP bQ nP nQ Pptr Pind Pval Qptr Qind Qval cP' cQ' m' kk' n' bP' bQ' nP' nQ' Pptr' Pind' Pval' Qptr' Qind' Qval' o3,
    rows_of opA A' = rows_of opA A -> cols_of opA A' = cols_of opA A -> cols_of opB B' = cols_of opB B -> c_b a' = c_b a -> c_b b' = c_b b -> o3_of opA opB a' b' = o3_of opA opB a b ->
    (forall i j, pos opA a' i j = pos opA a i j) -> (forall i j, pos opB b' i j = pos opB b i j) ->
    plan A B a b cP cQ m kk n bP bQ nP nQ Pptr Pind Pval Qptr Qind Qval -> plan A' B' a' b' cP' cQ' m' kk' n' bP' bQ' nP' nQ' Pptr' Pind' Pval' Qptr' Qind' Qval' ->
    forall C, room O cP cQ m n bP bQ Pptr Pind Pval Qptr Qind Qval o3 C <-> room O cP' cQ' m' n' bP' bQ' Pptr' Pind' Pval' Qptr' Qind' Qval' o3 C.
  Proof.
    intros A B a b A' B' a' b' cP cQ m kk n bP bQ nP nQ Pptr Pind Pval Qptr Qind Qval cP' cQ' m' kk' n' bP' bQ' nP' nQ' Pptr' Pind' Pval' Qptr' Qind' Qval' o3 R1 R2 R3 B1 B2 O3 PA PB
      [Em En Ek EbP EbQ WP WQ LP LQ Hb SP SQ F] [Em' En' Ek' EbP' EbQ' WP' WQ' LP' LQ' Hb' SP' SQ' F'] C.
    rewrite O3, ?R1, ?R2, ?R3, ?B1, ?B2 in *. assert (m' = m) by congruence. assert (n' = n) by congruence. assert (kk' = kk) by congruence. assert (bP' = bP) by congruence. assert (bQ' = bQ) by congruence.
    clear Em En Ek EbP EbQ Em' En' Ek' EbP' EbQ'. subst m' n' kk' bP' bQ'. pose proof (wf_m _ _ _ _ _ _ WP) as Hm.
    assert (E : forall i, 0 <= i <= m -> off O cP cQ bP bQ Pptr Pind Pval Qptr Qind Qval i = off O cP' cQ' bP bQ Pptr' Pind' Pval' Qptr' Qind' Qval' i).
    { apply offs_ext. apply (prow_len T O m kk n cP cQ bP bQ nP nQ Pptr Pind Pval Qptr Qind Qval cP' cQ' nP' nQ'); auto.
      - intros i j Hi Hj. rewrite SP, SP' by auto. rewrite PA, PB. reflexivity.
      - intros i j Hi Hj. rewrite SQ, SQ' by auto. rewrite PA, PB. reflexivity. }
    split; apply room_ext; auto. intros i Hi. symmetry. auto.
  Qed.
  Lemma plan_final : forall (e : call_env T) A B a b cP cQ m kk n bP bQ nP nQ Pptr Pind Pval Qptr Qind Qval C, call_ok e ->
    plan A B a b cP cQ m kk n bP bQ nP nQ Pptr Pind Pval Qptr Qind Qval -> room O cP cQ m n bP bQ Pptr Pind Pval Qptr Qind Qval (o3_of opA opB a b) C ->
    exists C', finalize O (e_tf e) m n cP cQ bP bQ Pptr Pind Pval Qptr Qind Qval (Some C) (opf opA opB a b) = Some (success, Some C') /\
      room O cP cQ m n bP bQ Pptr Pind Pval Qptr Qind Qval (o3_of opA opB a b) C' /\
      product_handle O (rows_of opA A) (cols_of opB B) (mat_prod O opA opB (cols_of opA A) a b) C'.
  Proof.
    intros e A B a b cP cQ m kk n bP bQ nP nQ Pptr Pind Pval Qptr Qind Qval C (_ & _ & _ & Tf) [Em En Ek EbP EbQ WP WQ LP LQ Hb SP SQ F] R. rewrite <- opf3 in *.
    destruct (final_stage O L cP cQ m kk n bP bQ nP nQ Pptr Pind Pval Qptr Qind Qval WP WQ LP LQ Hb (e_tf e) (opf opA opB a b) C Tf R) as (C' & E & R' & PH). exists C'. split; auto. split; auto. rewrite opf3 in *.
    assert (PX : forall M N G H, (forall i j, 0 <= i < M -> 0 <= j < N -> G i j = H i j) -> product_handle O M N G C' -> product_handle O M N H C').
    { intros M N G H EG (P1 & P2 & P3 & P4 & P5). split; auto. split; auto. split; auto. split; auto. eapply Forall_impl; [|exact P5]. intros x (c & Q1 & Q2 & Q3 & Q4 & Q5). exists c. ands; auto.
      intros i j Hi Hj. rewrite Q5 by auto. auto. }
    subst kk. destruct (o3_of opA opB a b); rewrite <- Em, <- En; (eapply PX; [|exact PH]); intros i j Hi Hj; unfold mT; auto.
  Qed.
  Lemma room_nnz : forall cP cQ m n bP bQ Pptr Pind (Pval : list T) Qptr Qind (Qval : list T) o3 C, room O cP cQ m n bP bQ Pptr Pind Pval Qptr Qind Qval o3 C -> H_nnz C = off O cP cQ bP bQ Pptr Pind Pval Qptr Qind Qval m.
  Proof. intros until C. unfold room. destruct o3; [intros (c & p & i & v & _ & -> & _); reflexivity|intros (c & _ & ->); reflexivity]. Qed.

  (** ** Nothing to multiply *)
  Lemma trivial_none : forall A B a b, sp2m_pre opA opB dA dB A B a b -> trivial opA opB A B = true ->
    (forall i j, 0 <= i < rows_of opA A -> 0 <= j < cols_of opB B -> mat_prod O opA opB (cols_of opA A) a b i j = o0 O) /\ structure_list opA opB A B a b [].
  Proof.
    intros A B a b [HA HB OA OB TA TB bA bB Dim] Tr.
    pose proof (fun i j => pos_stored opA A a i j HA OA) as QA. pose proof (fun i j => pos_stored opB B b i j HB OB) as QB.
    pose proof (dims_of opA A a HA OA) as (RA & CA). pose proof (dims_of opB B b HB OB) as (RB & CB).
    destruct HA as (((WA & _ & LA & BA) & NA & _ & _ & DA) & _). destruct HB as (((WB & _ & LB & BB) & NB & _ & _ & DB) & _).
    assert (DA' : c_doid a = gn \/ c_doid a = gt) by intuition. assert (DB' : c_doid b = gn \/ c_doid b = gt) by intuition. clear DA DB.
    assert (ZX : forall op (x : cmat T), c_nnz x = 0 -> csr_wf (c_m x) (c_n x) (c_nnz x) (c_b x) (c_ptr x) (c_ind x) -> zlen (c_val x) = c_nnz x -> (c_doid x = gn \/ c_doid x = gt) -> valid_op op = true ->
      forall i j, 0 <= i < (if swp op (c_doid x) then c_n x else c_m x) -> 0 <= j < (if swp op (c_doid x) then c_m x else c_n x) -> op_sem O op (hnd_mat O x) i j = o0 O /\ ~ pos op x i j).
    { intros op x Z W Lv Hd Ho i j Hi Hj. rewrite <- sem_of by auto. unfold pos. rewrite Z in W, Lv. unfold csr_mat.
      destruct (swp op (c_doid x)); rewrite (stored_ents T (c_m x) (c_n x) 0 (c_b x) _ _ (c_val x)) by auto; rewrite (empty_ents T (c_m x) (c_n x)) by auto;
        (split; [cbn; apply (additive_0 O L _ (additive_cjh O L (cjf is_real op)))|congruence]). }
    unfold trivial in Tr. split.
    - intros i j Hi Hj. unfold mat_prod. apply (sumz_zero O L). intros l Hl. rewrite RA, RB, CA, CB in *.
      destruct (Z.eq_dec (c_nnz a) 0) as [Za|].
      + rewrite (proj1 (ZX opA a Za WA LA DA' OA i l Hi Hl)). ring.
      + destruct (Z.eq_dec (c_nnz b) 0) as [Zb|]; [|lia]. rewrite (proj1 (ZX opB b Zb WB LB DB' OB l j ltac:(lia) Hj)). ring.
    - split; [constructor|]. intros i j. split; [intros []|]. intros (Hi & Hj & q & Hq & S1 & S2). apply QA in S1; auto; try lia. apply QB in S2; auto; try lia. rewrite RA, RB, CA, CB in *.
      destruct (Z.eq_dec (c_nnz a) 0) as [Za|].
      + exact (proj2 (ZX opA a Za WA LA DA' OA i q Hi Hq) S1).
      + destruct (Z.eq_dec (c_nnz b) 0) as [Zb|]; [|lia]. exact (proj2 (ZX opB b Zb WB LB DB' OB q j ltac:(lia) Hj) S2).
  Qed.
  Lemma empty_handle : forall (e : call_env T) m n ptr, call_ok e -> 0 <= m -> 0 <= n -> fill_range 0 (m + 1) 0 (e_fz e (m + 1)) = Some ptr ->
    product_handle O m n (fun _ _ => o0 O) (mkHnd m n 0 [Some (mk_csr m n 0 gn ptr (e_fz e 0) (e_ft e 0))] unknown_sort false false false []).
  Proof.
    intros e m n ptr (Hz & Ht & _ & _) Hm Hn E. pose proof (Hz (m + 1) ltac:(lia)) as L1. destruct (fill_range_ok _ 0 0 (m + 1) 0 (e_fz e (m + 1))) as (p & Ep & Lp & Hp); try lia. rewrite E in Ep. injection Ep as <-.
    pose proof (Hz 0 ltac:(lia)) as L2. pose proof (Ht 0 ltac:(lia)) as L3.
    assert (W : csr_wf m n 0 0 ptr (e_fz e 0)).
    { assert (PZ : forall i, 0 <= i <= m -> zn ptr i = 0) by (intros i Hi; rewrite Hp by lia; replace ((0 <=? i) && (i <? m + 1)) with true by lia; reflexivity).
      constructor; try lia; try (intros k Hk; lia). 1: unfold lens_ok; lia. split; [rewrite PZ by lia; reflexivity|]. split; [rewrite PZ by lia; reflexivity|]. intros i Hi. rewrite !PZ by lia. lia. }
    assert (D : rows_distinct m 0 ptr (e_fz e 0)).
    { intros i k k' Hi K. pose proof (in_row_range _ _ _ _ (wf_ptr _ _ _ _ _ _ W) i k Hi K). lia. }
    split; [reflexivity|]. split; [reflexivity|]. split; [do 2 eexists; reflexivity|]. split; [eexists; split; [left; reflexivity|reflexivity]|].
    apply Forall_cons; [|constructor]. eexists. split; [reflexivity|]. split; [|split; [reflexivity|split; [exact D|]]].
    - unfold user_mat, arrays_ok; cbn; ands; auto using distinct_unique.
    - intros i j Hi Hj. unfold hnd_mat, stored_as. cbn. unfold csr_mat. rewrite (empty_ents T m n) by auto. reflexivity.
  Qed.
  Lemma product_ext : forall M N G H C, (forall i j, 0 <= i < M -> 0 <= j < N -> G i j = H i j) -> product_handle O M N G C -> product_handle O M N H C.
  Proof.
    intros M N G H C EG (P1 & P2 & P3 & P4 & P5). split; auto. split; auto. split; auto. split; auto. eapply Forall_impl; [|exact P5]. intros x (c & Q1 & Q2 & Q3 & Q4 & Q5). exists c. ands; auto.
    intros i j Hi Hj. rewrite Q5 by auto. auto.
  Qed.
  Lemma dims_pos : forall (A B : hnd T) a b, sp2m_pre opA opB dA dB A B a b -> 0 <= rows_of opA A /\ 0 <= cols_of opB B.
  Proof.
    intros A B a b [HA HB OA OB TA TB bA bB Dim]. pose proof (dims_of opA A a HA OA) as (RA & CA). pose proof (dims_of opB B b HB OB) as (RB & CB).
    destruct HA as (((WA & _) & _) & _). destruct HB as (((WB & _) & _) & _). rewrite RA, CB. pose proof (wf_m _ _ _ _ _ _ WA). pose proof (wf_n _ _ _ _ _ _ WA). pose proof (wf_m _ _ _ _ _ _ WB). pose proof (wf_n _ _ _ _ _ _ WB).
    destruct (swp opA (c_doid a)), (swp opB (c_doid b)); lia.
  Qed.
  Lemma trivial_run : forall (e : call_env T) imax (A B : hnd T) a b rq C0, call_ok e -> sp2m_pre opA opB dA dB A B a b -> trivial opA opB A B = true ->
    exists C, sp2m O is_real (e_fz e) (e_ft e) imax (e_tc e) (e_tf e) opA (Some dA) (Some A) opB (Some dB) (Some B) rq (Some C0) = Some (success, Some C) /\
      (rq = rq_finalize /\ C0 = Some C \/ H_nnz C = 0 /\ product_handle O (rows_of opA A) (cols_of opB B) (mat_prod O opA opB (cols_of opA A) a b) C).
  Proof.
    intros e imax A B a b rq C0 He PRE Tr. pose proof PRE as [HA HB OA OB TA TB bA bB Dim]. destruct (dims_pos A B a b PRE) as (Hr & Hc). pose proof He as (Hz & Ht & _ & _).
    destruct (operand (e_fz e) (e_ft e) opA A a Hz Ht HA OA) as (a' & EA & _). destruct (operand (e_fz e) (e_ft e) opB B b Hz Ht HB OB) as (b' & EB & _).
    rewrite (sp2m_steps (e_fz e) (e_ft e) imax (e_tc e) (e_tf e) opA opB dA dB A B a b a' b' rq C0 PRE EA EB). rewrite Tr. cbv zeta.
    assert (Em : exists C, match fill_range 0 (rows_of opA A + 1) 0 (e_fz e (rows_of opA A + 1)) with
            | Some ptr => Some (success, Some (mkHnd (rows_of opA A) (cols_of opB B) 0 [Some (mk_csr (rows_of opA A) (cols_of opB B) 0 gn ptr (e_fz e 0) (e_ft e 0))] unknown_sort false false false []))
            | None => None end = Some (success, Some C) /\ H_nnz C = 0 /\ product_handle O (rows_of opA A) (cols_of opB B) (mat_prod O opA opB (cols_of opA A) a b) C).
    { pose proof (Hz (rows_of opA A + 1) ltac:(lia)) as L1. destruct (fill_range_ok _ 0 0 (rows_of opA A + 1) 0 (e_fz e (rows_of opA A + 1))) as (p & Ep & _ & _); try lia. rewrite Ep. eexists. split; [reflexivity|]. split; [reflexivity|].
      eapply product_ext; [|eapply empty_handle; eauto]. intros i j Hi Hj. symmetry. now apply (proj1 (trivial_none A B a b PRE Tr)). }
    destruct Em as (C & EC & PC). rewrite EC. destruct rq; try (exists C; split; [reflexivity|right; exact PC]). destruct C0 as [C0|]; [exists C0; split; [reflexivity|left; auto]|exists C; split; [reflexivity|right; exact PC]].
  Qed.

  (** ** The life of an output handle *)
  Lemma output_room : forall imax (A B : hnd T) a b C, sp2m_pre opA opB dA dB A B a b -> trivial opA opB A B = false -> output_of O is_real imax opA opB dA dB A B C ->
    exists cP cQ m kk n bP bQ nP nQ Pptr Pind Pval Qptr Qind Qval, plan A B a b cP cQ m kk n bP bQ nP nQ Pptr Pind Pval Qptr Qind Qval /\
      room O cP cQ m n bP bQ Pptr Pind Pval Qptr Qind Qval (o3_of opA opB a b) C.
  Proof.
    intros imax A B a b C PRE Tr HO. induction HO as [e rq C0 C He Hrq E|e C A' B' C' st HO IH He SA SB E].
    - destruct (plan_ok e imax A B a b He PRE Tr) as (cP & cQ & m & kk & n & bP & bQ & nP & nQ & Pptr & Pind & Pval & Qptr & Qind & Qval & PL & SP). rewrite SP in E. cbv beta iota zeta in E.
      exists cP, cQ, m, kk, n, bP, bQ, nP, nQ, Pptr, Pind, Pval, Qptr, Qind, Qval. split; auto. pose proof He as (Hz & Ht & Tc & Tf).
      destruct (count_stage O cP cQ m kk n bP bQ nP nQ Pptr Pind Pval Qptr Qind Qval (pl_P _ _ _ _ _ _ _ _ _ _ _ _ _ _ _ _ _ _ _ PL) (pl_Q _ _ _ _ _ _ _ _ _ _ _ _ _ _ _ _ _ _ _ PL) (pl_b _ _ _ _ _ _ _ _ _ _ _ _ _ _ _ _ _ _ _ PL) (e_fz e) (e_ft e) imax (e_tc e) (opf opA opB a b) Hz Ht Tc) as [(_ & EC)|(C1 & _ & EC & R)]; rewrite EC in E.
      + destruct Hrq as [-> | ->]; discriminate.
      + rewrite opf3 in R. destruct Hrq as [-> | ->]; [injection E as <-; auto|].
        destruct (plan_final e A B a b cP cQ m kk n bP bQ nP nQ Pptr Pind Pval Qptr Qind Qval C1 He PL R) as (C2 & EF & R2 & _). rewrite EF in E. injection E as <-. auto.
    - destruct IH as (cP & cQ & m & kk & n & bP & bQ & nP & nQ & Pptr & Pind & Pval & Qptr & Qind & Qval & PL & R).
      destruct (same_pre A B a b A' B' PRE SA SB) as (a' & b' & PRE' & Tr' & R1 & R2 & R3 & B1 & B2 & O3 & PA & PB). rewrite Tr in Tr'.
      destruct (plan_ok e imax A' B' a' b' He PRE' Tr') as (cP' & cQ' & m' & kk' & n' & bP' & bQ' & nP' & nQ' & Pptr' & Pind' & Pval' & Qptr' & Qind' & Qval' & PL' & SP). rewrite SP in E. cbv beta iota zeta in E.
      pose proof (same_room _ _ _ _ _ _ _ _ _ _ _ _ _ _ _ _ _ _ _ _ _ _ _ _ _ _ _ _ _ _ _ _ _ _ _ _ _ _ (o3_of opA opB a b) R1 R2 R3 B1 B2 O3 PA PB PL PL') as RR.
      apply RR in R. rewrite <- O3 in R. destruct (plan_final e A' B' a' b' _ _ _ _ _ _ _ _ _ _ _ _ _ _ _ C He PL' R) as (C2 & EF & R2' & _). rewrite EF in E. injection E as _ <-.
      exists cP, cQ, m, kk, n, bP, bQ, nP, nQ, Pptr, Pind, Pval, Qptr, Qind, Qval. split; auto. apply RR. rewrite <- O3. exact R2'.
  Qed.
  Lemma output_trivial : forall imax (A B : hnd T) a b C, sp2m_pre opA opB dA dB A B a b -> trivial opA opB A B = true -> output_of O is_real imax opA opB dA dB A B C ->
    H_nnz C = 0 /\ product_handle O (rows_of opA A) (cols_of opB B) (fun _ _ => o0 O) C.
  Proof.
    intros imax A B a b C PRE Tr HO. pose proof (proj1 (trivial_none A B a b PRE Tr)) as TN. induction HO as [e rq C0 C He Hrq E|e C A' B' C' st HO IH He SA SB E].
    - destruct (trivial_run e imax A B a b rq C0 He PRE Tr) as (C1 & E1 & H). rewrite E1 in E. injection E as <-. destruct H as [(X & _)|(H1 & H2)]; [destruct Hrq; congruence|]. split; auto.
      eapply product_ext; [|exact H2]. auto.
    - destruct (same_pre A B a b A' B' PRE SA SB) as (a' & b' & PRE' & Tr' & R1 & R2 & R3 & _). rewrite Tr in Tr'.
      destruct (trivial_run e imax A' B' a' b' rq_finalize (Some C) He PRE' Tr') as (C1 & E1 & H). rewrite E1 in E. injection E as _ <-. destruct H as [(_ & X)|(H1 & H2)]; [congruence|].
      split; auto. rewrite R1, R3 in H2. eapply product_ext; [|exact H2]. intros i j Hi Hj. apply (proj1 (trivial_none A' B' a' b' PRE' Tr')); lia.
  Qed.

  (** ** Results *)
  Lemma stage_run : forall (e : call_env T) imax (A B : hnd T) a b rq C0, call_ok e -> 0 <= imax -> sp2m_pre opA opB dA dB A B a b -> rq = rq_count \/ rq = rq_full ->
    exists l, structure_list opA opB A B a b l /\
      (imax < zlen l -> sp2m O is_real (e_fz e) (e_ft e) imax (e_tc e) (e_tf e) opA (Some dA) (Some A) opB (Some dB) (Some B) rq (Some C0) = Some (invalid_size, None)) /\
      (zlen l <= imax -> exists C, sp2m O is_real (e_fz e) (e_ft e) imax (e_tc e) (e_tf e) opA (Some dA) (Some A) opB (Some dB) (Some B) rq (Some C0) = Some (success, Some C) /\ H_nnz C = zlen l /\
         (rq = rq_full -> product_handle O (rows_of opA A) (cols_of opB B) (mat_prod O opA opB (cols_of opA A) a b) C)).
  Proof.
    intros e imax A B a b rq C0 He Hi PRE Hrq. destruct (trivial opA opB A B) eqn:Tr.
    - destruct (trivial_none A B a b PRE Tr) as (_ & SL). exists []. split; auto. change (zlen (@nil (Z * Z))) with 0. split; [lia|]. intros _.
      destruct (trivial_run e imax A B a b rq C0 He PRE Tr) as (C1 & E1 & H). exists C1. split; auto. destruct H as [(X & _)|(H1 & H2)]; [destruct Hrq; congruence|]. auto.
    - destruct (plan_ok e imax A B a b He PRE Tr) as (cP & cQ & m & kk & n & bP & bQ & nP & nQ & Pptr & Pind & Pval & Qptr & Qind & Qval & PL & SP).
      destruct (plan_structure A B a b _ _ _ _ _ _ _ _ _ _ _ _ _ _ _ PRE PL) as (l & SL & Ll). exists l. split; auto. rewrite Ll. rewrite SP. cbv beta iota zeta. pose proof He as (Hz & Ht & Tc & Tf).
      destruct (count_stage O cP cQ m kk n bP bQ nP nQ Pptr Pind Pval Qptr Qind Qval (pl_P _ _ _ _ _ _ _ _ _ _ _ _ _ _ _ _ _ _ _ PL) (pl_Q _ _ _ _ _ _ _ _ _ _ _ _ _ _ _ _ _ _ _ PL) (pl_b _ _ _ _ _ _ _ _ _ _ _ _ _ _ _ _ _ _ _ PL) (e_fz e) (e_ft e) imax (e_tc e) (opf opA opB a b) Hz Ht Tc) as [(Ov & EC)|(C1 & Ov & EC & R)]; rewrite EC.
      + split; [|lia]. intros _. destruct Hrq as [-> | ->]; reflexivity.
      + split; [lia|]. intros _. rewrite opf3 in R. destruct Hrq as [-> | ->].
        * exists C1. split; auto. split; [eapply room_nnz; eauto|congruence].
        * destruct (plan_final e A B a b cP cQ m kk n bP bQ nP nQ Pptr Pind Pval Qptr Qind Qval C1 He PL R) as (C2 & EF & R2 & PH). rewrite EF. exists C2. split; auto. split; auto. eapply room_nnz; eauto.
  Qed.

  Lemma final_run : forall (e : call_env T) imax (A B : hnd T) a b A' B' a' b' C, call_ok e -> sp2m_pre opA opB dA dB A B a b -> output_of O is_real imax opA opB dA dB A B C ->
    same_structure A A' -> same_structure B B' -> holds A' a' -> holds B' b' ->
    exists C', sp2m O is_real (e_fz e) (e_ft e) imax (e_tc e) (e_tf e) opA (Some dA) (Some A') opB (Some dB) (Some B') rq_finalize (Some (Some C)) = Some (success, Some C') /\ H_nnz C' = H_nnz C /\
      product_handle O (rows_of opA A') (cols_of opB B') (mat_prod O opA opB (cols_of opA A') a' b') C'.
  Proof.
    intros e imax A B a b A' B' a' b' C He PRE HO SA SB HA' HB'.
    destruct (same_pre A B a b A' B' PRE SA SB) as (a1 & b1 & PRE' & Tr' & R1 & R2 & R3 & B1 & B2 & O3 & PA & PB).
    pose proof (holds_eq _ _ _ HA' (sp_A _ _ _ _ _ _ _ _ PRE')). pose proof (holds_eq _ _ _ HB' (sp_B _ _ _ _ _ _ _ _ PRE')). subst a1 b1.
    destruct (trivial opA opB A B) eqn:Tr.
    - destruct (trivial_run e imax A' B' a' b' rq_finalize (Some C) He PRE' Tr') as (C1 & E1 & H). exists C1. split; auto.
      destruct (output_trivial imax A B a b C PRE Tr HO) as (N & PH). destruct H as [(_ & X)|(H1 & H2)]; [|split; [lia|auto]]. injection X as <-. split; auto. rewrite R1, R3.
      eapply product_ext; [|exact PH]. intros i j Hi Hj. symmetry. apply (proj1 (trivial_none A' B' a' b' PRE' Tr')); lia.
    - destruct (output_room imax A B a b C PRE Tr HO) as (cP & cQ & m & kk & n & bP & bQ & nP & nQ & Pptr & Pind & Pval & Qptr & Qind & Qval & PL & R).
      destruct (plan_ok e imax A' B' a' b' He PRE' Tr') as (cP' & cQ' & m' & kk' & n' & bP' & bQ' & nP' & nQ' & Pptr' & Pind' & Pval' & Qptr' & Qind' & Qval' & PL' & SP).
      pose proof (same_room _ _ _ _ _ _ _ _ _ _ _ _ _ _ _ _ _ _ _ _ _ _ _ _ _ _ _ _ _ _ _ _ _ _ _ _ _ _ (o3_of opA opB a b) R1 R2 R3 B1 B2 O3 PA PB PL PL') as RR.
      apply RR in R. rewrite <- O3 in R. destruct (plan_final e A' B' a' b' _ _ _ _ _ _ _ _ _ _ _ _ _ _ _ C He PL' R) as (C2 & EF & R2' & PH). exists C2. rewrite SP. cbv beta iota zeta. split; auto. split; auto.
      rewrite (room_nnz _ _ _ _ _ _ _ _ _ _ _ _ _ _ R2'). symmetry. eapply room_nnz; eauto.
  Qed.

  Lemma spmm_is : forall (e : call_env T) imax (A B : hnd T) a b C0, holds A a -> holds B b -> valid_op opA = true -> cols_of opA A = H_m B ->
    sp2m_pre opA op_none (mkDescr mt_general fm_lower dg_non_unit (c_b a)) (mkDescr mt_general fm_lower dg_non_unit (c_b b)) A B a b /\
    spmm O is_real (e_fz e) (e_ft e) imax (e_tc e) (e_tf e) opA (Some A) (Some B) (Some C0) =
    sp2m O is_real (e_fz e) (e_ft e) imax (e_tc e) (e_tf e) opA (Some (mkDescr mt_general fm_lower dg_non_unit (c_b a))) (Some A) op_none (Some (mkDescr mt_general fm_lower dg_non_unit (c_b b))) (Some B) rq_full (Some C0).
  Proof.
    intros e imax A B a b C0 HA HB Ho Hd. split; [constructor; auto|]. unfold spmm. destruct HA as (_ & ra & ->). destruct HB as (_ & rb & ->). reflexivity.
  Qed.
End H.
