From Coq Require Import ZArith List Bool Lia ZifyBool Ring Permutation.
From Verif Require Import Base BaseFacts Writes Algebra DoidModel DoidSpec Csr CsrFacts CheckModel SortSpec MvModel MvSpec MvFacts CsrmvModel HandleModel HandleSpec HandleFacts OptProof MvHandleProof
  TrsvModel TrsvSpec TrsvHandleProof ValueModel ValueSpec.
Import ListNotations.
Open Scope Z_scope.

Section P.
  Context {T : Type} (O : ops T).
  Local Notation zero := (o0 O).
  Local Notation tn := (nthZ zero).

  Lemma in_row_val : forall (u : cmat T) i k, arrays_ok u -> 0 <= i < c_m u -> in_row (c_ptr u) (c_b u) i k -> 0 <= k < c_nnz u /\ k < zlen (c_ind u) /\ zlen (c_val u) = c_nnz u.
  Proof.
    intros u i k (W & DU & Lv & Hb) Hi Hk. pose proof (in_row_range (c_m u) (c_nnz u) (c_b u) (c_ptr u) (wf_ptr _ _ _ _ _ _ W) i k Hi Hk).
    pose proof (wf_len _ _ _ _ _ _ W) as (LI1 & LI2). lia.
  Qed.

  Lemma set_csr_value_ok : forall (u : cmat T) row col v, arrays_ok u -> 0 <= row - c_b u < c_m u ->
    (exists k, in_row (c_ptr u) (c_b u) (row - c_b u) k /\ zn (c_ind u) k = col /\
       (forall k', in_row (c_ptr u) (c_b u) (row - c_b u) k' -> zn (c_ind u) k' = col -> k <= k') /\
       set_csr_value u row col v = Some (success, upd (c_val u) k v)) \/
    ((forall k, in_row (c_ptr u) (c_b u) (row - c_b u) k -> zn (c_ind u) k <> col) /\ set_csr_value u row col v = Some (invalid_index_value, c_val u)).
  Proof.
    intros u row col v AR Hr. pose proof AR as (W & DU & Lv & Hb). unfold set_csr_value.
    replace (negb ((c_b u =? 1) || (c_b u =? 0))) with false by lia.
    pose proof (wf_len _ _ _ _ _ _ W) as (LP1 & LP2).
    rewrite !(rd_nthZ _ 0) by lia. set (r := row - c_b u) in *.
    pose proof (ptr_mono (c_m u) (c_nnz u) (c_b u) (c_ptr u) (wf_ptr _ _ _ _ _ _ W) r (r + 1)) as MO.
    match goal with |- context [forc ?lo ?hi ?f ?s] =>
      destruct (forc_inv unit (list T) (fun e _ => forall k, lo <= k < e -> zn (c_ind u) k <> col) (fun _ => False)
        (fun val => exists k, in_row (c_ptr u) (c_b u) r k /\ zn (c_ind u) k = col /\ (forall k', in_row (c_ptr u) (c_b u) r k' -> zn (c_ind u) k' = col -> k <= k') /\ val = upd (c_val u) k v) lo hi f s)
      as [(s' & E & [R|[]])|(val & E & R)] end.
    - lia.
    - intros k Hk. lia.
    - intros i s Hi P. assert (IR : in_row (c_ptr u) (c_b u) r i) by (unfold in_row; lia). pose proof (in_row_val u r i AR ltac:(lia) IR) as (Hi1 & Hi2 & Hi3).
      rewrite (rd_nthZ _ 0) by lia. destruct (Z.eqb_spec (zn (c_ind u) i) col) as [Eq|Ne].
      + rewrite wr_upd by lia. right; right. eexists. split; [reflexivity|]. exists i. ands; auto. intros k' Hk' Ek'. destruct (Z.le_gt_cases i k'); auto. exfalso. apply (P k'); auto. unfold in_row in Hk'. lia.
      + left. eexists. split; [reflexivity|]. intros k Hk. destruct (Z.eq_dec k i) as [->|]; auto. apply P. lia.
    - rewrite E. right. split; auto.
    - rewrite E. left. destruct R as (k & R1 & R2 & R3 & ->). exists k. ands; auto.
  Qed.

  Lemma set_coo_value_ok : forall nnz rows cols (val : list T) ri ci v, 0 <= nnz -> zlen rows = nnz -> zlen cols = nnz -> zlen val = nnz ->
    (exists k, 0 <= k < nnz /\ zn rows k = ri /\ zn cols k = ci /\ (forall k', 0 <= k' < k -> ~ (zn rows k' = ri /\ zn cols k' = ci)) /\
       set_coo_value nnz rows cols val ri ci v = Some (success, upd val k v)) \/
    ((forall k, 0 <= k < nnz -> ~ (zn rows k = ri /\ zn cols k = ci)) /\ set_coo_value nnz rows cols val ri ci v = Some (invalid_index_value, val)).
  Proof.
    intros nnz rows cols val ri ci v H0 Lr Lc Lv. unfold set_coo_value.
    match goal with |- context [forc ?lo ?hi ?f ?s] =>
      destruct (forc_inv unit (list T) (fun e _ => forall k, 0 <= k < e -> ~ (zn rows k = ri /\ zn cols k = ci)) (fun _ => False)
        (fun x => exists k, 0 <= k < nnz /\ zn rows k = ri /\ zn cols k = ci /\ (forall k', 0 <= k' < k -> ~ (zn rows k' = ri /\ zn cols k' = ci)) /\ x = upd val k v) lo hi f s)
      as [(s' & E & [R|[]])|(x & E & R)] end.
    - lia.
    - intros k Hk. lia.
    - intros i s Hi P. rewrite (rd_nthZ _ 0) by lia. destruct (Z.eqb_spec (zn rows i) ri) as [Eq|Ne].
      + rewrite (rd_nthZ _ 0) by lia. destruct (Z.eqb_spec (zn cols i) ci) as [Eq2|Ne2].
        * rewrite wr_upd by lia. right; right. eexists. split; [reflexivity|]. exists i. ands; auto; lia.
        * left. exists s. split; [reflexivity|]. intros k Hk. destruct (Z.eq_dec k i) as [->|]; [tauto|]. apply P. lia.
      + left. exists s. split; [reflexivity|]. intros k Hk. destruct (Z.eq_dec k i) as [->|]; [tauto|]. apply P. lia.
    - rewrite E. right. split; auto.
    - rewrite E. left. destruct R as (k & R1 & R2 & R3 & R4 & ->). exists k. split; [exact R1|]. ands; auto.
  Qed.

  Lemma update_loop : forall (val nv : list T), zlen val = zlen nv ->
    for_ 0 (zlen val) (fun i nv => let* v := rd val i in wr nv i v) nv = Some val.
  Proof.
    intros val nv Lv.
    match goal with |- context [for_ ?lo ?hi ?f ?s] => destruct (for_inv _ (fun e z => zlen z = zlen val /\ forall i, 0 <= i < e -> tn z i = tn val i) lo hi f s ltac:(pose proof (zlen_nonneg _ val); lia)) as (z & Ez & R1 & R2) end.
    - split; [lia|]. intros; lia.
    - intros i z Hi (R1 & R2). rewrite (rd_nthZ _ zero) by lia. rewrite wr_upd by lia. eexists. split; [reflexivity|]. split; [now rewrite zlen_upd|].
      intros k Hk. rewrite nthZ_upd by lia. destruct (Z.eqb_spec k i) as [->|]; auto. apply R2; lia.
    - rewrite Ez. f_equal. apply (nthZ_ext _ zero); auto. intros i Hi. apply R2. lia.
  Qed.

  (** ** Null slots *)
  Definition some_slot (e : option (cmat T)) : bool := match e with Some _ => true | None => false end.
  Definition strip (h : hnd T) : hnd T := set_mats h (filter some_slot (H_mats h)).

  Lemma first_opt_strip : forall (l : list (option (cmat T))) i j,
    match first_opt l i with
    | None => first_opt (filter some_slot l) j = None
    | Some (p, c) => i <= p /\ rd l (p - i) = Some (Some c) /\ exists q, first_opt (filter some_slot l) j = Some (q, c) /\ j <= q /\ rd (filter some_slot l) (q - j) = Some (Some c)
    end.
  Proof.
    assert (RC : forall A (e : A) l k, 0 <= k -> rd (e :: l) (k + 1) = rd l k).
    { intros A e l k Hk. unfold rd. replace (k + 1 <? 0) with false by lia. replace (k <? 0) with false by lia. replace (Z.to_nat (k + 1)) with (S (Z.to_nat k)) by lia. reflexivity. }
    induction l as [|[c|] l IH]; intros i j; cbn [first_opt filter some_slot].
    - reflexivity.
    - destruct (c_opt c) eqn:Ec.
      + replace (i - i) with 0 by lia. split; [lia|split; [reflexivity|]]. exists j. replace (j - j) with 0 by lia. split; [reflexivity|split; [lia|reflexivity]].
      + specialize (IH (i + 1) (j + 1)). destruct (first_opt l (i + 1)) as [(p, c')|]; auto.
        destruct IH as (K1 & K2 & q & K3 & K4 & K5). split; [lia|]. split; [replace (p - i) with ((p - (i + 1)) + 1) by lia; rewrite RC by lia; auto|].
        exists q. split; auto. split; [lia|]. replace (q - j) with ((q - (j + 1)) + 1) by lia. rewrite RC by lia. auto.
    - specialize (IH (i + 1) j). destruct (first_opt l (i + 1)) as [(p, c')|]; auto.
      destruct IH as (K1 & K2 & q & K3 & K4 & K5). split; [lia|]. split; [replace (p - i) with ((p - (i + 1)) + 1) by lia; rewrite RC by lia; auto|].
      exists q. auto.
  Qed.

  Variable srt : (Z -> Z -> bool) -> list Z -> list Z.
  Variables (fz : Z -> list Z) (ft : Z -> list T).

  Lemma opt_strip : forall h u rest, H_mats h = Some u :: rest ->
    match csr_csc_optimize O srt fz ft (strip h) with
    | None => csr_csc_optimize O srt fz ft h = None
    | Some (st, hs, r) => exists h' r' u' rest', csr_csc_optimize O srt fz ft h = Some (st, h', r') /\ hs = strip h' /\ H_mats h' = Some u' :: rest' /\
        match r, r' with None, None => True | Some i, Some i' => rd (H_mats hs) i = rd (H_mats h') i' | _, _ => False end
    end.
  Proof.
    intros h u rest EM. unfold csr_csc_optimize. assert (ES : H_mats (strip h) = Some u :: filter some_slot rest) by (unfold strip; cbn [set_mats H_mats]; rewrite EM; reflexivity).
    rewrite ES, EM. pose proof (first_opt_strip (Some u :: rest) 0 0) as FS. cbn [filter some_slot] in FS.
    destruct (first_opt (Some u :: rest) 0) as [(p, c)|] eqn:Ef.
    - destruct FS as (K1 & K2 & q & K3 & K4 & K5). rewrite K3. exists h, (Some p), u, rest. split; auto. split; auto. split; auto. rewrite Z.sub_0_r in K2, K5. rewrite ES, EM, K5. auto.
    - rewrite FS. cbn [first_csr]. destruct (negb ((c_b u =? 0) || (c_b u =? 1))); [exists h, None, u, rest; auto|].
      unfold optimize_slow. change (H_nnz (strip h)) with (H_nnz h).
      destruct (mat_check (c_m u) (c_n u) (H_nnz h) (Some (c_ptr u)) (Some (c_ind u)) false shape_general (c_b u) false) as [(st, [(so, fd)|])|]; auto.
      2: { destruct st; exists h, None, u, rest; auto. }
      destruct st; try (exists h, None, u, rest; auto; fail).
      destruct (check_sort_diag (c_m u) (c_n u) (c_b u) (Some (c_ptr u)) (Some (c_ind u))) as [((st, sorted), fulldiag)|]; auto.
      assert (SC : set_class (strip h) so fd = strip (set_class h so fd)) by reflexivity.
      destruct st; try (exists (set_class h so fd), None, u, rest; split; [reflexivity|split; [exact SC|split; [exact EM|exact I]]]).
      destruct (sorted && fulldiag).
      + destruct (csr_csc_indices (c_m u) (c_b u) (c_ptr u) (c_ind u) (fz (c_m u)) (fz (c_m u))) as [(idiag, iurow)|]; auto.
        eexists. exists (Some 0). exists (with_indices u idiag iurow), rest. split; [reflexivity|]. unfold strip, set_opt, set_mats, set_class. cbn [H_mats H_m H_n H_nnz H_sort H_full H_hints]. rewrite EM. cbn. auto.
      + change (H_nnz (set_class (strip h) so fd)) with (H_nnz h). change (H_nnz (set_class h so fd)) with (H_nnz h).
        destruct (build_copy O srt fz ft u (H_nnz h) sorted fulldiag) as [(st, [(c, fd2)|])|]; auto.
        * eexists. eexists. exists u, (rest ++ [Some c]). split; [reflexivity|]. unfold strip, set_opt, set_mats, set_class. cbn [H_mats H_m H_n H_nnz H_sort H_full H_hints]. rewrite EM.
          rewrite filter_app. cbn [filter some_slot app]. split; [reflexivity|]. split; [reflexivity|].
          assert (LST : forall (a : option (cmat T)) l e, rd ((a :: l) ++ [e]) (zlen (a :: l)) = Some e).
          { intros a l e. rewrite (rd_nthZ _ e). - rewrite nthZ_app2 by lia. rewrite Z.sub_diag. reflexivity. - rewrite zlen_app. pose proof (zlen_nonneg _ (a :: l)). cbn [zlen length] in *. unfold zlen at 2. cbn. lia. }
          change (Some u :: filter some_slot rest ++ [Some c]) with ((Some u :: filter some_slot rest) ++ [Some c]).
          change (Some u :: rest ++ [Some c]) with ((Some u :: rest) ++ [Some c]). now rewrite !LST.
        * exists (set_class h so fd), None, u, rest. split; [reflexivity|split; [exact SC|split; [exact EM|exact I]]].
  Qed.
End P.

(** ** The matrix after a change of one value *)
Section M.
  Context {T : Type} (O : ops T) (L : laws O).
  Let rth := l_ring L.
  Add Ring TrV : rth.
  Local Notation zero := (o0 O).

  Lemma ents_other : forall b ptr ind (val : list T) k v i j, 0 <= k < zlen val -> ~ (in_row ptr b i k /\ zn ind k = j + b) ->
    ents b ptr ind (upd val k v) i j = ents b ptr ind val i j.
  Proof.
    intros b ptr ind val k v i j Hk NO. unfold ents. apply flat_map_ext_in. intros q Hq. apply in_zrange in Hq.
    destruct (Z.eqb_spec (zn ind q) (j + b)) as [E|]; auto. destruct (Z.eq_dec q k) as [->|Nk]; [exfalso; apply NO; split; [exact Hq|auto]|].
    f_equal. destruct (Z.ltb_spec q 0); [unfold rd; now replace (q <? 0) with true by lia|].
    unfold rd. replace (q <? 0) with false by lia. destruct (Z.ltb_spec q (zlen val)).
    - pose proof (rd_nthZ _ zero (upd val k v) q) as R1. pose proof (rd_nthZ _ zero val q) as R2. unfold rd in R1, R2. replace (q <? 0) with false in R1, R2 by lia.
      rewrite R1, R2 by (rewrite ?zlen_upd; lia). rewrite nthZ_upd by lia. now replace (q =? k) with false by lia.
    - rewrite !(proj2 (nth_error_None _ _)); auto; [|pose proof (zlen_upd _ val k v) as LU]; unfold zlen in *; lia.
  Qed.

  Lemma ents_one : forall b ptr ind (val : list T) k i j, 0 <= k < zlen val -> in_row ptr b i k -> zn ind k = j + b ->
    (forall k', in_row ptr b i k' -> zn ind k' = j + b -> k' = k) -> ents b ptr ind val i j = [nthZ zero val k].
  Proof.
    intros b ptr ind val k i j Hk HR HJ HU. unfold in_row in HR. unfold ents.
    rewrite (zrange_app _ k) by lia. rewrite (zrange_first k) by lia. rewrite flat_map_app. cbn [flat_map].
    rewrite HJ, Z.eqb_refl. rewrite (rd_nthZ _ zero) by lia. cbn [olist].
    assert (Z1 : forall lo hi, (forall q, lo <= q < hi -> in_row ptr b i q /\ q <> k) -> flat_map (fun k0 => if zn ind k0 =? j + b then olist (rd val k0) else []) (zrange lo hi) = []).
    { intros lo hi HQ. apply flat_map_nil. intros q Hq. apply in_zrange in Hq. destruct (HQ q Hq) as (Q1 & Q2). destruct (Z.eqb_spec (zn ind q) (j + b)); auto. exfalso. apply Q2. now apply HU. }
    rewrite !Z1; [reflexivity| |]; intros q Hq; unfold in_row; lia.
  Qed.
End M.


(** ** aoclsparse_?set_value on one handle *)
Section S.
  Context {T : Type} (O : ops T) (L : laws O).
  Let rth := l_ring L.
  Add Ring TrS : rth.

  Lemma set_value_ok : forall (h : hnd T) u rest i j v, H_mats h = Some u :: rest -> user_mat h u ->
    0 <= i - c_b u < H_m h -> 0 <= j - c_b u < H_n h ->
    (exists k, stored_at u (i - c_b u) (j - c_b u) k /\ 0 <= k < zlen (c_val u) /\
       (forall k', stored_at u (i - c_b u) (j - c_b u) k' -> k <= k') /\
       set_value (Some h) i j v = Some (success, Some (set_mats h (Some (with_val u (upd (c_val u) k v)) :: map (fun _ => None) rest)))) \/
    (~ stored u (i - c_b u) (j - c_b u) /\ set_value (Some h) i j v = Some (invalid_index_value, Some h)).
  Proof.
    intros h u rest i j v EM (AR & U1 & U2 & U3 & U4) Hi Hj. unfold set_value. rewrite EM.
    replace ((H_m h + c_b u <=? i) || (i <? c_b u) || ((H_n h + c_b u <=? j) || (j <? c_b u))) with false by lia.
    set (R := if c_doid u =? gt then j else i). set (C := if c_doid u =? gt then i else j).
    replace (if c_doid u =? gt then set_csr_value u j i v else set_csr_value u i j v) with (set_csr_value u R C v) by (unfold R, C; destruct (c_doid u =? gt); reflexivity).
    assert (ST : forall k, stored_at u (i - c_b u) (j - c_b u) k <-> in_row (c_ptr u) (c_b u) (R - c_b u) k /\ zn (c_ind u) k = C).
    { intros k. unfold stored_at, R, C. destruct (c_doid u =? gt); split; intros (Q1 & Q2); (split; [exact Q1|lia]). }
    assert (HR : 0 <= R - c_b u < c_m u).
    { unfold R. destruct U4 as [(Q & Q1 & Q2)|(Q & Q1 & Q2)]; rewrite Q; [replace (gn =? gt) with false by reflexivity|rewrite Z.eqb_refl]; lia. }
    destruct (set_csr_value_ok u R C v AR HR) as [(k & K1 & K2 & K3 & K4)|(K1 & K2)].
    - left. exists k. rewrite K4. pose proof (in_row_val u _ k AR HR K1) as (B1 & B2 & B3).
      split; [apply ST; auto|]. split; [lia|]. split; [intros k' Hk'; apply ST in Hk'; apply K3; tauto|reflexivity].
    - right. rewrite K2. split; [|reflexivity]. intros (k & Hk). apply ST in Hk. destruct Hk as (Q1 & Q2). now apply (K1 k).
  Qed.

  Lemma set_value_range : forall (h : hnd T) u rest i j v, H_mats h = Some u :: rest ->
    ~ (0 <= i - c_b u < H_m h /\ 0 <= j - c_b u < H_n h) -> set_value (Some h) i j v = Some (invalid_value, Some h).
  Proof.
    intros h u rest i j v EM NR. unfold set_value. rewrite EM.
    now replace ((H_m h + c_b u <=? i) || (i <? c_b u) || ((H_n h + c_b u <=? j) || (j <? c_b u))) with true by lia.
  Qed.

  Lemma set_mat_entry : forall (h : hnd T) u i j k v, user_mat h u -> rows_distinct (c_m u) (c_b u) (c_ptr u) (c_ind u) ->
    0 <= i < H_m h -> 0 <= j < H_n h -> 0 <= k < zlen (c_val u) -> stored_at u i j k ->
    forall i' j', 0 <= i' < H_m h -> 0 <= j' < H_n h -> hnd_mat O (with_val u (upd (c_val u) k v)) i' j' = set_entry (hnd_mat O u) i j v i' j'.
  Proof.
    intros h u i j k v (AR & U1 & U2 & U3 & U4) DI Hi Hj Hk ST i' j' Hi' Hj'.
    assert (Z1 : forall r c, 0 <= r < c_m u -> in_row (c_ptr u) (c_b u) r k -> zn (c_ind u) k = c + c_b u ->
      forall r' c', 0 <= r' < c_m u -> csr_mat O (c_b u) (c_ptr u) (c_ind u) (upd (c_val u) k v) r' c' =
        if (r' =? r) && (c' =? c) then v else csr_mat O (c_b u) (c_ptr u) (c_ind u) (c_val u) r' c').
    { intros r c Hr K1 K2 r' c' Hr'. unfold csr_mat. destruct ((r' =? r) && (c' =? c)) eqn:E.
      - assert (r' = r) by lia. assert (c' = c) by lia. subst r' c'. assert (UQ : forall k', in_row (c_ptr u) (c_b u) r k' -> zn (c_ind u) k' = c + c_b u -> k' = k).
        { intros k' Q1 Q2. destruct (Z.eq_dec k' k) as [|Nk]; auto. exfalso. apply (DI r k' k Hr Q1 K1 Nk). congruence. }
        rewrite (ents_one O (c_b u) (c_ptr u) (c_ind u) (upd (c_val u) k v) k r c) by (try rewrite zlen_upd; auto).
        rewrite nthZ_upd by lia. rewrite Z.eqb_refl. unfold suml. cbn. ring.
      - rewrite (ents_other O) by (auto; intros (Q1 & Q2); pose proof AR as (W & _); pose proof (row_unique (c_m u) (c_nnz u) (c_b u) (c_ptr u) (wf_ptr _ _ _ _ _ _ W) r r' k Hr Hr' K1 Q1); lia). reflexivity. }
    unfold stored_at in ST. unfold hnd_mat, stored_as, set_entry. cbn [with_val c_doid c_b c_ptr c_ind c_val].
    destruct U4 as [(Q & Q1 & Q2)|(Q & Q1 & Q2)]; rewrite Q in *; [change (gn =? gt) with false in *|change (gt =? gt) with true in *]; cbv iota in *; destruct ST as (S1 & S2).
    - apply Z1; auto; lia.
    - unfold mT. rewrite (Z1 j i) by (auto; lia). now rewrite andb_comm.
  Qed.

  Lemma update_values_ok : forall (h : hnd T) u rest l, H_mats h = Some u :: rest -> user_mat h u ->
    update_values (Some h) (zlen l) (Some l) =
      if zlen l =? H_nnz h then Some (success, Some (set_mats h (Some (with_val u l) :: map (fun _ => None) rest))) else Some (invalid_size, Some h).
  Proof.
    intros h u rest l EM (AR & U1 & U2 & U3 & U4). pose proof AR as (W & DU & Lv & Hb). unfold update_values. rewrite EM.
    destruct (Z.eqb_spec (zlen l) (H_nnz h)); cbn [negb]; [|reflexivity].
    rewrite (update_loop O) by lia. reflexivity.
  Qed.
End S.
