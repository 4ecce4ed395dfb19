From Coq Require Import ZArith List Bool Lia ZifyBool Permutation.
From Verif Require Import Base BaseFacts DoidModel PermTac MemModel.
Import ListNotations.
Open Scope Z_scope.

Section P.
  Context {T : Type}.
  Notation blk := (blk T). Notation mem := (mem T). Notation heap := (heap T).
  Variable pick : Z -> heap -> option Z.
  Hypothesis Hpick : forall t h p, pick t h = Some p -> p <> 0 /\ h p = None.

  (** ** Heaps as lists of cells *)
  Definition st (s : mem) (K : list (Z * blk)) : Prop :=
    NoDup (map fst K) /\ hp s 0 = None /\ forall x b, hp s x = Some b <-> In (x, b) K.

  Lemma st_perm : forall s K K', st s K -> Permutation K K' -> st s K'.
  Proof.
    intros s K K' (N & Z0 & H) P. split; [|split; auto].
    - eapply Permutation_NoDup; [|exact N]. now apply Permutation_map.
    - intros x b. rewrite H. split; apply Permutation_in; auto. now symmetry.
  Qed.
  Lemma st_get : forall s K p b, st s K -> In (p, b) K -> hp s p = Some b.
  Proof. intros s K p b (_ & _ & H) I. now apply H. Qed.
  Lemma st_nz : forall s K p b, st s K -> In (p, b) K -> p <> 0.
  Proof. intros s K p b S I ->. pose proof (st_get _ _ _ _ S I). destruct S as (_ & Z0 & _). congruence. Qed.

  Lemma alloc_ok : forall b s K, st s K -> exists s',
    (alloc pick b s = (s', None) /\ st s' K) \/ (exists p, alloc pick b s = (s', Some p) /\ st s' ((p, b) :: K)).
  Proof.
    intros b s K (N & Z0 & H). unfold alloc. destruct (pick (tick s) (hp s)) as [p|] eqn:E; eexists; [right; exists p|left]; split; try reflexivity.
    - destruct (Hpick _ _ _ E) as (P1 & P2). assert (NI : ~ In p (map fst K)).
      { intros I. apply in_map_iff in I. destruct I as ((q, c) & Q1 & Q2). cbn in Q1. subst q. apply H in Q2. congruence. }
      split; [cbn; constructor; auto|]. cbn [hp]. unfold put. split; [replace (0 =? p) with false by lia; exact Z0|].
      intros x c. destruct (Z.eqb_spec x p) as [->|Ne]; cbn [In].
      + split; [intros Q; inversion Q; auto|intros [Q|Q]; [inversion Q; auto|]]. exfalso. apply NI. now apply (in_map fst) in Q.
      + rewrite H. split; [auto|intros [Q|Q]; auto]. inversion Q. congruence.
    - split; auto.
  Qed.
  Lemma delete_ok : forall p b s K, st s ((p, b) :: K) -> exists s', delete p s = Some s' /\ st s' K.
  Proof.
    intros p b s K S. pose proof (st_nz _ _ p b S (or_introl eq_refl)). pose proof (st_get _ _ p b S (or_introl eq_refl)) as G. destruct S as (N & Z0 & H0).
    unfold delete. replace (p =? 0) with false by lia. rewrite G. eexists. split; [reflexivity|]. cbn in N. inversion N as [|? ? NI N']; subst.
    split; auto. cbn [hp]. unfold put. split; [replace (0 =? p) with false by lia; exact Z0|].
    intros x c. destruct (Z.eqb_spec x p) as [->|Ne].
    - split; [discriminate|]. intros Q. exfalso. apply NI. now apply (in_map fst) in Q.
    - rewrite H0. cbn [In]. split; [intros [Q|Q]; auto; inversion Q; congruence|auto].
  Qed.
  Lemma store_ok : forall p b b' s K, st s ((p, b) :: K) -> exists s', store p b' s = Some s' /\ st s' ((p, b') :: K).
  Proof.
    intros p b b' s K S. pose proof (st_nz _ _ p b S (or_introl eq_refl)). pose proof (st_get _ _ p b S (or_introl eq_refl)) as G. destruct S as (N & Z0 & H0).
    unfold store. rewrite G. eexists. split; [reflexivity|]. cbn in N. inversion N as [|? ? NI N']; subst.
    split; [cbn; constructor; auto|]. cbn [hp]. unfold put. split; [replace (0 =? p) with false by lia; exact Z0|].
    intros x c. destruct (Z.eqb_spec x p) as [->|Ne]; cbn [In].
    - split; [intros Q; inversion Q; auto|intros [Q|Q]; [inversion Q; auto|]]. exfalso. apply NI. now apply (in_map fst) in Q.
    - rewrite H0. cbn [In]. split; intros [Q|Q]; auto; inversion Q; congruence.
  Qed.

  Definition cell (p : Z) (b : blk) : list (Z * blk) := if p =? 0 then [] else [(p, b)].
  Lemma cell0 : forall b, cell 0 b = []. Proof. reflexivity. Qed.
  Lemma cell1 : forall p b, p <> 0 -> cell p b = [(p, b)]. Proof. intros p b H. unfold cell. now replace (p =? 0) with false by lia. Qed.
  Lemma delete_cell : forall p b s K, st s (cell p b ++ K) -> exists s', delete p s = Some s' /\ st s' K.
  Proof.
    intros p b s K S. unfold cell in S. destruct (Z.eqb_spec p 0) as [->|]; [exists s; auto|]. now apply (delete_ok p b).
  Qed.

  (** ** csr objects *)
  Record acsr := mkAC { ac_p : Z; ac_c : csr_obj; ac_pi : list Z; ac_ii : list Z; ac_vi : list T; ac_di : list Z; ac_ui : list Z; ac_dv : list T }.
  Definition lay_csr (x : acsr) : list (Z * blk) :=
    let c := ac_c x in
    (ac_p x, B_csr c) :: (if o_internal c then cell (o_ptr c) (B_ints (ac_pi x)) ++ cell (o_ind c) (B_ints (ac_ii x)) ++ cell (o_val c) (B_vals (ac_vi x)) else [])
      ++ cell (o_idiag c) (B_ints (ac_di x)) ++ cell (o_iurow c) (B_ints (ac_ui x)) ++ cell (o_dval c) (B_vals (ac_dv x)).

  Lemma delete_csr_ok : forall x s K, st s (lay_csr x ++ K) -> exists s', delete_csr (ac_p x) s = Some s' /\ st s' K.
  Proof.
    intros x s K S. unfold delete_csr, get_csr. rewrite (st_get _ _ (ac_p x) (B_csr (ac_c x)) S) by (now left).
    unfold lay_csr in S. set (c := ac_c x) in *.
    assert (Q : exists s', (if o_internal c then let* s := delete (o_ptr c) s in let* s := delete (o_ind c) s in delete (o_val c) s else Some s) = Some s' /\
      st s' ((ac_p x, B_csr c) :: cell (o_idiag c) (B_ints (ac_di x)) ++ cell (o_iurow c) (B_ints (ac_ui x)) ++ cell (o_dval c) (B_vals (ac_dv x)) ++ K)).
    { destruct (o_internal c).
      - eapply st_perm in S; [|instantiate (1 := cell (o_ptr c) (B_ints (ac_pi x)) ++ cell (o_ind c) (B_ints (ac_ii x)) ++ cell (o_val c) (B_vals (ac_vi x)) ++
          (ac_p x, B_csr c) :: cell (o_idiag c) (B_ints (ac_di x)) ++ cell (o_iurow c) (B_ints (ac_ui x)) ++ cell (o_dval c) (B_vals (ac_dv x)) ++ K); perm_solve].
        apply delete_cell in S. destruct S as (s1 & -> & S). apply delete_cell in S. destruct S as (s2 & -> & S). apply delete_cell in S. destruct S as (s3 & -> & S). eauto.
      - exists s. split; auto. eapply st_perm; [exact S|]. perm_solve. }
    destruct Q as (s1 & -> & S1).
    eapply st_perm in S1; [|instantiate (1 := cell (o_idiag c) (B_ints (ac_di x)) ++ cell (o_iurow c) (B_ints (ac_ui x)) ++ cell (o_dval c) (B_vals (ac_dv x)) ++ (ac_p x, B_csr c) :: K); perm_solve].
    apply delete_cell in S1. destruct S1 as (s2 & -> & S1). apply delete_cell in S1. destruct S1 as (s3 & -> & S1). apply delete_cell in S1. destruct S1 as (s4 & -> & S1).
    now apply (delete_ok _ _) in S1.
  Qed.

  Lemma new_csr_ok : forall c0 pi ii vi s K, st s K -> o_internal c0 = true -> o_idiag c0 = 0 -> o_iurow c0 = 0 -> o_dval c0 = 0 ->
    exists s', (new_csr pick c0 pi ii vi s = Some (s', None) /\ st s' K) \/
      (exists q p i v, new_csr pick c0 pi ii vi s = Some (s', Some q) /\ st s' (lay_csr (mkAC q (with_arrays c0 p i v) pi ii vi [] [] []) ++ K) /\ p <> 0 /\
         (if o_nnz c0 <? 0 then i = 0 /\ v = 0 else i <> 0 /\ v <> 0)).
  Proof.
    intros c0 pi ii vi s K S HI H1 H2 H3. unfold new_csr.
    destruct (alloc_ok (B_csr c0) s K S) as (s1 & [(-> & S1)|(q & -> & S1)]); [eauto|].
    destruct ((o_m c0 <? 0) || (o_n c0 <? 0)).
    { apply delete_ok in S1. destruct S1 as (s2 & -> & S2). eauto. }
    destruct (alloc_ok (B_ints pi) s1 _ S1) as (s2 & [(-> & S2)|(p & -> & S2)]).
    { apply delete_ok in S2. destruct S2 as (s3 & -> & S3). eauto. }
    pose proof (st_nz _ _ p _ S2 (or_introl eq_refl)) as Np.
    destruct (o_nnz c0 <? 0).
    { eapply st_perm in S2; [|apply perm_swap]. apply (store_ok _ _ (B_csr (with_arrays c0 p 0 0))) in S2. destruct S2 as (s3 & -> & S3). eexists. right. exists q, p, 0, 0.
      split; [reflexivity|]. split; [|auto]. unfold lay_csr. cbn [ac_c ac_p ac_pi ac_ii ac_vi ac_di ac_ui ac_dv with_arrays o_internal o_ptr o_ind o_val o_idiag o_iurow o_dval].
      rewrite HI, H1, H2, H3, !cell0, (cell1 p) by auto. eapply st_perm; [exact S3|]. perm_solve. }
    destruct (alloc_ok (B_ints ii) s2 _ S2) as (s3 & [(-> & S3)|(i & -> & S3)]).
    { apply delete_ok in S3. destruct S3 as (s4 & -> & S4). apply delete_ok in S4. destruct S4 as (s5 & -> & S5). eauto. }
    pose proof (st_nz _ _ i _ S3 (or_introl eq_refl)) as Ni.
    destruct (alloc_ok (B_vals vi) s3 _ S3) as (s4 & [(-> & S4)|(v & -> & S4)]).
    { eapply st_perm in S4; [|apply perm_swap]. apply delete_ok in S4. destruct S4 as (s5 & -> & S5). apply delete_ok in S5. destruct S5 as (s6 & -> & S6). apply delete_ok in S6. destruct S6 as (s7 & -> & S7). eauto. }
    pose proof (st_nz _ _ v _ S4 (or_introl eq_refl)) as Nv.
    eapply st_perm in S4; [|instantiate (1 := (q, B_csr c0) :: (p, B_ints pi) :: (i, B_ints ii) :: (v, B_vals vi) :: K); perm_solve].
    apply (store_ok _ _ (B_csr (with_arrays c0 p i v))) in S4. destruct S4 as (s5 & -> & S5). eexists. right. exists q, p, i, v.
    split; [reflexivity|]. split; [|auto]. unfold lay_csr. cbn [ac_c ac_p ac_pi ac_ii ac_vi ac_di ac_ui ac_dv with_arrays o_internal o_ptr o_ind o_val o_idiag o_iurow o_dval].
    rewrite HI, H1, H2, H3, !cell0, (cell1 p), (cell1 i), (cell1 v) by auto. eapply st_perm; [exact S5|]. perm_solve.
  Qed.

  (** ** Handles *)
  Definition slot_addr (x : option acsr) : Z := match x with Some x => ac_p x | None => 0 end.
  Definition lay_slot (x : option acsr) : list (Z * blk) := match x with Some x => lay_csr x | None => [] end.
  Definition hd_addr (l : list (Z * Z * bool)) : Z := match l with (p, _, _) :: _ => p | [] => 0 end.
  Fixpoint lay_hints (l : list (Z * Z * bool)) : list (Z * blk) :=
    match l with [] => [] | (p, w, d) :: l => (p, B_hint (mkHN w d (hd_addr l))) :: lay_hints l end.
  Record amat := mkAM { am_p : Z; am_m : Z; am_n : Z; am_nnz : Z; am_first : acsr; am_rest : list (option acsr); am_hints : list (Z * Z * bool);
    am_lud : Z; am_ludv : list Z; am_luv : Z; am_luvv : list T; am_ready : bool }.
  Definition am_obj (A : amat) : mat_obj :=
    mkMO (am_m A) (am_n A) (am_nnz A) (ac_p (am_first A) :: map slot_addr (am_rest A)) (hd_addr (am_hints A)) (am_lud A) (am_luv A) (am_ready A).
  Definition lib (A : amat) : list (Z * blk) :=
    (am_p A, B_mat (am_obj A)) :: lay_csr (am_first A) ++ flat_map lay_slot (am_rest A) ++ lay_hints (am_hints A) ++
      cell (am_lud A) (B_ints (am_ludv A)) ++ cell (am_luv A) (B_vals (am_luvv A)).

  (** The arrays of the first matrix are readable *)
  Definition arrs (s : mem) (c : csr_obj) (pi ii : list Z) (vi : list T) : Prop :=
    hp s (o_ptr c) = Some (B_ints pi) /\ hp s (o_ind c) = Some (B_ints ii) /\ hp s (o_val c) = Some (B_vals vi).

  Lemma mat_get : forall A s K, st s (lib A ++ K) -> get_mat s (am_p A) = Some (am_obj A).
  Proof. intros A s K S. unfold get_mat. now rewrite (st_get _ _ (am_p A) (B_mat (am_obj A)) S) by (now left). Qed.
  Lemma first_get : forall A s K, st s (lib A ++ K) -> get_csr s (ac_p (am_first A)) = Some (ac_c (am_first A)).
  Proof. intros A s K S. unfold get_csr. rewrite (st_get _ _ (ac_p (am_first A)) (B_csr (ac_c (am_first A))) S); auto. right. now left. Qed.
  Lemma first_nz : forall A s K, st s (lib A ++ K) -> ac_p (am_first A) <> 0.
  Proof. intros A s K S. apply (st_nz _ _ _ (B_csr (ac_c (am_first A))) S). right. now left. Qed.
  Lemma slot_nz : forall A s K x, st s (lib A ++ K) -> In (Some x) (am_rest A) -> ac_p x <> 0 /\ get_csr s (ac_p x) = Some (ac_c x).
  Proof.
    intros A s K x S I. assert (IN : In (ac_p x, B_csr (ac_c x)) (lib A ++ K)).
    { apply in_or_app. left. unfold lib. right. apply in_or_app. right. apply in_or_app. left. apply in_flat_map. exists (Some x). split; auto. now left. }
    split; [now apply (st_nz _ _ _ _ S IN)|]. unfold get_csr. now rewrite (st_get _ _ _ _ S IN).
  Qed.

  (** *** Hints *)
  Lemma add_hint_ok : forall A s K w, st s (lib A ++ K) -> exists s',
    (add_hint pick (am_p A) w s = Some (s', memory_error) /\ st s' (lib A ++ K)) \/
    (exists p, add_hint pick (am_p A) w s = Some (s', success) /\
       st s' (lib (mkAM (am_p A) (am_m A) (am_n A) (am_nnz A) (am_first A) (am_rest A) ((p, w, false) :: am_hints A) (am_lud A) (am_ludv A) (am_luv A) (am_luvv A) (am_ready A)) ++ K)).
  Proof.
    intros A s K w S. unfold add_hint. rewrite (mat_get A s K S). change (M_hints (am_obj A)) with (hd_addr (am_hints A)).
    destruct (alloc_ok (B_hint (mkHN w false (hd_addr (am_hints A)))) s _ S) as (s1 & [(-> & S1)|(p & -> & S1)]); [eauto|].
    unfold lib in S1. eapply st_perm in S1; [|instantiate (1 := (am_p A, B_mat (am_obj A)) :: lay_csr (am_first A) ++ flat_map lay_slot (am_rest A) ++
      (p, B_hint (mkHN w false (hd_addr (am_hints A)))) :: lay_hints (am_hints A) ++ cell (am_lud A) (B_ints (am_ludv A)) ++ cell (am_luv A) (B_vals (am_luvv A)) ++ K); perm_solve].
    apply (store_ok _ _ (B_mat (with_hints (am_obj A) p))) in S1. destruct S1 as (s2 & -> & S2). eexists. right. exists p. split; [reflexivity|].
    unfold lib. cbn [am_p am_m am_n am_nnz am_first am_rest am_hints am_lud am_ludv am_luv am_luvv am_ready lay_hints]. eapply st_perm; [exact S2|].
    change (am_obj (mkAM (am_p A) (am_m A) (am_n A) (am_nnz A) (am_first A) (am_rest A) ((p, w, false) :: am_hints A) (am_lud A) (am_ludv A) (am_luv A) (am_luvv A) (am_ready A))) with (with_hints (am_obj A) p).
    perm_solve.
  Qed.

  Lemma destroy_hints_ok : forall l fuel s K, st s (lay_hints l ++ K) -> (length l <= fuel)%nat -> exists s', destroy_hints fuel (hd_addr l) s = Some s' /\ st s' K.
  Proof.
    induction l as [|((p, w), d) l IH]; intros fuel s K S Hf; cbn [hd_addr].
    - exists s. split; auto. destruct fuel; reflexivity.
    - destruct fuel as [|fuel]; [cbn in Hf; lia|]. cbn [lay_hints app] in S. pose proof (st_nz _ _ p _ S (or_introl eq_refl)) as Np.
      cbn [destroy_hints]. replace (p =? 0) with false by lia. unfold get_hint. rewrite (st_get _ _ p _ S (or_introl eq_refl)).
      apply delete_ok in S. destruct S as (s1 & -> & S1). cbn [hn_next]. apply IH; auto. cbn in Hf. lia.
  Qed.

  Lemma drop_ok : forall l s K, st s (flat_map lay_slot l ++ K) -> exists s', drop_mem (map slot_addr l) s = Some s' /\ st s' K.
  Proof.
    induction l as [|[x|] l IH]; intros s K S; cbn [map slot_addr drop_mem flat_map lay_slot] in *.
    - eauto.
    - rewrite <- app_assoc in S. pose proof (st_nz _ _ (ac_p x) (B_csr (ac_c x)) S (or_introl eq_refl)). replace (ac_p x =? 0) with false by lia.
      destruct (delete_csr_ok x s _ S) as (s1 & -> & S1). now apply IH.
    - change (0 =? 0) with true. now apply IH.
  Qed.

  Lemma destroy_ok : forall A s K fuel, st s (lib A ++ K) -> (length (am_hints A) <= fuel)%nat -> exists s', destroy fuel (am_p A) s = Some s' /\ st s' K.
  Proof.
    intros A s K fuel S Hf. unfold destroy. pose proof (st_nz _ _ (am_p A) (B_mat (am_obj A)) S (or_introl eq_refl)). replace (am_p A =? 0) with false by lia.
    rewrite (mat_get A s K S). unfold lib in S.
    eapply st_perm in S; [|instantiate (1 := lay_hints (am_hints A) ++ cell (am_lud A) (B_ints (am_ludv A)) ++ cell (am_luv A) (B_vals (am_luvv A)) ++
      (lay_csr (am_first A) ++ flat_map lay_slot (am_rest A)) ++ (am_p A, B_mat (am_obj A)) :: K); perm_solve].
    apply (destroy_hints_ok _ fuel) in S; auto. destruct S as (s1 & E1 & S). unfold am_obj at 1. cbn [M_hints]. rewrite E1.
    apply delete_cell in S. destruct S as (s2 & E2 & S). unfold am_obj at 1. cbn [M_ludiag]. rewrite E2.
    apply delete_cell in S. destruct S as (s3 & E3 & S). unfold am_obj at 1. cbn [M_luval]. rewrite E3.
    change (M_mats (am_obj A)) with (map slot_addr (Some (am_first A) :: am_rest A)).
    destruct (drop_ok (Some (am_first A) :: am_rest A) s3 ((am_p A, B_mat (am_obj A)) :: K)) as (s4 & -> & S4); [exact S|].
    now apply delete_ok in S4.
  Qed.

  (** *** push_back *)
  Definition add_rest (A : amat) (x : acsr) : amat :=
    mkAM (am_p A) (am_m A) (am_n A) (am_nnz A) (am_first A) (am_rest A ++ [Some x]) (am_hints A) (am_lud A) (am_ludv A) (am_luv A) (am_luvv A) (am_ready A).
  Lemma push_ok : forall A x s K f, st s (lay_csr x ++ lib A ++ K) -> exists s',
    (push (am_p A) (ac_p x) f s = Some (s', memory_error) /\ st s' (lib A ++ K)) \/
    (push (am_p A) (ac_p x) f s = Some (s', success) /\ st s' (lib (add_rest A x) ++ K)).
  Proof.
    intros A x s K f S. unfold push. destruct f.
    - destruct (delete_csr_ok x s _ S) as (s1 & -> & S1). eauto.
    - unfold get_mat. rewrite (st_get _ _ (am_p A) (B_mat (am_obj A)) S) by (apply in_or_app; right; now left).
      unfold lib in S. eapply st_perm in S; [|instantiate (1 := (am_p A, B_mat (am_obj A)) :: lay_csr (am_first A) ++ flat_map lay_slot (am_rest A) ++ lay_csr x ++ lay_hints (am_hints A) ++
        cell (am_lud A) (B_ints (am_ludv A)) ++ cell (am_luv A) (B_vals (am_luvv A)) ++ K); perm_solve].
      apply (store_ok _ _ (B_mat (with_mats (am_obj A) (M_mats (am_obj A) ++ [ac_p x])))) in S. destruct S as (s1 & -> & S). exists s1. right. split; [reflexivity|].
      replace (with_mats (am_obj A) (M_mats (am_obj A) ++ [ac_p x])) with (am_obj (add_rest A x)) in S.
      2:{ unfold am_obj, add_rest, with_mats. cbn [am_m am_n am_nnz am_first am_rest am_hints am_lud am_luv am_ready M_m M_n M_nnz M_mats M_hints M_ludiag M_luval M_iluready]. rewrite map_app. reflexivity. }
      change (lib (add_rest A x)) with ((am_p A, B_mat (am_obj (add_rest A x))) :: lay_csr (am_first A) ++ flat_map lay_slot (am_rest A ++ [Some x]) ++ lay_hints (am_hints A) ++
        cell (am_lud A) (B_ints (am_ludv A)) ++ cell (am_luv A) (B_vals (am_luvv A))).
      rewrite flat_map_app. cbn [flat_map lay_slot app]. rewrite app_nil_r.
      eapply st_perm; [exact S|]. perm_solve.
  Qed.

  (** *** Preparation *)
  Definition set_idx (x : acsr) (p r : Z) (di ui : list Z) (o : bool) : acsr :=
    mkAC (ac_p x) (with_index (ac_c x) p r o) (ac_pi x) (ac_ii x) (ac_vi x) di ui (ac_dv x).
  Lemma new_indices_ok : forall x di ui s K, st s (lay_csr x ++ K) -> o_idiag (ac_c x) = 0 -> o_iurow (ac_c x) = 0 -> exists s',
    (new_indices pick (ac_p x) di ui true s = Some (s', false) /\ st s' (lay_csr x ++ K)) \/
    (exists p r, new_indices pick (ac_p x) di ui true s = Some (s', true) /\ st s' (lay_csr (set_idx x p r di ui true) ++ K)).
  Proof.
    intros x di ui s K S H1 H2. unfold new_indices, get_csr. rewrite (st_get _ _ (ac_p x) (B_csr (ac_c x)) S) by (now left). rewrite H1, H2.
    assert (EC : with_index (ac_c x) 0 0 (o_opt (ac_c x)) = ac_c x) by (destruct x as [q c e1 e2 e3 e4 e5 e6]; destruct c; cbn in *; subst; reflexivity).
    assert (SM : forall s0, st s0 (lay_csr x ++ K) -> exists s1, store (ac_p x) (B_csr (ac_c x)) s0 = Some s1 /\ st s1 (lay_csr x ++ K)).
    { intros s0 S0. exact (store_ok _ _ (B_csr (ac_c x)) _ _ S0). }
    destruct (alloc_ok (B_ints di) s _ S) as (s1 & [(-> & S1)|(p & -> & S1)]).
    { repeat (change (delete 0 s1) with (Some s1); cbv iota beta). rewrite EC. destruct (SM s1 S1) as (s2 & -> & S2). eauto. }
    pose proof (st_nz _ _ p _ S1 (or_introl eq_refl)) as Np.
    destruct (alloc_ok (B_ints ui) s1 _ S1) as (s2 & [(-> & S2)|(r & -> & S2)]).
    { apply delete_ok in S2. destruct S2 as (s3 & -> & S3). change (delete 0 s3) with (Some s3). cbv iota beta. rewrite EC. destruct (SM s3 S3) as (s4 & -> & S4). eauto. }
    pose proof (st_nz _ _ r _ S2 (or_introl eq_refl)) as Nr.
    unfold lay_csr in S2. rewrite H1, H2, !cell0 in S2. set (rest := if o_internal (ac_c x) then _ else _) in S2.
    eapply st_perm in S2; [|instantiate (1 := (ac_p x, B_csr (ac_c x)) :: rest ++ (p, B_ints di) :: (r, B_ints ui) :: cell (o_dval (ac_c x)) (B_vals (ac_dv x)) ++ K); perm_solve].
    apply (store_ok _ _ (B_csr (with_index (ac_c x) p r true))) in S2. destruct S2 as (s3 & -> & S3). exists s3. right. exists p, r. split; [reflexivity|].
    unfold lay_csr. cbn [set_idx ac_p ac_c ac_pi ac_ii ac_vi ac_di ac_ui ac_dv with_index o_internal o_ptr o_ind o_val o_idiag o_iurow o_dval].
    rewrite (cell1 p), (cell1 r) by auto. eapply st_perm; [exact S3|]. fold rest. perm_solve.
  Qed.

  Definition set_arr (x : acsr) (p i v : Z) (pi ii : list Z) (vi : list T) : acsr :=
    mkAC (ac_p x) (with_arrays (ac_c x) p i v) pi ii vi (ac_di x) (ac_ui x) (ac_dv x).
  Lemma fill_mem_ok : forall x vf pi ii vi s K, st s (lay_csr x ++ K) -> o_internal (ac_c x) = true -> exists s',
    (fill_mem pick (ac_p x) vf pi ii vi s = Some (s', false) /\ st s' (lay_csr x ++ K)) \/
    (exists p i v, fill_mem pick (ac_p x) vf pi ii vi s = Some (s', true) /\ st s' (lay_csr (set_arr x p i v pi ii vi) ++ K)).
  Proof.
    intros x vf pi ii vi s K S HI. unfold fill_mem. destruct vf; [eauto|]. unfold get_csr. rewrite (st_get _ _ (ac_p x) (B_csr (ac_c x)) S) by (now left).
    destruct (alloc_ok (B_ints pi) s _ S) as (s1 & [(-> & S1)|(p & -> & S1)]); [eauto|].
    pose proof (st_nz _ _ p _ S1 (or_introl eq_refl)) as Np.
    destruct (alloc_ok (B_ints ii) s1 _ S1) as (s2 & [(-> & S2)|(i & -> & S2)]).
    { apply delete_ok in S2. destruct S2 as (s3 & -> & S3). eauto. }
    pose proof (st_nz _ _ i _ S2 (or_introl eq_refl)) as Ni.
    destruct (alloc_ok (B_vals vi) s2 _ S2) as (s3 & [(-> & S3)|(v & -> & S3)]).
    { eapply st_perm in S3; [|apply perm_swap]. apply delete_ok in S3. destruct S3 as (s4 & -> & S4). apply delete_ok in S4. destruct S4 as (s5 & -> & S5). eauto. }
    pose proof (st_nz _ _ v _ S3 (or_introl eq_refl)) as Nv.
    unfold lay_csr in S3. rewrite HI in S3. set (c := ac_c x) in *.
    eapply st_perm in S3; [|instantiate (1 := cell (o_ind c) (B_ints (ac_ii x)) ++ cell (o_ptr c) (B_ints (ac_pi x)) ++ cell (o_val c) (B_vals (ac_vi x)) ++ (ac_p x, B_csr c) ::
      (p, B_ints pi) :: (i, B_ints ii) :: (v, B_vals vi) :: cell (o_idiag c) (B_ints (ac_di x)) ++ cell (o_iurow c) (B_ints (ac_ui x)) ++ cell (o_dval c) (B_vals (ac_dv x)) ++ K); perm_solve].
    apply delete_cell in S3. destruct S3 as (s4 & -> & S3). apply delete_cell in S3. destruct S3 as (s5 & -> & S3). apply delete_cell in S3. destruct S3 as (s6 & -> & S3).
    apply (store_ok _ _ (B_csr (with_arrays c p i v))) in S3. destruct S3 as (s7 & -> & S7). exists s7. right. exists p, i, v. split; [reflexivity|].
    unfold lay_csr. cbn [set_arr ac_p ac_c ac_pi ac_ii ac_vi ac_di ac_ui ac_dv with_arrays o_internal o_ptr o_ind o_val o_idiag o_iurow o_dval]. fold c.
    rewrite HI, (cell1 p), (cell1 i), (cell1 v) by auto. eapply st_perm; [exact S7|]. perm_solve.
  Qed.

  (** The user's part of a handle is unchanged *)
  Definition same_first (x y : acsr) : Prop :=
    ac_p y = ac_p x /\ ac_pi y = ac_pi x /\ ac_ii y = ac_ii x /\ ac_vi y = ac_vi x /\
    o_internal (ac_c y) = o_internal (ac_c x) /\ o_m (ac_c y) = o_m (ac_c x) /\ o_n (ac_c y) = o_n (ac_c x) /\ o_nnz (ac_c y) = o_nnz (ac_c x) /\
    o_doid (ac_c y) = o_doid (ac_c x) /\ o_base (ac_c y) = o_base (ac_c x) /\ o_ptr (ac_c y) = o_ptr (ac_c x) /\ o_ind (ac_c y) = o_ind (ac_c x) /\ o_val (ac_c y) = o_val (ac_c x).
  Definition pure_ok (A : amat) : Prop :=
    (o_opt (ac_c (am_first A)) = false -> o_idiag (ac_c (am_first A)) = 0 /\ o_iurow (ac_c (am_first A)) = 0) /\
    Forall (fun e => match e with Some x => o_internal (ac_c x) = true | None => True end) (am_rest A) /\
    (am_ready A = false -> am_lud A = 0 /\ am_luv A = 0).
  Definition grows (A A' : amat) : Prop :=
    am_p A' = am_p A /\ am_m A' = am_m A /\ am_n A' = am_n A /\ am_nnz A' = am_nnz A /\ length (am_hints A') = length (am_hints A) /\
    same_first (am_first A) (am_first A') /\ pure_ok A'.
  Lemma same_first_refl : forall x, same_first x x.
  Proof. intros. unfold same_first. auto 20. Qed.
  Lemma grows_refl : forall A, pure_ok A -> grows A A.
  Proof. intros A H. unfold grows. auto 10 using same_first_refl. Qed.
  Lemma grows_rest : forall A x, pure_ok A -> o_internal (ac_c x) = true -> grows A (add_rest A x).
  Proof.
    intros A x (H1 & H2 & H3) HI. unfold grows. split; [reflexivity|]. split; [reflexivity|]. split; [reflexivity|]. split; [reflexivity|]. split; [reflexivity|]. split; [apply same_first_refl|].
    split; [exact H1|]. split; [|exact H3]. cbn [add_rest am_rest]. apply Forall_app. split; auto.
  Qed.

  Lemma scan_opt_ok : forall (s : mem) (l : list (option acsr)), (forall x, In (Some x) l -> ac_p x <> 0 /\ get_csr s (ac_p x) = Some (ac_c x)) ->
    exists b, scan_opt s (map slot_addr l) = Some b /\ (b = false -> forall x, In (Some x) l -> o_opt (ac_c x) = false).
  Proof.
    induction l as [|[x|] l IH]; intros H; cbn [map slot_addr scan_opt].
    - exists false. split; auto. intros _ x [].
    - destruct (H x (or_introl eq_refl)) as (Q1 & Q2). replace (ac_p x =? 0) with false by lia. rewrite Q2. destruct (o_opt (ac_c x)) eqn:E.
      + exists true. split; auto. discriminate.
      + destruct IH as (b & E1 & E2); [intros; apply H; now right|]. exists b. split; auto. intros Eb y [Hy|Hy]; [inversion Hy; subst; auto|now apply E2].
    - change (0 =? 0) with true. destruct IH as (b & E1 & E2); [intros; apply H; now right|]. exists b. split; auto. intros Eb y [Hy|Hy]; [discriminate|now apply E2].
  Qed.

  Definition set_first (A : amat) (x : acsr) : amat :=
    mkAM (am_p A) (am_m A) (am_n A) (am_nnz A) x (am_rest A) (am_hints A) (am_lud A) (am_ludv A) (am_luv A) (am_luvv A) (am_ready A).
  Lemma lib_first : forall A x, ac_p x = ac_p (am_first A) -> Permutation (lib (set_first A x)) (lay_csr x ++ (am_p A, B_mat (am_obj A)) :: flat_map lay_slot (am_rest A) ++ lay_hints (am_hints A) ++
      cell (am_lud A) (B_ints (am_ludv A)) ++ cell (am_luv A) (B_vals (am_luvv A))).
  Proof.
    intros A x E. replace (B_mat (am_obj A)) with (B_mat (T := T) (am_obj (set_first A x))) by (unfold am_obj, set_first; cbn; now rewrite E).
    unfold lib. set (o := am_obj (set_first A x)). unfold set_first. cbn [am_p am_m am_n am_nnz am_first am_rest am_hints am_lud am_ludv am_luv am_luvv am_ready]. perm_solve.
  Qed.
  Lemma set_first_id : forall A, set_first A (am_first A) = A. Proof. now destruct A. Qed.

  Lemma optimize_ok : forall A k s K, st s (lib A ++ K) -> pure_ok A -> exists s' r A', optimize_mem pick (am_p A) k s = Some (s', r) /\ st s' (lib A' ++ K) /\ grows A A'.
  Proof.
    intros A k s K S PO. unfold optimize_mem. rewrite (mat_get A s K S). change (M_mats (am_obj A)) with (map slot_addr (Some (am_first A) :: am_rest A)).
    assert (SL : forall x, In (Some x) (Some (am_first A) :: am_rest A) -> ac_p x <> 0 /\ get_csr s (ac_p x) = Some (ac_c x)).
    { intros x [Hx|Hx]; [inversion Hx; subst; split; [apply (first_nz A s K S)|apply (first_get A s K S)]|apply (slot_nz A s K x S Hx)]. }
    destruct (scan_opt_ok s (Some (am_first A) :: am_rest A) SL) as (b & -> & HB). destruct b; [exists s, success, A; auto using grows_refl|].
    pose proof (HB eq_refl (am_first A) (or_introl eq_refl)) as NO. clear HB.
    destruct (SL (am_first A) (or_introl eq_refl)) as (Q1 & Q2). cbn [map slot_addr scan_src]. replace (ac_p (am_first A) =? 0) with false by lia.
    replace (ac_p (am_first A) =? 0) with false by lia. rewrite Q2. pose proof PO as (P1 & P2 & P3). destruct (P1 NO) as (I1 & I2).
    set (x := am_first A) in *.
    destruct k as [st0|di ui|pi ii vi rf fill di ui pf].
    - exists s. eexists. exists A. auto using grows_refl.
    - assert (S1 : st s (lay_csr x ++ ((am_p A, B_mat (am_obj A)) :: flat_map lay_slot (am_rest A) ++ lay_hints (am_hints A) ++
        cell (am_lud A) (B_ints (am_ludv A)) ++ cell (am_luv A) (B_vals (am_luvv A))) ++ K)).
      { eapply st_perm; [exact S|]. rewrite app_assoc. apply Permutation_app_tail. rewrite <- (set_first_id A) at 1. now apply lib_first. }
      destruct (new_indices_ok x di ui s _ S1 I1 I2) as (s1 & [(-> & S2)|(p & r & -> & S2)]).
      + exists s1, memory_error, A. split; [reflexivity|]. split; [|now apply grows_refl]. eapply st_perm; [exact S2|]. rewrite app_assoc. apply Permutation_app_tail. symmetry. rewrite <- (set_first_id A) at 1. now apply lib_first.
      + exists s1, success, (set_first A (set_idx x p r di ui true)). split; [reflexivity|]. split.
        * eapply st_perm; [exact S2|]. rewrite app_assoc. apply Permutation_app_tail. symmetry. now apply lib_first.
        * unfold grows. do 5 (split; [reflexivity|]). split; [unfold same_first; cbn; auto 20|]. split; [cbn; discriminate|]. split; [exact P2|exact P3].
    - destruct (new_csr_ok (mkCO true (o_m (ac_c x)) (o_n (ac_c x)) (o_nnz (ac_c x)) (o_doid (ac_c x)) 0 0 0 0 0 0 0 false) pi ii vi s _ S) as (s1 & [(-> & S1)|(q & p & i & v & -> & S1 & _)]); try reflexivity.
      { exists s1, memory_error, A. auto using grows_refl. }
      set (y := mkAC q _ pi ii vi [] [] []) in S1. change q with (ac_p y).
      destruct rf. { destruct (delete_csr_ok y s1 _ S1) as (s2 & -> & S2). exists s2, internal_error, A. auto using grows_refl. }
      assert (FM : exists s2 ok y2, match fill with None => Some (s1, true) | Some (vf, (pi0, ii0, vi0)) => fill_mem pick (ac_p y) vf pi0 ii0 vi0 s1 end = Some (s2, ok) /\
        st s2 (lay_csr y2 ++ lib A ++ K) /\ ac_p y2 = ac_p y /\ o_internal (ac_c y2) = true /\ o_idiag (ac_c y2) = 0 /\ o_iurow (ac_c y2) = 0).
      { destruct fill as [(vf & ((pi0, ii0), vi0))|].
        - destruct (fill_mem_ok y vf pi0 ii0 vi0 s1 _ S1 eq_refl) as (s2 & [(-> & S2)|(p' & i' & v' & -> & S2)]); [exists s2, false, y|exists s2, true, (set_arr y p' i' v' pi0 ii0 vi0)]; auto 10.
        - exists s1, true, y. auto 10. }
      destruct FM as (s2 & ok & y2 & -> & S2 & Y1 & Y2 & Y3 & Y4). rewrite <- Y1. destruct ok; cbn [negb].
      2:{ destruct (delete_csr_ok y2 s2 _ S2) as (s3 & -> & S3). exists s3, memory_error, A. auto using grows_refl. }
      destruct (new_indices_ok y2 di ui s2 _ S2 Y3 Y4) as (s3 & [(-> & S3)|(p' & r' & -> & S3)]); cbn [negb].
      { destruct (delete_csr_ok y2 s3 _ S3) as (s4 & -> & S4). exists s4, memory_error, A. auto using grows_refl. }
      change (ac_p y2) with (ac_p (set_idx y2 p' r' di ui true)).
      destruct (push_ok A _ s3 K pf S3) as (s4 & [(-> & S4)|(-> & S4)]); [exists s4, memory_error, A; auto using grows_refl|].
      exists s4, success. eexists. split; [reflexivity|]. split; [exact S4|]. apply grows_rest; auto.
  Qed.

  Lemma hinted_ok : forall A d k s K, st s (lib A ++ K) -> pure_ok A -> exists s' r A', hinted_mem pick (am_p A) d k s = Some (s', r) /\ st s' (lib A' ++ K) /\ grows A A'.
  Proof.
    intros A d k s K S PO. unfold hinted_mem. rewrite (mat_get A s K S). pose proof (first_nz A s K S) as Nf. unfold am_obj at 1. cbn [M_mats]. replace (ac_p (am_first A) =? 0) with false by lia.
    rewrite (first_get A s K S). set (c := ac_c (am_first A)).
    destruct k as [pi ii vi fl pf|f1 f2 pi ii di vi dvi pf].
    - destruct (new_csr_ok (mkCO true (o_n c) (o_m c) (o_nnz c) d 0 0 0 0 0 0 0 false) pi ii vi s _ S) as (s1 & [(-> & S1)|(q & p & i & v & -> & S1 & _)]); try reflexivity.
      { exists s1, memory_error, A. auto using grows_refl. }
      set (y := mkAC q _ pi ii vi [] [] []) in S1. change q with (ac_p y).
      destruct fl. { destruct (delete_csr_ok y s1 _ S1) as (s2 & -> & S2). exists s2, memory_error, A. auto using grows_refl. }
      destruct (push_ok A y s1 K pf S1) as (s4 & [(-> & S4)|(-> & S4)]); [exists s4, memory_error, A; auto using grows_refl|].
      exists s4, success. eexists. split; [reflexivity|]. split; [exact S4|]. apply grows_rest; auto.
    - destruct (negb (M_m (am_obj A) =? M_n (am_obj A))); [exists s, invalid_size, A; auto using grows_refl|].
      destruct (new_csr_ok (mkCO true (M_m (am_obj A)) (M_n (am_obj A)) (-1) d 0 0 0 0 0 0 0 false) pi [] [] s _ S) as (s1 & [(-> & S1)|(q & p & i & v & -> & S1 & Np & Hiv)]); try reflexivity.
      { exists s1, memory_error, A. auto using grows_refl. }
      cbn in Hiv. destruct Hiv as (-> & ->).
      set (c1 := with_arrays _ p 0 0) in S1.
      assert (DEL : forall y s0, ac_p y = q -> st s0 (lay_csr y ++ lib A ++ K) -> exists s' r A', (let* s := delete_csr q s0 in Some (s, memory_error)) = Some (s', r) /\ st s' (lib A' ++ K) /\ grows A A').
      { intros y s0 Ey Sy. rewrite <- Ey. destruct (delete_csr_ok y s0 _ Sy) as (s2 & -> & S2). exists s2, memory_error, A. auto using grows_refl. }
      destruct f1; [apply (DEL _ s1 (eq_refl q : ac_p (mkAC q c1 pi [] [] [] [] []) = q) S1)|].
      unfold get_csr. rewrite (st_get _ _ q (B_csr c1) S1) by (now left).
      destruct (alloc_ok (B_ints di) s1 _ S1) as (s2 & [(-> & S2)|(dd & -> & S2)]).
      { apply (DEL _ s2 (eq_refl q : ac_p (mkAC q c1 pi [] [] [] [] []) = q) S2). }
      pose proof (st_nz _ _ dd _ S2 (or_introl eq_refl)) as Nd.
      assert (LY : forall di0 dv0 vi0 ii0 d0 e0 i0 v0, lay_csr (mkAC q (with_arrays (with_diag c1 d0 e0) p i0 v0) pi ii0 vi0 di0 [] dv0) =
         (q, B_csr (with_arrays (with_diag c1 d0 e0) p i0 v0)) :: (cell p (B_ints pi) ++ cell i0 (B_ints ii0) ++ cell v0 (B_vals vi0)) ++ cell d0 (B_ints di0) ++ cell 0 (B_ints []) ++ cell e0 (B_vals dv0)) by reflexivity.
      change c1 with (with_arrays (with_diag c1 0 0) p 0 0) in S2. rewrite LY in S2. rewrite !cell0, (cell1 p) in S2 by auto.
      eapply st_perm in S2; [|instantiate (1 := (q, B_csr (with_arrays (with_diag c1 0 0) p 0 0)) :: (p, B_ints pi) :: (dd, B_ints di) :: lib A ++ K); perm_solve].
      apply (store_ok _ _ (B_csr (with_diag c1 dd 0))) in S2. destruct S2 as (s3 & -> & S3).
      assert (L3 : forall sx, st sx ((q, B_csr (with_diag c1 dd 0)) :: (p, B_ints pi) :: (dd, B_ints di) :: lib A ++ K) -> st sx (lay_csr (mkAC q (with_arrays (with_diag c1 dd 0) p 0 0) pi [] [] di [] []) ++ lib A ++ K)).
      { intros sx Sx. rewrite LY, !cell0, (cell1 p), (cell1 dd) by auto. eapply st_perm; [exact Sx|]. change (with_arrays (with_diag c1 dd 0) p 0 0) with (with_diag c1 dd 0). perm_solve. }
      destruct (alloc_ok (B_vals dvi) s3 _ S3) as (s4 & [(-> & S4)|(ee & -> & S4)]); [refine (DEL _ s4 _ (L3 s4 S4)); reflexivity|].
      pose proof (st_nz _ _ ee _ S4 (or_introl eq_refl)) as Ne.
      eapply st_perm in S4; [|apply perm_swap]. apply (store_ok _ _ (B_csr (with_diag c1 dd ee))) in S4. destruct S4 as (s5 & -> & S5).
      assert (L5 : forall sx, st sx ((q, B_csr (with_diag c1 dd ee)) :: (ee, B_vals dvi) :: (p, B_ints pi) :: (dd, B_ints di) :: lib A ++ K) -> st sx (lay_csr (mkAC q (with_arrays (with_diag c1 dd ee) p 0 0) pi [] [] di [] dvi) ++ lib A ++ K)).
      { intros sx Sx. rewrite LY, !cell0, (cell1 p), (cell1 dd), (cell1 ee) by auto. eapply st_perm; [exact Sx|]. change (with_arrays (with_diag c1 dd ee) p 0 0) with (with_diag c1 dd ee). perm_solve. }
      destruct f2; [refine (DEL _ s5 _ (L5 s5 S5)); reflexivity|].
      destruct (alloc_ok (B_vals vi) s5 _ S5) as (s6 & [(-> & S6)|(vv & -> & S6)]); [refine (DEL _ s6 _ (L5 s6 S6)); reflexivity|].
      pose proof (st_nz _ _ vv _ S6 (or_introl eq_refl)) as Nv.
      eapply st_perm in S6; [|apply perm_swap]. change (o_ptr c1) with p. apply (store_ok _ _ (B_csr (with_arrays (with_diag c1 dd ee) p 0 vv))) in S6. destruct S6 as (s7 & -> & S7).
      destruct (alloc_ok (B_ints ii) s7 _ S7) as (s8 & [(-> & S8)|(j & -> & S8)]).
      { apply (DEL (mkAC q (with_arrays (with_diag c1 dd ee) p 0 vv) pi [] vi di [] dvi) s8 eq_refl). rewrite LY, !cell0, (cell1 p), (cell1 dd), (cell1 ee), (cell1 vv) by auto. eapply st_perm; [exact S8|]. perm_solve. }
      pose proof (st_nz _ _ j _ S8 (or_introl eq_refl)) as Nj.
      eapply st_perm in S8; [|apply perm_swap]. apply (store_ok _ _ (B_csr (with_arrays (with_diag c1 dd ee) p j vv))) in S8. destruct S8 as (s9 & -> & S9).
      set (y := mkAC q (with_arrays (with_diag c1 dd ee) p j vv) pi ii vi di [] dvi). change q with (ac_p y).
      destruct (push_ok A y s9 K pf) as (s10 & [(-> & S10)|(-> & S10)]).
      + unfold y. rewrite LY, !cell0, (cell1 p), (cell1 dd), (cell1 ee), (cell1 vv), (cell1 j) by auto. eapply st_perm; [exact S9|]. perm_solve.
      + exists s10, memory_error, A. auto using grows_refl.
      + exists s10, success. eexists. split; [reflexivity|]. split; [exact S10|]. apply grows_rest; auto.
  Qed.

  (** *** Incomplete LU data *)
  Lemma ilu_ok : forall A di s K vi, st s (lib A ++ K) -> pure_ok A -> In (o_val (ac_c (am_first A)), B_vals vi) (lib A ++ K) -> 0 <= am_nnz A <= zlen vi ->
    exists s' r, optimize_ilu_mem pick (am_p A) di s = Some (s', r) /\ (r <> memory_error -> exists A', st s' (lib A' ++ K) /\ grows A A').
  Proof.
    intros A di s K vi S PO IV LV. unfold optimize_ilu_mem. rewrite (mat_get A s K S). pose proof (first_nz A s K S) as Nf. unfold am_obj at 1. cbn [M_mats]. replace (ac_p (am_first A) =? 0) with false by lia.
    rewrite (first_get A s K S). change (M_iluready (am_obj A)) with (am_ready A). change (M_ludiag (am_obj A)) with (am_lud A). change (M_luval (am_obj A)) with (am_luv A). change (M_nnz (am_obj A)) with (am_nnz A).
    destruct (am_ready A) eqn:ER; [exists s, success; split; auto; intros _; exists A; auto using grows_refl|].
    pose proof PO as (P1 & P2 & P3). destruct (P3 ER) as (L1 & L2).
    destruct (alloc_ok (B_ints di) s _ S) as (s1 & [(-> & S1)|(p & -> & S1)]).
    { rewrite L1. change (delete 0 s1) with (Some s1). cbv iota beta. exists s1, memory_error. split; auto. congruence. }
    pose proof (st_nz _ _ p _ S1 (or_introl eq_refl)) as Np.
    unfold get_vals. rewrite (st_get _ _ _ _ S1 (or_intror IV)). unfold memcpy_new. replace ((0 <=? am_nnz A) && (am_nnz A <=? zlen vi)) with true by lia.
    set (lv := firstn (Z.to_nat (am_nnz A)) vi).
    unfold lib in S1. rewrite L1, L2, !cell0 in S1.
    eapply st_perm in S1; [|instantiate (1 := (am_p A, B_mat (am_obj A)) :: lay_csr (am_first A) ++ flat_map lay_slot (am_rest A) ++ lay_hints (am_hints A) ++ (p, B_ints di) :: K); perm_solve].
    apply (store_ok _ _ (B_mat (with_ilu (am_obj A) p (am_luv A) false))) in S1. destruct S1 as (s2 & -> & S2).
    destruct (alloc_ok (B_vals lv) s2 _ S2) as (s3 & [(-> & S3)|(v & -> & S3)]).
    { eapply st_perm in S3; [|instantiate (1 := (p, B_ints di) :: (am_p A, B_mat (with_ilu (am_obj A) p (am_luv A) false)) :: lay_csr (am_first A) ++ flat_map lay_slot (am_rest A) ++ lay_hints (am_hints A) ++ K); perm_solve].
      apply delete_ok in S3. destruct S3 as (s4 & -> & S4). exists s4, memory_error. split; auto. congruence. }
    pose proof (st_nz _ _ v _ S3 (or_introl eq_refl)) as Nv.
    eapply st_perm in S3; [|apply perm_swap]. apply (store_ok _ _ (B_mat (with_ilu (am_obj A) p v true))) in S3. destruct S3 as (s4 & -> & S4).
    exists s4, success. split; [reflexivity|]. intros _. exists (mkAM (am_p A) (am_m A) (am_n A) (am_nnz A) (am_first A) (am_rest A) (am_hints A) p di v lv true). split.
    - change (lib (mkAM (am_p A) (am_m A) (am_n A) (am_nnz A) (am_first A) (am_rest A) (am_hints A) p di v lv true)) with
        ((am_p A, B_mat (with_ilu (am_obj A) p v true)) :: lay_csr (am_first A) ++ flat_map lay_slot (am_rest A) ++ lay_hints (am_hints A) ++ cell p (B_ints di) ++ cell v (B_vals lv)).
      rewrite (cell1 p), (cell1 v) by auto. eapply st_perm; [exact S4|]. perm_solve.
    - unfold grows. do 5 (split; [reflexivity|]). split; [apply same_first_refl|]. split; [exact P1|]. split; [exact P2|]. cbn. discriminate.
  Qed.

  (** *** Value updates *)
  Definition drop_rest (A : amat) : amat :=
    mkAM (am_p A) (am_m A) (am_n A) (am_nnz A) (am_first A) (map (fun _ => None) (am_rest A)) (am_hints A) (am_lud A) (am_ludv A) (am_luv A) (am_luvv A) (am_ready A).
  Definition set_vi (x : acsr) (vi : list T) : acsr := mkAC (ac_p x) (ac_c x) (ac_pi x) (ac_ii x) vi (ac_di x) (ac_ui x) (ac_dv x).
  Definition wvals (nnz : Z) (o : wop T) (vals : list T) : option (list T) :=
    match o with w_at k v => wr vals k v | w_all l => for_ 0 nnz (fun i x => let* v := rd l i in wr x i v) vals end.
  Lemma lay_none : forall l : list (option acsr), flat_map lay_slot (map (fun _ => None) l) = [].
  Proof. induction l; auto. Qed.
  Lemma addr_none : forall l : list (option acsr), map slot_addr (map (fun _ => None) l) = map (fun _ : Z => 0) (map slot_addr l).
  Proof. intros. rewrite !map_map. reflexivity. Qed.
  Lemma write_ok : forall A o s K K1 K2 vi vi', st s (lib A ++ K) -> In (o_val (ac_c (am_first A)), B_vals vi) (lib A ++ K) -> wvals (am_nnz A) o vi = Some vi' ->
    (o_internal (ac_c (am_first A)) = true -> vi = ac_vi (am_first A) /\ o_val (ac_c (am_first A)) <> 0) ->
    (o_internal (ac_c (am_first A)) = false -> K = K1 ++ (o_val (ac_c (am_first A)), B_vals vi) :: K2) ->
    exists s', write_mem (am_p A) o s = Some (s', success) /\
      if o_internal (ac_c (am_first A)) then st s' (lib (drop_rest (set_first A (set_vi (am_first A) vi'))) ++ K)
      else st s' (lib (drop_rest A) ++ K1 ++ (o_val (ac_c (am_first A)), B_vals vi') :: K2).
  Proof.
    intros A o s K K1 K2 vi vi' S IV W HI HU. unfold write_mem. rewrite (mat_get A s K S). pose proof (first_nz A s K S) as Nf. unfold am_obj at 1. cbn [M_mats]. replace (ac_p (am_first A) =? 0) with false by lia.
    rewrite (first_get A s K S). unfold get_vals. rewrite (st_get _ _ _ _ S IV). change (M_nnz (am_obj A)) with (am_nnz A). fold (wvals (am_nnz A) o vi). rewrite W.
    set (x := am_first A) in *. set (v := o_val (ac_c x)) in *.
    assert (FIN : forall s1 y KK, ac_p y = ac_p x -> st s1 (lay_csr y ++ flat_map lay_slot (am_rest A) ++ (am_p A, B_mat (am_obj A)) :: lay_hints (am_hints A) ++
        cell (am_lud A) (B_ints (am_ludv A)) ++ cell (am_luv A) (B_vals (am_luvv A)) ++ KK) ->
      exists s2, (let* s0 := drop_mem (map slot_addr (am_rest A)) s1 in
        let* s1 := store (am_p A) (B_mat (with_mats (am_obj A) (ac_p x :: map (fun _ => 0) (map slot_addr (am_rest A))))) s0 in Some (s1, success)) = Some (s2, success) /\
        st s2 (lib (drop_rest (set_first A y)) ++ KK)).
    { intros s1 y KK Ey S1. eapply st_perm in S1; [|instantiate (1 := flat_map lay_slot (am_rest A) ++ (am_p A, B_mat (am_obj A)) :: lay_csr y ++ lay_hints (am_hints A) ++
        cell (am_lud A) (B_ints (am_ludv A)) ++ cell (am_luv A) (B_vals (am_luvv A)) ++ KK); perm_solve].
      apply drop_ok in S1. destruct S1 as (s2 & -> & S2). apply (store_ok _ _ (B_mat (with_mats (am_obj A) (ac_p x :: map (fun _ => 0) (map slot_addr (am_rest A)))))) in S2.
      destruct S2 as (s3 & -> & S3). exists s3. split; [reflexivity|].
      unfold lib. replace (am_obj (drop_rest (set_first A y))) with (with_mats (am_obj A) (ac_p x :: map (fun _ => 0) (map slot_addr (am_rest A)))).
      2:{ unfold am_obj, drop_rest, set_first, with_mats. cbn [am_m am_n am_nnz am_first am_rest am_hints am_lud am_luv am_ready M_m M_n M_nnz M_mats M_hints M_ludiag M_luval M_iluready].
          rewrite addr_none, Ey. reflexivity. }
      unfold drop_rest, set_first. cbn [am_p am_m am_n am_nnz am_first am_rest am_hints am_lud am_ludv am_luv am_luvv am_ready]. rewrite lay_none. eapply st_perm; [exact S3|]. perm_solve. }
    destruct (o_internal (ac_c x)) eqn:EI.
    - destruct (HI eq_refl) as (-> & Nv). unfold lib in S. set (ob := B_mat (am_obj A)) in *.
      eapply st_perm in S; [|instantiate (1 := (v, B_vals (ac_vi x)) :: (ac_p x, B_csr (ac_c x)) :: (cell (o_ptr (ac_c x)) (B_ints (ac_pi x)) ++ cell (o_ind (ac_c x)) (B_ints (ac_ii x))) ++
        cell (o_idiag (ac_c x)) (B_ints (ac_di x)) ++ cell (o_iurow (ac_c x)) (B_ints (ac_ui x)) ++ cell (o_dval (ac_c x)) (B_vals (ac_dv x)) ++
        flat_map lay_slot (am_rest A) ++ (am_p A, ob) :: lay_hints (am_hints A) ++ cell (am_lud A) (B_ints (am_ludv A)) ++ cell (am_luv A) (B_vals (am_luvv A)) ++ K)].
      2:{ unfold lay_csr. fold x. rewrite EI. fold v. rewrite (cell1 v) by auto. perm_solve. }
      apply (store_ok _ _ (B_vals vi')) in S. destruct S as (s1 & -> & S1).
      destruct (FIN s1 (set_vi x vi') K) as (s2 & E2 & S2); [reflexivity| |].
      + unfold lay_csr. cbn [set_vi ac_p ac_c ac_pi ac_ii ac_vi ac_di ac_ui ac_dv]. rewrite EI. fold v. rewrite (cell1 v) by auto. eapply st_perm; [exact S1|]. fold ob. perm_solve.
      + exists s2. split; auto.
    - pose proof (HU eq_refl) as EK. subst K. unfold lib in S. set (ob := B_mat (am_obj A)) in *.
      eapply st_perm in S; [|instantiate (1 := (v, B_vals vi) :: lay_csr x ++ flat_map lay_slot (am_rest A) ++ (am_p A, ob) :: lay_hints (am_hints A) ++ cell (am_lud A) (B_ints (am_ludv A)) ++ cell (am_luv A) (B_vals (am_luvv A)) ++ K1 ++ K2); fold x; perm_solve].
      apply (store_ok _ _ (B_vals vi')) in S. destruct S as (s1 & -> & S1).
      destruct (FIN s1 x ((v, B_vals vi') :: K1 ++ K2)) as (s2 & E2 & S2); [reflexivity| |].
      + eapply st_perm; [exact S1|]. fold ob. perm_solve.
      + exists s2. split; auto. rewrite <- (set_first_id A) at 1. fold x. eapply st_perm; [exact S2|]. perm_solve.
  Qed.

  (** *** New handles *)
  Definition fresh_mat (d m n nnz : Z) (x : acsr) : amat := mkAM d m n nnz x [] [] 0 [] 0 [] false.
  Lemma lib_fresh : forall d m n nnz x, lib (fresh_mat d m n nnz x) = (d, B_mat (mkMO m n nnz [ac_p x] 0 0 0 false)) :: lay_csr x.
  Proof. intros. unfold lib, fresh_mat, am_obj. cbn [am_p am_m am_n am_nnz am_first am_rest am_hints am_lud am_ludv am_luv am_luvv am_ready map flat_map lay_hints hd_addr]. rewrite !cell0, !app_nil_r. reflexivity. Qed.
  Lemma destroy_empty : forall d m n nnz s K, st s ((d, B_mat (mkMO m n nnz [] 0 0 0 false)) :: K) -> exists s', destroy 0 d s = Some s' /\ st s' K.
  Proof.
    intros d m n nnz s K S. unfold destroy. pose proof (st_nz _ _ d _ S (or_introl eq_refl)). replace (d =? 0) with false by lia.
    unfold get_mat. rewrite (st_get _ _ d _ S (or_introl eq_refl)). cbn [M_hints M_ludiag M_luval M_mats destroy_hints drop_mem]. change (0 =? 0) with true. cbv iota.
    repeat (change (delete 0 s) with (Some s); cbv iota beta). now apply delete_ok in S.
  Qed.

  Lemma create_ok : forall m n nnz c pf s K, st s K -> o_internal c = false -> o_idiag c = 0 -> o_iurow c = 0 -> o_dval c = 0 -> exists s',
    (create pick m n nnz c pf s = Some (s', (memory_error, 0)) /\ st s' K) \/
    (exists d q, create pick m n nnz c pf s = Some (s', (success, d)) /\ st s' (lib (fresh_mat d m n nnz (mkAC q c [] [] [] [] [] [])) ++ K)).
  Proof.
    intros m n nnz c pf s K S HI H1 H2 H3. unfold create.
    destruct (alloc_ok (B_mat (mkMO m n nnz [] 0 0 0 false)) s K S) as (s1 & [(-> & S1)|(a & -> & S1)]); [eauto|].
    destruct (alloc_ok (B_csr c) s1 _ S1) as (s2 & [(-> & S2)|(q & -> & S2)]).
    { apply delete_ok in S2. destruct S2 as (s3 & -> & S3). eauto. }
    assert (LC : lay_csr (mkAC q c [] [] [] [] [] []) = [(q, B_csr c)]) by (unfold lay_csr; cbn [ac_p ac_c ac_di ac_ui ac_dv]; now rewrite HI, H1, H2, H3, !cell0).
    destruct pf.
    - change ((q, B_csr c) :: (a, B_mat (mkMO m n nnz [] 0 0 0 false)) :: K) with ([(q, B_csr c)] ++ (a, B_mat (mkMO m n nnz [] 0 0 0 false)) :: K) in S2.
      rewrite <- LC in S2. change q with (ac_p (mkAC q c [] [] [] [] [] [])). destruct (delete_csr_ok _ _ _ S2) as (s3 & -> & S3).
      apply delete_ok in S3. destruct S3 as (s4 & -> & S4). eauto.
    - eapply st_perm in S2; [|apply perm_swap]. apply (store_ok _ _ (B_mat (mkMO m n nnz [q] 0 0 0 false))) in S2. destruct S2 as (s3 & -> & S3).
      exists s3. right. exists a, q. split; [reflexivity|]. rewrite lib_fresh, LC. exact S3.
  Qed.

  Lemma copy_ok : forall A pf s K pi ii vi, st s (lib A ++ K) -> 0 <= am_m A -> 0 <= am_n A -> 0 <= am_nnz A -> let c := ac_c (am_first A) in
    0 <= o_m c -> o_m c + 1 <= zlen pi -> 0 <= o_nnz c <= zlen ii -> o_nnz c <= zlen vi ->
    In (o_ptr c, B_ints pi) (lib A ++ K) -> In (o_ind c, B_ints ii) (lib A ++ K) -> In (o_val c, B_vals vi) (lib A ++ K) -> exists s',
    (exists r, copy_mem pick (am_p A) pf s = Some (s', (r, 0)) /\ r <> success /\ st s' (lib A ++ K)) \/
    (exists d q p i v, copy_mem pick (am_p A) pf s = Some (s', (success, d)) /\ p <> 0 /\ i <> 0 /\ v <> 0 /\
       st s' (lib (fresh_mat d (am_m A) (am_n A) (am_nnz A) (mkAC q (mkCO true (o_m c) (o_n c) (o_nnz c) (o_doid c) (o_base c) p i v 0 0 0 false)
         (firstn (Z.to_nat (o_m c + 1)) pi) (firstn (Z.to_nat (o_nnz c)) ii) (firstn (Z.to_nat (o_nnz c)) vi) [] [] [])) ++ lib A ++ K)).
  Proof.
    intros A pf s K pi ii vi S D1 D2 D3 c D4 L1 L2 L3 I1 I2 I3. unfold copy_mem. rewrite (mat_get A s K S). change (M_m (am_obj A)) with (am_m A). change (M_n (am_obj A)) with (am_n A). change (M_nnz (am_obj A)) with (am_nnz A).
    replace ((am_m A <? 0) || (am_n A <? 0) || (am_nnz A <? 0)) with false by lia.
    destruct (alloc_ok (B_mat (mkMO (am_m A) (am_n A) (am_nnz A) [] 0 0 0 false)) s _ S) as (s1 & [(-> & S1)|(d & -> & S1)]).
    { exists s1. left. exists memory_error. split; [reflexivity|]. split; [discriminate|exact S1]. }
    cbv zeta. change (M_mats (am_obj A)) with (ac_p (am_first A) :: map slot_addr (am_rest A)). cbv iota. pose proof (first_nz A s K S) as Nf. replace (ac_p (am_first A) =? 0) with false by lia.
    assert (GC : get_csr s1 (ac_p (am_first A)) = Some c). { unfold get_csr. rewrite (st_get _ _ (ac_p (am_first A)) (B_csr c) S1); auto. right. right. now left. }
    rewrite GC. replace ((o_m c <? 0) || (o_nnz c <? 0)) with false by lia.
    pose proof (st_nz _ _ _ _ S I1). pose proof (st_nz _ _ _ _ S I2). pose proof (st_nz _ _ _ _ S I3).
    replace ((o_ind c =? 0) || (o_ptr c =? 0) || (o_val c =? 0)) with false by lia.
    unfold get_ints, get_vals. rewrite (st_get _ _ _ _ S1 (or_intror I1)), (st_get _ _ _ _ S1 (or_intror I2)), (st_get _ _ _ _ S1 (or_intror I3)).
    unfold memcpy_new. replace ((0 <=? o_m c + 1) && (o_m c + 1 <=? zlen pi)) with true by lia. replace ((0 <=? o_nnz c) && (o_nnz c <=? zlen ii)) with true by lia. replace ((0 <=? o_nnz c) && (o_nnz c <=? zlen vi)) with true by lia.
    assert (FAIL : forall s0 r, r <> success -> st s0 ((d, B_mat (mkMO (am_m A) (am_n A) (am_nnz A) [] 0 0 0 false)) :: lib A ++ K) ->
      exists s', (let* s := destroy 0 d s0 in Some (s, (r, 0))) = Some (s', (r, 0)) /\ st s' (lib A ++ K)).
    { intros s0 r _ S0. destruct (destroy_empty _ _ _ _ _ _ S0) as (s2 & -> & S2). eauto. }
    match goal with |- context [new_csr pick ?c0 ?a ?b ?e ?s] => destruct (new_csr_ok c0 a b e s _ S1) as (s2 & [(-> & S2)|(q & p & i & v & -> & S2 & Np & Hiv)]); try reflexivity; set (c1 := c0) in * end.
    { destruct (FAIL s2 memory_error ltac:(discriminate) S2) as (s3 & E3 & S3). exists s3. left. exists memory_error. split; [exact E3|]. split; [discriminate|exact S3]. }
    change (o_nnz c1) with (o_nnz c) in Hiv. replace (o_nnz c <? 0) with false in Hiv by lia. destruct Hiv as (Ni & Nv).
    set (x := mkAC q _ _ _ _ _ _ _) in S2. change q with (ac_p x). unfold push. destruct pf.
    - destruct (delete_csr_ok x s2 _ S2) as (s3 & -> & S3). cbv iota beta.
      destruct (FAIL s3 memory_error ltac:(discriminate) S3) as (s4 & E4 & S4). exists s4. left. exists memory_error. split; [exact E4|]. split; [discriminate|exact S4].
    - unfold get_mat. rewrite (st_get _ _ d (B_mat (mkMO (am_m A) (am_n A) (am_nnz A) [] 0 0 0 false)) S2) by (apply in_or_app; right; now left).
      eapply st_perm in S2; [|instantiate (1 := (d, B_mat (mkMO (am_m A) (am_n A) (am_nnz A) [] 0 0 0 false)) :: lay_csr x ++ lib A ++ K); perm_solve].
      apply (store_ok _ _ (B_mat (mkMO (am_m A) (am_n A) (am_nnz A) [ac_p x] 0 0 0 false))) in S2. destruct S2 as (s3 & E3 & S3).
      cbn [M_m M_n M_nnz M_mats M_hints M_ludiag M_luval M_iluready with_mats app]. unfold with_mats. cbn [M_m M_n M_nnz M_mats M_hints M_ludiag M_luval M_iluready app]. rewrite E3.
      exists s3. right. exists d, q, p, i, v. split; [reflexivity|]. split; [auto|]. split; [auto|]. split; [auto|]. rewrite lib_fresh. exact S3.
  Qed.
End P.
