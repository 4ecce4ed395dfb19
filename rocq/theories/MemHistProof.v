From Coq Require Import ZArith List Bool Lia ZifyBool Permutation.
From Verif Require Import Base BaseFacts DoidModel PermTac MemModel MemSpec MemProof.
Import ListNotations.
Open Scope Z_scope.

Section P.
  Context {T : Type}.
  Notation blk := (blk T). Notation mem := (mem T). Notation heap := (heap T). Notation amat := (@amat T). Notation acsr := (@acsr T).
  Variable pick : Z -> heap -> option Z.
  Hypothesis Hpick : allocator pick.

  Definition user_arrs (U : list (Z * blk)) (c : csr_obj) : Prop :=
    exists pi ii vi, In (o_ptr c, B_ints pi) U /\ o_m c + 1 <= zlen pi /\ In (o_ind c, B_ints ii) U /\ o_nnz c <= zlen ii /\ In (o_val c, B_vals vi) U /\ o_nnz c <= zlen vi.
  Definition own_arrs (x : acsr) : Prop :=
    let c := ac_c x in o_ptr c <> 0 /\ o_ind c <> 0 /\ o_val c <> 0 /\ o_m c + 1 <= zlen (ac_pi x) /\ o_nnz c <= zlen (ac_ii x) /\ o_nnz c <= zlen (ac_vi x).
  Definition hok (U : list (Z * blk)) (fuel n : nat) (A : amat) : Prop :=
    pure_ok A /\ 0 <= am_m A /\ 0 <= am_n A /\ 0 <= am_nnz A /\ 0 <= o_m (ac_c (am_first A)) /\ o_nnz (ac_c (am_first A)) = am_nnz A /\
    (length (am_hints A) + n <= fuel)%nat /\
    if o_internal (ac_c (am_first A)) then own_arrs (am_first A) else user_arrs U (ac_c (am_first A)).

  Lemma hok_grows : forall U fuel n A A', hok U fuel (S n) A -> grows A A' -> hok U fuel n A'.
  Proof.
    intros U fuel n A A' (P & H1 & H2 & H3 & H4 & H5 & H6 & H7) (G0 & G1 & G2 & G3 & G4 & G5 & G6).
    destruct G5 as (_ & F1 & F2 & F3 & F4 & F5 & F6 & F7 & F8 & F9 & F10 & F11 & F12). unfold hok, own_arrs, user_arrs in *.
    rewrite G1, G2, G3, G4, F1, F2, F3, F4, F5, F7, F10, F11, F12. repeat (split; [auto; lia|]). exact H7.
  Qed.
  Lemma hok_less : forall U fuel n A, hok U fuel (S n) A -> hok U fuel n A.
  Proof. intros U fuel n A H. unfold hok in *. intuition lia. Qed.

  Lemma hoks_less : forall U fuel n l, Forall (hok U fuel (S n)) l -> Forall (hok U fuel n) l.
  Proof. intros U fuel n l F. eapply Forall_impl; [|exact F]. intros A. apply hok_less. Qed.

  Lemma place_ints : forall (U U' : list (Z * blk)) p l, same_places U U' -> In (p, B_ints l) U -> In (p, B_ints l) U'.
  Proof.
    induction 1 as [|(q, b) (q', b') U U' (E1 & E2) F IH]; intros I; [destruct I|]. cbn in E1, E2. subst q'. destruct I as [I|I]; [inversion I; subst; destruct b'; try discriminate; subst; now left|right; auto].
  Qed.
  Lemma place_vals : forall (U U' : list (Z * blk)) p l, same_places U U' -> In (p, B_vals l) U -> exists l', In (p, B_vals l') U' /\ zlen l' = zlen l.
  Proof.
    induction 1 as [|(q, b) (q', b') U U' (E1 & E2) F IH]; intros I; [destruct I|]. cbn in E1, E2. subst q'. destruct I as [I|I].
    - inversion I; subst. destruct b' as [|l'| | |]; try discriminate. exists l'. split; auto. now left.
    - destruct (IH I) as (l' & L1 & L2). exists l'. split; auto. now right.
  Qed.
  Lemma place_refl : forall U : list (Z * blk), same_places U U.
  Proof. induction U as [|(p, b) U IH]; constructor; auto. split; auto. cbn. destruct b; auto. Qed.
  Lemma place_trans : forall U V W : list (Z * blk), same_places U V -> same_places V W -> same_places U W.
  Proof.
    intros U V W F. revert W. induction F as [|(p, b) (q, c) U V (E1 & E2) F IH]; intros W G.
    - inversion G; subst. constructor.
    - inversion G as [|? (r, d) ? ? E34 G']; subst. constructor; [|now apply IH].
      destruct E34 as (E3 & E4). cbn in *. subst. split; auto. cbn. destruct b, c; try discriminate; destruct d; congruence.
  Qed.
  Lemma place_upd : forall (U1 U2 : list (Z * blk)) p l l', zlen l' = zlen l -> same_places (U1 ++ (p, B_vals l) :: U2) (U1 ++ (p, B_vals l') :: U2).
  Proof. intros. apply Forall2_app; [apply place_refl|]. constructor; [split; cbn; congruence|apply place_refl]. Qed.
  Lemma user_arrs_place : forall U U' c, same_places U U' -> user_arrs U c -> user_arrs U' c.
  Proof.
    intros U U' c F (pi & ii & vi & H1 & H2 & H3 & H4 & H5 & H6). destruct (place_vals _ _ _ _ F H5) as (vi' & V1 & V2).
    exists pi, ii, vi'. rewrite V2. eauto 10 using place_ints.
  Qed.
  Lemma hok_place : forall U U' fuel n A, same_places U U' -> hok U fuel n A -> hok U' fuel n A.
  Proof. intros U U' fuel n A F H. unfold hok in *. destruct (o_internal (ac_c (am_first A))); intuition eauto using user_arrs_place. Qed.

  (** ** Reading handles *)
  Lemma in_own : forall (x : acsr), o_internal (ac_c x) = true -> own_arrs x ->
    In (o_ptr (ac_c x), B_ints (ac_pi x)) (lay_csr x) /\ In (o_ind (ac_c x), B_ints (ac_ii x)) (lay_csr x) /\ In (o_val (ac_c x), B_vals (ac_vi x)) (lay_csr x).
  Proof.
    intros x HI (N1 & N2 & N3 & _). unfold lay_csr. rewrite HI, !(cell1 pick Hpick) by auto. cbn [app In]. auto 10.
  Qed.
  Lemma in_lib : forall (A : amat) e, In e (lay_csr (am_first A)) -> In e (lib A).
  Proof. intros A e H. unfold lib. right. apply in_or_app. now left. Qed.
  Lemma arrays_in : forall U fuel n A K, hok U fuel n A -> (forall e, In e U -> In e K) -> let c := ac_c (am_first A) in
    exists pi ii vi, In (o_ptr c, B_ints pi) (lib A ++ K) /\ In (o_ind c, B_ints ii) (lib A ++ K) /\ In (o_val c, B_vals vi) (lib A ++ K) /\
      o_m c + 1 <= zlen pi /\ o_nnz c <= zlen ii /\ o_nnz c <= zlen vi /\
      (if o_internal c then pi = ac_pi (am_first A) /\ ii = ac_ii (am_first A) /\ vi = ac_vi (am_first A)
       else In (o_ptr c, B_ints pi) U /\ In (o_ind c, B_ints ii) U /\ In (o_val c, B_vals vi) U).
  Proof.
    intros U fuel n A K (_ & _ & _ & _ & _ & _ & _ & H) HK c. fold c in H. destruct (o_internal c) eqn:HI.
    - destruct (in_own _ HI H) as (I1 & I2 & I3). destruct H as (_ & _ & _ & L1 & L2 & L3). exists (ac_pi (am_first A)), (ac_ii (am_first A)), (ac_vi (am_first A)).
      repeat split; auto; apply in_or_app; left; now apply in_lib.
    - destruct H as (pi & ii & vi & I1 & L1 & I2 & L2 & I3 & L3). exists pi, ii, vi. repeat split; auto; apply in_or_app; right; auto.
  Qed.
  Lemma reads_eq : forall s (A : amat) K pi ii vi, st s (lib A ++ K) -> let c := ac_c (am_first A) in
    In (o_ptr c, B_ints pi) (lib A ++ K) -> In (o_ind c, B_ints ii) (lib A ++ K) -> In (o_val c, B_vals vi) (lib A ++ K) ->
    reads s (am_p A) = Some (am_m A, am_n A, am_nnz A, (o_m c, o_n c, o_nnz c, o_doid c, o_base c),
      (firstn (Z.to_nat (o_m c + 1)) pi, firstn (Z.to_nat (o_nnz c)) ii, firstn (Z.to_nat (o_nnz c)) vi)).
  Proof.
    intros s A K pi ii vi S c I1 I2 I3. unfold reads. rewrite (mat_get A s K S). unfold am_obj. cbn [M_mats]. rewrite (first_get A s K S). fold c. unfold get_ints, get_vals.
    now rewrite (st_get _ _ _ _ S I1), (st_get _ _ _ _ S I2), (st_get _ _ _ _ S I3).
  Qed.

  Definition kept (A A' : amat) : Prop :=
    am_p A' = am_p A /\ am_m A' = am_m A /\ am_n A' = am_n A /\ am_nnz A' = am_nnz A /\ same_first (am_first A) (am_first A').
  Lemma kept_refl : forall A, kept A A. Proof. intros. unfold kept. auto 10 using same_first_refl. Qed.
  Lemma grows_kept : forall A A', grows A A' -> kept A A'.
  Proof. intros A A' (H1 & H2 & H3 & H4 & _ & H5 & _). unfold kept. auto 10. Qed.
  Lemma kept_trans : forall A B C, kept A B -> kept B C -> kept A C.
  Proof.
    intros A B C (H1 & H2 & H3 & H4 & H5) (G1 & G2 & G3 & G4 & G5). unfold kept, same_first in *.
    repeat match goal with H : _ /\ _ |- _ => destruct H end. repeat split; congruence.
  Qed.
  Lemma reads_kept : forall s s' U U' fuel n n' A A' K K', st s (lib A ++ K) -> st s' (lib A' ++ K') -> (forall e, In e U -> In e K) -> (forall e, In e U' -> In e K') ->
    hok U fuel n A -> hok U' fuel n' A' -> kept A A' -> o_internal (ac_c (am_first A)) = true \/ U' = U -> reads s' (am_p A) = reads s (am_p A).
  Proof.
    intros s s' U U' fuel n n' A A' K K' S S' HK HK' O O' KP IU.
    destruct (arrays_in _ _ _ _ K O HK) as (pi & ii & vi & I1 & I2 & I3 & _ & _ & _ & C1).
    destruct (arrays_in _ _ _ _ K' O' HK') as (pi' & ii' & vi' & J1 & J2 & J3 & _ & _ & _ & C2).
    rewrite (reads_eq s A K pi ii vi S I1 I2 I3). destruct KP as (E0 & E1 & E2 & E3 & EF). rewrite <- E0. rewrite (reads_eq s' A' K' pi' ii' vi' S' J1 J2 J3).
    destruct EF as (_ & F1 & F2 & F3 & F4 & F5 & F6 & F7 & F8 & F9 & F10 & F11 & F12). rewrite E1, E2, E3, F5, F6, F7, F8, F9. rewrite F4 in C2.
    assert (EE : pi' = pi /\ ii' = ii /\ vi' = vi); [|destruct EE as (-> & -> & ->); reflexivity].
    destruct (o_internal (ac_c (am_first A))).
    - destruct C1 as (-> & -> & ->). destruct C2 as (-> & -> & ->). auto.
    - destruct IU as [IU|IU]; [discriminate|]. subst U'. destruct C1 as (Q1 & Q2 & Q3). destruct C2 as (R1 & R2 & R3). rewrite F10 in R1. rewrite F11 in R2. rewrite F12 in R3.
      assert (UQ : forall p b b', In (p, b) U -> In (p, b') U -> b = b').
      { intros p b b' B1 B2. pose proof (st_get _ _ _ _ S (in_or_app _ _ _ (or_intror (HK _ B1)))). pose proof (st_get _ _ _ _ S (in_or_app _ _ _ (or_intror (HK _ B2)))). congruence. }
      pose proof (UQ _ _ _ Q1 R1) as X1. pose proof (UQ _ _ _ Q2 R2) as X2. pose proof (UQ _ _ _ Q3 R3) as X3. inversion X1. inversion X2. inversion X3. auto.
  Qed.

  (** ** One call *)
  Definition inv (fuel n : nat) (U : list (Z * blk)) (s : mem) (As : list amat) : Prop :=
    st s (flat_map lib As ++ U) /\ Forall (hok U fuel n) As.

  Lemma inv_split : forall fuel n U s As a, inv fuel n U s As -> In a (map am_p As) -> exists L A R, As = L ++ A :: R /\ a = am_p A /\ hok U fuel n A /\ st s (lib A ++ flat_map lib (L ++ R) ++ U).
  Proof.
    intros fuel n U s As a (S & F) I. apply in_map_iff in I. destruct I as (A & <- & I). apply in_split in I. destruct I as (L & R & ->).
    exists L, A, R. split; auto. split; auto. split; [apply Forall_app in F; destruct F as (_ & F); now inversion F|]. eapply st_perm; [exact S|]. rewrite !flat_map_app. cbn [flat_map]. perm_solve.
  Qed.
  Lemma inv_join : forall fuel n U s L A R, st s (lib A ++ flat_map lib (L ++ R) ++ U) -> Forall (hok U fuel n) (L ++ R) -> hok U fuel n A -> inv fuel n U s (L ++ A :: R).
  Proof.
    intros fuel n U s L A R S F O. split.
    - eapply st_perm; [exact S|]. rewrite !flat_map_app. cbn [flat_map]. perm_solve.
    - apply Forall_app in F. destruct F as (F1 & F2). apply Forall_app. split; auto.
  Qed.
  Lemma nodup_l : forall (l r : list Z), NoDup (l ++ r) -> NoDup l.
  Proof. induction l as [|a l IH]; intros r N; [constructor|]. inversion N as [|? ? NI N']; subst. constructor; eauto. intros I. apply NI. apply in_or_app. now left. Qed.
  Lemma nodup_r : forall (l r : list Z), NoDup (l ++ r) -> NoDup r.
  Proof. induction l as [|a l IH]; intros r N; [exact N|]. inversion N; subst. now apply IH. Qed.
  Lemma inv_nodup : forall fuel n U s As, inv fuel n U s As -> NoDup (map am_p As).
  Proof.
    intros fuel n U s As ((N & _) & _). rewrite map_app in N. apply nodup_l in N. induction As as [|A As IH]; [constructor|]. cbn [flat_map] in N. rewrite map_app in N. cbn [map].
    unfold lib at 1 in N. set (tl := lay_csr _ ++ _) in N; clearbody tl. cbn [map fst] in N. rewrite <- app_comm_cons in N. inversion N as [|? ? NI N']; subst. constructor.
    - intros I. apply NI. apply in_or_app. right. apply in_map_iff in I. destruct I as (B & E & I). apply in_map_iff. exists (am_p B, B_mat (am_obj B)). split; auto. apply in_flat_map. exists B. split; auto. now left.
    - apply IH. now apply nodup_r in N'.
  Qed.
  Lemma inv_uniq : forall fuel n U s As A B, inv fuel n U s As -> In A As -> In B As -> am_p A = am_p B -> A = B.
  Proof.
    intros fuel n U s As A B I. apply inv_nodup in I. induction As as [|C As IH]; intros HA HB E; [destruct HA|]. cbn in I. inversion I as [|? ? NI N]; subst.
    destruct HA as [->|HA], HB as [->|HB]; auto; exfalso; apply NI; [rewrite E|rewrite <- E]; now apply in_map.
  Qed.
  Lemma remove_mid : forall l r a, NoDup (l ++ a :: r) -> remove Z.eq_dec a (l ++ a :: r) = l ++ r.
  Proof.
    intros l r a N. assert (NI : ~ In a (l ++ r)) by (now apply NoDup_remove_2 in N).
    rewrite remove_app. cbn [remove]. destruct (Z.eq_dec a a); [|congruence]. rewrite <- remove_app. now apply notin_remove.
  Qed.

  Lemma map_mid : forall L (A A' : amat) R, am_p A' = am_p A -> map am_p (L ++ A' :: R) = map am_p (L ++ A :: R).
  Proof. intros L A A' R E. rewrite !map_app. cbn [map]. now rewrite E. Qed.

  (** What one call leaves of the handles it does not name *)
  Definition after (c : mcall T) (As As' : list amat) (U U' : list (Z * blk)) : Prop :=
    (forall A, In A As -> c <> m_destroy (am_p A) -> exists A', In A' As' /\ am_p A' = am_p A /\ o_internal (ac_c (am_first A')) = o_internal (ac_c (am_first A)) /\
       ((forall o, c <> m_write (am_p A) o) -> kept A A')) /\
    (U' = U \/ exists A o, In A As /\ c = m_write (am_p A) o /\ o_internal (ac_c (am_first A)) = false).

  Lemma after_same : forall c L (A A' : amat) R U, kept A A' -> after c (L ++ A :: R) (L ++ A' :: R) U U.
  Proof.
    intros c L A A' R U KP. split; auto. intros B HB _. apply in_app_or in HB. destruct HB as [HB|[<-|HB]].
    - exists B. split; [apply in_or_app; now left|]. auto using kept_refl.
    - exists A'. split; [apply in_elt|]. split; [apply KP|]. split; [apply KP|auto].
    - exists B. split; [apply in_or_app; right; now right|]. auto using kept_refl.
  Qed.
  Lemma wvals_ok : forall nnz o (vi : list T), nnz <= zlen vi -> match o with w_at k _ => 0 <= k < nnz | w_all l => nnz <= zlen l end ->
    exists vi', wvals nnz o vi = Some vi' /\ zlen vi' = zlen vi.
  Proof.
    intros nnz [k v|l] vi L V; cbn [wvals].
    - rewrite wr_upd by lia. eexists. split; [reflexivity|apply zlen_upd].
    - destruct (Z.le_gt_cases nnz 0) as [Le|Gt]; [rewrite for_nil by lia; eauto|].
      match goal with |- context [for_ ?lo ?hi ?f ?s] => destruct (for_inv _ (fun _ (x : list T) => zlen x = zlen vi) lo hi f s ltac:(lia)) as (r & E & R) end; [reflexivity| |rewrite E; eauto].
      intros i x Hi Hx. destruct (rd l i) as [v|] eqn:E.
      2:{ exfalso. destruct vi as [|d vi]; [cbn in L; lia|]. rewrite (rd_nthZ _ d) in E by lia. discriminate. }
      rewrite wr_upd by lia. eexists. split; [reflexivity|]. now rewrite zlen_upd.
  Qed.

  Lemma step : forall fuel n U s As c, (n <= fuel)%nat -> inv fuel (S n) U s As -> valid_call pick fuel U c s (map am_p As) ->
    exists s' r As' U', do_mcall pick fuel c s (map am_p As) = Some (s', r, map am_p As') /\ inv fuel n U' s' As' /\ same_places U U' /\ after c As As' U U'.
  Proof.
    intros fuel n U s As c Hn I V.
    assert (LESS : forall L A R, As = L ++ A :: R -> Forall (hok U fuel n) (L ++ R)).
    { intros L A R E. destruct I as (_ & F). subst As. apply Forall_app in F. destruct F as (F1 & F2). inversion F2; subst. apply Forall_app. split; now apply hoks_less. }
    assert (KEEP : forall L A R s' r A' cc, As = L ++ A :: R -> c = cc -> st s' (lib A' ++ flat_map lib (L ++ R) ++ U) -> hok U fuel n A' -> kept A A' ->
      do_mcall pick fuel cc s (map am_p As) = Some (s', r, map am_p As) ->
      exists s' r As' U', do_mcall pick fuel cc s (map am_p As) = Some (s', r, map am_p As') /\ inv fuel n U' s' As' /\ same_places U U' /\ after c As As' U U').
    { intros L A R s' r A' cc EA Ec S' O' KP E. exists s', r, (L ++ A' :: R), U. split.
      - rewrite E. subst As. now rewrite (map_mid L A A' R (proj1 KP)).
      - split; [apply inv_join; eauto|]. split; [apply place_refl|]. subst As. now apply after_same. }
    destruct c as [m n0 nnz csc base p i v pf|a w|a k|a d k|a di|a o|a pf|a]; cbn [valid_call] in V.
    - (* create *) destruct V as (D1 & D2 & D3 & pi & ii & vi & V1 & V2 & V3 & V4 & V5 & V6). cbn [do_mcall]. set (c := mkCO false _ _ _ _ _ _ _ _ _ _ _ _).
      destruct (create_ok pick Hpick m n0 nnz c pf s _ (proj1 I)) as (s' & [(-> & S')|(d & q & -> & S')]); try reflexivity.
      + exists s', memory_error, As, U. split; [reflexivity|]. split; [split; auto; exact (hoks_less _ _ _ _ (proj2 I))|]. split; [apply place_refl|].
        split; auto. intros A HA _. exists A. auto using kept_refl.
      + set (D := fresh_mat d m n0 nnz (mkAC q c [] [] [] [] [] [])) in *. exists s', success, (D :: As), U. split; [reflexivity|]. split; [split|].
        * cbn [flat_map]. rewrite <- app_assoc. exact S'.
        * constructor; [|exact (hoks_less _ _ _ _ (proj2 I))].
          unfold hok. cbn [D fresh_mat am_m am_n am_nnz am_first am_hints ac_c o_m o_nnz o_internal c length]. split; [unfold pure_ok; cbn; split; [auto|]; split; [constructor|auto]|].
          split; [exact D1|]. split; [exact D2|]. split; [exact D3|]. split; [destruct csc; auto|]. split; [reflexivity|]. split; [lia|].
          exists pi, ii, vi. cbn [c o_ptr o_ind o_val o_m o_nnz]. auto 10.
        * split; [apply place_refl|]. split; auto. intros A HA _. exists A. split; [now right|]. auto using kept_refl.
    - (* hint *) destruct (inv_split _ _ _ _ _ _ I V) as (L & A & R & EA & -> & O & S).
      destruct (add_hint_ok pick Hpick A s _ w S) as (s' & [(E & S')|(p & E & S')]).
      + eapply (KEEP L A R s' memory_error A); eauto using hok_less, kept_refl. cbn [do_mcall]. now rewrite E.
      + set (A' := mkAM _ _ _ _ _ _ _ _ _ _ _ _) in S'. eapply (KEEP L A R s' success A'); eauto.
        * unfold hok in *. cbn [A' am_m am_n am_nnz am_first am_hints length]. destruct O as (O1 & O2 & O3 & O4 & O5 & O6 & O7 & O8). repeat (split; [auto; lia|]). exact O8.
        * unfold kept. cbn [A' am_p am_m am_n am_nnz am_first]. auto 10 using same_first_refl.
        * cbn [do_mcall]. now rewrite E.
    - (* optimize *) destruct (inv_split _ _ _ _ _ _ I V) as (L & A & R & EA & -> & O & S).
      destruct (optimize_ok pick Hpick A k s _ S (proj1 O)) as (s' & r & A' & E & S' & G).
      eapply (KEEP L A R s' r A'); eauto using hok_grows, grows_kept. cbn [do_mcall]. now rewrite E.
    - (* hinted copy *) destruct (inv_split _ _ _ _ _ _ I V) as (L & A & R & EA & -> & O & S).
      destruct (hinted_ok pick Hpick A d k s _ S (proj1 O)) as (s' & r & A' & E & S' & G).
      eapply (KEEP L A R s' r A'); eauto using hok_grows, grows_kept. cbn [do_mcall]. now rewrite E.
    - (* ilu *) destruct V as (V & NM). destruct (inv_split _ _ _ _ _ _ I V) as (L & A & R & EA & -> & O & S).
      destruct (arrays_in _ _ _ _ (flat_map lib (L ++ R) ++ U) O) as (pi & ii & vi & I1 & I2 & I3 & L1 & L2 & L3 & _); [intros; apply in_or_app; auto|].
      destruct (ilu_ok pick Hpick A di s _ vi S (proj1 O) I3) as (s' & r & E & G); [unfold hok in O; lia|].
      cbn [do_mcall] in NM |- *. rewrite E in NM |- *. destruct (G (NM _ _ _ eq_refl)) as (A' & S' & G').
      assert (Q := KEEP L A R s' r A' (m_ilu (am_p A) di) EA eq_refl S' (hok_grows _ _ _ _ _ O G') (grows_kept _ _ G')). cbn [do_mcall] in Q. rewrite E in Q. now apply Q.
    - (* write *) assert (V' : In a (map am_p As) /\ match o with w_at k _ => 0 <= k < nnz_of s a | w_all l => nnz_of s a <= zlen l end) by (destruct o; exact V).
      clear V. destruct V' as (V & VO). destruct (inv_split _ _ _ _ _ _ I V) as (L & A & R & EA & -> & O & S).
      replace (nnz_of s (am_p A)) with (am_nnz A) in VO by (unfold nnz_of; now rewrite (mat_get A s _ S)).
      destruct (arrays_in _ _ _ _ (flat_map lib (L ++ R) ++ U) O) as (pi & ii & vi & I1 & I2 & I3 & L1 & L2 & L3 & C); [intros; apply in_or_app; auto|].
      assert (EN : o_nnz (ac_c (am_first A)) = am_nnz A) by (apply O). rewrite EN in *.
      destruct (wvals_ok (am_nnz A) o vi L3) as (vi' & W & LV); [destruct o; exact VO|].
      destruct (o_internal (ac_c (am_first A))) eqn:HI.
      + destruct C as (_ & _ & ->). destruct (write_ok pick Hpick A o s _ [] [] _ vi' S I3 W) as (s' & E & S').
        * intros _. split; auto. unfold hok in O. rewrite HI in O. apply O.
        * congruence.
        * rewrite HI in S'. set (A' := drop_rest (set_first A (set_vi (am_first A) vi'))) in *.
          exists s', success, (L ++ A' :: R), U. cbn [do_mcall]. rewrite E. split; [subst As; now rewrite (map_mid L A A' R eq_refl)|]. split; [apply inv_join; eauto|].
          -- unfold hok in *. rewrite HI in O. destruct O as ((Q1 & Q2 & Q3) & O2 & O3 & O4 & O5 & O6 & O7 & O8). unfold own_arrs in *.
             cbn [A' drop_rest set_first set_vi am_m am_n am_nnz am_first am_hints ac_c ac_pi ac_ii ac_vi]. rewrite HI. rewrite LV. split; [|repeat (split; [auto; lia|]); lia].
             unfold pure_ok. cbn [A' drop_rest set_first set_vi am_first am_rest am_ready am_lud am_luv ac_c]. split; auto. split; auto. apply Forall_forall. intros x Hx. apply in_map_iff in Hx. destruct Hx as (y & <- & _). exact Logic.I.
          -- split; [apply place_refl|]. split; auto. subst As. intros B HB ND. apply in_app_or in HB. destruct HB as [HB|[<-|HB]].
             ++ exists B. split; [apply in_or_app; now left|]. auto using kept_refl.
             ++ exists A'. split; [apply in_elt|]. split; [reflexivity|]. split; [reflexivity|]. intros NW. now specialize (NW o).
             ++ exists B. split; [apply in_or_app; right; now right|]. auto using kept_refl.
      + destruct C as (_ & _ & IU). apply in_split in IU. destruct IU as (U1 & U2 & EU).
        destruct (write_ok pick Hpick A o s _ (flat_map lib (L ++ R) ++ U1) U2 vi vi' S I3 W) as (s' & E & S').
        * congruence.
        * intros _. rewrite EU. now rewrite app_assoc.
        * rewrite HI in S'. rewrite <- app_assoc in S'. set (U' := U1 ++ (o_val (ac_c (am_first A)), B_vals vi') :: U2) in *.
          assert (SP : same_places U U') by (rewrite EU; apply place_upd; auto).
          exists s', success, (L ++ drop_rest A :: R), U'. cbn [do_mcall]. rewrite E. split; [subst As; now rewrite (map_mid L A (drop_rest A) R eq_refl)|]. split; [apply inv_join; eauto|].
          -- eapply Forall_impl; [|exact (LESS L A R EA)]. intros B. now apply hok_place.
          -- apply (hok_place _ _ _ _ _ SP). unfold hok in *. rewrite HI in O. destruct O as ((Q1 & Q2 & Q3) & O2 & O3 & O4 & O5 & O6 & O7 & O8).
             cbn [drop_rest am_m am_n am_nnz am_first am_hints]. rewrite HI. split; [|repeat (split; [auto; lia|]); exact O8].
             unfold pure_ok. cbn [drop_rest am_first am_rest am_ready am_lud am_luv]. split; auto. split; auto. apply Forall_forall. intros x Hx. apply in_map_iff in Hx. destruct Hx as (y & <- & _). exact Logic.I.
          -- split; [exact SP|]. split.
             2:{ right. exists A, o. split; auto. subst As. apply in_elt. }
             subst As. intros B HB ND. apply in_app_or in HB. destruct HB as [HB|[<-|HB]].
             ++ exists B. split; [apply in_or_app; now left|]. auto using kept_refl.
             ++ exists (drop_rest A). split; [apply in_elt|]. split; [reflexivity|]. split; [reflexivity|]. intros NW. now specialize (NW o).
             ++ exists B. split; [apply in_or_app; right; now right|]. auto using kept_refl.
    - (* copy *) destruct (inv_split _ _ _ _ _ _ I V) as (L & A & R & EA & -> & O & S).
      destruct (arrays_in _ _ _ _ (flat_map lib (L ++ R) ++ U) O) as (pi & ii & vi & I1 & I2 & I3 & L1 & L2 & L3 & C); [intros; apply in_or_app; auto|].
      pose proof O as (O1 & O2 & O3 & O4 & O5 & O6 & O7 & O8).
      destruct (copy_ok pick Hpick A pf s _ pi ii vi S) as (s' & [(r & E & NS & S')|(d & q & p & i & v & E & N1 & N2 & N3 & S')]); auto; [lia| |].
      + eapply (KEEP L A R s' r A); eauto using hok_less, kept_refl. cbn [do_mcall]. rewrite E. destruct r; try reflexivity. congruence.
      + set (D := fresh_mat _ _ _ _ _) in S'. exists s', success, (D :: As), U. cbn [do_mcall]. rewrite E. split; [reflexivity|]. split; [split|].
        * cbn [flat_map]. rewrite EA, flat_map_app. cbn [flat_map]. rewrite flat_map_app in S'. eapply st_perm; [exact S'|]. perm_solve.
        * constructor; [|exact (hoks_less _ _ _ _ (proj2 I))].
          unfold hok. cbn [D fresh_mat am_m am_n am_nnz am_first am_hints ac_c o_m o_nnz o_internal length]. split; [unfold pure_ok; cbn; split; [auto|]; split; [constructor|auto]|]. do 6 (split; [auto; lia|]).
          unfold own_arrs. cbn [ac_c ac_pi ac_ii ac_vi o_ptr o_ind o_val o_m o_nnz]. split; [auto|]. split; [auto|]. split; [auto|]. unfold zlen in *. rewrite !firstn_length. lia.
        * split; [apply place_refl|]. split; auto. intros B HB _. exists B. split; [now right|]. auto using kept_refl.
    - (* destroy *) destruct V as [->|V].
      + cbn [do_mcall destroy]. change (0 =? 0) with true. cbv iota. exists s, success, As, U. rewrite notin_remove.
        2:{ intros N0. destruct (inv_split _ _ _ _ _ _ I N0) as (L & A & R & _ & E0 & _ & S). apply (st_nz _ _ (am_p A) (B_mat (am_obj A)) S); [now left|auto]. }
        split; [reflexivity|]. split; [split; [apply I|exact (hoks_less _ _ _ _ (proj2 I))]|]. split; [apply place_refl|].
        split; auto. intros A HA _. exists A. auto using kept_refl.
      + destruct (inv_split _ _ _ _ _ _ I V) as (L & A & R & EA & -> & O & S).
        destruct (destroy_ok pick Hpick A s _ fuel S) as (s' & E & S'); [unfold hok in O; lia|].
        exists s', success, (L ++ R), U. cbn [do_mcall]. rewrite E. split.
        { pose proof (inv_nodup _ _ _ _ _ I) as ND. subst As. rewrite map_app in ND |- *. cbn [map] in ND |- *. rewrite remove_mid by exact ND. now rewrite map_app. }
        split; [split; [exact S'|eauto]|]. split; [apply place_refl|]. split; auto. intros B HB ND. subst As. exists B. apply in_app_or in HB. destruct HB as [HB|[<-|HB]]; [|congruence|]; (split; [apply in_or_app; auto|]); auto using kept_refl.
  Qed.

  (** ** Histories *)
  Lemma valid_place : forall fuel U U' c s hs, same_places U U' -> valid_call pick fuel U c s hs -> valid_call pick fuel U' c s hs.
  Proof.
    intros fuel U U' c s hs SP V. destruct c; auto. cbn [valid_call] in *. destruct V as (D1 & D2 & D3 & pi & ii & vi & V1 & V2 & V3 & V4 & V5 & V6).
    destruct (place_vals _ _ _ _ SP V5) as (vi' & W1 & W2). do 3 (split; [auto|]). exists pi, ii, vi'. rewrite W2. eauto 10 using place_ints.
  Qed.
  Lemma valid_app : forall fuel U l l' s hs s1 hs1, valid_run pick fuel U (l ++ l') s hs -> mrun pick fuel l s hs = Some (s1, hs1) -> valid_run pick fuel U l s hs /\ valid_run pick fuel U l' s1 hs1.
  Proof.
    induction l as [|c l IH]; intros l' s hs s1 hs1 V R; cbn [app valid_run mrun] in *.
    - inversion R; subst. auto.
    - destruct V as (V1 & V2). destruct (do_mcall pick fuel c s hs) as [((s2, st2), hs2)|] eqn:E; [|discriminate].
      destruct (IH _ _ _ _ _ (V2 _ _ _ eq_refl) R) as (Q1 & Q2). split; auto. split; auto. intros s' st' hs' E'. inversion E'; subst. exact Q1.
  Qed.

  Lemma run_gen : forall (P : list amat -> list (Z * blk) -> Prop) (Q : mcall T -> Prop),
    (forall fuel n c s As As' U U', inv fuel n U s As -> after c As As' U U' -> Q c -> P As U -> P As' U') ->
    forall U0 l fuel k U s As, (length l + k <= fuel)%nat -> valid_run pick fuel U0 l s (map am_p As) -> same_places U0 U -> inv fuel (length l + k) U s As -> Forall Q l -> P As U ->
    exists s' As' U', mrun pick fuel l s (map am_p As) = Some (s', map am_p As') /\ inv fuel k U' s' As' /\ same_places U0 U' /\ P As' U'.
  Proof.
    intros P Q HP U0. induction l as [|c l IH]; intros fuel k U s As Hf V SP I FQ HPU; cbn [length] in *.
    - exists s, As, U. auto.
    - cbn [valid_run] in V. destruct V as (V1 & V2). inversion FQ as [|? ? Qc Ql]; subst.
      destruct (step fuel (length l + k) U s As c ltac:(lia) I (valid_place _ _ _ _ _ _ SP V1)) as (s1 & r & As1 & U1 & E & I1 & SP1 & AF).
      destruct (IH fuel k U1 s1 As1 ltac:(lia) (V2 _ _ _ E) (place_trans _ _ _ SP SP1) I1 Ql (HP _ _ _ _ _ _ _ _ I AF Qc HPU)) as (s2 & As2 & U2 & E2 & I2 & SP2 & P2).
      exists s2, As2, U2. cbn [mrun]. rewrite E. auto.
  Qed.
  Lemma inv_start : forall fuel n U s, live_is s U -> inv fuel n U s [].
  Proof. intros fuel n U s H. split; [exact H|constructor]. Qed.
  Lemma run_any : forall U0 l fuel k U s As, (length l + k <= fuel)%nat -> valid_run pick fuel U0 l s (map am_p As) -> same_places U0 U -> inv fuel (length l + k) U s As ->
    exists s' As' U', mrun pick fuel l s (map am_p As) = Some (s', map am_p As') /\ inv fuel k U' s' As' /\ same_places U0 U'.
  Proof.
    intros U0 l fuel k U s As H1 H2 H3 H4. destruct (run_gen (fun _ _ => True) (fun _ => True) ltac:(auto) U0 l fuel k U s As H1 H2 H3 H4) as (s' & As' & U' & A1 & A2 & A3 & _); auto.
    - apply Forall_forall. auto.
    - eauto 10.
  Qed.

  (** No write, no change of the program's arrays *)
  Lemma life : forall fuel U l s, live_is s U -> valid_run pick fuel U l s [] -> (length l <= fuel)%nat ->
    exists s' hs' U', mrun pick fuel l s [] = Some (s', hs') /\ same_places U U' /\ (Forall no_write l -> U' = U) /\
      (forall p b, In (p, b) U' -> hp s' p = Some b) /\ (hs' = [] -> live_is s' U').
  Proof.
    intros fuel U l s H V Hf. assert (H0 : (length l + 0 <= fuel)%nat) by lia.
    destruct (run_gen (fun _ U' => Forall no_write l -> U' = U) (fun c => Forall no_write l -> no_write c)) with (U0 := U) (l := l) (fuel := fuel) (k := 0%nat) (U := U) (s := s) (As := @nil amat) as (s' & As' & U' & E & I & SP & PU); auto.
    - intros fl n c s0 As As' V0 V1 _ (_ & AF) NW HV N. destruct AF as [->|(A & o & _ & -> & _)]; auto. destruct (NW N).
    - apply place_refl.
    - now apply inv_start.
    - apply Forall_forall. intros c Hc N. rewrite Forall_forall in N. auto.
    - exists s', (map am_p As'), U'. split; [exact E|]. split; [exact SP|]. split; [exact PU|]. split.
      + intros p b Ip. apply (st_get _ _ _ _ (proj1 I)). apply in_or_app. now right.
      + intros E0. destruct As'; [|discriminate]. exact (proj1 I).
  Qed.

  (** What a handle holds depends on its record *)
  Lemma reads_same : forall fuel n n' U U' s s' As As' A A', inv fuel n U s As -> inv fuel n' U' s' As' -> In A As -> In A' As' -> kept A A' ->
    o_internal (ac_c (am_first A)) = true \/ U' = U -> reads s' (am_p A) = reads s (am_p A).
  Proof.
    intros fuel n n' U U' s s' As As' A A' I I' HA HA' KP IU.
    assert (SPL : forall fuel n U s As A, inv fuel n U s As -> In A As -> exists K, st s (lib A ++ K) /\ (forall e, In e U -> In e K) /\ hok U fuel n A).
    { clear. intros fuel n U s As A (S & F) HA. pose proof (proj1 (Forall_forall _ _) F A HA) as O. apply in_split in HA. destruct HA as (L & R & ->). exists (flat_map lib (L ++ R) ++ U). split; [|split; auto].
      - eapply st_perm; [exact S|]. rewrite !flat_map_app. cbn [flat_map]. perm_solve.
      - intros. apply in_or_app. now right. }
    destruct (SPL _ _ _ _ _ _ I HA) as (K & S & HK & O). destruct (SPL _ _ _ _ _ _ I' HA') as (K' & S' & HK' & O').
    exact (reads_kept _ _ _ _ _ _ _ _ _ _ _ S S' HK HK' O O' KP IU).
  Qed.

  Lemma copy_step : forall fuel n U s As a pf, (n <= fuel)%nat -> inv fuel (S n) U s As -> In a (map am_p As) ->
    exists s' r As', do_mcall pick fuel (m_copy a pf) s (map am_p As) = Some (s', r, map am_p As') /\ inv fuel n U s' As' /\
      (r <> success -> As' = As) /\
      (r = success -> exists D, As' = D :: As /\ o_internal (ac_c (am_first D)) = true /\ reads s' (am_p D) = reads s a /\ reads s a <> None).
  Proof.
    intros fuel n U s As a pf Hn I V. destruct (inv_split _ _ _ _ _ _ I V) as (L & A & R & EA & -> & O & S).
    destruct (arrays_in _ _ _ _ (flat_map lib (L ++ R) ++ U) O) as (pi & ii & vi & I1 & I2 & I3 & L1 & L2 & L3 & C); [intros; apply in_or_app; auto|].
    pose proof O as (O1 & O2 & O3 & O4 & O5 & O6 & O7 & O8). pose proof (reads_eq s A _ pi ii vi S I1 I2 I3) as RA.
    destruct (copy_ok pick Hpick A pf s _ pi ii vi S) as (s' & [(r & E & NS & S')|(d & q & p & i & v & E & N1 & N2 & N3 & S')]); auto; [lia| |].
    - exists s', r, As. cbn [do_mcall]. rewrite E. split; [destruct r; try reflexivity; congruence|]. split.
      + subst As. apply inv_join; auto; [|now apply hok_less]. destruct I as (_ & F). apply Forall_app in F. destruct F as (F1 & F2). inversion F2; subst. apply Forall_app. split; now apply hoks_less.
      + split; auto. congruence.
    - set (D := fresh_mat _ _ _ _ _) in S'. exists s', success, (D :: As). cbn [do_mcall]. rewrite E. split; [reflexivity|].
      split; [split|split; [congruence|]].
      + cbn [flat_map]. rewrite EA, flat_map_app. cbn [flat_map]. rewrite flat_map_app in S'. eapply st_perm; [exact S'|]. perm_solve.
      + constructor; [|exact (hoks_less _ _ _ _ (proj2 I))].
        unfold hok. cbn [D fresh_mat am_m am_n am_nnz am_first am_hints ac_c o_m o_nnz o_internal length]. split; [unfold pure_ok; cbn; split; [auto|]; split; [constructor|auto]|]. do 6 (split; [auto; lia|]).
        unfold own_arrs. cbn [ac_c ac_pi ac_ii ac_vi o_ptr o_ind o_val o_m o_nnz]. split; [auto|]. split; [auto|]. split; [auto|]. unfold zlen in *. rewrite !firstn_length. lia.
      + intros _. exists D. split; [reflexivity|]. split; [reflexivity|].
        assert (OD : own_arrs (am_first D)).
        { unfold own_arrs. cbn [D fresh_mat am_first ac_c ac_pi ac_ii ac_vi o_ptr o_ind o_val o_m o_nnz]. split; [auto|]. split; [auto|]. split; [auto|]. unfold zlen in *. rewrite !firstn_length. lia. }
        destruct (in_own (am_first D) eq_refl OD) as (J1 & J2 & J3).
        rewrite (reads_eq s' D _ _ _ _ S' (in_or_app _ _ _ (or_introl (in_lib _ _ J1))) (in_or_app _ _ _ (or_introl (in_lib _ _ J2))) (in_or_app _ _ _ (or_introl (in_lib _ _ J3)))).
        rewrite RA. split; [|discriminate]. cbn [D fresh_mat am_m am_n am_nnz am_first ac_c ac_pi ac_ii ac_vi o_m o_n o_nnz o_doid o_base]. rewrite !firstn_firstn, !Nat.min_id. reflexivity.
  Qed.

  (** ** Copies *)
  Lemma copy_main : forall fuel U s l a pf, live_is s U -> valid_run pick fuel U (l ++ [m_copy a pf]) s [] -> (length l + 1 <= fuel)%nat ->
    exists s1 hs1 s2 r hs2, mrun pick fuel l s [] = Some (s1, hs1) /\ do_mcall pick fuel (m_copy a pf) s1 hs1 = Some (s2, r, hs2) /\
      (r <> success -> hs2 = hs1) /\
      (r = success -> exists d, hs2 = d :: hs1 /\ d <> 0 /\ ~ In d hs1 /\ reads s2 d = reads s1 a /\ reads s1 a <> None) /\
      forall b, In b hs1 -> reads s2 b = reads s1 b.
  Proof.
    intros fuel U s l a pf H V Hf. assert (VP : valid_run pick fuel U l s []).
    { clear -V. revert s V. generalize (@nil Z). induction l as [|c l IH]; intros hs s V; [exact Logic.I|]. cbn [app valid_run] in *. destruct V as (V1 & V2). split; auto. intros. eapply IH. eauto. }
    destruct (run_any U l fuel 1 U s (@nil amat) Hf VP (place_refl _) (inv_start _ _ _ _ H)) as (s1 & As & U1 & E & I & SP).
    destruct (valid_app _ _ _ _ _ _ _ _ V E) as (_ & V1). cbn [valid_run valid_call] in V1. destruct V1 as (V1 & _).
    destruct (copy_step fuel 0 U1 s1 As a pf ltac:(lia) I V1) as (s2 & r & As2 & E2 & I2 & C1 & C2).
    exists s1, (map am_p As), s2, r, (map am_p As2). split; [exact E|]. split; [exact E2|]. split; [intros N; now rewrite (C1 N)|]. split.
    - intros Er. destruct (C2 Er) as (D & -> & DI & RD & RN). exists (am_p D). split; [reflexivity|]. split; [|split; [|auto]].
      + destruct (inv_split _ _ _ _ _ (am_p D) I2 (or_introl eq_refl)) as (L & A & R & _ & E0 & _ & S). rewrite E0. apply (st_nz _ _ (am_p A) (B_mat (am_obj A)) S). now left.
      + apply inv_nodup in I2. now inversion I2.
    - intros b Hb. apply in_map_iff in Hb. destruct Hb as (B & <- & HB). eapply (reads_same fuel _ _ U1 U1 s1 s2 As As2 B B I I2 HB); auto using kept_refl.
      assert (SD : {r = success} + {r <> success}) by (decide equality); destruct SD as [Er|Nr]; [destruct (C2 Er) as (D & -> & _); now right|rewrite (C1 Nr); auto].
  Qed.

  Lemma indep : forall fuel U s l a pf s1 hs1 s2 d l2, live_is s U -> valid_run pick fuel U (l ++ m_copy a pf :: l2) s [] -> (length l + 1 + length l2 <= fuel)%nat ->
    mrun pick fuel l s [] = Some (s1, hs1) -> do_mcall pick fuel (m_copy a pf) s1 hs1 = Some (s2, success, d :: hs1) ->
    exists s3 hs3, mrun pick fuel l2 s2 (d :: hs1) = Some (s3, hs3) /\
      (Forall (spares d) l2 -> In d hs3 /\ reads s3 d = reads s1 a) /\
      (forall b, In b hs1 -> Forall (only_writes d b) l2 -> In b hs3 /\ reads s3 b = reads s1 b).
  Proof.
    intros fuel U s l a pf s1 hs1 s2 d l2 H V Hf E E2. destruct (valid_app _ _ _ _ _ _ _ _ V E) as (VP & V1). cbn [valid_run valid_call] in V1. destruct V1 as (V1 & V2).
    destruct (run_any U l fuel (1 + length l2) U s (@nil amat) ltac:(lia) VP (place_refl _) (inv_start _ _ _ _ H)) as (s1' & As & U1 & E' & I & SP).
    assert (EQ : Some (s1, hs1) = Some (s1', map am_p As)) by (etransitivity; [symmetry; exact E|exact E']). inversion EQ; subst s1' hs1. clear E' EQ.
    destruct (copy_step fuel (length l2) U1 s1 As a pf ltac:(lia) I V1) as (s2' & r & As2 & E2' & I2 & _ & C2).
    rewrite E2 in E2'. inversion E2' as [[Q1 Q2 Q3]]. subst s2' r. destruct (C2 eq_refl) as (D & -> & DI & RD & RN). cbn [map] in Q3. inversion Q3; subst d. clear E2' C2 Q3.
    specialize (V2 _ _ _ E2). change (am_p D :: map am_p As) with (map am_p (D :: As)) in V2 |- *.
    assert (I2' : inv fuel (length l2 + 0) U1 s2 (D :: As)) by (rewrite Nat.add_0_r; exact I2).
    destruct (run_any U l2 fuel 0 U1 s2 (D :: As) ltac:(lia) V2 SP I2') as (s3 & As3 & U3 & E3 & I3 & _).
    exists s3, (map am_p As3). split; [exact E3|].
    assert (DET : forall s' (As' : list amat), mrun pick fuel l2 s2 (map am_p (D :: As)) = Some (s', map am_p As') -> s3 = s' /\ map am_p As3 = map am_p As') by (intros s' As' Ex; rewrite E3 in Ex; inversion Ex; auto).
    split.
    - intros SPR. destruct (run_gen (fun As _ => exists A, In A As /\ kept D A) (spares (am_p D))) with (U0 := U) (l := l2) (fuel := fuel) (k := 0%nat) (U := U1) (s := s2) (As := D :: As) as (s4 & As4 & U4 & E4 & I4 & _ & A & HA & KA); auto.
      + intros fl n c s0 Bs Bs' V0 V0' _ (AF & _) Sc (A & HA & KA). destruct (AF A HA) as (A' & HA' & EA & _ & KW).
        * intros ->. apply Sc. now apply KA.
        * exists A'. split; auto. eapply kept_trans; [exact KA|]. apply KW. intros o ->. apply Sc. now apply KA.
      + lia.
      + exists D. split; [now left|apply kept_refl].
      + destruct (DET _ _ E4) as (-> & ->). split; [apply in_map_iff; exists A; split; [apply KA|auto]|]. rewrite <- RD.
        eapply (reads_same _ _ _ _ _ _ _ _ _ D A I2 I4); auto. now left.
    - intros b Hb OW. apply in_map_iff in Hb. destruct Hb as (B & <- & HB).
      destruct (run_gen (fun As U => (exists A, In A As /\ kept B A) /\ (exists D', In D' As /\ am_p D' = am_p D /\ o_internal (ac_c (am_first D')) = true) /\ U = U1) (only_writes (am_p D) (am_p B))) with
        (U0 := U) (l := l2) (fuel := fuel) (k := 0%nat) (U := U1) (s := s2) (As := D :: As) as (s4 & As4 & U4 & E4 & I4 & _ & (A & HA & KA) & _ & EU); auto.
      + intros fl n c s0 Bs Bs' V0 V0' Ic (AF & AU) Sc ((A & HA & KA) & (D' & HD & ED & DI') & EV). split; [|split].
        * assert (NB : am_p B <> am_p D). { intros EB. pose proof (inv_nodup _ _ _ _ _ I2) as ND. cbn [map] in ND. inversion ND as [|? ? NI _]; subst. apply NI. rewrite <- EB. now apply in_map. }
          destruct (AF A HA) as (A' & HA' & EA & _ & KW).
          -- intros ->. destruct Sc as (Sc & _). apply Sc. now apply KA.
          -- exists A'. split; auto. eapply kept_trans; [exact KA|]. apply KW. intros o ->. cbn in Sc. apply NB. rewrite <- Sc. symmetry. apply KA.
        * destruct (AF D' HD) as (D'' & HD'' & ED'' & DI'' & _).
          -- intros ->. cbn in Sc. destruct Sc. congruence.
          -- exists D''. split; auto. split; congruence.
        * destruct AU as [->|(W & o & HW & -> & WI)]; auto. cbn in Sc. assert (W = D') by (eapply inv_uniq; eauto; congruence). subst W. congruence.
      + lia.
      + split; [exists B; split; [now right|apply kept_refl]|]. split; auto. exists D. split; [now left|auto].
      + destruct (DET _ _ E4) as (-> & ->). subst U4. split; [apply in_map_iff; exists A; split; [apply KA|auto]|].
        eapply (reads_same _ _ _ _ _ _ _ _ _ B A I I4); auto.
  Qed.

  (** Without a value update every handle that is not destroyed keeps what it holds *)
  Lemma unchanged : forall fuel U s l s1 hs1 l2 b, live_is s U -> valid_run pick fuel U (l ++ l2) s [] -> (length l + length l2 <= fuel)%nat ->
    mrun pick fuel l s [] = Some (s1, hs1) -> In b hs1 -> Forall (fun c => no_write c /\ c <> m_destroy b) l2 ->
    exists s2 hs2, mrun pick fuel l2 s1 hs1 = Some (s2, hs2) /\ In b hs2 /\ reads s2 b = reads s1 b.
  Proof.
    intros fuel U s l s1 hs1 l2 b H V Hf E Hb FN. destruct (valid_app _ _ _ _ _ _ _ _ V E) as (VP & V1).
    destruct (run_any U l fuel (length l2) U s (@nil amat) ltac:(lia) VP (place_refl _) (inv_start _ _ _ _ H)) as (s1' & As & U1 & E' & I & SP).
    assert (EQ : Some (s1, hs1) = Some (s1', map am_p As)) by (etransitivity; [symmetry; exact E|exact E']). inversion EQ; subst s1' hs1. clear E' EQ.
    apply in_map_iff in Hb. destruct Hb as (B & <- & HB).
    destruct (run_gen (fun As U => (exists A, In A As /\ kept B A) /\ U = U1) (fun c => no_write c /\ c <> m_destroy (am_p B))) with
      (U0 := U) (l := l2) (fuel := fuel) (k := 0%nat) (U := U1) (s := s1) (As := As) as (s4 & As4 & U4 & E4 & I4 & _ & (A & HA & KA) & EU); auto.
    - intros fl n c s0 Bs Bs' V0 V0' Ic (AF & AU) (NW & ND) ((A & HA & KA) & EV). assert (EP : am_p A = am_p B) by apply KA. split.
      + destruct (AF A HA) as (A' & HA' & EA & _ & KW); [congruence|]. exists A'. split; auto. eapply kept_trans; [exact KA|]. apply KW. intros o ->. exact NW.
      + destruct AU as [->|(W & o & HW & -> & WI)]; auto. destruct NW.
    - lia.
    - now rewrite Nat.add_0_r.
    - split; auto. exists B. split; [auto|apply kept_refl].
    - exists s4, (map am_p As4). split; [exact E4|]. subst U4. split; [apply in_map_iff; exists A; split; [apply KA|auto]|].
      eapply (reads_same _ _ _ _ _ _ _ _ _ B A I I4); auto.
  Qed.
End P.
