(** When beta compares equal to zero the old content of y is never used.  No
    algebraic law is assumed, so this also covers NaN and infinity in y. *)
From Coq Require Import ZArith List Bool Lia ZifyBool.
From Verif Require Import Base BaseFacts Algebra Vec DoidModel MvModel CsrmvModel CsrmvProof.
Import ListNotations.
Open Scope Z_scope.

Lemma for_two : forall S (P : Z -> S -> S -> Prop) lo hi f (s1 s2 : S), lo <= hi -> P lo s1 s2 ->
  (forall i a c, lo <= i < hi -> P i a c ->
     f i a = None /\ f i c = None \/ exists a' c', f i a = Some a' /\ f i c = Some c' /\ P (i + 1) a' c') ->
  for_ lo hi f s1 = None /\ for_ lo hi f s2 = None \/
  exists a c, for_ lo hi f s1 = Some a /\ for_ lo hi f s2 = Some c /\ P hi a c.
Proof.
  intros S P lo hi f s1 s2 H H0 Hs.
  destruct (for_inv (option (S * S)) (fun i st => match st with
      | Some (a, c) => for_ lo i f s1 = Some a /\ for_ lo i f s2 = Some c /\ P i a c
      | None => for_ lo i f s1 = None /\ for_ lo i f s2 = None end) lo hi
      (fun i st => Some (match st with Some (a, c) => match f i a, f i c with Some a', Some c' => Some (a', c') | _, _ => None end | None => None end))
      (Some (s1, s2)) H) as (st & _ & R).
  - rewrite !for_nil by lia. auto.
  - intros i st Hi Hst. eexists. split; [reflexivity|]. destruct st as [[a c]|].
    + destruct Hst as (E1 & E2 & HP). rewrite !for_last by lia. rewrite E1, E2.
      destruct (Hs i a c Hi HP) as [[N1 N2]|(a' & c' & N1 & N2 & HP')]; rewrite N1, N2; auto.
    + destruct Hst as (E1 & E2). rewrite !for_last by lia. rewrite E1, E2. auto.
  - destruct st as [[a c]|]; [right; exists a, c; auto|left; auto].
Qed.

Section P.
  Context {T : Type} (O : ops T).
  Variable beta : T.
  Hypothesis B0 : oeqb O beta (o0 O) = true.

  Lemma overwrite : forall m (R : Z -> option T) body (y1 y2 : list T), 0 <= m -> zlen y1 = m -> zlen y2 = m ->
    (forall i y, 0 <= i < m -> body i y = let* r := R i in wr y i r) ->
    for_ 0 m body y1 = for_ 0 m body y2.
  Proof.
    intros m R body y1 y2 Hm L1 L2 Hb.
    destruct (for_two _ (fun i a c => zlen a = m /\ zlen c = m /\ forall k, 0 <= k < i -> nthZ (o0 O) a k = nthZ (o0 O) c k)
                0 m body y1 y2 Hm) as [[-> ->]|(a & c & -> & -> & La & Lc & H)]; auto.
    - ands; auto. intros; lia.
    - intros i a c Hi (La & Lc & H). rewrite !Hb by auto. destruct (R i) as [r|]; [right|left; auto].
      rewrite !wr_upd by lia. eexists _, _. split; [reflexivity|]. split; [reflexivity|]. rewrite !zlen_upd. ands; auto.
      intros k Hk. rewrite !nthZ_upd by lia. destruct (k =? i) eqn:E; [auto|apply H; lia].
    - f_equal. apply (nthZ_ext _ (o0 O)); [congruence|]. intros k Hk. apply H. lia.
  Qed.

  Lemma beta_scale_two : forall n (y1 y2 : list T), 0 <= n -> zlen y1 = n -> zlen y2 = n ->
    beta_scale O beta n y1 = beta_scale O beta n y2.
  Proof.
    intros n y1 y2 Hn L1 L2. unfold beta_scale. rewrite B0. apply (overwrite n (fun _ => Some (o0 O))); auto.
  Qed.
  Lemma vscale_two : forall n (y1 y2 : list T), 0 <= n -> zlen y1 = n -> zlen y2 = n ->
    vscale O y1 beta n = vscale O y2 beta n.
  Proof.
    intros n y1 y2 Hn L1 L2. unfold vscale. rewrite B0. apply (overwrite n (fun _ => Some (o0 O))); auto.
  Qed.

  Lemma finish_row_over : forall alpha y i r, finish_row O alpha beta y i r = wr y i (if negb (oeqb O alpha (o1 O)) then omul O alpha r else r).
  Proof. intros. unfold finish_row. rewrite B0. reflexivity. Qed.

  Lemma gn_two : forall b alpha m val col row x (y1 y2 : list T), 0 <= m -> zlen y1 = m -> zlen y2 = m ->
    ref_csrmv_gn O b alpha m val col row x beta y1 = ref_csrmv_gn O b alpha m val col row x beta y2.
  Proof.
    intros b alpha m val col row x y1 y2 Hm L1 L2. unfold ref_csrmv_gn.
    apply (overwrite m (fun i => let* s := rd row i in let* e := rd row (i + 1) in let* r := dot_row O b s e val col x (o0 O) in
       Some (if negb (oeqb O alpha (o1 O)) then omul O alpha r else r))); auto.
    intros i y Hi. destruct (rd row i); auto. destruct (rd row (i + 1)); auto. destruct (dot_row _ _ _ _ _ _ _ _); auto. apply finish_row_over.
  Qed.
  Lemma vec_two : forall k hs b alpha m val col row x (y1 y2 : list T), 0 <= m -> zlen y1 = m -> zlen y2 = m ->
    csrmv_vec O k hs b alpha m val col row x beta y1 = csrmv_vec O k hs b alpha m val col row x beta y2.
  Proof.
    intros k hs b alpha m val col row x y1 y2 Hm L1 L2. unfold csrmv_vec.
    apply (overwrite m (fun i => let* e := rd row (i + 1) in let* s := rd row i in let* r := vec_row O k hs b s e val col x (o0 O) in
       Some (if negb (oeqb O alpha (o1 O)) then omul O alpha r else r))); auto.
    intros i y Hi. destruct (rd row (i + 1)); auto. destruct (rd row i); auto. destruct (vec_row _ _ _ _ _ _ _ _ _ _); auto. apply finish_row_over.
  Qed.
  Lemma kt_two : forall k b alpha m val col row x (y1 y2 : list T), 0 <= m -> zlen y1 = m -> zlen y2 = m ->
    csrmv_kt O k b alpha m val col row x beta y1 = csrmv_kt O k b alpha m val col row x beta y2.
  Proof.
    intros k b alpha m val col row x y1 y2 Hm L1 L2. unfold csrmv_kt. rewrite B0.
    apply (overwrite m (fun i => let* e := rd row (i + 1) in let* s := rd row i in
      let k_rem := (e - s) mod k in
      let* vb := vec_loop O k b s (e - k_rem) val col x (zrep k (o0 O)) in
      let* r := dot_row O b (e - k_rem) e val col x (hsum_kt O vb) in Some (omul O r alpha))); auto.
    intros i y Hi. destruct (rd row (i + 1)); auto. destruct (rd row i); auto. cbv zeta.
    destruct (vec_loop _ _ _ _ _ _ _ _ _); auto. destruct (dot_row _ _ _ _ _ _ _ _); auto.
  Qed.
  Lemma ptr_two : forall d alpha m val col cs eoff ce x (y1 y2 : list T), 0 <= m -> zlen y1 = m -> zlen y2 = m ->
    csrmv_vectorized_avx2ptr O d alpha m val col cs eoff ce x beta y1 = csrmv_vectorized_avx2ptr O d alpha m val col cs eoff ce x beta y2.
  Proof.
    intros d alpha m val col cs eoff ce x y1 y2 Hm L1 L2. unfold csrmv_vectorized_avx2ptr. rewrite B0.
    destruct (tri_offsets d) as [so eo]. cbv zeta.
    apply (overwrite m (fun i => let* cs := rd cs i in let* ce := rd ce (i + eoff) in
      let* r0 := (if negb (so =? 0) && is_unit d then let* xi := rd x (i + d_base d - d_base d) in Some (oadd O (o0 O) xi) else Some (o0 O)) in
      let* r1 := vec_row O 4 (hsum4 O) (d_base d) (cs + so) (ce + eo) val col x r0 in
      let* r2 := (if negb (eo =? 0) && is_unit d then let* xi := rd x (i + d_base d - d_base d) in Some (oadd O r1 xi) else Some r1) in
      Some (omul O alpha r2))); auto.
    intros i y Hi. destruct (rd cs i); auto. destruct (rd ce (i + eoff)); auto.
    match goal with |- (match ?X with _ => _ end) = _ => destruct X end; auto.
    match goal with |- (match ?X with _ => _ end) = _ => destruct X end; auto.
    match goal with |- (match ?X with _ => _ end) = _ => destruct X end; auto.
  Qed.

  Variables (dt : dtype) (choice : Z -> option Z) (nthreads : Z) (team : list Z).

  Ltac bs y1 y2 := rewrite (beta_scale_two _ y1 y2) by assumption; reflexivity.
  Lemma symm_two : forall b alpha m val col row x (y1 y2 : list T), 0 <= m -> zlen y1 = m -> zlen y2 = m ->
    csrmv_symm O b alpha m val col row x beta y1 = csrmv_symm O b alpha m val col row x beta y2.
  Proof. intros b alpha m val col row x y1 y2 H1 H2 H3. unfold csrmv_symm. bs y1 y2. Qed.
  Lemma fg_two : forall f g b alpha m dg fm val col row idiag x (y1 y2 : list T), 0 <= m -> zlen y1 = m -> zlen y2 = m ->
    csrmv_fg_internal O f g b alpha m dg fm val col row idiag x beta y1 = csrmv_fg_internal O f g b alpha m dg fm val col row idiag x beta y2.
  Proof. intros f g b alpha m dg fm val col row idiag x y1 y2 H1 H2 H3. unfold csrmv_fg_internal. bs y1 y2. Qed.
  Lemma hermt_two : forall b alpha m dg fm val col row idiag x (y1 y2 : list T), 0 <= m -> zlen y1 = m -> zlen y2 = m ->
    csrmv_hermt_internal O b alpha m dg fm val col row idiag x beta y1 = csrmv_hermt_internal O b alpha m dg fm val col row idiag x beta y2.
  Proof. intros b alpha m dg fm val col row idiag x y1 y2 H1 H2 H3. unfold csrmv_hermt_internal. cbv zeta. bs y1 y2. Qed.
  Lemma symkt_two : forall h k b alpha m dg fm val col row idiag iurow x (y1 y2 : list T), 0 <= m -> zlen y1 = m -> zlen y2 = m ->
    csrmv_symm_kt O h k b alpha m dg fm val col row idiag iurow x beta y1 = csrmv_symm_kt O h k b alpha m dg fm val col row idiag iurow x beta y2.
  Proof. intros h k b alpha m dg fm val col row idiag iurow x y1 y2 H1 H2 H3. unfold csrmv_symm_kt. bs y1 y2. Qed.
  Lemma tri_two : forall d alpha m val col s e dd x (y1 y2 : list T), 0 <= m -> zlen y1 = m -> zlen y2 = m ->
    ref_csrmv_tri O d alpha m val col s e dd x beta y1 = ref_csrmv_tri O d alpha m val col s e dd x beta y2.
  Proof. intros d alpha m val col s e dd x y1 y2 H1 H2 H3. unfold ref_csrmv_tri. destruct (tri_offsets d). bs y1 y2. Qed.
  Lemma tri_th_two : forall h d alpha m n val col s e dd x (y1 y2 : list T), 0 <= n -> zlen y1 = n -> zlen y2 = n ->
    ref_csrmv_tri_th O h d alpha m n val col s e dd x beta y1 = ref_csrmv_tri_th O h d alpha m n val col s e dd x beta y2.
  Proof. intros h d alpha m n val col s e dd x y1 y2 H1 H2 H3. unfold ref_csrmv_tri_th. destruct (tri_offsets d). bs y1 y2. Qed.
  Lemma th_two : forall h b alpha m n val col row x (y1 y2 : list T), 0 <= n -> zlen y1 = n -> zlen y2 = n ->
    ref_csrmv_th O h b alpha m n val col row x beta y1 = ref_csrmv_th O h b alpha m n val col row x beta y2.
  Proof. intros h b alpha m n val col row x y1 y2 H1 H2 H3. unfold ref_csrmv_th. bs y1 y2. Qed.
  Lemma tkt_two : forall k b alpha m n val col row x (y1 y2 : list T), 0 <= n -> zlen y1 = n -> zlen y2 = n ->
    csrmvt_kt O nthreads team k b alpha m n val col row x beta y1 = csrmvt_kt O nthreads team k b alpha m n val col row x beta y2.
  Proof.
    intros k b alpha m n val col row x y1 y2 H1 H2 H3. unfold csrmvt_kt, csrmvt_kt_seq, csrmvt_kt_omp.
    destruct (nthreads <=? 1); bs y1 y2.
  Qed.

  (** Every path of the kernel dispatcher. *)
  Lemma csrmv_run_beta0 : forall chk d_id kid d alpha m n nnz val col row idiag iurow x y1 y2,
    0 <= d_id < 20 -> 0 <= m -> 0 <= n ->
    let rows := if transposed d_id then n else m in
    zlen y1 = rows -> zlen y2 = rows ->
    csrmv_run O dt choice nthreads team chk d_id kid d alpha m n nnz val col row idiag iurow x beta y1 =
    csrmv_run O dt choice nthreads team chk d_id kid d alpha m n nnz val col row idiag iurow x beta y2.
  Proof.
    intros chk d_id kid d alpha m n nnz val col row idiag iurow x y1 y2 Hd Hm Hn rows L1 L2.
    assert (Hd' : d_id = 0 \/ d_id = 1 \/ d_id = 2 \/ d_id = 3 \/ d_id = 4 \/ d_id = 5 \/ d_id = 6 \/ d_id = 7 \/ d_id = 8 \/ d_id = 9 \/
      d_id = 10 \/ d_id = 11 \/ d_id = 12 \/ d_id = 13 \/ d_id = 14 \/ d_id = 15 \/ d_id = 16 \/ d_id = 17 \/ d_id = 18 \/ d_id = 19) by lia.
    clear Hd. unfold csrmv_run. destruct (tri_ptrs d_id row idiag iurow) as [[s e] dd].
    repeat (destruct Hd' as [Hd'|Hd']); subst d_id; cbv beta iota; subst rows; cbn [transposed Z.eqb Pos.eqb orb] in L1, L2;
      destruct dt; cbn [is_cplx]; try reflexivity;
      unfold csrmv_vectorized, csrmv_vectorized_avx2, csrmv_vectorized_avx512;
      rewrite ?(gn_two _ _ _ _ _ _ _ y1 y2), ?(vec_two _ _ _ _ _ _ _ _ _ y1 y2), ?(ptr_two _ _ _ _ _ _ _ _ _ y1 y2),
        ?(symm_two _ _ _ _ _ _ _ y1 y2), ?(fg_two _ _ _ _ _ _ _ _ _ _ _ _ y1 y2), ?(hermt_two _ _ _ _ _ _ _ _ _ _ y1 y2),
        ?(tri_two _ _ _ _ _ _ _ _ _ y1 y2), ?(th_two _ _ _ _ _ _ _ _ _ y1 y2), ?(tri_th_two _ _ _ _ _ _ _ _ _ _ _ y1 y2) by assumption;
      try reflexivity;
      match goal with |- context [choice ?k] => destruct (choice k) as [kk|]; [|try reflexivity] end;
      rewrite ?(kt_two _ _ _ _ _ _ _ _ y1 y2), ?(symkt_two _ _ _ _ _ _ _ _ _ _ _ _ _ y1 y2), ?(tkt_two _ _ _ _ _ _ _ _ _ y1 y2) by assumption;
      reflexivity.
  Qed.
End P.
