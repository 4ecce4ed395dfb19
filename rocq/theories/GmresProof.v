(** The GMRES solver: sizes, counters and, in exact arithmetic, the residual it reports. *)
From Coq Require Import ZArith List Bool Lia Ring.
From Coq Require Import ZifyBool ZifyNat.
From Verif Require Import Base BaseFacts Algebra MvFacts CgModel CgSpec GmresModel GmresSpec GmresAlg GmresLoops GmresCycle.
Import ListNotations.
Open Scope Z_scope.

Section R.
  Context {T : Type} (O : ops T) (L : laws O).
  Add Ring PrRing : (l_ring L).
  Lemma g_sum_swap : forall lo hi m (a : Z -> T) (f : Z -> Z -> T) (y : Z -> T),
    sumz O lo hi (fun r => omul O (a r) (sumz O 0 m (fun k => omul O (f k r) (y k)))) = sumz O 0 m (fun k => omul O (y k) (sumz O lo hi (fun r => omul O (a r) (f k r)))).
  Proof.
    intros. rewrite (sumz_ext O lo hi _ (fun r => sumz O 0 m (fun k => omul O (y k) (omul O (a r) (f k r))))).
    - rewrite (sumz_swap O L). apply sumz_ext. intros k Hk. apply (sumz_mul_l O L).
    - intros r Hr. rewrite <- (sumz_mul_l O L). apply sumz_ext. intros k Hk. ring.
  Qed.
  Lemma g_mul_add : forall a b c, omul O a (oadd O b c) = oadd O (omul O a b) (omul O a c). Proof. intros. ring. Qed.
  Lemma g_sub_add : forall a b c, osub O a (oadd O b c) = osub O (osub O a b) c. Proof. intros. ring. Qed.
  Lemma g_sub_self : forall a, osub O a a = o0 O. Proof. intros. ring. Qed.
  Lemma g_mul0l : forall a, omul O (o0 O) a = o0 O. Proof. intros. ring. Qed.
  Lemma g_add0l : forall a, oadd O (o0 O) a = a. Proof. intros. ring. Qed.
End R.

Section P.
  Context {T : Type} (O : ops T) (e : genv T) (p : gopt T) (A : Z -> Z -> T) (n : Z) (b : list T) (x0 : list T).
  Hypothesis Hn : 0 <= n.
  Hypothesis Hb : zlen b = n.
  Notation m := (p_restart p).
  Hypothesis Hm : 0 < m.
  Local Notation "0o" := (o0 O). Local Notation "1o" := (o1 O).
  Local Infix "+!" := (oadd O) (at level 50, left associativity).
  Local Infix "*!" := (omul O) (at level 40, left associativity).
  Local Infix "-!" := (osub O) (at level 50, left associativity).
  Notation nt := (nthZ (o0 O)).
  Notation sizes := (gsizes p n).

  Definition Vf (w : gwork T) (k q : Z) : T := nt (w_v w) (k * n + q).
  Definition bas (w : gwork T) : list T := if p_precond p =? 0 then w_v w else w_z w.
  Definition AZf (w : gwork T) (k q : Z) : T := sumz O 0 n (fun r => A q r *! nt (bas w) (k * n + r)).
  Definition Hf (w : gwork T) (i k : Z) : T := nt (w_h w) (i * m + k).
  Definition rf (x : list T) (q : Z) : T := nt b q -! times O A n x q.
  Definition nonzero (x : list T) : Prop := e_nrm e (resid O A n b x) <> 0o.
  Definition cyc (j : Z) (w : gwork T) (x : list T) : Prop := cycP O n j (Vf w) (nt (w_c w)) (nt (w_s w)) (Hf w) (nt (w_g w)) (AZf w) (rf x) /\ nt (w_g w) j <> 0o.
  Notation res x := (e_nrm e (resid O A n b x)).
  Definition brt : T := p_rtol p *! e_nrm e b.
  Definition EX : Prop := gexact O e /\ (e_lt e 0o (p_atol p) = true \/ e_lt e 0o brt = true) /\ nonzero x0.
  (** x plus a combination of the directions *)
  Definition moved (x : list T) (w : gwork T) (y : Z -> T) : list T :=
    map (fun r => nt x r +! sumz O 0 m (fun k => nt (bas w) (k * n + r) *! y k)) (zrange 0 n).

  Lemma zlen_resid : forall x, zlen (resid O A n b x) = n.
  Proof. intros. unfold resid. rewrite zlen_map, zlen_zrange by lia. lia. Qed.
  Lemma res_sq : forall x, gexact O e -> res x *! res x = dp O n (rf x) (rf x).
  Proof. intros x G. rewrite (gx_nrm O e G). unfold resid. rewrite (suml_map O). reflexivity. Qed.
  Lemma resid_nth : forall x q, 0 <= q < n -> nt (resid O A n b x) q = rf x q.
  Proof. intros x q Hq. unfold resid. rewrite (nthZ_map _ _ _ 0 0o) by (rewrite zlen_zrange; lia). rewrite nthZ_zrange by lia. reflexivity. Qed.

  Lemma put_row_len : forall k a l, zlen (put_row O n k a l) = zlen l.
  Proof. intros. unfold put_row. rewrite zlen_map, zlen_zrange by apply zlen_nonneg. lia. Qed.
  Lemma put_row_nth : forall k a l k' q, 0 <= q < n -> 0 <= k' * n + q < zlen l ->
    nt (put_row O n k a l) (k' * n + q) = if k' =? k then nt a q else nt l (k' * n + q).
  Proof.
    intros k a l k' q Hq Hl. unfold put_row. rewrite (nthZ_map _ _ _ 0 0o) by (rewrite zlen_zrange; lia). rewrite nthZ_zrange by lia. rewrite Z.add_0_l.
    destruct (Z.eqb_spec k' k) as [->|N].
    - replace ((k * n <=? k * n + q) && (k * n + q <? (k + 1) * n)) with true by lia. f_equal. lia.
    - replace ((k * n <=? k' * n + q) && (k' * n + q <? (k + 1) * n)) with false; [reflexivity|]. symmetry. apply andb_false_iff.
      destruct (Z.lt_ge_cases k' k); [left; apply Z.leb_gt; nia|right; apply Z.ltb_ge; nia].
  Qed.

  (** The x of a new cycle: the residual is the last component of the rotated right-hand side *)
  Lemma times_moved : laws O -> forall x w y x', zlen x' = n ->
    (forall r, 0 <= r < n -> nt x' r = nt x r +! sumz O 0 m (fun k => nt (bas w) (k * n + r) *! y k)) ->
    forall q, times O A n x' q = times O A n x q +! sumz O 0 m (fun k => y k *! AZf w k q).
  Proof.
    intros L x w y x' Hx HX q. unfold times.
    rewrite (sumz_ext O 0 n _ (fun r => A q r *! nt x r +! A q r *! sumz O 0 m (fun k => nt (bas w) (k * n + r) *! y k))) by (intros r Hr; rewrite HX by auto; apply (g_mul_add O L)).
    rewrite (sumz_add O L). f_equal. rewrite (g_sum_swap O L 0 n m (fun r => A q r) (fun k r => nt (bas w) (k * n + r)) y). reflexivity.
  Qed.

  Lemma cyc_resid : gexact O e -> forall x w y x', zlen x' = n ->
    (forall r, 0 <= r < n -> nt x' r = nt x r +! sumz O 0 m (fun k => nt (bas w) (k * n + r) *! y k)) ->
    cyc m w x ->
    res x' *! res x' = sumz O 0 m (fun i => let d := nt (w_g w) i -! sumz O i m (fun k => Hf w i k *! y k) in d *! d) +! nt (w_g w) m *! nt (w_g w) m.
  Proof.
    intros G x w y x' Hx HX ((C1 & C2 & C3 & C4) & _). pose proof (gx_laws O e G) as L. rewrite (res_sq x' G).
    apply (norm_y O L n (Vf w) (nt (w_c w)) (nt (w_s w)) m (fun i => nt (w_g w) i -! sumz O i m (fun k => Hf w i k *! y k)) (nt (w_g w) m) (rf x') C1 C2); [lia|].
    intros q Hq. unfold rf. rewrite (times_moved L x w y x' Hx HX q). rewrite (g_sub_add O L).
    apply (resid_y O L (Vf w) (nt (w_c w)) (nt (w_s w)) m (Hf w) (nt (w_g w)) y (AZf w)); [lia|intros k Hk; apply C3; auto|]. apply C4. exact Hq.
  Qed.

  Definition minimal (x : list T) (w : gwork T) (rn : T) : Prop :=
    forall y, exists d : Z -> T, res (moved x w y) *! res (moved x w y) = sumz O 0 m (fun i => d i *! d i) +! rn *! rn.

  Definition stopc (rn : T) (k : Z) : bool :=
    e_lt e 0o (p_atol p) && e_le e rn (p_atol p) || e_lt e 0o rn && e_le e rn brt || (0 <? p_maxit p) && (p_maxit p <=? k).

  Lemma x_update_ok : forall w o jb, sizes w o -> w_j w = m -> w_brtol w = brt -> (EX -> cyc m w (i_x o)) ->
    (exists w' , do_x_update O e p n w o jb = Some (numerical_error, jb, w', o)) \/
    (exists w' o', do_x_update O e p n w o jb = Some (success, j_monitor, w', o') /\
       sizes w' o' /\ w_j w' = 0 /\ w_niter w' = w_niter w + m /\ i_iter o' = w_niter w' /\ w_brtol w' = brt /\ i_res o' = w_rnorm w' /\ i_rhs o' = i_rhs o /\
       w_task w' = (if stopc (w_rnorm w') (w_niter w') then q_check else q_restart) /\
       (EX -> i_res o' = res (i_x o') /\ minimal (i_x o) w (i_res o') /\ i_res o' <> 0o)).
  Proof.
    intros w o jb (S1 & S2 & S3 & S4 & S5 & S6 & S7) Ej Eb HC. unfold do_x_update. cbv zeta. rewrite Ej.
    destruct (backward_ok O e m m (w_h w) (w_g w) (w_s w) ltac:(lia) S3 ltac:(lia) ltac:(lia)) as (st & s & -> & Zs & [-> | ->] & Hs).
    2:{ left. eexists. reflexivity. }
    right. fold (bas w). assert (Sb : zlen (bas w) = (m + 1) * n) by (unfold bas; destruct (p_precond p =? 0); auto).
    destruct (map_row_ok O n 0 (fun l i => let* d := sdot O m (bas w) i n s 0 1 in let* a := rd l i in Some (oadd O a d)) (i_x o)
      (fun i y => laws O -> y = nt (i_x o) i +! sumz O 0 m (fun k => ocj O (nt (bas w) (i + k * n)) *! nt s k)) Hn ltac:(lia) ltac:(lia)) as (x & Ex & Zx & Hx & _).
    { intros i l' Hi Zl Hl. destruct (sdot_ok O m (bas w) i n s 0 1 ltac:(lia)) as (d & -> & Ed).
      { intros k Hk. pose proof (idx_lt n k i (m + 1) ltac:(lia) ltac:(lia)). lia. }
      rewrite (rd_nthZ _ 0o) by lia. eexists. split; [reflexivity|]. intros L. rewrite Hl by lia. rewrite (Ed L). f_equal. apply sumz_ext. intros k Hk. do 2 f_equal. lia. }
    rewrite Ex. rewrite (rd_nthZ _ 0o (w_g w)) by lia. rewrite Eb. replace (m <=? m) with true by lia.
    eexists _, _. split; [reflexivity|]. cbn [i_x i_res i_rhs i_iter w_j w_niter w_brtol w_rnorm w_task].
    split; [unfold gsizes; cbn [w_v w_z w_h w_g w_c w_s i_x]; repeat split; lia|].
    do 6 (split; [reflexivity|]). split; [reflexivity|].
    intros HX. pose proof HX as (G & _). pose proof (gx_laws O e G) as L. specialize (HC HX). specialize (Hs L (gx_div O e G) (gx_nz O e G) eq_refl).
    assert (HX' : forall r, 0 <= r < n -> nt x r = nt (i_x o) r +! sumz O 0 m (fun k => nt (bas w) (k * n + r) *! nt s k)).
    { intros r Hr. specialize (Hx r Hr L). rewrite Z.add_0_l in Hx. rewrite Hx. f_equal. apply sumz_ext. intros k Hk. rewrite (gx_real O e G). do 2 f_equal. lia. }
    split; [|split].
    3:{ intros Q. apply HC. apply (sq_zero O L (gx_div O e G)). rewrite <- (gx_abs O e G), Q. apply (g_mul0l O L). }
    - symmetry. apply (gx_root O e G). rewrite (gx_abs O e G). rewrite (cyc_resid G (i_x o) w (nt s) x ltac:(lia) HX' HC).
      rewrite (sumz_zero O L); [apply (g_add0l O L)|]. intros i Hi. cbv zeta. unfold Hf. rewrite (Hs i Hi). rewrite (g_sub_self O L). apply (g_mul0l O L).
    - intros y. eexists. rewrite (cyc_resid G (i_x o) w y (moved (i_x o) w y)).
      + rewrite (gx_abs O e G). cbv zeta. reflexivity.
      + unfold moved. rewrite zlen_map, zlen_zrange by lia. lia.
      + intros r Hr. unfold moved. rewrite (nthZ_map _ _ _ 0 0o) by (rewrite zlen_zrange; lia). rewrite nthZ_zrange by lia. rewrite Z.add_0_l. reflexivity.
      + exact HC.
  Qed.

  (** Where the direction of column j is *)
  Definition dirp (j : Z) : gbuf := if p_precond p =? 0 then p_v j else p_z j.
  (** The next basis vector is ready *)
  Definition asked (w : gwork T) (o : gio T) (r : gresult (T := T)) : Prop :=
    let '(st, jb, w', o') := r in
    st = success /\ sizes w' o' /\ w_j w' = w_j w /\ w_niter w' = w_niter w /\ w_brtol w' = w_brtol w /\ i_x o' = i_x o /\ i_rhs o' = i_rhs o /\
    (EX -> cyc (w_j w) w (i_x o) -> cyc (w_j w) w' (i_x o)) /\
    ((jb = j_mv /\ w_task w' = q_start_iter /\ i_u o' = dirp (w_j w) /\ i_v o' = p_v (w_j w + 1)) \/
     (jb = j_precond /\ (w_task w' = q_init_precond \/ w_task w' = q_end_iter) /\ p_precond p <> 0 /\ i_u o' = p_v (w_j w) /\ i_v o' = p_z (w_j w))).
  Lemma ask_ok : forall w o t, sizes w o -> t = q_init_precond \/ t = q_end_iter -> asked w o (ask_precond p w o t).
  Proof.
    intros w o t S Ht. unfold ask_precond, ask_mv, at_task, giv. cbn [w_j].
    destruct (Z.eqb_spec (p_precond p) 0) as [E|E]; cbn; (split; [reflexivity|]); (split; [exact S|]); repeat (split; [reflexivity|]); (split; [auto|]).
    - left. unfold dirp. rewrite E. auto.
    - right. auto.
  Qed.

  Lemma init_res_ok : forall w o jb a, sizes w o -> w_j w = 0 -> w_niter w >= 0 ->
    (forall q, 0 <= q < n -> nt (w_v w) (0 * n + q) = nt a q) -> (EX -> product O A n a (i_x o) /\ nonzero (i_x o)) ->
    exists r, do_init_res O e p n b w o jb = Some r /\
      let '(st, jb', w', o') := r in
      (st = invalid_value /\ i_x o' = i_x o) \/
      (st = success /\ jb' = j_stop /\ i_x o' = i_x o /\ i_iter o' = w_niter w /\ i_rhs o' = brt /\ (EX -> i_res o' = res (i_x o) /\ gconverged O e p b (i_res o'))) \/
      (exists w1 o1, asked w1 o1 r /\ w_j w1 = 0 /\ w_niter w1 = w_niter w /\ w_brtol w1 = brt /\ i_x o1 = i_x o /\ i_rhs o1 = brt /\ (EX -> cyc 0 w1 (i_x o))).
  Proof.
    intros w o jb a S Ej Hk Ha HX. pose proof S as (S1 & S2 & S3 & S4 & S5 & S6 & S7). unfold do_init_res. cbv zeta. fold brt.
    assert (S1' : n <= zlen (w_v w)) by nia.
    destruct (e_nan e (e_nrm e b)); [eexists; split; [reflexivity|]; left; auto|].
    destruct (e_nz e (p_atol p) && e_nz e brt); [eexists; split; [reflexivity|]; left; auto|].
    destruct (map_row_ok O n 0 (fun l i => let* x := rd b i in let* y := rd l i in Some (osub O x y)) (w_v w) (fun i y => y = nt b i -! nt a i) Hn ltac:(lia) ltac:(lia)) as (v & -> & Zv & Hv & Hv').
    { intros i l' Hi Zl Hl. rewrite (rd_nthZ _ 0o b) by lia. rewrite (rd_nthZ _ 0o l') by lia. eexists. split; [reflexivity|]. rewrite Hl by lia. rewrite <- (Ha i Hi). reflexivity. }
    rewrite (get_row_ok O n 0 v) by lia. set (rn := e_nrm e _). rewrite wr_upd by lia.
    assert (ER : EX -> rn = res (i_x o)).
    { intros Q. destruct (HX Q) as ((_ & P) & _). unfold rn. f_equal. unfold resid. apply map_ext_in. intros q Hq. apply in_zrange in Hq. rewrite (Hv q Hq). rewrite (P q Hq). reflexivity. }
    destruct (e_lt e 0o rn && e_le e rn (p_atol p) || e_lt e 0o rn && e_le e rn brt) eqn:EC.
    - eexists. split; [reflexivity|]. right. left. cbn [i_x i_iter i_rhs i_res]. do 5 (split; [reflexivity|]). intros Q. split; [apply ER; exact Q|].
      apply orb_true_iff in EC. unfold gconverged. destruct EC as [EC | EC]; apply andb_true_iff in EC; [left|right]; tauto.
    - destruct (scal_ok O n (odiv O 1o rn) 0 v Hn ltac:(lia) ltac:(lia)) as (v2 & -> & Zv2 & Hv2 & Hv2').
      eexists. split; [reflexivity|].
      match goal with |- context [ask_precond p ?W ?O1 ?t] => pose proof (ask_ok W O1 t) as AK; set (w1 := W) in *; set (o1' := O1) in * end.
      specialize (AK ltac:(unfold gsizes, w1, o1'; cbn; rewrite ?zlen_upd; repeat split; lia) (or_introl eq_refl)).
      destruct (ask_precond p w1 o1' q_init_precond) as (((st, jb'), w'), o'). right. right. exists w1, o1'. split; [exact AK|]. unfold w1, o1'. cbn. do 5 (split; [first [reflexivity|assumption]|]).
      intros Q. pose proof (ER Q) as Er. destruct (HX Q) as ((_ & P) & NZ). destruct Q as (G & _). pose proof (gx_laws O e G) as L.
      split; [|change (nt (upd (w_g w) 0 rn) 0 <> 0o); rewrite nthZ_upd_same by lia; rewrite Er; exact NZ].
      apply (cyc_start O L (gx_div O e G) n _ _ _ _ _ _ _ rn).
      + rewrite Er. apply res_sq. exact G.
      + rewrite Er. exact NZ.
      + intros q Hq. unfold Vf. change (nt v2 (0 + q) = odiv O 1o rn *! rf (i_x o) q). rewrite (Hv2 q Hq). rewrite (Hv q Hq). rewrite (P q Hq). reflexivity.
      + change (nt (upd (w_g w) 0 rn) 0 = rn). apply nthZ_upd_same. lia.
  Qed.

  (** The state before a step of the cycle, after the user stored the product *)
  Lemma start_iter_ok : forall w o jb, sizes w o -> 0 <= w_j w < m -> w_brtol w = brt ->
    (EX -> cyc (w_j w) w (i_x o) /\ forall q, 0 <= q < n -> Vf w (w_j w + 1) q = AZf w (w_j w) q) ->
    exists r, do_start_iter O e p n w o jb = Some r /\
      let '(st, jb', w', o') := r in
      (st = success /\ jb' = j_stop /\ i_x o' = i_x o /\ i_iter o' = w_niter w + w_j w + 1 /\ i_rhs o' = i_rhs o) \/
      (st = numerical_error /\ i_x o' = i_x o) \/
      (exists w1 o1, asked w1 o1 r /\ w_j w1 = w_j w + 1 /\ w_j w1 < m /\ w_niter w1 = w_niter w /\ w_brtol w1 = brt /\ i_x o1 = i_x o /\ i_rhs o1 = i_rhs o /\ (EX -> cyc (w_j w1) w1 (i_x o))) \/
      (st = success /\ jb' = j_monitor /\ w_j w + 1 = m /\ sizes w' o' /\ w_j w' = 0 /\ w_niter w' = w_niter w + m /\ i_iter o' = w_niter w' /\ w_brtol w' = brt /\ i_res o' = w_rnorm w' /\ i_rhs o' = i_rhs o /\
       w_task w' = (if stopc (w_rnorm w') (w_niter w') then q_check else q_restart) /\
       (EX -> i_res o' = res (i_x o') /\ minimal (i_x o) w (i_res o') /\ i_res o' <> 0o)).
  Proof.
    intros w o jb S Hj Eb HC. pose proof S as (S1 & S2 & S3 & S4 & S5 & S6 & S7). unfold do_start_iter. cbv zeta. set (j := w_j w) in *.
    assert (Hoff : 0 <= (j + 1) * n /\ (j + 1) * n + n <= (m + 1) * n) by nia.
    destruct (hess_col_ok O p n j (w_v w) (w_h w) Hn Hj S1 S3) as (h & -> & Zh & Hh & Hh').
    destruct (map_row_ok O n ((j + 1) * n) (fun l k => let* hv := sdot O (j + 1) h j m l k n in let* x := rd l ((j + 1) * n + k) in Some (osub O x hv)) (w_v w)
      (fun k y => laws O -> y = Vf w (j + 1) k -! sumz O 0 (j + 1) (fun i => ocj O (nt h (i * m + j)) *! Vf w i k)) Hn ltac:(lia) ltac:(lia)) as (v & Ev & Zv & Hv & Hv').
    { intros k l' Hk Zl Hl.
      destruct (sdot_ok O (j + 1) h j m l' k n ltac:(lia)) as (hv & -> & Ehv).
      { intros i Hi. pose proof (idx_lt m i j m ltac:(lia) ltac:(lia)). pose proof (idx_lt n i k (m + 1) ltac:(lia) ltac:(lia)). lia. }
      rewrite (rd_nthZ _ 0o l') by lia. eexists. split; [reflexivity|]. intros L. rewrite Hl by lia. rewrite (Ehv L). unfold Vf. f_equal. apply sumz_ext. intros i Hi.
      pose proof (idx_lt n i k (j + 1) ltac:(lia) ltac:(lia)). rewrite (Hl (k + i * n)) by lia. f_equal; [do 2 f_equal; lia|f_equal; lia]. }
    cbv beta. rewrite Ev. rewrite (get_row_ok O n ((j + 1) * n) v) by lia. set (hh := e_nrm e _). rewrite Eb.
    destruct (e_lt e hh (p_atol p) || e_lt e hh brt) eqn:EB.
    { eexists. split; [reflexivity|]. left. cbn [i_x i_iter i_rhs]. split; [reflexivity|]. split; [reflexivity|]. split; [reflexivity|]. split; [lia|reflexivity]. }
    destruct (scal_ok O n (odiv O 1o hh) ((j + 1) * n) v Hn ltac:(lia) ltac:(lia)) as (v2 & -> & Zv2 & Hv2 & Hv2').
    destruct (rotate_col_ok O p j (w_c w) (w_s w) h Hj S5 S6 ltac:(lia)) as (h2 & -> & Zh2 & Hh2 & Hr2).
    pose proof (idx_lt m j j m ltac:(lia) ltac:(lia)) as Bjj. rewrite (rd_nthZ _ 0o h2) by lia.
    destruct (e_lartg e (nt h2 (j * m + j)) (oopp O hh)) as ((cj, sj), hj) eqn:EL.
    rewrite (wr_upd _ (w_c w)) by lia. rewrite (wr_upd _ (w_s w)) by lia. rewrite (wr_upd _ h2) by lia.
    rewrite (rd_nthZ _ 0o (w_g w)) by lia. rewrite (wr_upd _ (w_g w)) by lia. rewrite wr_upd by (rewrite zlen_upd; lia).
    set (g0 := nt (w_g w) j).
    set (W t := mkGw v2 (w_z w) (upd h2 (j * m + j) hj) (upd (upd (w_g w) j (cj *! g0)) (j + 1) (sj *! g0)) (upd (w_c w) j cj) (upd (w_s w) j sj) (e_abs e (cj *! g0)) (w_bnorm w) brt t (w_niter w) (j + 1)).
    set (o1' := mkGio (i_x o) _ (i_rhs o) (w_niter w) (i_u o) (i_v o)).
    assert (SW : forall t, sizes (W t) o1') by (intros t; unfold gsizes, W, o1'; cbn; rewrite ?zlen_upd; repeat split; lia).
    assert (Vold : forall k q, 0 <= k <= j -> 0 <= q < n -> nt v2 (k * n + q) = nt (w_v w) (k * n + q)).
    { intros k q Hk Hq. pose proof (idx_lt n k q (j + 1) ltac:(lia) ltac:(lia)). rewrite Hv2' by lia. rewrite Hv' by lia. reflexivity. }
    assert (EAZ : forall t k q, 0 <= k <= j -> AZf (W t) k q = AZf w k q).
    { intros t k q Hk. unfold AZf. apply sumz_ext. intros r Hr. unfold bas, W. cbn [w_v w_z]. destruct (p_precond p =? 0); [|reflexivity]. rewrite Vold by lia. reflexivity. }
    assert (HW : EX -> forall t, cyc (j + 1) (W t) (i_x o)).
    { intros Q t. destruct (HC Q) as ((CY & GNZ) & EVW). destruct Q as (G & Hat & _). pose proof (gx_laws O e G) as L.
      destruct (gx_lartg O e G _ _ _ _ _ EL) as (L1 & L2 & L3).
      assert (HNZ : hh <> 0o) by (intros Q; apply orb_false_iff in EB; destruct EB as (EB1 & EB2); rewrite Q in EB1, EB2; destruct Hat; congruence).
      split.
      2:{ cbn [W w_g]. rewrite nthZ_upd_same by (rewrite zlen_upd; lia). intros Q. apply (no_zero_div O L (gx_div O e G)) in Q. destruct Q as [Q|Q]; [|exact (GNZ Q)].
          apply (lartg_s_nz O L (gx_div O e G) cj sj _ hh HNZ L2 L3 Q). }
      apply (cyc_step O L (gx_div O e G) n j (Vf w) (nt (w_c w)) (nt (w_s w)) (Hf w) (nt (w_g w)) (AZf w) (rf (i_x o))
        _ _ _ _ _ _ (Vf w (j + 1)) (fun q => nt v ((j + 1) * n + q)) (fun i => nt h (i * m + j)) (fun i => nt h2 (i * m + j)) hh (nt h2 (j * m + j)) hj cj sj); auto; try lia.
      - intros i Hi. rewrite (Hh L i Hi). unfold dp, Vf. apply sumz_ext. intros q Hq. rewrite (gx_real O e G). reflexivity.
      - intros q Hq. rewrite (Hv q Hq L). f_equal. apply sumz_ext. intros i Hi. rewrite (gx_real O e G). reflexivity.
      - unfold hh. rewrite (gx_nrm O e G). rewrite (suml_map O). reflexivity.
      - intros q. unfold Vf at 3. cbn [w_v W]. apply (Hr2 L (Vf (W t))). apply CY.
      - intros i Hi. cbn [W w_c w_s]. split; apply nthZ_upd_other; lia.
      - cbn [W w_c]. apply nthZ_upd_same. lia.
      - cbn [W w_s]. apply nthZ_upd_same. lia.
      - intros i k Hi Hk. unfold Hf. cbn [W w_h]. pose proof (idx_lt m i k m ltac:(lia) ltac:(lia)). rewrite nthZ_upd_other; [|lia|lia|intros Q; apply idx_eq in Q; lia]. rewrite Hh2 by lia. apply Hh'; lia.
      - intros i Hi. unfold Hf. cbn [W w_h]. pose proof (idx_lt m i j m ltac:(lia) ltac:(lia)). apply nthZ_upd_other; [lia|lia|intros Q; apply idx_eq in Q; lia].
      - unfold Hf. cbn [W w_h]. apply nthZ_upd_same. lia.
      - intros i Hi. cbn [W w_g]. rewrite nthZ_upd_other by (rewrite ?zlen_upd; lia). apply nthZ_upd_other; lia.
      - cbn [W w_g]. rewrite nthZ_upd_other by (rewrite ?zlen_upd; lia). apply nthZ_upd_same. lia.
      - cbn [W w_g]. apply nthZ_upd_same. rewrite zlen_upd. lia.
      - intros k q Hk Hq. apply EAZ. lia.
      - intros q Hq. rewrite EAZ by lia. symmetry. apply EVW. exact Hq. }
    destruct (Z.leb_spec m (j + 1)) as [Hlast|Hlast].
    - assert (Em : j + 1 = m) by lia.
      destruct (x_update_ok (W q_x_update) o1' jb (SW _) Em eq_refl) as [(w' & E) | (w' & o' & E & X1 & X2 & X3 & X4 & X5 & X6 & X7 & X8 & X9)].
      + intros Q. rewrite <- Em. apply (HW Q).
      + eexists. split; [exact E|]. right. left. auto.
      + eexists. split; [exact E|]. right. right. right. do 11 (split; [first [assumption|reflexivity]|]).
        intros Q. destruct (X9 Q) as (Y1 & Y2 & Y3). split; [exact Y1|]. split; [|exact Y3]. intros y. destruct (Y2 y) as (d & Ed). exists d. rewrite <- Ed.
        assert (EM : moved (i_x o) w y = moved (i_x o1') (W q_x_update) y).
        { unfold moved. apply map_ext_in. intros r Hr. apply in_zrange in Hr. cbn [i_x o1']. f_equal. apply sumz_ext. intros k Hk. f_equal. unfold bas, W. cbn [w_v w_z]. destruct (p_precond p =? 0); [|reflexivity]. rewrite Vold by lia. reflexivity. }
        rewrite EM. reflexivity.
    - eexists. split; [reflexivity|].
      match goal with |- context [ask_precond p ?W1 ?O1 ?t1] => change (ask_precond p W1 O1 t1) with (ask_precond p (W (w_task w)) o1' q_end_iter) end.
      pose proof (ask_ok (W (w_task w)) o1' q_end_iter (SW _) (or_intror eq_refl)) as AK.
      destruct (ask_precond p (W (w_task w)) o1' q_end_iter) as (((st, jb'), w'), o'). right. right. left. exists (W (w_task w)), o1'. split; [exact AK|].
      do 6 (split; [first [reflexivity|assumption]|]). intros Q. apply (HW Q).
  Qed.
End P.
