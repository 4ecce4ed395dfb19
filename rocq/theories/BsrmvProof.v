(** Every BSR kernel computes the product the arrays denote. *)
From Coq Require Import ZArith List Bool Lia ZifyBool Ring.
From Verif Require Import Base BaseFacts Algebra Vec UtilModel Csr CsrFacts BsrSpec BsrProof MvModel MvSpec MvFacts MvProof CsrmvModel HandleModel
  DoidModel FmtMvModel FmtMvProof BsrmvModel BsrmvSpec.
Import ListNotations.
Open Scope Z_scope.

Lemma chk_in : forall w v, w = 31 \/ w = 63 -> 0 <= v <= int_max w -> chk w v = Some v.
Proof.
  intros w v Hw Hv. unfold chk, in_int. assert (int_min w <= 0) by (destruct Hw as [-> | ->]; vm_compute; discriminate).
  replace ((int_min w <=? v) && (v <=? int_max w)) with true by lia. reflexivity.
Qed.

Lemma in_block : forall bd bj r, 0 <= bj < bd -> 0 <= r < bd -> 0 <= bd * bj + r < bd * bd.
Proof. intros bd bj r H1 H2. nia. Qed.

Section P.
  Context {T : Type} (O : ops T) (L : laws O).
  Local Notation zero := (o0 O).
  Local Notation tn := (nthZ (o0 O)).
  Local Infix "+!" := (oadd O) (at level 50, left associativity).
  Local Infix "*!" := (omul O) (at level 40, left associativity).
  Add Ring Tring : (l_ring L).

  Variables (bd : Z) (val x : list T).
  Hypothesis Hbd : 0 < bd.
  Let F (vo xo r bj : Z) : T := tn val (vo + bd * bj + r) *! tn x (xo + bj).

  (** One block added to the accumulators. *)
  Lemma compute_ok : forall vo xo sum, 0 <= vo -> vo + bd * bd <= zlen val -> 0 <= xo -> xo + bd <= zlen x -> zlen sum = bd ->
    exists s', compute O bd val vo x xo sum = Some s' /\ zlen s' = bd /\
      forall r, 0 <= r < bd -> tn s' r = tn sum r +! sumz O 0 bd (F vo xo r).
  Proof.
    intros vo xo sum V1 V2 X1 X2 Ls. unfold compute.
    match goal with |- context [for_down 0 bd ?f sum] => destruct (for_down_inv _ (fun e s => zlen s = bd /\
      forall r, 0 <= r < bd -> tn s r = tn sum r +! sumz O e bd (F vo xo r)) 0 bd f sum) as (s' & E & R) end; [lia| | |exists s'; tauto].
    - split; auto. intros r Hr. rewrite (sumz_nil O) by lia. ring.
    - intros e s He [Ll Hs].
      destruct (rows_set O bd (fun r v => F vo xo r e +! v) (fun r sum =>
        let* v := rd val (vo + bd * e + r) in let* xv := rd x (xo + e) in let* s := rd sum r in wr sum r (v *! xv +! s)) s) as (s1 & E1 & L1 & H1); auto; try lia.
      + intros r s0 Hr L0. pose proof (in_block bd e r He Hr). rewrite (rd_nthZ _ zero) by lia. rewrite (rd_nthZ _ zero) by lia. rewrite (rd_nthZ _ zero) by lia.
        rewrite wr_upd by lia. reflexivity.
      + exists s1. split; [exact E1|]. split; [exact L1|]. intros r Hr. rewrite H1, Hs by lia.
        rewrite (sumz_first O e bd) by lia. ring.
  Qed.

  Lemma compute_v_ok : forall t vo xo sum, 0 < t -> bd mod t = 0 ->
    0 <= vo -> vo + bd * bd <= zlen val -> 0 <= xo -> xo + bd <= zlen x -> zlen sum = bd ->
    exists s', compute_v O t bd val vo x xo sum = Some s' /\ zlen s' = bd /\
      forall r, 0 <= r < bd -> tn s' r = tn sum r +! sumz O 0 bd (F vo xo r).
  Proof.
    intros t vo xo sum Ht Hd V1 V2 X1 X2 Ls. unfold compute_v.
    assert (Dt : bd = t * (bd / t)) by (pose proof (Z.div_mod bd t); lia). set (q := bd / t) in *. assert (0 <= q) by nia.
    match goal with |- context [for_down 0 bd ?f sum] => destruct (for_down_inv _ (fun e s => zlen s = bd /\
      forall r, 0 <= r < bd -> tn s r = tn sum r +! sumz O e bd (F vo xo r)) 0 bd f sum) as (s' & E & R) end; [lia| | |exists s'; tauto].
    - split; auto. intros r Hr. rewrite (sumz_nil O) by lia. ring.
    - intros e s He [Ll Hs].
      match goal with |- context [for_down 0 q ?f s] => destruct (for_down_inv _ (fun c s1 => zlen s1 = bd /\
        forall r, 0 <= r < bd -> tn s1 r = if c * t <=? r then F vo xo r e +! tn s r else tn s r) 0 q f s) as (s1 & E1 & L1 & H1) end; [lia| | |].
      + split; auto. intros r Hr. replace (q * t <=? r) with false by lia. reflexivity.
      + intros c s1 Hc [L1 H1].
        assert (C : 0 <= c * t /\ c * t + t <= bd) by nia.
        pose proof (in_block bd e (c * t) He ltac:(lia)) as IB. pose proof (in_block bd e (c * t + t - 1) He ltac:(lia)) as IB2.
        replace (e * bd) with (bd * e) by lia.
        rewrite (vload_ok O) by lia. rewrite (rd_nthZ _ zero) by lia. rewrite (vload_ok O) by lia. rewrite map2_map.
        match goal with |- context [map ?G (zrange 0 t)] => destruct (vstore_ok O t G s1 (c * t)) as (s2 & -> & L2 & H2) end; try lia.
        exists s2. split; [reflexivity|]. split; [lia|]. intros r Hr. rewrite H2 by lia.
        destruct ((c * t <=? r) && (r <? c * t + t)) eqn:Ec.
        * replace (c * t <=? r) with true by lia. replace (c * t + (r - c * t)) with r by lia. rewrite H1 by lia.
          replace ((c + 1) * t <=? r) with false by nia. unfold F. f_equal. f_equal. f_equal. lia.
        * rewrite H1 by lia. replace ((c + 1) * t <=? r) with (c * t <=? r) by nia. reflexivity.
      + exists s1. split; [exact E1|]. split; [exact L1|]. intros r Hr. rewrite H1 by lia. replace (0 * t <=? r) with true by lia.
        rewrite Hs by lia. rewrite (sumz_first O e bd) by lia. ring.
  Qed.
End P.

Section K.
  Context {T : Type} (O : ops T) (L : laws O).
  Local Notation zero := (o0 O).
  Local Notation tn := (nthZ (o0 O)).
  Local Infix "+!" := (oadd O) (at level 50, left associativity).
  Local Infix "*!" := (omul O) (at level 40, left associativity).
  Add Ring Tring2 : (l_ring L).

  Variables (w mb nb bd b nnz : Z) (ptr ind : list Z) (val x : list T).
  Hypothesis Hw : w = 31 \/ w = 63.
  Hypothesis Hbd : 0 < bd.
  Hypothesis Hnb : 0 < nb.
  Hypothesis WF : csr_wf mb nb nnz b ptr ind.
  Hypothesis Lv : zlen val = nnz * bd * bd.
  Hypothesis Lx : zlen x = nb * bd.
  Hypothesis Bv : bd * bd <= int_max w /\ bd * bd * nnz <= int_max w /\ bd * nb <= int_max w.

  (** What row [r] of block row [ai] accumulates. *)
  Definition RS (ai r : Z) : T := sumz O (zn ptr ai - b) (zn ptr (ai + 1) - b) (fun k =>
    sumz O 0 bd (fun bj => tn val (bd * bd * k + bd * bj + r) *! tn x (bd * (zn ind k - b) + bj))).
  Definition fin (alpha_s beta_s : bool) (alpha beta : T) (ai r : Z) (yv : T) : T :=
    let s := if alpha_s then RS ai r *! alpha else RS ai r in if beta_s then s +! beta *! yv else s.

  Lemma block_facts : forall ai k, 0 <= ai < mb -> zn ptr ai - b <= k < zn ptr (ai + 1) - b ->
    0 <= k < zlen ind /\ 0 <= zn ind k - b < nb /\ 0 <= bd * bd * k /\ bd * bd * k + bd * bd <= zlen val /\ bd * bd * k <= int_max w /\
    0 <= bd * (zn ind k - b) /\ bd * (zn ind k - b) + bd <= zlen x /\ bd * (zn ind k - b) <= int_max w.
  Proof.
    intros ai k Hai Hk. pose proof (wf_ind _ _ _ _ _ _ WF) as W6.
    pose proof (row_bounds _ _ _ _ _ _ ai WF Hai) as RB.
    assert (Kn : 0 <= k < nnz) by lia. assert (C : 0 <= zn ind k - b < nb) by (pose proof (W6 k Kn); lia).
    assert (Q : 0 < bd * bd) by nia.
    split; [lia|]. split; [lia|]. rewrite Lv, Lx.
    split; [nia|]. split; [nia|]. split; [nia|]. split; [nia|]. split; nia.
  Qed.
  Lemma ptr_rd : forall ai, 0 <= ai < mb -> rd ptr ai = Some (zn ptr ai) /\ rd ptr (ai + 1) = Some (zn ptr (ai + 1)) /\ zn ptr ai <= zn ptr (ai + 1).
  Proof.
    intros ai Hai. pose proof (row_bounds _ _ _ _ _ _ ai WF Hai).
    rewrite !(rd_nthZ _ 0) by lia. split; [reflexivity|]. split; [reflexivity|lia].
  Qed.

  (** All block rows, given what one block row does. *)
  Lemma blocks_set : forall (R : Z -> Z -> T -> T) body y, 0 <= mb -> zlen y = mb * bd ->
    (forall ai y, 0 <= ai < mb -> zlen y = mb * bd -> exists y', body ai y = Some y' /\ zlen y' = mb * bd /\
       forall i, 0 <= i < mb * bd -> tn y' i = if (ai * bd <=? i) && (i <? ai * bd + bd) then R ai (i - ai * bd) (tn y i) else tn y i) ->
    exists y', for_ 0 mb body y = Some y' /\ zlen y' = mb * bd /\
      forall i, 0 <= i < mb * bd -> tn y' i = R (i / bd) (i mod bd) (tn y i).
  Proof.
    intros R body y Hm Ly Hb.
    destruct (for_inv _ (fun e s => zlen s = mb * bd /\ forall i, 0 <= i < mb * bd -> tn s i = if i <? e * bd then R (i / bd) (i mod bd) (tn y i) else tn y i)
      0 mb body y Hm) as (y' & E & L1 & H1).
    - split; auto. intros i Hi. replace (i <? 0 * bd) with false by lia. reflexivity.
    - intros e s He [Ls Hs]. destruct (Hb e s He Ls) as (s' & E & L1 & H1). exists s'. split; auto. split; auto.
      intros i Hi. rewrite H1 by auto. rewrite Hs by auto. replace ((e + 1) * bd) with (e * bd + bd) by lia.
      destruct ((e * bd <=? i) && (i <? e * bd + bd)) eqn:C.
      + replace (i <? e * bd) with false by lia. replace (i <? e * bd + bd) with true by lia.
        assert (D : i / bd = e) by (symmetry; apply (Z.div_unique i bd e (i - e * bd)); lia).
        rewrite D. f_equal. rewrite Z.mod_eq, D by lia. lia.
      + replace (i <? e * bd + bd) with (i <? e * bd) by lia. reflexivity.
    - exists y'. split; auto. split; auto. intros i Hi. rewrite H1 by auto. replace (i <? mb * bd) with true by lia. reflexivity.
  Qed.

  Lemma gn_ok : forall alpha_s beta_s alpha beta y, zlen y = mb * bd -> 0 <= mb ->
    exists y', bsrmv_gn O w alpha_s beta_s alpha mb bd b val ind ptr x beta y = Some y' /\ zlen y' = mb * bd /\
      forall i, 0 <= i < mb * bd -> tn y' i = fin alpha_s beta_s alpha beta (i / bd) (i mod bd) (tn y i).
  Proof.
    intros alpha_s beta_s alpha beta y Ly Hm. unfold bsrmv_gn. apply blocks_set; auto. clear y Ly.
    intros ai y Hai Ly. destruct (ptr_rd ai Hai) as (-> & -> & Hp).
    assert (A : 0 <= ai * bd /\ ai * bd + bd <= mb * bd) by nia.
    assert (SUM : forall bi, 0 <= bi < bd -> for_ (zn ptr ai - b) (zn ptr (ai + 1) - b) (fun aj sum =>
          let* c := rd ind aj in
          let* sq := chk w (bd * bd) in
          let* vo := chk w (sq * aj) in
          let* xo := chk w (bd * (c - b)) in
          for_ 0 bd (fun bj sum =>
            let* v := rd val (vo + bi + bd * bj) in
            let* xv := rd x (xo + bj) in
            Some (sum +! v *! xv)) sum) zero = Some (RS ai bi)).
    { intros bi Hbi.
      match goal with |- for_ ?lo ?hi ?f _ = _ => destruct (for_inv _ (fun e s => s = sumz O lo e (fun k =>
         sumz O 0 bd (fun bj => tn val (bd * bd * k + bd * bj + bi) *! tn x (bd * (zn ind k - b) + bj)))) lo hi f zero) as (s & E & R) end;
        [lia| | |rewrite E, R; reflexivity].
      - rewrite (sumz_nil O) by lia. reflexivity.
      - intros k s Hk ->. destruct (block_facts ai k Hai Hk) as (B1 & B2 & B3 & B4 & B5 & B6 & B7 & B8).
        rewrite (rd_nthZ _ 0) by lia. assert (Q : 0 <= bd * bd) by nia. rewrite (chk_in w (bd * bd) Hw) by (clear - Q Bv; lia). rewrite (chk_in w (bd * bd * k) Hw) by (split; assumption). rewrite (chk_in w (bd * (zn ind k - b)) Hw) by (split; assumption).
        match goal with |- context [for_ 0 bd ?f ?s0] => destruct (for_inv _ (fun e s => s = s0 +! sumz O 0 e (fun bj => tn val (bd * bd * k + bd * bj + bi) *! tn x (bd * (zn ind k - b) + bj)))
          0 bd f s0) as (s & E & R) end; [lia| | |].
        + rewrite (sumz_nil O 0 0) by lia. ring.
        + intros bj s Hbj ->. pose proof (in_block bd bj bi Hbj Hbi).
          rewrite (rd_nthZ _ zero) by lia. rewrite (rd_nthZ _ zero) by lia. eexists; split; [reflexivity|].
          rewrite (sumz_last O L 0 bj) by lia. replace (bd * bd * k + bi + bd * bj) with (bd * bd * k + bd * bj + bi) by lia. ring.
        + exists s. split; [exact E|]. rewrite R. rewrite (sumz_last O L) by lia. reflexivity. }
    match goal with |- context [for_ 0 bd ?f y] => destruct (for_inv _ (fun e s => zlen s = mb * bd /\
      forall i, 0 <= i < mb * bd -> tn s i = if (ai * bd <=? i) && (i <? ai * bd + e) then fin alpha_s beta_s alpha beta ai (i - ai * bd) (tn y i) else tn y i)
      0 bd f y) as (y' & E & R) end; [lia| | |exists y'; tauto].
    - split; auto. intros i Hi. replace ((ai * bd <=? i) && (i <? ai * bd + 0)) with false by lia. reflexivity.
    - intros bi s Hbi [Ls Hs]. rewrite SUM by auto. cbv zeta.
      assert (Y : (if beta_s then let* yv := rd s (ai * bd + bi) in Some ((if alpha_s then RS ai bi *! alpha else RS ai bi) +! beta *! yv)
                   else Some (if alpha_s then RS ai bi *! alpha else RS ai bi)) = Some (fin alpha_s beta_s alpha beta ai bi (tn y (ai * bd + bi)))).
      { unfold fin. destruct beta_s; [|reflexivity]. rewrite (rd_nthZ _ zero) by lia. rewrite Hs by lia.
        replace ((ai * bd <=? ai * bd + bi) && (ai * bd + bi <? ai * bd + bi)) with false by lia. reflexivity. }
      rewrite Y. rewrite wr_upd by lia. eexists; split; [reflexivity|]. split; [rewrite zlen_upd; auto|].
      intros i Hi. rewrite nthZ_upd by lia. destruct (Z.eqb_spec i (ai * bd + bi)) as [->|Ne].
      + replace ((ai * bd <=? ai * bd + bi) && (ai * bd + bi <? ai * bd + (bi + 1))) with true by lia.
        replace (ai * bd + bi - ai * bd) with bi by lia. reflexivity.
      + rewrite Hs by auto. replace ((ai * bd <=? i) && (i <? ai * bd + (bi + 1))) with ((ai * bd <=? i) && (i <? ai * bd + bi)) by lia. reflexivity.
  Qed.

  Lemma nxn_ok : forall tsz alpha_s beta_s alpha beta y, zlen y = mb * bd -> 0 <= mb ->
    (forall t, tsz = Some t -> 0 < t /\ bd mod t = 0) ->
    exists y', bsrmv_nxn O w tsz alpha_s beta_s alpha mb bd b val ind ptr x beta y = Some y' /\ zlen y' = mb * bd /\
      forall i, 0 <= i < mb * bd -> tn y' i = fin alpha_s beta_s alpha beta (i / bd) (i mod bd) (tn y i).
  Proof.
    intros tsz alpha_s beta_s alpha beta y Ly Hm Ht. unfold bsrmv_nxn. apply blocks_set; auto. clear y Ly.
    intros ai y Hai Ly. destruct (ptr_rd ai Hai) as (-> & -> & Hp).
    assert (A : 0 <= ai * bd /\ ai * bd + bd <= mb * bd) by nia.
    match goal with |- context [for_ (zn ptr ai - b) (zn ptr (ai + 1) - b) ?f (zrep bd zero)] =>
      destruct (rows_add O L bd (fun k r => sumz O 0 bd (fun bj => tn val (bd * bd * k + bd * bj + r) *! tn x (bd * (zn ind k - b) + bj)))
        (zn ptr ai - b) (zn ptr (ai + 1) - b) f (zrep bd zero)) as (sum & -> & Ls & Hs) end; [lia|apply zlen_zrep; lia| |].
    { intros k s Hk Ls. destruct (block_facts ai k Hai Hk) as (B1 & B2 & B3 & B4 & B5 & B6 & B7 & B8).
      rewrite (rd_nthZ _ 0) by lia. destruct tsz as [t|].
      - destruct (Ht t eq_refl). rewrite (fun v => chk_in w v Hw) by lia. apply compute_v_ok; auto.
      - apply compute_ok; auto. }
    cbv zeta.
    set (s1 := if alpha_s then map (fun v => v *! alpha) sum else sum).
    assert (S1 : zlen s1 = bd /\ forall r, 0 <= r < bd -> tn s1 r = if alpha_s then RS ai r *! alpha else RS ai r).
    { assert (HR : forall r, 0 <= r < bd -> tn sum r = RS ai r).
      { intros r Hr. rewrite Hs by lia. rewrite nthZ_zrep by lia. unfold RS. ring. }
      unfold s1. destruct alpha_s.
      - rewrite zlen_map. split; auto. intros r Hr. rewrite (nthZ_map _ _ _ zero) by lia. rewrite HR by auto. reflexivity.
      - split; auto. }
    destruct S1 as [L1 H1].
    assert (S2 : exists s2, (if beta_s then for_ 0 bd (fun r sum =>
          let* yv := rd y (ai * bd + r) in let* s := rd sum r in wr sum r (s +! beta *! yv)) s1 else Some s1) = Some s2 /\ zlen s2 = bd /\
        forall r, 0 <= r < bd -> tn s2 r = fin alpha_s beta_s alpha beta ai r (tn y (ai * bd + r))).
    { unfold fin. destruct beta_s.
      - match goal with |- context [for_ 0 bd ?f s1] => destruct (rows_set O bd (fun r v => v +! beta *! tn y (ai * bd + r)) f s1) as (s2 & -> & L2 & H2) end; auto; try lia.
        + intros r s Hr Ls'. rewrite (rd_nthZ _ zero) by lia. rewrite (rd_nthZ _ zero) by lia. rewrite wr_upd by lia. reflexivity.
        + exists s2. split; auto. split; auto. intros r Hr. rewrite H2, H1 by auto. reflexivity.
      - exists s1. auto. }
    destruct S2 as (s2 & -> & L2 & H2).
    match goal with |- context [for_ 0 bd ?f y] => destruct (for_inv _ (fun e s => zlen s = mb * bd /\
      forall i, 0 <= i < mb * bd -> tn s i = if (ai * bd <=? i) && (i <? ai * bd + e) then fin alpha_s beta_s alpha beta ai (i - ai * bd) (tn y i) else tn y i)
      0 bd f y) as (y' & E & R) end; [lia| | |exists y'; tauto].
    - split; auto. intros i Hi. replace ((ai * bd <=? i) && (i <? ai * bd + 0)) with false by lia. reflexivity.
    - intros r s Hr [Lss Hss]. rewrite (rd_nthZ _ zero) by lia. rewrite wr_upd by lia. eexists; split; [reflexivity|]. split; [rewrite zlen_upd; auto|].
      intros i Hi. rewrite nthZ_upd by lia. destruct (Z.eqb_spec i (ai * bd + r)) as [->|Ne].
      + replace ((ai * bd <=? ai * bd + r) && (ai * bd + r <? ai * bd + (r + 1))) with true by lia.
        replace (ai * bd + r - ai * bd) with r by lia. apply H2; auto.
      + rewrite Hss by auto. replace ((ai * bd <=? i) && (i <? ai * bd + (r + 1))) with ((ai * bd <=? i) && (i <? ai * bd + r)) by lia. reflexivity.
  Qed.

  (** The accumulated value is the product with the matrix the arrays denote. *)
  Lemma RS_product : forall i, 0 <= i < mb * bd ->
    RS (i / bd) (i mod bd) = sumz O 0 (nb * bd) (fun j => bsr_elem O false b bd ptr ind val i j *! tn x j).
  Proof.
    intros i Hi. assert (Hai : 0 <= i / bd < mb) by (split; [apply Z.div_pos; lia|apply Z.div_lt_upper_bound; lia]).
    unfold RS, bsr_elem. symmetry.
    rewrite (sumz_ext O 0 (nb * bd) _ (fun j => sumz O (zn ptr (i / bd) - b) (zn ptr (i / bd + 1) - b) (fun k =>
      (if zn ind k - b =? j / bd then block_elt zero false bd val k (i mod bd) (j mod bd) else zero) *! tn x j))).
    2:{ intros j Hj. rewrite (sumz_mul_r O L). reflexivity. }
    rewrite (sumz_swap O L). apply sumz_ext. intros k Hk.
    destruct (block_facts (i / bd) k Hai Hk) as (B1 & B2 & B3 & B4 & B5 & B6 & B7 & B8).
    set (c := zn ind k - b) in *.
    assert (Hc : bd * c + bd <= nb * bd) by nia.
    rewrite (sumz_split O L 0 (bd * c) (nb * bd)) by lia. rewrite (sumz_split O L (bd * c) (bd * c + bd) (nb * bd)) by lia.
    rewrite (sumz_zero O L 0 (bd * c)).
    2:{ intros j Hj. replace (c =? j / bd) with false. ring. symmetry. apply Z.eqb_neq. intros E. assert (j / bd < c) by (apply Z.div_lt_upper_bound; lia). lia. }
    rewrite (sumz_zero O L (bd * c + bd) (nb * bd)).
    2:{ intros j Hj. replace (c =? j / bd) with false. ring. symmetry. apply Z.eqb_neq. intros E. assert (c + 1 <= j / bd) by (apply Z.div_le_lower_bound; lia). lia. }
    replace (bd * c) with (0 + bd * c) at 1 by lia. replace (bd * c + bd) with (bd + bd * c) by lia. rewrite (sumz_shift O).
    match goal with |- _ +! (?a +! _) = _ => transitivity a; [ring|] end.
    apply sumz_ext. intros bj Hbj.
    assert (D1 : (bj + bd * c) / bd = c) by (symmetry; apply (Z.div_unique _ bd c bj); lia).
    assert (D2 : (bj + bd * c) mod bd = bj) by (symmetry; apply (Z.mod_unique _ bd c bj); lia).
    rewrite D1, D2, Z.eqb_refl. unfold block_elt. f_equal; f_equal; lia.
  Qed.
End K.

Section E.
  Context {T : Type} (O : ops T) (L : laws O).
  Local Notation zero := (o0 O).
  Local Notation tn := (nthZ (o0 O)).
  Local Infix "+!" := (oadd O) (at level 50, left associativity).
  Local Infix "*!" := (omul O) (at level 40, left associativity).
  Add Ring Tring3 : (l_ring L).

  Lemma tsz_divides : forall dt a512 bd t, bsr_tsz dt a512 bd = Some t -> 0 < t /\ bd mod t = 0.
  Proof.
    intros dt a512 bd t. unfold bsr_tsz.
    destruct (Z.eqb_spec bd 4) as [->|]; [destruct dt; cbn; intros H; inversion H; split; reflexivity|].
    destruct (Z.eqb_spec bd 8) as [->|]; [destruct dt, a512; cbn; intros H; inversion H; split; reflexivity|].
    destruct (Z.eqb_spec bd 16) as [->|]; destruct dt, a512; cbn; intros H; inversion H; split; reflexivity.
  Qed.

  Lemma bsrmv_ok : forall w dt a512 mb nb bd nnz ptr ind val d x y alpha beta,
    w = 31 \/ w = 63 -> 0 < bd -> 0 < mb -> 0 < nb -> (d_base d = 0 \/ d_base d = 1) -> d_type d = mt_general ->
    csr_wf mb nb nnz (d_base d) ptr ind -> zlen val = nnz * bd * bd -> zlen x = nb * bd -> zlen y = mb * bd ->
    bd * bd <= int_max w -> bd * bd * nnz <= int_max w -> bd * nb <= int_max w ->
    exists y', bsrmv O w dt a512 op_none (Some alpha) mb nb bd (Some val) (Some ind) (Some ptr) (Some d) (Some x) (Some beta) (Some y) = Some (success, Some y') /\
      mv_spec O (mb * bd) (nb * bd) alpha beta (bsr_elem O false (d_base d) bd ptr ind val) x y y'.
  Proof.
    intros w dt a512 mb nb bd nnz ptr ind val d x y alpha beta Hw Hbd Hmb Hnb Hb Ht WF Lv Lx Ly B1 B2 B3.
    unfold bsrmv. cbv zeta.
    replace (negb ((d_base d =? 0) || (d_base d =? 1))) with false by lia. rewrite Ht. cbn [negb].
    replace ((mb <? 0) || (nb <? 0) || (bd <=? 0)) with false by lia.
    replace ((mb =? 0) || (nb =? 0)) with false by lia.
    assert (FIN : forall i, 0 <= i < mb * bd -> fin O bd (d_base d) ptr ind val x (negb (oeqb O alpha (o1 O))) (negb (oeqb O beta zero)) alpha beta (i / bd) (i mod bd) (tn y i) =
      alpha *! sumz O 0 (nb * bd) (fun j => bsr_elem O false (d_base d) bd ptr ind val i j *! tn x j) +! beta *! tn y i).
    { intros i Hi. unfold fin. rewrite (RS_product O L w mb nb bd (d_base d) nnz ptr ind val x Hbd Hnb WF Lv Lx (conj B1 (conj B2 B3)) i Hi).
      destruct (oeqb O alpha (o1 O)) eqn:Ea; [apply (l_eqb L) in Ea; subst alpha|];
      (destruct (oeqb O beta zero) eqn:Eb; [apply (l_eqb L) in Eb; subst beta|]); cbn [negb]; ring. }
    destruct ((1 <? bd) && (bd <=? 8) || (bd =? 16)).
    - destruct (nxn_ok O L w mb nb bd (d_base d) nnz ptr ind val x Hw Hbd Hnb WF Lv Lx (conj B1 (conj B2 B3)) (bsr_tsz dt a512 bd)
        (negb (oeqb O alpha (o1 O))) (negb (oeqb O beta zero)) alpha beta y Ly ltac:(lia)) as (y' & -> & L1 & H1).
      { intros t E. exact (tsz_divides _ _ _ _ E). }
      exists y'. split; [reflexivity|]. split; [exact L1|]. intros i Hi. rewrite H1 by auto. apply FIN; auto.
    - destruct (gn_ok O L w mb nb bd (d_base d) nnz ptr ind val x Hw Hbd Hnb WF Lv Lx (conj B1 (conj B2 B3))
        (negb (oeqb O alpha (o1 O))) (negb (oeqb O beta zero)) alpha beta y Ly ltac:(lia)) as (y' & -> & L1 & H1).
      exists y'. split; [reflexivity|]. split; [exact L1|]. intros i Hi. rewrite H1 by auto. apply FIN; auto.
  Qed.

  Lemma mul_zero : forall v, zero *! v = zero.
  Proof. intros v. ring. Qed.

  (** With distinct block columns the sum has one term. *)
  Lemma sum_find : forall (p : Z -> bool) (G : Z -> T) lo hi,
    (forall k k', lo <= k < hi -> lo <= k' < hi -> p k = true -> p k' = true -> k = k') ->
    sumz O lo hi (fun k => if p k then G k else zero) = match find p (zrange lo hi) with Some k => G k | None => zero end.
  Proof.
    intros p G lo hi D. destruct (find p (zrange lo hi)) eqn:E.
    - apply find_some in E. destruct E as [HI P]. apply in_zrange in HI.
      rewrite (sumz_delta O L lo hi z); [rewrite P; reflexivity|exact HI|]. intros k Hk N.
      destruct (p k) eqn:Pk; [|reflexivity]. exfalso. apply N. apply D; auto.
    - apply (sumz_zero O L). intros k Hk. rewrite (find_none _ _ E k); [reflexivity|]. apply in_zrange. lia.
  Qed.
  Lemma elem_get : forall row_order b bd mb ptr ind val i j, 0 < bd -> 0 <= i < mb * bd ->
    (forall I k k', 0 <= I < mb -> in_row ptr b I k -> in_row ptr b I k' -> k < k' -> zn ind k < zn ind k') ->
    bsr_elem O row_order b bd ptr ind val i j = bsr_get zero row_order b bd ptr ind val i j.
  Proof.
    intros row_order b bd mb ptr ind val i j Hbd Hi S. unfold bsr_elem, bsr_get.
    rewrite (sum_find (fun k => zn ind k - b =? j / bd) (fun k => block_elt zero row_order bd val k (i mod bd) (j mod bd))).
    - reflexivity.
    - intros k k' Hk Hk' P1 P2. assert (HI : 0 <= i / bd < mb) by (split; [apply Z.div_pos; lia|apply Z.div_lt_upper_bound; lia]).
      destruct (Z.lt_trichotomy k k') as [C|[C|C]]; [|exact C|].
      + pose proof (S (i / bd) k k' HI Hk Hk' C). lia.
      + pose proof (S (i / bd) k' k HI Hk' Hk C). lia.
  Qed.
End E.
