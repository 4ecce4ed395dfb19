(** ELL and DIA products. *)
From Coq Require Import ZArith List Bool Lia ZifyBool Ring.
From Verif Require Import Base BaseFacts Algebra Vec DoidModel Csr CsrFacts EllSpec DiaSpec MvModel MvSpec MvFacts MvProof MvVecProof FmtMvModel FmtMvSpec.
Import ListNotations.
Open Scope Z_scope.

Section P.
  Context {T : Type} (O : ops T) (L : laws O).
  Local Notation zero := (o0 O).
  Local Notation one := (o1 O).
  Local Notation tn := (nthZ (o0 O)).
  Local Infix "+!" := (oadd O) (at level 50, left associativity).
  Local Infix "*!" := (omul O) (at level 40, left associativity).
  Local Notation "a ==! b" := (oeqb O a b) (at level 70).
  Local Notation total := (suml O (fun a => a)).
  Let rth := l_ring L.
  Add Ring Tring_fmt : rth.

  (** ** Filling y from the front *)
  Definition upto (p : Z) (F : Z -> T) (y0 y : list T) : Prop :=
    zlen y = zlen y0 /\ forall i, 0 <= i < zlen y0 -> tn y i = if i <? p then F i else tn y0 i.

  Lemma upto_0 : forall p F y0, p <= 0 -> upto p F y0 y0.
  Proof. intros p F y0 Hp. split; auto. intros i Hi. replace (i <? p) with false by lia. reflexivity. Qed.
  Lemma upto_step : forall e F y0 y, upto e F y0 y -> 0 <= e < zlen y0 -> upto (e + 1) F y0 (upd y e (F e)).
  Proof.
    intros e F y0 y [U1 U2] He. split; [rewrite zlen_upd; auto|]. intros i Hi. rewrite nthZ_upd by lia.
    destruct (Z.eqb_spec i e) as [->|]; [replace (e <? e + 1) with true by lia; reflexivity|].
    rewrite U2 by auto. replace (i <? e + 1) with (i <? e) by lia. reflexivity.
  Qed.
  Lemma upto_rows : forall lo m F y0 y body, 0 <= lo <= m -> m <= zlen y0 -> upto lo F y0 y ->
    (forall i y, lo <= i < m -> upto i F y0 y -> body i y = Some (upd y i (F i))) ->
    exists y1, for_ lo m body y = Some y1 /\ upto m F y0 y1.
  Proof.
    intros lo m F y0 y body Hl Hm U Hb. destruct (for_inv _ (fun e v => upto e F y0 v) lo m body y) as (y1 & E & R); auto; try lia.
    - intros e v He Ue. rewrite Hb by auto. eexists; split; [reflexivity|]. apply upto_step; auto; lia.
    - exists y1. auto.
  Qed.
  Lemma vstore_ok : forall k G y p, 0 <= k -> 0 <= p -> p + k <= zlen y ->
    exists y1, vstore k (map G (zrange 0 k)) y p = Some y1 /\ zlen y1 = zlen y /\
      forall i, 0 <= i < zlen y -> tn y1 i = if (p <=? i) && (i <? p + k) then G (i - p) else tn y i.
  Proof.
    intros k G y p Hk Hp Hl. unfold vstore.
    match goal with |- context [for_ 0 k ?f y] => destruct (for_inv _ (fun e v => zlen v = zlen y /\
      forall i, 0 <= i < zlen y -> tn v i = if (p <=? i) && (i <? p + e) then G (i - p) else tn y i) 0 k f y Hk) as (y1 & E & R) end.
    - split; auto. intros i Hi. replace ((p <=? i) && (i <? p + 0)) with false by lia. reflexivity.
    - intros e v He [Lv Hv]. rewrite (rd_nthZ _ zero) by (rewrite zlen_map, zlen_zrange; lia).
      rewrite (nthZ_map _ _ _ 0) by (rewrite zlen_zrange; lia). rewrite nthZ_zrange by lia. rewrite wr_upd by lia.
      eexists; split; [reflexivity|]. split; [rewrite zlen_upd; auto|]. intros i Hi. rewrite nthZ_upd by lia.
      destruct (Z.eqb_spec i (p + e)) as [->|].
      + replace ((p <=? p + e) && (p + e <? p + (e + 1))) with true by lia. f_equal. lia.
      + rewrite Hv by auto. replace ((p <=? i) && (i <? p + (e + 1))) with ((p <=? i) && (i <? p + e)) by lia. reflexivity.
    - exists y1. tauto.
  Qed.
  Lemma upto_block : forall k e F y0 y, 0 <= k -> 0 <= e -> e + k <= zlen y0 -> upto e F y0 y ->
    exists y1, vstore k (map (fun t => F (e + t)) (zrange 0 k)) y e = Some y1 /\ upto (e + k) F y0 y1.
  Proof.
    intros k e F y0 y Hk He Hl [U1 U2]. destruct (vstore_ok k (fun t => F (e + t)) y e) as (y1 & E & L1 & H1); try lia.
    exists y1. split; auto. split; [lia|]. intros i Hi. rewrite H1 by lia. rewrite U2 by auto.
    destruct (Z.leb_spec e i), (Z.ltb_spec i (e + k)); cbn [andb]; try (replace (i <? e) with false by lia); try reflexivity.
    - f_equal. lia.
    - replace (i <? e) with true by lia. reflexivity.
  Qed.
  Lemma map_ext_z : forall X (f g : Z -> X) k, (forall t, 0 <= t < k -> f t = g t) -> map f (zrange 0 k) = map g (zrange 0 k).
  Proof. intros X f g k H. apply map_ext_in. intros t Ht. apply in_zrange in Ht. apply H; lia. Qed.
  Lemma zrep_map : forall X k (v : X), 0 <= k -> zrep k v = map (fun _ => v) (zrange 0 k).
  Proof.
    intros X k v Hk. unfold zrep, zrange. rewrite map_map. rewrite Z.sub_0_r. induction (Z.to_nat k) as [|q IH]; cbn; auto.
    f_equal. rewrite IH. rewrite <- (seq_shift q 0), !map_map. reflexivity.
  Qed.

  (** Lane-wise accumulation. *)
  Lemma lanes_sum : forall k cnt (F : Z -> Z -> T) body, 0 <= k -> 0 <= cnt ->
    (forall i res, 0 <= i < cnt -> body i res = Some (map2 (fun p s => p +! s) (map (F i) (zrange 0 k)) res)) ->
    for_ 0 cnt body (zrep k zero) = Some (map (fun t => sumz O 0 cnt (fun i => F i t)) (zrange 0 k)).
  Proof.
    intros k cnt F body Hk Hc Hb.
    destruct (for_inv _ (fun e v => v = map (fun t => sumz O 0 e (fun i => F i t)) (zrange 0 k)) 0 cnt body (zrep k zero) Hc) as (v & E & ->).
    - rewrite zrep_map by auto. apply map_ext_z. intros. rewrite (sumz_nil O) by lia. reflexivity.
    - intros e v He ->. rewrite Hb by auto. rewrite map2_map. eexists; split; [reflexivity|]. apply map_ext_z.
      intros t Ht. rewrite (sumz_last O L 0 e) by lia. ring.
    - exact E.
  Qed.

  (** The epilogue of a row, vectorised. *)
  Definition fin (alpha beta s v : T) : T := alpha *! s +! beta *! v.

  (** ** ELL *)
  Lemma ell_mat_sum : forall slot b wd col v i j,
    ell_mat O slot b wd col v i j = sumz O 0 wd (fun k => if zn col (slot i k) =? j + b then tn v (slot i k) else zero).
  Proof.
    intros. unfold ell_mat, ell_ents, sumz. rewrite (suml_flat_map O L). apply suml_ext. intros k _.
    destruct (_ =? _); cbn [suml fold_right]; [ring|reflexivity].
  Qed.
  Lemma pick_col : forall n b c (w : T) x, sumz O 0 n (fun j => (if c =? j + b then w else zero) *! tn x j) =
    if (b <=? c) && (c <? n + b) then w *! tn x (c - b) else zero.
  Proof.
    intros n b c w x. destruct ((b <=? c) && (c <? n + b)) eqn:E.
    - rewrite (sumz_delta O L 0 n (c - b)); [replace (c =? c - b + b) with true by lia; reflexivity|lia|].
      intros k Hk Hne. replace (c =? k + b) with false by lia. ring.
    - apply (sumz_zero O L). intros k Hk. replace (c =? k + b) with false by lia. ring.
  Qed.
  Lemma ell_row_sum : forall slot b wd n col v x i,
    sumz O 0 n (fun j => ell_mat O slot b wd col v i j *! tn x j) =
    sumz O 0 wd (fun k => if (b <=? zn col (slot i k)) && (zn col (slot i k) <? n + b) then tn v (slot i k) *! tn x (zn col (slot i k) - b) else zero).
  Proof.
    intros. rewrite (sumz_ext O 0 n _ (fun j => sumz O 0 wd (fun k => (if zn col (slot i k) =? j + b then tn v (slot i k) else zero) *! tn x j))).
    - rewrite (sumz_swap O L). apply sumz_ext. intros k Hk. apply pick_col.
    - intros j Hj. rewrite ell_mat_sum. rewrite (sumz_mul_r O L). reflexivity.
  Qed.

  Section Ell.
    Variables (m n b wd : Z) (col : list Z) (val x : list T) (alpha beta : T).
    Hypothesis Hm : 0 <= m.
    Hypothesis Hw : 0 <= wd.
    Hypothesis Lc : zlen col = m * wd.
    Hypothesis Lv : zlen val = m * wd.
    Hypothesis Lx : n <= zlen x.
    Hypothesis Hok : ell_ok m n b wd col.
    Let term k := tn val k *! tn x (zn col k - b).

    (** A run of [cnt] slots starting inside row [i] at slot [s]. *)
    Lemma ell_run : forall i len s cnt r, 0 <= i < m -> 0 <= len <= wd ->
      (forall k, 0 <= k < len -> b <= zn col (ell_slot wd i k) < n + b) -> (forall k, len <= k < wd -> zn col (ell_slot wd i k) < b) ->
      0 <= s <= len -> 0 <= cnt -> s + cnt <= wd ->
      forb 0 cnt (fun p r => ell_step O b val col x (i * wd + s + p) r) r = Some (r +! sumz O (i * wd + s) (i * wd + Z.min len (s + cnt)) term).
    Proof.
      intros i len s cnt r Hi Hl H1 H2 Hs Hc Hsc. unfold forb.
      match goal with |- context [forc 0 cnt ?f r] => destruct (forc_inv _ unit
        (fun e v => s + e <= len /\ v = r +! sumz O (i * wd + s) (i * wd + s + e) term)
        (fun v => len < s + cnt /\ v = r +! sumz O (i * wd + s) (i * wd + len) term) (fun _ => False) 0 cnt f r Hc) as [(v & -> & Q)|(? & _ & [])] end.
      - split; [lia|]. rewrite (sumz_nil O) by lia. ring.
      - intros e v He [Hel ->]. unfold ell_step. unfold ell_slot in *.
        assert (Hb1 : 0 <= i * wd + s + e < m * wd) by nia.
        rewrite (rd_nthZ _ 0) by lia. destruct (Z.eq_dec (s + e) len) as [El|El].
        + specialize (H2 (s + e) ltac:(lia)). rewrite Z.add_assoc in H2. replace (0 <=? zn col (i * wd + s + e) - b) with false by lia.
          right; left. eexists; split; [reflexivity|]. split; [lia|]. do 2 f_equal. lia.
        + specialize (H1 (s + e) ltac:(lia)). rewrite Z.add_assoc in H1. replace (0 <=? zn col (i * wd + s + e) - b) with true by lia.
          rewrite (rd_nthZ _ zero) by lia. rewrite (rd_nthZ _ zero) by lia. left. eexists; split; [reflexivity|]. split; [lia|].
          replace (i * wd + s + (e + 1)) with (i * wd + s + e + 1) by lia. rewrite (sumz_last O L (i * wd + s)) by lia. unfold term. ring.
      - destruct Q as [[Q ->]|[Q ->]].
        + replace (Z.min len (s + cnt)) with (s + cnt) by lia. rewrite Z.add_assoc. reflexivity.
        + replace (Z.min len (s + cnt)) with len by lia. reflexivity.
    Qed.

    Lemma ell_row_val : forall i len, 0 <= i < m -> 0 <= len <= wd ->
      (forall k, 0 <= k < len -> b <= zn col (ell_slot wd i k) < n + b) -> (forall k, len <= k < wd -> zn col (ell_slot wd i k) < b) ->
      sumz O (i * wd) (i * wd + len) term = sumz O 0 n (fun j => ell_mat O (ell_slot wd) b wd col val i j *! tn x j).
    Proof.
      intros i len Hi Hl H1 H2. rewrite ell_row_sum. rewrite (sumz_split O L 0 len wd) by lia. rewrite (sumz_zero O L len wd).
      - replace (i * wd) with (0 + i * wd) at 1 by lia. rewrite (Z.add_comm (i * wd) len), (sumz_shift O).
        assert (E : sumz O 0 len (fun k => term (k + i * wd)) = sumz O 0 len (fun k =>
            if (b <=? zn col (ell_slot wd i k)) && (zn col (ell_slot wd i k) <? n + b) then tn val (ell_slot wd i k) *! tn x (zn col (ell_slot wd i k) - b) else zero)).
        { apply sumz_ext. intros k Hk. specialize (H1 k ltac:(lia)). replace ((b <=? zn col (ell_slot wd i k)) && (zn col (ell_slot wd i k) <? n + b)) with true by lia.
          unfold term, ell_slot. rewrite (Z.add_comm (i * wd) k). reflexivity. }
        rewrite E. ring.
      - intros k Hk. specialize (H2 k ltac:(lia)). replace (b <=? zn col (ell_slot wd i k)) with false by lia. reflexivity.
    Qed.

    Lemma ellmv_ref_ok : forall y, m <= zlen y ->
      exists y1, ellmv_ref O alpha m val col wd b x beta y = Some y1 /\ product_of O m n alpha beta (ell_mat O (ell_slot wd) b wd col val) x y y1.
    Proof.
      intros y Ly. unfold ellmv_ref.
      match goal with |- context [for_ 0 m ?f y] => destruct (upto_rows 0 m (fun i => fin alpha beta (sumz O 0 n (fun j => ell_mat O (ell_slot wd) b wd col val i j *! tn x j)) (tn y i)) y y f) as (y1 & E & U); try lia end.
      - apply upto_0; lia.
      - intros i v Hi [U1 U2]. destruct (Hok i Hi) as (len & Hl & H1 & H2).
        pose proof (ell_run i len 0 wd zero Hi Hl H1 H2 ltac:(lia) ltac:(lia) ltac:(lia)) as ER.
        match goal with |- context [forb 0 wd ?g zero] => replace (forb 0 wd g zero) with (forb 0 wd (fun p r => ell_step O b val col x (i * wd + 0 + p) r) zero) end.
        2:{ unfold forb, forc. f_equal. rewrite Z.add_0_r. reflexivity. }
        rewrite ER. rewrite Z.add_0_r. replace (Z.min len (0 + wd)) with len by lia. rewrite (finish_row_ok O L) by lia.
        rewrite (ell_row_val i len Hi Hl H1 H2). rewrite U2 by lia. replace (i <? i) with false by lia. unfold fin. do 2 f_equal. ring.
      - exists y1. split; auto.
    Qed.

    Lemma ell_vec_row_ok : forall k hsum i, 0 < k -> (forall v, length v = Z.to_nat k -> hsum v = total v) -> 0 <= i < m ->
      ell_vec_row O k hsum b wd val col x i = Some (sumz O 0 n (fun j => ell_mat O (ell_slot wd) b wd col val i j *! tn x j)).
    Proof.
      intros k hsum i Hk Hh Hi. destruct (Hok i Hi) as (len & Hl & H1 & H2). unfold ell_vec_row.
      rewrite Z.quot_div_nonneg, Z.rem_mod_nonneg by lia.
      pose proof (Z.mod_pos_bound wd k Hk). pose proof (Z.div_mod wd k ltac:(lia)) as DM. pose proof (Z.div_pos wd k ltac:(lia) Hk) as DP.
      set (g := wd / k) in *. set (rm := wd mod k) in *. clearbody g rm.
      assert (Main : exists q vy kr, forb 0 g (fun p st =>
          let '(q, vy, k_rem) := st in
          let* c := rd col (q + (k - 1)) in
          if 0 <=? c - b then
            let* va := vload k val q in
            let* vx := vgather k b col x (q + b) in
            Some (Go (q + k, map2 (fun p s => p +! s) (map2 (fun a c => a *! c) va vx) vy, k_rem))
          else Some (Brk (q, vy, k))) (i * wd, zrep k zero, rm) = Some (q, vy, kr) /\ length vy = Z.to_nat k /\
          (g = 0 -> q = i * wd) /\ total vy = sumz O (i * wd) q term /\
          exists s, q = i * wd + s /\ 0 <= s <= len /\ 0 <= kr /\ s + kr <= wd /\ len <= s + kr).
      { unfold forb. match goal with |- context [forc 0 g ?f ?s] => destruct (forc_inv _ unit
          (fun e (st : Z * list T * Z) => exists vy, st = (i * wd + e * k, vy, rm) /\ e * k <= len /\ length vy = Z.to_nat k /\ total vy = sumz O (i * wd) (i * wd + e * k) term)
          (fun st => exists e vy, 0 <= e < g /\ st = (i * wd + e * k, vy, k) /\ e * k <= len /\ len < e * k + k /\ length vy = Z.to_nat k /\ total vy = sumz O (i * wd) (i * wd + e * k) term)
          (fun _ => False) 0 g f s DP) as [(st & -> & Q)|(? & _ & [])] end.
        - exists (zrep k zero). split; [f_equal; f_equal; lia|]. split; [lia|]. split; [unfold zrep; apply repeat_length|].
          rewrite (total_zrep O L). rewrite (sumz_nil O) by lia. reflexivity.
        - intros e st He (vy & -> & Hel & Lvy & Tv).
          assert (Hkg : e * k + k <= wd) by nia. assert (Hkm : 0 <= i * wd /\ i * wd + wd <= m * wd) by nia. assert (He0 : 0 <= e * k) by nia.
          rewrite (rd_nthZ _ 0) by lia. destruct (Z_lt_dec (e * k + (k - 1)) len) as [Hc|Hc].
          + pose proof (H1 (e * k + (k - 1)) ltac:(lia)) as Hv. unfold ell_slot in Hv. rewrite Z.add_assoc in Hv.
            replace (0 <=? zn col (i * wd + e * k + (k - 1)) - b) with true by lia.
            rewrite (vload_ok O) by lia. rewrite (vgather_ok O) by (try lia; intros q Hq; specialize (H1 (q - i * wd) ltac:(lia)); unfold ell_slot in H1; replace (i * wd + (q - i * wd)) with q in H1 by lia; lia).
            rewrite map2_map. left. eexists; split; [reflexivity|]. eexists. split; [replace (i * wd + (e + 1) * k) with (i * wd + e * k + k) by ring; reflexivity|]. split; [lia|]. split.
            * rewrite map2_length; auto. rewrite map_length, zrange_length by lia. auto.
            * rewrite (suml_map2_add O L) by (rewrite map_length, zrange_length by lia; auto). rewrite Tv.
              rewrite (map_ext_z _ _ (fun t => term (i * wd + e * k + t))) by (intros t Ht; unfold term; replace (i * wd + e * k + b - b) with (i * wd + e * k) by ring; reflexivity).
              rewrite (suml_lanes O k (i * wd + e * k) term). rewrite (sumz_split O L (i * wd) (i * wd + e * k) (i * wd + (e + 1) * k)) by lia.
              replace (i * wd + (e + 1) * k) with (i * wd + e * k + k) by lia. ring.
          + pose proof (H2 (e * k + (k - 1)) ltac:(lia)) as Hv. unfold ell_slot in Hv. rewrite Z.add_assoc in Hv.
            replace (0 <=? zn col (i * wd + e * k + (k - 1)) - b) with false by lia.
            right; left. eexists; split; [reflexivity|]. exists e, vy. ands; auto; lia.
        - destruct Q as [(vy & -> & Hel & Lvy & Tv)|(e & vy & He & -> & Hel & Hle & Lvy & Tv)].
          + exists (i * wd + g * k), vy, rm. ands; auto; [intros ->; lia|]. exists (g * k). ands; nia.
          + exists (i * wd + e * k), vy, k. ands; auto; [lia|]. exists (e * k). ands; nia. }
      destruct Main as (q & vy & kr & E & Lvy & Hg0 & Tv & s & -> & Hs & Hkr & Hsk & Hlk).
      cbv zeta. rewrite E. rewrite (ell_run i len s kr) by (auto; lia). replace (Z.min len (s + kr)) with len by lia.
      assert (ER : (if negb (g =? 0) then hsum vy else zero) = sumz O (i * wd) (i * wd + s) term).
      { destruct (Z.eqb_spec g 0) as [Eg|Eg]; cbn [negb]; [|rewrite Hh by auto; exact Tv].
        rewrite (sumz_nil O) by (specialize (Hg0 Eg); lia). reflexivity. }
      rewrite ER. rewrite <- (ell_row_val i len Hi Hl H1 H2). rewrite (sumz_split O L (i * wd) (i * wd + s) (i * wd + len)) by lia. reflexivity.
    Qed.

    Lemma ellmv_vec_ok : forall k hsum y, 0 < k -> (forall v, length v = Z.to_nat k -> hsum v = total v) -> m <= zlen y ->
      exists y1, ellmv_vec O k hsum alpha m val col wd b x beta y = Some y1 /\ product_of O m n alpha beta (ell_mat O (ell_slot wd) b wd col val) x y y1.
    Proof.
      intros k hsum y Hk Hh Ly. unfold ellmv_vec.
      match goal with |- context [for_ 0 m ?f y] => destruct (upto_rows 0 m (fun i => fin alpha beta (sumz O 0 n (fun j => ell_mat O (ell_slot wd) b wd col val i j *! tn x j)) (tn y i)) y y f) as (y1 & E & U); try lia end.
      - apply upto_0; lia.
      - intros i v Hi [U1 U2]. rewrite ell_vec_row_ok by auto. rewrite (finish_row_ok O L) by lia. rewrite U2 by lia. replace (i <? i) with false by lia. reflexivity.
      - exists y1. split; auto.
    Qed.
  End Ell.

  (** ** Transposed ELL *)
  Section Ellt.
    Variables (m n b wd : Z) (col : list Z) (val x : list T) (alpha beta : T).
    Hypothesis Hm : 0 <= m.
    Hypothesis Hw : 0 <= wd.
    Hypothesis Lc : zlen col = m * wd.
    Hypothesis Lv : zlen val = m * wd.
    Hypothesis Lx : n <= zlen x.
    Hypothesis Hok : ellt_ok m n b wd col.
    Let S i := sumz O 0 n (fun j => ell_mat O (ellt_slot m) b wd col val i j *! tn x j).

    Lemma ellt_val : forall i, 0 <= i < m -> S i = sumz O 0 wd (fun k => tn val (k * m + i) *! tn x (zn col (k * m + i) - b)).
    Proof.
      intros i Hi. unfold S. rewrite ell_row_sum. apply sumz_ext. intros k Hk. pose proof (Hok i k Hi Hk) as H.
      replace ((b <=? zn col (ellt_slot m i k)) && (zn col (ellt_slot m i k) <? n + b)) with true by lia. reflexivity.
    Qed.
    Lemma ellt_pos : forall i k, 0 <= i < m -> 0 <= k < wd -> 0 <= k * m + i < m * wd.
    Proof. intros; nia. Qed.
    Lemma ellt_dot_ok : forall i, 0 <= i < m -> ellt_dot O b m wd val col x i = Some (S i).
    Proof.
      intros i Hi. rewrite ellt_val by auto. unfold ellt_dot.
      match goal with |- context [for_ 0 wd ?f zero] => destruct (for_inv _ (fun e v => v = sumz O 0 e (fun k => tn val (k * m + i) *! tn x (zn col (k * m + i) - b))) 0 wd f zero Hw) as (v & E & ->) end.
      - rewrite (sumz_nil O) by lia. reflexivity.
      - intros e v He ->. pose proof (ellt_pos i e Hi He). pose proof (Hok i e Hi He) as H'. unfold ellt_slot in H'.
        rewrite (rd_nthZ _ zero) by lia. rewrite (rd_nthZ _ 0) by lia. rewrite (rd_nthZ _ zero) by lia.
        eexists; split; [reflexivity|]. rewrite (sumz_last O L) by lia. reflexivity.
      - exact E.
    Qed.

    Lemma elltmv_rows_ok : forall lo y0 y, 0 <= lo <= m -> m <= zlen y0 -> upto lo (fun i => fin alpha beta (S i) (tn y0 i)) y0 y ->
      exists y1, elltmv_rows O lo alpha m val col wd b x beta y = Some y1 /\ upto m (fun i => fin alpha beta (S i) (tn y0 i)) y0 y1.
    Proof.
      intros lo y0 y Hl Ly U. unfold elltmv_rows. apply upto_rows; auto.
      intros i v Hi [U1 U2]. rewrite ellt_dot_ok by lia. rewrite (finish_row_ok O L) by lia. rewrite U2 by lia. replace (i <? i) with false by lia. reflexivity.
    Qed.

    Lemma ellt_block_ok : forall k j y0 y, 0 < k -> 0 <= j -> j * k + k <= m -> m <= zlen y0 ->
      upto (j * k) (fun i => fin alpha beta (S i) (tn y0 i)) y0 y ->
      exists y1, ellt_block O k alpha m val col wd b x beta j y = Some y1 /\ upto (j * k + k) (fun i => fin alpha beta (S i) (tn y0 i)) y0 y1.
    Proof.
      intros k j y0 y Hk Hj Hjk Ly U. unfold ellt_block. destruct U as [U1 U2]. assert (H0 : 0 <= j * k) by nia.
      set (F i t := tn val (i * m + (j * k + t)) *! tn x (zn col (i * m + (j * k + t)) - b)).
      match goal with |- context [for_ 0 wd ?f (zrep k zero)] => rewrite (lanes_sum k wd F f) end; try lia.
      2:{ intros i res Hi. assert (Hp : forall t, 0 <= t < k -> 0 <= i * m + (j * k + t) < m * wd) by (intros; apply ellt_pos; lia).
          pose proof (Hp 0 ltac:(lia)). pose proof (Hp (k - 1) ltac:(lia)).
          rewrite (vload_ok O) by lia. rewrite (vgather_ok O); try lia.
          - rewrite map2_map. do 2 f_equal. apply map_ext_z. intros t Ht. unfold F. replace (j * k + i * m + b - b) with (j * k + i * m) by lia.
            replace (j * k + i * m + t) with (i * m + (j * k + t)) by lia. reflexivity.
          - intros q Hq. pose proof (Hok (j * k + (q - (j * k + i * m))) i ltac:(lia) Hi) as Hc. unfold ellt_slot in Hc.
            replace (i * m + (j * k + (q - (j * k + i * m)))) with q in Hc by lia. lia. }
      rewrite (map_ext_z _ _ (fun t => S (j * k + t))).
      2:{ intros t Ht. rewrite ellt_val by lia. reflexivity. }
      assert (E1 : (if negb (alpha ==! one) then map (fun r => alpha *! r) (map (fun t => S (j * k + t)) (zrange 0 k)) else map (fun t => S (j * k + t)) (zrange 0 k))
        = map (fun t => alpha *! S (j * k + t)) (zrange 0 k)).
      { destruct (alpha ==! one) eqn:E; cbn [negb]; [|apply map_map]. apply (l_eqb L) in E. subst. apply map_ext_z. intros; ring. }
      rewrite E1.
      assert (E2 : (if negb (beta ==! zero) then let* vy := vload k y (j * k) in Some (map2 (fun v r => beta *! v +! r) vy (map (fun t => alpha *! S (j * k + t)) (zrange 0 k)))
         else Some (map (fun t => alpha *! S (j * k + t)) (zrange 0 k))) = Some (map (fun t => fin alpha beta (S (j * k + t)) (tn y0 (j * k + t))) (zrange 0 k))).
      { destruct (beta ==! zero) eqn:E; cbn [negb].
        - apply (l_eqb L) in E. subst. f_equal. apply map_ext_z. intros; unfold fin; ring.
        - rewrite (vload_ok O) by lia. rewrite map2_map. f_equal. apply map_ext_z. intros t Ht. rewrite U2 by lia.
          replace (j * k + t <? j * k) with false by lia. unfold fin. ring. }
      rewrite E2. apply (upto_block k (j * k) (fun i => fin alpha beta (S i) (tn y0 i))); auto; try lia. split; auto.
    Qed.

    Lemma elltmv_vec_upto : forall k y, 0 < k -> m <= zlen y ->
      exists y1, elltmv_vec O k alpha m val col wd b x beta y = Some y1 /\ upto m (fun i => fin alpha beta (S i) (tn y i)) y y1.
    Proof.
      intros k y Hk Ly. unfold elltmv_vec. rewrite Z.quot_div_nonneg by lia.
      pose proof (Z.div_mod m k ltac:(lia)). pose proof (Z.mod_pos_bound m k Hk). pose proof (Z.div_pos m k ltac:(lia) Hk).
      set (g := m / k) in *. clearbody g.
      match goal with |- context [for_ 0 g ?f y] => destruct (for_inv _ (fun e v => upto (e * k) (fun i => fin alpha beta (S i) (tn y i)) y v) 0 g f y ltac:(lia)) as (y1 & E & U) end.
      - apply upto_0; lia.
      - intros e v He U. destruct (ellt_block_ok k e y v Hk ltac:(lia) ltac:(nia) Ly U) as (v1 & E1 & U1). exists v1. split; auto.
        replace ((e + 1) * k) with (e * k + k) by lia. auto.
      - rewrite E. apply elltmv_rows_ok; auto. nia.
    Qed.
    Lemma elltmv_vec_ok : forall k y, 0 < k -> m <= zlen y ->
      exists y1, elltmv_vec O k alpha m val col wd b x beta y = Some y1 /\ product_of O m n alpha beta (ell_mat O (ellt_slot m) b wd col val) x y y1.
    Proof. exact elltmv_vec_upto. Qed.
    Lemma elltmv_ref_ok : forall y, m <= zlen y ->
      exists y1, elltmv_rows O 0 alpha m val col wd b x beta y = Some y1 /\ product_of O m n alpha beta (ell_mat O (ellt_slot m) b wd col val) x y y1.
    Proof. intros y Ly. apply elltmv_rows_ok; auto; [lia|]. apply upto_0; lia. Qed.
  End Ellt.
End P.
