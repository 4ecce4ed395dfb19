(** The on-the-fly transposition visits every element of every column exactly once. *)
From Coq Require Import ZArith List Bool Lia ZifyBool Permutation.
From Verif Require Import Base BaseFacts OftModel.
Import ListNotations.
Open Scope Z_scope.

Section P.
  Variables (m n : Z) (irstart : list Z) (s_off : Z) (irend : list Z) (e_off : Z) (icol : list Z) (base : Z).
  Let lo (r : Z) : Z := zn irstart r - s_off.
  Let hi (r : Z) : Z := zn irend r - e_off.
  Let col (k : Z) : Z := zn icol k - base.
  Hypothesis Hm : 0 <= m.
  Hypothesis Hn : 0 <= n.
  Hypothesis Ls : m <= zlen irstart.
  Hypothesis Le : m <= zlen irend.
  Hypothesis Wr : forall r k, 0 <= r < m -> lo r <= k < hi r -> 0 <= k < zlen icol /\ 0 <= col k < n.
  Hypothesis Ws : forall r k k', 0 <= r < m -> lo r <= k -> k < k' -> k' < hi r -> col k < col k'.

  (** [l] is the linked list that starts at [h]. *)
  Fixpoint chain (nx : list Z) (h : Z) (l : list Z) : Prop :=
    match l with
    | [] => h = -1
    | r :: l' => h = r /\ 0 <= r < m /\ chain nx (zn nx r) l'
    end.
  Lemma chain_in : forall nx l h, chain nx h l -> forall r, In r l -> 0 <= r < m.
  Proof. induction l as [|x l IH]; intros h H r Hr; [destruct Hr|]. destruct H as (_ & H1 & H2). destruct Hr as [<- |Hr]; [exact H1|exact (IH _ H2 _ Hr)]. Qed.
  Lemma chain_upd : forall nx r v l h, zlen nx = m -> 0 <= r < m -> ~ In r l -> chain nx h l -> chain (upd nx r v) h l.
  Proof.
    intros nx r v. induction l as [|x l IH]; intros h L Hr N H; [exact H|]. destruct H as (H1 & H2 & H3). cbn [chain]. split; [exact H1|]. split; [exact H2|].
    rewrite nthZ_upd by lia. replace (x =? r) with false by (symmetry; apply Z.eqb_neq; intros ->; apply N; now left).
    apply IH; auto. intros K. apply N. now right.
  Qed.

  Definition sized (o : oft) : Prop := zlen (f_start o) = m /\ zlen (f_head o) = n /\ zlen (f_next o) = m.
  Definition pos (o : oft) (r : Z) : Z := zn (f_start o) r.
  (** From column [j0] on, the list of column j holds the rows (among those in [P]) whose
      next element is in column j. *)
  Definition lists (P : Z -> Prop) (j0 : Z) (o : oft) : Prop :=
    exists LL : Z -> list Z, forall j, j0 <= j < n -> chain (f_next o) (zn (f_head o) j) (LL j) /\ NoDup (LL j) /\
      forall r, In r (LL j) <-> P r /\ pos o r < hi r /\ col (pos o r) = j.

  (** Row [r] moves to element [k] and is put into the list of that element's column. *)
  Definition put (o : oft) (r k : Z) : oft :=
    if k <? hi r then mkOft (upd (f_start o) r k) (upd (f_head o) (col k) r) (upd (f_next o) r (zn (f_head o) (col k)))
    else mkOft (upd (f_start o) r k) (f_head o) (f_next o).
  Lemma put_sized : forall o r k, sized o -> sized (put o r k).
  Proof. intros o r k (A & B & C). unfold put. destruct (k <? hi r); unfold sized; cbn [f_start f_head f_next]; rewrite ?zlen_upd; auto. Qed.
  Lemma put_pos : forall o r k x, sized o -> 0 <= r < m -> 0 <= x < m -> pos (put o r k) x = if x =? r then k else pos o x.
  Proof. intros o r k x (A & B & C) Hr Hx. unfold put, pos. destruct (k <? hi r); cbn [f_start f_head f_next]; rewrite nthZ_upd by lia; reflexivity. Qed.
  Lemma put_chain : forall o r k h l, sized o -> 0 <= r < m -> ~ In r l -> chain (f_next o) h l -> chain (f_next (put o r k)) h l.
  Proof. intros o r k h l (A & B & C) Hr N H. unfold put. destruct (k <? hi r); cbn [f_start f_head f_next]; auto. apply chain_upd; auto. Qed.

  Lemma put_lists : forall (P : Z -> Prop) j0 o r k, sized o -> 0 <= r < m -> 0 <= j0 -> (forall x, P x -> 0 <= x < m) ->
    lists P j0 o -> ~ (P r /\ pos o r < hi r /\ j0 <= col (pos o r)) -> (k < hi r -> j0 <= col k < n) ->
    lists (fun x => P x \/ x = r) j0 (put o r k).
  Proof.
    intros P j0 o r k S Hr Hj0 HP (LL & H) N Hk.
    assert (NI : forall j, j0 <= j < n -> ~ In r (LL j)).
    { intros j Hj K. apply (H j Hj) in K. apply N. destruct K as (K1 & K2 & K3). ands; auto. lia. }
    exists (fun j => if (k <? hi r) && (j =? col k) then r :: LL j else LL j). intros j Hj. destruct (H j Hj) as (C & D & M).
    pose proof S as (S1 & S2 & S3).
    assert (MEM : forall x, In x (LL j) \/ (k < hi r /\ j = col k /\ x = r) <-> (P x \/ x = r) /\ pos (put o r k) x < hi x /\ col (pos (put o r k) x) = j).
    { intros x. rewrite M. destruct (Z.eq_dec x r) as [ -> |Nx].
      - rewrite put_pos by auto. rewrite Z.eqb_refl. split.
        + intros [(K1 & K2 & K3)|(K1 & K2 & _)]; [exfalso; apply N; ands; auto; lia|]. ands; auto.
        + intros (_ & K2 & K3). right. ands; auto.
      - split.
        + intros [(K1 & K2 & K3)|(_ & _ & K)]; [|contradiction]. rewrite put_pos by auto. replace (x =? r) with false by lia. ands; auto.
        + intros ([K1|K1] & K2 & K3); [|contradiction]. rewrite put_pos in K2, K3 by auto. replace (x =? r) with false in K2, K3 by lia. left. ands; auto. }
    destruct ((k <? hi r) && (j =? col k)) eqn:E.
    - assert (Ej : j = col k) by lia. split; [|split].
      + cbn [chain]. split; [|split; [exact Hr|]].
        * unfold put. replace (k <? hi r) with true by lia. cbn [f_start f_head f_next]. rewrite Ej. rewrite nthZ_upd_same by lia. reflexivity.
        * replace (zn (f_next (put o r k)) r) with (zn (f_head o) j); [apply put_chain; auto|]. unfold put. replace (k <? hi r) with true by lia. cbn [f_start f_head f_next]. rewrite nthZ_upd_same by lia. rewrite Ej. reflexivity.
      + constructor; auto.
      + intros x. rewrite <- MEM. cbn [In]. split; [intros [K|K]; [right; ands; auto; lia|now left]|intros [K|(_ & _ & K)]; auto].
    - split; [|split]; auto.
      + replace (zn (f_head (put o r k)) j) with (zn (f_head o) j); [apply put_chain; auto|]. unfold put. destruct (k <? hi r) eqn:Ek; [|reflexivity]. cbn [f_start f_head f_next].
        pose proof (Hk ltac:(lia)). rewrite nthZ_upd by lia. replace (j =? col k) with false by (cbn [andb] in E; lia). reflexivity.
      + intros x. rewrite <- MEM. split; [now left|]. intros [K|(K1 & K2 & K3)]; auto. exfalso. lia.
  Qed.

  (** After [done] columns every row stands at its first element of the later columns. *)
  Definition at_col (c : Z -> Z) (o : oft) : Prop :=
    forall r, 0 <= r < m -> lo r <= pos o r /\ (pos o r <= hi r \/ pos o r = lo r) /\ forall k, lo r <= k < hi r -> (k < pos o r <-> col k < c r).
  Definition row_ok (r : Z) : Prop := 0 <= r < m.
  Definition ready (i : Z) (o : oft) : Prop := sized o /\ lists row_ok i o /\ at_col (fun _ => i) o.

  Lemma lists_ext : forall P Q j0 o, (forall x, P x <-> Q x) -> lists P j0 o -> lists Q j0 o.
  Proof. intros P Q j0 o E (LL & H). exists LL. intros j Hj. destruct (H j Hj) as (A & B & C). ands; auto. intros r. rewrite C, E. reflexivity. Qed.
  Lemma lists_le : forall P j0 j1 o, j0 <= j1 -> lists P j0 o -> lists P j1 o.
  Proof. intros P j0 j1 o E (LL & H). exists LL. intros j Hj. apply H. lia. Qed.

  Lemma init_ok : exists o, oft_init irend e_off icol base m n irstart s_off = Some o /\ ready 0 o.
  Proof.
    unfold oft_init.
    match goal with |- context [for_ 0 m ?f ?o0] => destruct (for_inv _ (fun e o => sized o /\ lists (fun r => 0 <= r < e) 0 o /\ forall r, 0 <= r < e -> pos o r = lo r) 0 m f o0 Hm) as (o & E & S & L & P) end.
    - unfold sized; cbn [f_start f_head f_next]. rewrite !zlen_zrep by lia. split; [auto|]. split; [|intros; lia].
      exists (fun _ => []). intros j Hj. cbn [f_start f_head f_next]. split; [apply nthZ_zrep; lia|]. split; [constructor|]. intros r. split; [intros []|intros; lia].
    - intros e o He (S & L & P). pose proof S as (S1 & S2 & S3). rewrite (rd_nthZ _ 0 irstart) by lia. rewrite wr_upd by lia. rewrite (rd_nthZ _ 0 irend) by lia.
      exists (put o e (lo e)). split.
      + unfold put. change (nthZ 0 irend e - e_off) with (hi e). change (nthZ 0 irstart e - s_off) with (lo e). destruct (Z.ltb_spec (lo e) (hi e)); [|reflexivity].
        destruct (Wr e (lo e) ltac:(lia) ltac:(lia)) as (K1 & K2). rewrite (rd_nthZ _ 0 icol) by lia. change (nthZ 0 icol (lo e) - base) with (col (lo e)). rewrite (rd_nthZ _ 0 (f_head o)) by lia.
        rewrite wr_upd by lia. rewrite wr_upd by lia. reflexivity.
      + split; [apply put_sized; auto|]. split.
        * apply (lists_ext (fun x => 0 <= x < e \/ x = e)); [intros; lia|]. apply put_lists; auto; try lia. intros K. apply (Wr e (lo e)); lia.
        * intros r Hr. rewrite put_pos by (auto; lia). destruct (Z.eqb_spec r e); [subst; reflexivity|]. apply P. lia.
    - exists o. split; [exact E|]. split; [exact S|]. split; [exact L|]. intros r Hr. rewrite P by auto. split; [lia|]. split; [lia|]. intros k Hk. pose proof (Wr r k Hr Hk). lia.
  Qed.

  Lemma rnext_ok : forall i o r, sized o -> 0 <= r < m -> lo r <= pos o r < hi r -> col (pos o r) = i ->
    rnext irend e_off icol base o r = Some (zn (f_next o) r, put o r (pos o r + 1)).
  Proof.
    intros i o r (S1 & S2 & S3) Hr Hp Hc. unfold rnext, put. rewrite (rd_nthZ _ 0 (f_next o)) by lia. rewrite (rd_nthZ _ 0 (f_start o)) by lia. rewrite wr_upd by lia. rewrite (rd_nthZ _ 0 irend) by lia.
    change (nthZ 0 irend r - e_off) with (hi r). change (nthZ 0 (f_start o) r) with (pos o r). destruct (Z.ltb_spec (pos o r + 1) (hi r)); [|reflexivity].
    destruct (Wr r (pos o r + 1) Hr ltac:(lia)) as (K1 & K2). rewrite (rd_nthZ _ 0 icol) by lia. change (nthZ 0 icol (pos o r + 1) - base) with (col (pos o r + 1)). rewrite (rd_nthZ _ 0 (f_head o)) by lia.
    rewrite wr_upd by lia. rewrite wr_upd by lia. reflexivity.
  Qed.

  (** One column, [todo] being the rows still to come. *)
  Lemma while_ok : forall i todo fuel cur o, 0 <= i -> (length todo <= fuel)%nat ->
    sized o -> chain (f_next o) cur todo -> NoDup todo -> lists row_ok (i + 1) o ->
    at_col (fun r => if in_dec Z.eq_dec r todo then i else i + 1) o ->
    (forall r, In r todo -> pos o r < hi r /\ col (pos o r) = i) ->
    exists o', ready (i + 1) o' /\ forall (S : Type) (body : Z -> Z -> S -> option S) s,
      oft_while irend e_off icol base fuel body cur o s = let* s' := foldM (fun rk s => body (fst rk) (snd rk) s) (map (fun r => (r, pos o r)) todo) s in Some (o', s').
  Proof.
    intros i todo. induction todo as [|r todo IH]; intros fuel cur o Hi Hf Sz Ch Nd Ll Ac Hp.
    - exists o. split; [split; [exact Sz|split; [exact Ll|exact Ac]]|]. intros S body s. cbn in Ch. subst cur. destruct fuel; reflexivity.
    - destruct Ch as (-> & Hr & Ch). destruct fuel as [|fuel]; [cbn in Hf; lia|]. inversion Nd as [|? ? Nr Nd']; subst.
      destruct (Hp r (or_introl eq_refl)) as (P1 & P2). destruct (Ac r Hr) as (A1 & A2 & A3).
      set (o1 := put o r (pos o r + 1)).
      assert (Sz1 : sized o1) by (apply put_sized; auto).
      assert (PP : forall x, In x todo -> pos o1 x = pos o x).
      { intros x Hx. unfold o1. rewrite put_pos; auto; [|exact (chain_in _ _ _ Ch x Hx)]. replace (x =? r) with false; [reflexivity|]. symmetry. apply Z.eqb_neq. intros ->. contradiction. }
      destruct (IH fuel (zn (f_next o) r) o1) as (o' & R & E); auto.
      + cbn in Hf. lia.
      + apply put_chain; auto.
      + apply (lists_ext (fun x => row_ok x \/ x = r)); [intros x; unfold row_ok; split; [intros [K| -> ]; auto|auto]|].
        apply put_lists; auto; [lia| |].
        * intros (_ & _ & K). lia.
        * intros K. split; [|apply (Wr r (pos o r + 1)); auto; lia]. pose proof (Ws r (pos o r) (pos o r + 1) Hr A1 ltac:(lia) K). lia.
      + intros x Hx. unfold o1. rewrite put_pos by auto. destruct (Z.eqb_spec x r) as [ -> |Nx].
        * split; [lia|]. split; [lia|]. intros k Hk. destruct (in_dec Z.eq_dec r todo); [contradiction|].
          destruct (Z.lt_trichotomy k (pos o r)) as [K|[ -> |K]].
          -- pose proof (Ws r k (pos o r) Hr ltac:(lia) K P1). lia.
          -- lia.
          -- pose proof (Ws r (pos o r) k Hr A1 K ltac:(lia)). lia.
        * destruct (Ac x Hx) as (B1 & B2 & B3). split; [exact B1|]. split; [exact B2|]. intros k Hk. rewrite (B3 k Hk). 
          destruct (in_dec Z.eq_dec x (r :: todo)) as [I1|I1], (in_dec Z.eq_dec x todo) as [I2|I2]; try reflexivity; exfalso.
          -- destruct I1; [subst; contradiction|contradiction].
          -- apply I1. now right.
      + intros x Hx. rewrite PP by auto. apply Hp. now right.
      + exists o'. split; [exact R|]. intros S body s. cbn [oft_while]. replace (r <? 0) with false by lia. pose proof Sz as (S1 & S2 & S3).
        rewrite (rd_nthZ _ 0 (f_start o)) by lia. change (nthZ 0 (f_start o) r) with (pos o r). cbn [map foldM fst snd].
        destruct (body r (pos o r) s) as [s1|]; [|reflexivity]. rewrite (rnext_ok i) by auto. fold o1. rewrite E.
        replace (map (fun r0 => (r0, pos o1 r0)) todo) with (map (fun r0 => (r0, pos o r0)) todo); [reflexivity|]. apply map_ext_in. intros x Hx. rewrite PP by auto. reflexivity.
  Qed.

  (** The elements of column [i]. *)
  Definition column_elems (i : Z) (V : list (Z * Z)) : Prop :=
    NoDup V /\ forall r k, In (r, k) V <-> 0 <= r < m /\ lo r <= k < hi r /\ col k = i.

  Lemma column_ok : forall i o, 0 <= i < n -> ready i o ->
    exists V o', column_elems i V /\ ready (i + 1) o' /\ forall (S : Type) (body : Z -> Z -> S -> option S) s,
      oft_column irend e_off icol base m body i (o, s) = let* s' := foldM (fun rk s => body (fst rk) (snd rk) s) V s in Some (o', s').
  Proof.
    intros i o Hi (Sz & Ll & Ac). destruct Ll as (LL & HL). destruct (HL i ltac:(lia)) as (Ch & Nd & Me). set (todo := LL i) in *.
    assert (IT : forall r, In r todo -> 0 <= r < m) by (intros r Hr; exact (proj1 (proj1 (Me r) Hr))).
    destruct (while_ok i todo (Datatypes.S (Z.to_nat m)) (zn (f_head o) i) o) as (o' & R & E); auto; try lia.
    - assert (Hle : (length todo <= length (zrange 0 m))%nat). { apply NoDup_incl_length; auto. intros x Hx. apply in_zrange. exact (IT x Hx). }
      assert (LZ : length (zrange 0 m) = Z.to_nat m). { pose proof (zlen_zrange 0 m Hm) as Q. unfold zlen in Q. lia. } lia.
    - exists LL. intros j Hj. apply HL. lia.
    - intros r Hr. destruct (Ac r Hr) as (A1 & A2 & A3). split; [exact A1|]. split; [exact A2|]. intros k Hk. destruct (in_dec Z.eq_dec r todo) as [I|I]; [apply A3; auto|].
      rewrite (A3 k Hk). split; [lia|]. intros K. destruct (Z.eq_dec (col k) i) as [Ec|]; [|lia]. exfalso. apply I. apply Me.
      assert (Kp : pos o r <= k). { destruct (Z.le_gt_cases (pos o r) k) as [?|G]; auto. apply A3 in G; auto. lia. }
      split; [exact Hr|]. split; [lia|]. destruct (Z.eq_dec (pos o r) k) as [ -> |]; [exact Ec|]. pose proof (Ws r (pos o r) k Hr A1 ltac:(lia) ltac:(lia)) as Q.
      assert (pos o r < hi r) by lia. pose proof (proj2 (A3 (pos o r) ltac:(lia))). lia.
    - intros r Hr. apply Me in Hr. tauto.
    - exists (map (fun r => (r, pos o r)) todo), o'. split; [|split; [exact R|]].
      + split.
        * apply FinFun.Injective_map_NoDup; auto. intros x y Q. congruence.
        * intros r k. rewrite in_map_iff. split.
          -- intros (x & Q & Hx). inversion Q; subst. apply Me in Hx. destruct Hx as (H1 & H2 & H3). destruct (Ac r H1) as (A1 & _). split; [exact H1|]. split; [lia|exact H3].
          -- intros (H1 & H2 & H3). destruct (Ac r H1) as (A1 & A2 & A3).
             assert (Kp : pos o r <= k). { destruct (Z.le_gt_cases (pos o r) k) as [?|G]; auto. apply A3 in G; auto. lia. }
             assert (Q : pos o r = k). { destruct (Z.eq_dec (pos o r) k) as [|Nk]; auto. pose proof (Ws r (pos o r) k H1 A1 ltac:(lia) ltac:(lia)) as Q. pose proof (proj2 (A3 (pos o r) ltac:(lia))). lia. }
             exists r. split; [congruence|]. apply Me. subst k. ands; auto. lia.
      + intros S body s. unfold oft_column. destruct Sz as (S1 & S2 & S3). rewrite (rd_nthZ _ 0 (f_head o)) by lia. apply E.
  Qed.

  (** All columns: the elements of each column in some order, the same for whatever is done
      with them, before the first and after the last one. *)
  Lemma columns_visit_all : forall o, ready 0 o ->
    exists V : Z -> list (Z * Z), (forall i, 0 <= i < n -> column_elems i (V i)) /\
    forall (S : Type) (pre : Z -> S -> option S) (body : Z -> Z -> Z -> S -> option S) (post : Z -> S -> option S) s,
      (let* os := for_ 0 n (fun i os => let '(o, s) := os in let* s := pre i s in let* (o, s) := oft_column irend e_off icol base m (body i) i (o, s) in let* s := post i s in Some (o, s)) (o, s) in Some (snd os)) =
      for_ 0 n (fun i s => let* s := pre i s in let* s := foldM (fun rk s => body i (fst rk) (snd rk) s) (V i) s in post i s) s.
  Proof.
    intros o R.
    assert (G : forall t, 0 <= t <= n -> exists (V : Z -> list (Z * Z)) o', ready t o' /\ (forall i, 0 <= i < t -> column_elems i (V i)) /\
      forall (S : Type) (pre : Z -> S -> option S) (body : Z -> Z -> Z -> S -> option S) (post : Z -> S -> option S) s,
      for_ 0 t (fun i os => let '(o, s) := os in let* s := pre i s in let* (o, s) := oft_column irend e_off icol base m (body i) i (o, s) in let* s := post i s in Some (o, s)) (o, s) =
      let* s' := for_ 0 t (fun i s => let* s := pre i s in let* s := foldM (fun rk s => body i (fst rk) (snd rk) s) (V i) s in post i s) s in Some (o', s')).
    { intros t Ht. pose proof Ht as Hle. revert Hle. pattern t. apply natlike_ind; [| |lia]; clear t Ht.
      - intros _. exists (fun _ => []), o. split; [exact R|]. split; [intros; lia|]. intros S pre body post s. reflexivity.
      - intros t Ht IH Htn. destruct IH as (V & o1 & R1 & HV & E); [lia|]. destruct (column_ok t o1 ltac:(lia) R1) as (W & o2 & HW & R2 & E2).
        exists (fun i => if i =? t then W else V i), o2. split; [replace (Z.succ t) with (t + 1) by lia; exact R2|]. split.
        + intros i Hi. destruct (Z.eqb_spec i t) as [ -> |]; [exact HW|apply HV; lia].
        + intros S pre body post s. replace (Z.succ t) with (t + 1) by lia. rewrite !for_last by lia. rewrite E.
          rewrite (for_ext _ 0 t (fun i s0 => let* s1 := pre i s0 in let* s1 := foldM (fun rk s1 => body i (fst rk) (snd rk) s1) (if i =? t then W else V i) s1 in post i s1)
            (fun i s0 => let* s1 := pre i s0 in let* s1 := foldM (fun rk s1 => body i (fst rk) (snd rk) s1) (V i) s1 in post i s1)).
          2:{ intros i s0 Hi. replace (i =? t) with false by lia. reflexivity. }
          destruct (for_ 0 t (fun i s0 => let* s1 := pre i s0 in let* s1 := foldM (fun rk s1 => body i (fst rk) (snd rk) s1) (V i) s1 in post i s1) s) as [s1|]; [|reflexivity].
          rewrite Z.eqb_refl. destruct (pre t s1) as [s2|]; [|reflexivity]. rewrite E2. destruct (foldM _ W s2) as [s3|]; [|reflexivity]. destruct (post t s3); reflexivity. }
    destruct (Z.eq_dec n 0) as [E0|E0].
    - exists (fun _ => []). split; [intros; lia|]. intros S pre body post s. rewrite E0. reflexivity.
    - destruct (G n ltac:(lia)) as (V & o' & _ & HV & E). exists V. split; [exact HV|]. intros S pre body post s. rewrite E. destruct (for_ 0 n _ s); reflexivity.
  Qed.

  Context {S : Type}.
  (** The same when nothing happens before the first element of a column. *)
  Lemma columns_visit_post : forall (body : Z -> Z -> Z -> S -> option S) (post : Z -> S -> option S) o, ready 0 o ->
    exists V : Z -> list (Z * Z), (forall i, 0 <= i < n -> column_elems i (V i)) /\ forall s,
      (let* os := for_ 0 n (fun i os => let* (o, s) := oft_column irend e_off icol base m (body i) i os in let* s := post i s in Some (o, s)) (o, s) in Some (snd os)) =
      for_ 0 n (fun i s => let* s := foldM (fun rk s => body i (fst rk) (snd rk) s) (V i) s in post i s) s.
  Proof.
    intros body post o R. destruct (columns_visit_all o R) as (V & HV & E). exists V. split; [exact HV|]. intros s. rewrite <- (E S (fun _ s => Some s) body post s). symmetry.
    rewrite (for_ext _ 0 n _ (fun i os => let* (o, s) := oft_column irend e_off icol base m (body i) i os in let* s := post i s in Some (o, s))); [reflexivity|].
    intros i (o1, s1) _. reflexivity.
  Qed.
  Lemma columns_visit : forall (body : Z -> Z -> Z -> S -> option S) o, ready 0 o ->
    exists V : Z -> list (Z * Z), (forall i, 0 <= i < n -> column_elems i (V i)) /\ forall s,
      (let* os := for_ 0 n (fun i os => oft_column irend e_off icol base m (body i) i os) (o, s) in Some (snd os)) =
      for_ 0 n (fun i s => foldM (fun rk s => body i (fst rk) (snd rk) s) (V i) s) s.
  Proof.
    intros body o R. destruct (columns_visit_post body (fun _ s => Some s) o R) as (V & HV & E). exists V. split; [exact HV|]. intros s.
    rewrite (for_ext _ 0 n _ (fun i s => let* s := foldM (fun rk s => body i (fst rk) (snd rk) s) (V i) s in Some s)) by (intros i s1 _; destruct (foldM _ (V i) s1); reflexivity).
    rewrite <- E. rewrite (for_ext _ 0 n _ (fun i os => let* (o, s) := oft_column irend e_off icol base m (body i) i os in Some (o, s))); [reflexivity|].
    intros i os _. destruct (oft_column irend e_off icol base m (body i) i os) as [(o1, s1)|]; reflexivity.
  Qed.
End P.
