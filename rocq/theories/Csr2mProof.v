(** Proofs about sparse products. *)
From Coq Require Import ZArith List Bool Lia Permutation.
From Coq Require Import ZifyBool.
From Verif Require Import Base BaseFacts Algebra Csr CsrFacts CountSort Vec MvFacts SortSpec Csr2CscModel Csr2CscProof DoidModel DoidSpec CheckModel MvModel HandleModel HandleSpec RowProg AddSpec Csr2mModel Csr2mSpec OptProof CsrmvModel.
From Verif Require AddProof.
Import ListNotations.
Open Scope Z_scope.

(** ** Columns in order of first appearance *)
Definition inb (c : Z) (l : list Z) : bool := existsb (Z.eqb c) l.
Definition firsts (l : list Z) : list Z := fold_left (fun acc c => if inb c acc then acc else acc ++ [c]) l [].

Lemma inb_iff : forall c l, inb c l = true <-> In c l.
Proof. intros. unfold inb. rewrite existsb_exists. split; [intros (x & I & E); apply Z.eqb_eq in E; now subst|intros; exists c; split; auto; apply Z.eqb_refl]. Qed.
Lemma firsts_snoc0 : forall l c, firsts (l ++ [c]) = if inb c (firsts l) then firsts l else firsts l ++ [c].
Proof. intros. unfold firsts. rewrite fold_left_app. reflexivity. Qed.
Lemma firsts_in : forall l c, In c (firsts l) <-> In c l.
Proof.
  intros l. induction l as [|a l IH] using rev_ind; intros c; [reflexivity|]. rewrite firsts_snoc0, in_app_iff, <- IH. destruct (inb a (firsts l)) eqn:E.
  - apply inb_iff in E. cbn. split; [tauto|]. intros [H|[->|[]]]; auto.
  - rewrite in_app_iff. reflexivity.
Qed.
Lemma firsts_snoc : forall l c, firsts (l ++ [c]) = if inb c l then firsts l else firsts l ++ [c].
Proof.
  intros. rewrite firsts_snoc0. destruct (inb c (firsts l)) eqn:E, (inb c l) eqn:E2; auto.
  - apply inb_iff, (proj1 (firsts_in _ _)), inb_iff in E. congruence.
  - apply inb_iff, (proj2 (firsts_in _ _)), inb_iff in E2. congruence.
Qed.
Lemma firsts_nodup : forall l, NoDup (firsts l).
Proof.
  intros l. induction l as [|a l IH] using rev_ind; [constructor|]. rewrite firsts_snoc0. destruct (inb a (firsts l)) eqn:E; auto.
  apply (Permutation_NoDup (l := a :: firsts l)); [apply Permutation_cons_append|]. constructor; auto. intros I. apply inb_iff in I. congruence.
Qed.
Lemma firsts_mono : forall l' l, zlen (firsts l) <= zlen (firsts (l ++ l')).
Proof.
  induction l' as [|a l' IH]; intros l; [rewrite app_nil_r; lia|]. change (a :: l') with ([a] ++ l'). rewrite app_assoc. specialize (IH (l ++ [a])).
  rewrite firsts_snoc in IH. destruct (inb a l); [|rewrite zlen_app in IH; pose proof (zlen_nonneg _ [a])]; lia.
Qed.

Lemma NoDup_map_eq : forall (X Y : Type) (f : X -> Y) l, NoDup (map f l) -> forall x y, In x l -> In y l -> f x = f y -> x = y.
Proof.
  intros X Y f. induction l as [|a l IH]; intros ND x y Ix Iy E; [destruct Ix|]. cbn [map] in ND. inversion ND as [|? ? N1 N2]; subst.
  destruct Ix as [->|Ix], Iy as [->|Iy]; auto.
  - exfalso. apply N1. rewrite E. now apply in_map.
  - exfalso. apply N1. rewrite <- E. now apply in_map.
Qed.

(** Marks: the positions of [cols] and no others carry [i]; nothing larger occurs. *)
Definition mk_ok (len i : Z) (a cols : list Z) : Prop := zlen a = len /\ forall x, 0 <= x < len -> zn a x <= i /\ (zn a x = i <-> In x cols).
Lemma mk_push : forall len i a cols c, 0 <= c < len -> mk_ok len i a cols -> mk_ok len i (upd a c i) (cols ++ [c]).
Proof.
  intros len i a cols c Hc (H1 & H2). split; [now rewrite zlen_upd|]. intros x Hx. rewrite nthZ_upd by lia. rewrite in_app_iff. cbn. destruct (H2 x Hx).
  destruct (Z.eqb_spec x c) as [->|]; [split; [lia|tauto]|]. split; auto. split; [tauto|]. intros [?|[?|[]]]; [tauto|lia].
Qed.
Lemma mk_same : forall len i a cols c, In c cols -> mk_ok len i a cols -> mk_ok len i a (cols ++ [c]).
Proof.
  intros len i a cols c Hc (H1 & H2). split; auto. intros x Hx. rewrite in_app_iff. cbn. destruct (H2 x Hx). split; auto. split; [tauto|]. intros [?|[<-|[]]]; tauto.
Qed.
Definition mk_old (len i : Z) (a : list Z) : Prop := zlen a = len /\ forall x, 0 <= x < len -> zn a x < i.
Lemma mk_start : forall len i a, mk_old len i a -> mk_ok len i a [].
Proof. intros len i a (H1 & H2). split; auto. intros x Hx. specialize (H2 x Hx). cbn. split; [lia|]. split; [lia|tauto]. Qed.
Lemma mk_end : forall len i a cols, mk_ok len i a cols -> mk_old len (i + 1) a.
Proof. intros len i a cols (H1 & H2). split; auto. intros x Hx. destruct (H2 x Hx). lia. Qed.
Lemma mk_init : forall len i, 0 <= len -> 0 <= i -> mk_old len i (zrep len (-1)).
Proof. intros. split; [apply zlen_zrep; lia|]. intros. rewrite nthZ_zrep by lia. lia. Qed.

Section R.
  Context {T : Type} (O : ops T) (L : laws O).
  Add Ring PRing : (l_ring L).
  Variables (conjA conjB : bool) (m kk n bA bB nA nB : Z) (Aptr Aind : list Z) (Aval : list T) (Bptr Bind : list Z) (Bval : list T).
  Hypothesis (WA : csr_wf m kk nA bA Aptr Aind) (WB : csr_wf kk n nB bB Bptr Bind).
  Hypothesis (LA : zlen Aval = nA) (LB : zlen Bval = nB) (HbB : bB = 0 \/ bB = 1).

  Definition va j := cjh O conjA (nthZ (o0 O) Aval j).
  Definition vb k := cjh O conjB (nthZ (o0 O) Bval k).
  Definition part (j s e : Z) : list (Z * T) := map (fun k => (zn Bind k, omul O (va j) (vb k))) (zrange s e).
  Definition blo_ (j : Z) := zn Bptr (zn Aind j - bA) - bB.
  Definition bhi_ (j : Z) := zn Bptr (zn Aind j - bA + 1) - bB.
  Definition parts (s e : Z) : list (Z * T) := flat_map (fun j => part j (blo_ j) (bhi_ j)) (zrange s e).
  (** The products that make up row [i]. *)
  Definition contrib (i : Z) : list (Z * T) := parts (zn Aptr i - bA) (zn Aptr (i + 1) - bA).
  Definition cols (l : list (Z * T)) : list Z := map fst l.
  (** Row [i] of the product. *)
  Definition prow (i : Z) : list (Z * T) := map (fun c => (c - bB, colsum O c (contrib i))) (firsts (cols (contrib i))).

  Lemma part_last : forall j s e, s <= e -> part j s (e + 1) = part j s e ++ [(zn Bind e, omul O (va j) (vb e))].
  Proof. intros. unfold part. rewrite zrange_last by lia. rewrite map_app. reflexivity. Qed.
  Lemma part_app : forall j s x e, s <= x <= e -> part j s e = part j s x ++ part j x e.
  Proof. intros. unfold part. rewrite <- map_app, <- zrange_app by lia. reflexivity. Qed.
  Lemma parts_last : forall s e, s <= e -> parts s (e + 1) = parts s e ++ part e (blo_ e) (bhi_ e).
  Proof. intros. unfold parts. rewrite zrange_last by lia. rewrite flat_map_app. cbn [flat_map]. now rewrite app_nil_r. Qed.
  Lemma parts_app : forall s x e, s <= x <= e -> parts s e = parts s x ++ parts x e.
  Proof. intros. unfold parts. rewrite <- flat_map_app, <- zrange_app by lia. reflexivity. Qed.
  Lemma cols_app : forall l l', cols (l ++ l') = cols l ++ cols l'. Proof. intros. apply map_app. Qed.

  Lemma pbA : forall i, 0 <= i < m -> zlen Aptr = m + 1 /\ zlen Aind = nA /\ 0 <= zn Aptr i - bA <= zn Aptr (i + 1) - bA /\ zn Aptr (i + 1) - bA <= nA.
  Proof.
    intros i Hi. destruct (wf_len _ _ _ _ _ _ WA) as (X & Y). pose proof (ptr_range _ _ _ _ (wf_ptr _ _ _ _ _ _ WA)) as R.
    pose proof (R i ltac:(lia)). pose proof (R (i + 1) ltac:(lia)). pose proof (ptr_mono _ _ _ _ (wf_ptr _ _ _ _ _ _ WA) i (i + 1) ltac:(lia)). lia.
  Qed.
  Lemma pbB : forall i j, 0 <= i < m -> zn Aptr i - bA <= j < zn Aptr (i + 1) - bA ->
    0 <= zn Aind j - bA < kk /\ zlen Bptr = kk + 1 /\ zlen Bind = nB /\ 0 <= blo_ j <= bhi_ j /\ bhi_ j <= nB.
  Proof.
    intros i j Hi Hj. pose proof (pbA i Hi). pose proof (wf_ind _ _ _ _ _ _ WA j ltac:(lia)) as Hc. unfold blo_, bhi_. set (r := zn Aind j - bA) in *.
    assert (Hr : 0 <= r < kk) by lia. destruct (wf_len _ _ _ _ _ _ WB) as (X & Y). pose proof (ptr_range _ _ _ _ (wf_ptr _ _ _ _ _ _ WB)) as R.
    pose proof (R r ltac:(lia)). pose proof (R (r + 1) ltac:(lia)). pose proof (ptr_mono _ _ _ _ (wf_ptr _ _ _ _ _ _ WB) r (r + 1) ltac:(lia)). lia.
  Qed.
  Lemma pcB : forall i j k, 0 <= i < m -> zn Aptr i - bA <= j < zn Aptr (i + 1) - bA -> blo_ j <= k < bhi_ j -> bB <= zn Bind k < bB + n.
  Proof. intros i j k Hi Hj Hk. pose proof (pbB i j Hi Hj). apply (wf_ind _ _ _ _ _ _ WB). lia. Qed.
  Lemma contrib_split : forall i j k, 0 <= i < m -> zn Aptr i - bA <= j < zn Aptr (i + 1) - bA -> blo_ j <= k < bhi_ j ->
    exists rest, contrib i = (parts (zn Aptr i - bA) j ++ part j (blo_ j) k ++ [(zn Bind k, omul O (va j) (vb k))]) ++ rest.
  Proof.
    intros i j k Hi Hj Hk. unfold contrib. rewrite (parts_app _ (j + 1)) by lia. rewrite parts_last by lia. rewrite (part_app j (blo_ j) (k + 1)) by lia. rewrite part_last by lia.
    eexists. rewrite <- !app_assoc. reflexivity.
  Qed.
  Lemma contrib_cols : forall i c, 0 <= i < m -> In c (cols (contrib i)) -> bB <= c < bB + n.
  Proof.
    intros i c Hi I. unfold cols, contrib, parts in I. apply in_map_iff in I. destruct I as (p & <- & I). apply in_flat_map in I. destruct I as (j & Hj & I).
    unfold part in I. apply in_map_iff in I. destruct I as (k & <- & Hk). apply in_zrange in Hj, Hk. cbn [fst]. eapply pcB; eauto.
  Qed.

  (** ** First stage *)
  Definition Ic (i : Z) (l : list Z) (st : list Z * Z) : Prop := mk_ok n i (fst st) (map (fun c => c - bB) l) /\ snd st = zlen (firsts l).
  Lemma mark_ok : forall i pos l st, 0 <= pos < nB -> bB <= zn Bind pos < bB + n -> Ic i l st ->
    exists st', mark bB Bind i pos st = Some st' /\ Ic i (l ++ [zn Bind pos]) st'.
  Proof.
    intros i pos l [nz c] Hp Hc (H1 & H2). cbn [fst snd] in *. destruct (wf_len _ _ _ _ _ _ WB) as (_ & Li). unfold mark. rewrite (rd_nthZ _ 0) by lia.
    pose proof (proj1 H1) as Ln. rewrite (rd_nthZ _ 0) by lia. destruct (proj2 H1 (zn Bind pos - bB) ltac:(lia)) as (_ & K).
    unfold Ic. rewrite map_app, firsts_snoc. cbn [map].
    assert (IX : In (zn Bind pos - bB) (map (fun c => c - bB) l) <-> inb (zn Bind pos) l = true).
    { rewrite inb_iff, in_map_iff. split; [intros (x & E & I); replace (zn Bind pos) with x by lia; auto|intros; eexists; eauto]. }
    destruct (Z.eqb_spec (zn nz (zn Bind pos - bB)) i) as [Eq|Ne]; cbn [negb].
    - eexists; split; [reflexivity|]. cbn [fst snd]. destruct (inb (zn Bind pos) l) eqn:E; [|exfalso; intuition discriminate]. split; auto. apply mk_same; auto. tauto.
    - rewrite wr_upd by lia. eexists; split; [reflexivity|]. cbn [fst snd]. destruct (inb (zn Bind pos) l) eqn:E; [exfalso; tauto|]. split; [apply mk_push; auto; lia|]. rewrite zlen_app. unfold zlen at 2; cbn; lia.
  Qed.
  Lemma zr1 : forall r e, 0 <= e -> map (zn Bind) (zrange r (r + e + 1)) = map (zn Bind) (zrange r (r + e)) ++ [zn Bind (r + e)].
  Proof. intros. rewrite zrange_last by lia. rewrite map_app. reflexivity. Qed.

  Lemma pcount_row_ok : forall i nz cptr, 0 <= i < m -> mk_old n i nz -> zlen cptr = m + 1 ->
    exists nz', pcount_row bA bB Aptr Aind Bptr Bind i (nz, cptr) = Some (nz', upd cptr (i + 1) (zlen (prow i))) /\ mk_old n (i + 1) nz'.
  Proof.
    intros i nz cptr Hi Ho Lc. destruct (pbA i Hi) as (P1 & P2 & P3 & P4). unfold pcount_row. rewrite !(rd_nthZ _ 0) by lia.
    match goal with |- context [for_ (zn Aptr i - bA) ?hi ?f ?s] => destruct (for_inv _ (fun j st => Ic i (cols (parts (zn Aptr i - bA) j)) st) (zn Aptr i - bA) hi f s) as ([nz1 c1] & E & I1 & I2) end.
    - lia.
    - unfold parts. rewrite zrange_nil by lia. split; [now apply mk_start|reflexivity].
    - intros j st Hj H. destruct (pbB i j Hi Hj) as (Q1 & Q2 & Q3 & Q4 & Q5). rewrite (rd_nthZ _ 0) by lia. rewrite !(rd_nthZ _ 0) by lia.
      fold (blo_ j). set (nrow := zn Bptr (zn Aind j - bA + 1) - zn Bptr (zn Aind j - bA)). assert (EN : nrow = bhi_ j - blo_ j) by (unfold nrow, bhi_, blo_; lia). clearbody nrow.
      rewrite Z.quot_div_nonneg, Z.rem_mod_nonneg by lia. pose proof (Z.div_mod nrow 4 ltac:(lia)) as DM. pose proof (Z.mod_pos_bound nrow 4 ltac:(lia)) as MB.
      set (q := nrow / 4) in *. set (r := nrow mod 4) in *. clearbody q r. assert (0 <= q) by lia.
      set (pre := cols (parts (zn Aptr i - bA) j)) in *.
      match goal with |- context [for_step 0 (q * 4) 4 ?f st] => destruct (for_step_inv _ (fun e st => Ic i (pre ++ map (zn Bind) (zrange (blo_ j) (blo_ j + e))) st) 0 (q * 4) 4 f st) as (st1 & E1 & J1) end.
      + lia.
      + lia.
      + rewrite Z.sub_0_r. apply Z.mod_mul. lia.
      + rewrite zrange_nil by lia. cbn. now rewrite app_nil_r.
      + intros e s He He' K.
        assert (B : forall x, 0 <= x < bhi_ j - blo_ j -> 0 <= blo_ j + x < nB /\ bB <= zn Bind (blo_ j + x) < bB + n) by (intros x Hx; split; [lia|]; apply (pcB i j); lia).
        destruct (mark_ok i (blo_ j + e) _ s (proj1 (B e ltac:(lia))) (proj2 (B e ltac:(lia))) K) as (s1 & -> & K1). rewrite <- app_assoc, <- zr1 in K1 by lia.
        replace (blo_ j + e + 1) with (blo_ j + (e + 1)) in K1 by lia. replace (blo_ j + e + 1) with (blo_ j + (e + 1)) by lia.
        destruct (mark_ok i (blo_ j + (e + 1)) _ s1 (proj1 (B (e + 1) ltac:(lia))) (proj2 (B (e + 1) ltac:(lia))) K1) as (s2 & -> & K2). rewrite <- app_assoc, <- zr1 in K2 by lia.
        replace (blo_ j + (e + 1) + 1) with (blo_ j + (e + 2)) in K2 by lia. replace (blo_ j + e + 2) with (blo_ j + (e + 2)) by lia.
        destruct (mark_ok i (blo_ j + (e + 2)) _ s2 (proj1 (B (e + 2) ltac:(lia))) (proj2 (B (e + 2) ltac:(lia))) K2) as (s3 & -> & K3). rewrite <- app_assoc, <- zr1 in K3 by lia.
        replace (blo_ j + (e + 2) + 1) with (blo_ j + (e + 3)) in K3 by lia. replace (blo_ j + e + 3) with (blo_ j + (e + 3)) by lia.
        destruct (mark_ok i (blo_ j + (e + 3)) _ s3 (proj1 (B (e + 3) ltac:(lia))) (proj2 (B (e + 3) ltac:(lia))) K3) as (s4 & -> & K4). rewrite <- app_assoc, <- zr1 in K4 by lia.
        exists s4. split; auto. replace (blo_ j + (e + 4)) with (blo_ j + (e + 3) + 1) by lia. auto.
      + rewrite E1. clear E1.
        match goal with |- context [for_ 0 r ?f st1] => destruct (for_inv _ (fun e st => Ic i (pre ++ map (zn Bind) (zrange (blo_ j) (blo_ j + (q * 4 + e)))) st) 0 r f st1) as (st2 & E2 & J2) end.
        * lia.
        * now rewrite Z.add_0_r.
        * intros e s He K. destruct (mark_ok i (blo_ j + (q * 4 + e)) _ s ltac:(lia) (pcB i j (blo_ j + (q * 4 + e)) Hi Hj ltac:(lia)) K) as (s1 & E1 & K1).
          replace (blo_ j + q * 4 + e) with (blo_ j + (q * 4 + e)) by lia. rewrite E1. exists s1. split; auto. rewrite <- app_assoc, <- zr1 in K1 by lia. now replace (blo_ j + (q * 4 + (e + 1))) with (blo_ j + (q * 4 + e) + 1) by lia.
        * rewrite E2. exists st2. split; auto. rewrite parts_last by lia. rewrite cols_app. fold pre. unfold part, cols at 1. rewrite map_map. cbn [fst].
          now replace (bhi_ j) with (blo_ j + (q * 4 + r)) by lia.
    - rewrite E. fold (contrib i) in I1, I2. cbn [fst snd] in *. rewrite wr_upd by lia. exists nz1. split; [|eapply mk_end; eauto].
      rewrite I2. unfold prow. rewrite zlen_map. reflexivity.
  Qed.

  (** ** Second stage *)
  Definition If_ (i s cap : Z) (ind0 : list Z) (l : list (Z * T)) (st : list Z * list T * list Z * Z) : Prop :=
    let '(aidx, asum, ind, ix) := st in
    mk_ok (n + bB) i aidx (cols l) /\ zlen asum = n + bB /\ (forall c, In c (cols l) -> nthZ (o0 O) asum c = colsum O c l) /\
    zlen ind = zlen ind0 /\ ix = s + zlen (firsts (cols l)) /\ map (zn ind) (zrange s ix) = firsts (cols l) /\
    (forall q, 0 <= q -> ~ (s <= q < ix) -> zn ind q = zn ind0 q).

  Lemma final_row_ok : forall i aidx asum ind val bad ptr, 0 <= i < m -> mk_old (n + bB) i aidx -> zlen asum = n + bB ->
    zlen ptr = m + 1 -> 0 <= zn ptr i -> zn ptr (i + 1) = zn ptr i + zlen (prow i) -> zn ptr (i + 1) <= zlen ind -> zn ptr (i + 1) <= zlen val ->
    exists aidx' asum' ind' val', final_row O conjA conjB bA bB Aptr Aind Aval Bptr Bind Bval ptr i ((aidx, asum), (ind, val, bad)) = Some ((aidx', asum'), (ind', val', bad)) /\
      mk_old (n + bB) (i + 1) aidx' /\ zlen asum' = n + bB /\ zlen ind' = zlen ind /\ zlen val' = zlen val /\
      rowl (o0 O) (zn ptr i) (zn ptr (i + 1)) ind' val' = prow i /\
      (forall k, 0 <= k -> ~ (zn ptr i <= k < zn ptr (i + 1)) -> zn ind' k = zn ind k /\ nthZ (o0 O) val' k = nthZ (o0 O) val k).
  Proof.
    intros i aidx asum ind val bad ptr Hi Ho Ls Lp Hs He Li Lv. destruct (pbA i Hi) as (P1 & P2 & P3 & P4).
    assert (LR : zlen (prow i) = zlen (firsts (cols (contrib i)))) by (unfold prow; apply zlen_map).
    unfold final_row. rewrite !(rd_nthZ _ 0) by lia. set (s := zn ptr i) in *.
    match goal with |- context [for_ (zn Aptr i - bA) ?hi ?f ?s0] => destruct (for_inv _ (fun j st => If_ i s (zlen ind) ind (parts (zn Aptr i - bA) j) st) (zn Aptr i - bA) hi f s0) as ([[[ai as_] id] ix] & E & I1) end.
    - lia.
    - unfold parts. rewrite zrange_nil by lia. cbn [flat_map]. unfold If_. cbn [cols map]. change (firsts []) with (@nil Z). change (zlen (@nil Z)) with 0. rewrite Z.add_0_r.
      split; [now apply mk_start|]. split; auto. split; [intros c []|]. split; auto. split; auto. split; auto. now rewrite zrange_nil by lia.
    - intros j st Hj H. destruct (pbB i j Hi Hj) as (Q1 & Q2 & Q3 & Q4 & Q5). rewrite (rd_nthZ _ 0) by lia. rewrite (rd_nthZ _ (o0 O)) by lia. rewrite !(rd_nthZ _ 0) by lia.
      fold (blo_ j) (bhi_ j).
      match goal with |- context [for_ (blo_ j) (bhi_ j) ?f st] => destruct (for_inv _ (fun k st => If_ i s (zlen ind) ind (parts (zn Aptr i - bA) j ++ part j (blo_ j) k) st) (blo_ j) (bhi_ j) f st) as (st1 & E & I1) end.
      + lia.
      + unfold part. rewrite zrange_nil by lia. cbn. now rewrite app_nil_r.
      + intros k [[[ai as_] id] ix] Hk (K1 & K2 & K3 & K4 & K5 & K6 & K7). pose proof (pcB i j k Hi Hj Hk) as HC. destruct (contrib_split i j k Hi Hj Hk) as (rest & CS).
        rewrite (rd_nthZ _ 0) by lia. rewrite (rd_nthZ _ (o0 O)) by lia. pose proof (proj1 K1) as La. rewrite (rd_nthZ _ 0) by lia.
        rewrite part_last by lia. rewrite app_assoc. rewrite app_assoc in CS. set (l := parts (zn Aptr i - bA) j ++ part j (blo_ j) k) in *.
        change (if conjA then ocj O (nthZ (o0 O) Aval j) else nthZ (o0 O) Aval j) with (va j). change (if conjB then ocj O (nthZ (o0 O) Bval k) else nthZ (o0 O) Bval k) with (vb k).
        set (c := zn Bind k) in *. set (v := omul O (va j) (vb k)) in *. destruct (proj2 K1 c ltac:(lia)) as (_ & KI).
        pose proof (firsts_mono (cols rest) (cols (l ++ [(c, v)]))) as FM. rewrite <- cols_app, <- CS in FM. rewrite cols_app in FM. cbn [cols map fst] in FM. rewrite firsts_snoc in FM.
        assert (XB : forall x, In x (cols l ++ [c]) -> bB <= x < bB + n) by (intros x Hx; apply (contrib_cols i x Hi); rewrite CS, !cols_app; apply in_or_app; now left).
        destruct (Z.eqb_spec (zn ai c) i) as [Eq|Ne]; cbn [negb].
        * assert (IN : In c (cols l)) by tauto. assert (IB : inb c (cols l) = true) by now apply inb_iff. rewrite (rd_nthZ _ (o0 O)) by lia. rewrite wr_upd by lia. eexists; split; [reflexivity|].
          unfold If_. rewrite cols_app. cbn [cols map fst]. rewrite firsts_snoc, IB. split; [now apply mk_same|]. rewrite zlen_upd. split; auto. split.
          { intros x Hx. assert (0 <= x) by (apply XB in Hx; lia). rewrite (colsum_app O L). rewrite nthZ_upd by lia. apply in_app_iff in Hx. cbn in Hx. cbn.
            destruct (Z.eqb_spec x c) as [->|]; [rewrite K3, Z.eqb_refl by auto; ring|]. destruct (Z.eqb_spec c x); [lia|]. rewrite K3 by (destruct Hx as [?|[?|[]]]; auto; lia). ring. }
          ands; auto.
        * assert (IB : inb c (cols l) = false) by (destruct (inb c (cols l)) eqn:E; auto; apply inb_iff in E; tauto). rewrite IB in FM. rewrite zlen_app in FM. change (zlen [c]) with 1 in FM.
          pose proof (zlen_nonneg _ (firsts (cols l))) as NN.
          rewrite !wr_upd by lia. eexists; split; [reflexivity|]. unfold If_. rewrite cols_app. cbn [cols map fst]. rewrite firsts_snoc, IB. split; [apply mk_push; auto; lia|]. rewrite !zlen_upd. split; auto. split.
          { intros x Hx. assert (0 <= x) by (apply XB in Hx; lia). rewrite (colsum_app O L). rewrite nthZ_upd by lia. apply in_app_iff in Hx. cbn in Hx. cbn.
            destruct (Z.eqb_spec x c) as [->|].
            - rewrite Z.eqb_refl. rewrite (colsum_out O L); [ring|]. intros p Hp Ec. assert (ICc : In c (cols l)) by (rewrite <- Ec; now apply in_map). apply inb_iff in ICc. congruence.
            - destruct (Z.eqb_spec c x); [lia|]. rewrite K3 by (destruct Hx as [?|[?|[]]]; auto; lia). ring. }
          split; auto. split; [rewrite zlen_app; change (zlen [c]) with 1; lia|]. split.
          { rewrite zrange_last by lia. rewrite map_app. cbn [map]. rewrite nthZ_upd by lia. rewrite Z.eqb_refl. f_equal. rewrite <- K6. apply map_ext_in. intros q Hq. apply in_zrange in Hq.
            rewrite nthZ_upd by lia. destruct (Z.eqb_spec q ix); [lia|reflexivity]. }
          { intros q Hq Hn. rewrite nthZ_upd by lia. destruct (Z.eqb_spec q ix); [lia|]. apply K7; lia. }
      + exists st1. split; auto. rewrite parts_last by lia. exact I1.
    - rewrite E. clear E. fold (contrib i) in I1. destruct I1 as (K1 & K2 & K3 & K4 & K5 & K6 & K7).
      rewrite He. rewrite LR. rewrite K5, Z.eqb_refl. cbn [negb]. rewrite <- K5.
      match goal with |- context [for_ s ix ?f ?s0] => destruct (for_inv _ (fun q (st : list Z * list T) => zlen (fst st) = zlen ind /\ zlen (snd st) = zlen val /\
        (forall k, q <= k < ix -> zn (fst st) k = zn id k) /\ (forall k, s <= k < q -> (zn (fst st) k, nthZ (o0 O) (snd st) k) = (zn id k - bB, colsum O (zn id k) (contrib i))) /\
        (forall k, 0 <= k -> ~ (s <= k < ix) -> zn (fst st) k = zn id k /\ nthZ (o0 O) (snd st) k = nthZ (o0 O) val k)) s ix f s0) as ([id2 vl2] & E & J1 & J2 & J3 & J4 & J5) end.
      + pose proof (zlen_nonneg _ (firsts (cols (contrib i)))). lia.
      + cbn [fst snd]. ands; auto. intros k Hk. lia.
      + intros q [id2 vl2] Hq (J1 & J2 & J3 & J4 & J5). cbn [fst snd] in *.
        assert (IN : In (zn id q) (cols (contrib i))). { apply firsts_in. rewrite <- K6. apply in_map. now apply in_zrange. }
        pose proof (contrib_cols i _ Hi IN) as HC. rewrite (rd_nthZ _ 0) by lia. rewrite J3 by lia. rewrite (rd_nthZ _ (o0 O)) by lia. rewrite !wr_upd by lia. eexists; split; [reflexivity|]. cbn [fst snd]. rewrite !zlen_upd.
        ands; auto.
        * intros k Hk. rewrite nthZ_upd by lia. destruct (Z.eqb_spec k q); [lia|]. apply J3. lia.
        * intros k Hk. rewrite !nthZ_upd by lia. destruct (Z.eqb_spec k q) as [->|]; [now rewrite K3 by auto|]. apply J4. lia.
        * intros k Hk Hn. rewrite !nthZ_upd by lia. destruct (Z.eqb_spec k q) as [->|]; [lia|]. apply J5; auto.
      + rewrite E. cbn [fst snd] in *. exists ai, as_, id2, vl2. split; [reflexivity|]. ands; auto.
        * eapply mk_end; eauto.
        * unfold rowl, prow. rewrite <- K6. rewrite map_map. apply map_ext_in. intros k Hk. apply in_zrange in Hk. now rewrite J4 by lia.
        * intros k Hk Hn. destruct (J5 k Hk Hn) as (X & Y). rewrite X, Y. split; auto.
  Qed.

  (** ** The product *)
  Lemma prow_cols : forall i p, 0 <= i < m -> In p (prow i) -> 0 <= fst p < 0 + n.
  Proof.
    intros i p Hi I. unfold prow in I. apply in_map_iff in I. destruct I as (c & <- & I). apply (proj1 (firsts_in _ _)) in I. pose proof (contrib_cols i c Hi I). cbn [fst]. lia.
  Qed.
  Lemma prow_nodup : forall i, NoDup (map fst (prow i)).
  Proof.
    intros i. unfold prow. rewrite map_map. cbn [fst]. apply FinFun.Injective_map_NoDup; [intros x y; lia|apply firsts_nodup].
  Qed.
  Lemma prow_colsum : forall i j, colsum O (j + 0) (prow i) = colsum O (j + bB) (contrib i).
  Proof.
    intros i j. unfold prow. set (l := contrib i). unfold colsum at 1. rewrite (suml_map O). cbn [fst snd].
    assert (G : forall cs, NoDup cs -> suml O (fun c => if c - bB =? j + 0 then colsum O c l else o0 O) cs = if inb (j + bB) cs then colsum O (j + bB) l else o0 O).
    { induction cs as [|c cs IH]; intros ND; [reflexivity|]. inversion ND; subst. cbn [suml fold_right]. change (fold_right _ (o0 O) cs) with (suml O (fun c => if c - bB =? j + 0 then colsum O c l else o0 O) cs).
      rewrite IH by auto. unfold inb. cbn [existsb]. fold (inb (j + bB) cs). destruct (Z.eqb_spec (c - bB) (j + 0)).
      - assert (c = j + bB) by lia. subst c. rewrite Z.eqb_refl. cbn [orb]. destruct (inb (j + bB) cs) eqn:E; [apply inb_iff in E; contradiction|]. ring.
      - replace (j + bB =? c) with false by lia. cbn [orb]. ring. }
    rewrite G by apply firsts_nodup. destruct (inb (j + bB) (firsts (cols l))) eqn:E; auto. symmetry. apply (colsum_out O L). intros p Hp Ec.
    assert (X : inb (j + bB) (firsts (cols l)) = true); [|congruence]. apply inb_iff, firsts_in. rewrite <- Ec. now apply in_map.
  Qed.
  Lemma prow_mat : forall i j, 0 <= i < m -> colsum O (j + 0) (prow i) =
    sumz O 0 kk (fun l => omul O (cjh O conjA (csr_mat O bA Aptr Aind Aval i l)) (cjh O conjB (csr_mat O bB Bptr Bind Bval l j))).
  Proof.
    intros i j Hi. rewrite prow_colsum. unfold contrib, parts, colsum. rewrite (suml_flat_map O L). fold (sumz O (zn Aptr i - bA) (zn Aptr (i + 1) - bA)
      (fun jj => suml O (fun p : Z * T => if fst p =? j + bB then snd p else o0 O) (part jj (blo_ jj) (bhi_ jj)))).
    pose proof (row_sum_cols O L m kk nA bA Aptr Aind Aval i (zn Aptr i - bA) (zn Aptr (i + 1) - bA) (fun _ => true) (cjh O conjA)
      (fun l => cjh O conjB (csr_mat O bB Bptr Bind Bval l j)) WA LA Hi (additive_cjh O L conjA)) as RS. pose proof (pbA i Hi).
    rewrite <- RS; try lia; [|unfold in_row; intuition]. clear RS.
    apply (sumz_ext O). intros jj Hj. pose proof (pbB i jj Hi Hj) as (Q1 & Q2 & Q3 & Q4 & Q5). fold (va jj). unfold part. rewrite (suml_map O). cbn [fst snd].
    rewrite (csr_mat_sum O L) by (intros k Hk; unfold in_row in Hk; unfold blo_, bhi_ in *; lia). rewrite (additive_sumz O L _ _ _ _ (additive_cjh O L conjB)).
    fold (blo_ jj) (bhi_ jj). rewrite <- (sumz_mul_l O L). apply (sumz_ext O). intros k Hk. destruct (zn Bind k =? j + bB); [reflexivity|].
    rewrite (additive_0 O L _ (additive_cjh O L conjB)). ring.
  Qed.

  (** ** The two stages *)
  Definition off := offs prow.
  Lemma off_mono : forall i j, 0 <= i <= j -> 0 <= off i <= off j. Proof. exact (offs_mono prow). Qed.
  Lemma off_S : forall i, 0 <= i -> off (i + 1) = off i + zlen (prow i). Proof. exact (offs_S prow). Qed.

  (** A CSR slot with row pointer [off] and room for the rows. *)
  Definition slot (d : Z) (c : cmat T) : Prop :=
    exists ptr ind val, c = mk_csr m n (off m) d ptr ind val /\ zlen ptr = m + 1 /\ (forall i, 0 <= i <= m -> zn ptr i = off i) /\ zlen ind = off m /\ zlen val = off m.
  Definition room (o3 : bool) (C : hnd T) : Prop :=
    if o3 then exists c p i v, slot gt c /\ C = mkHnd n m (off m) [Some c; Some (mk_csr n m (off m) gn p i v)] unknown_sort false false false [] /\
      zlen p = n + 1 /\ zlen i = off m /\ zlen v = off m
    else exists c, slot gn c /\ C = mkHnd m n (off m) [Some c] unknown_sort false false false [].

  Lemma count_stage : forall fz ft imax tc opflag, (forall k, 0 <= k -> zlen (fz k) = k) -> (forall k, 0 <= k -> zlen (ft k : list T) = k) -> team tc ->
    imax < off m /\ nnz_count fz ft imax tc m n bA bB Aptr Aind Bptr Bind opflag = Some (invalid_size, None) \/
    exists C, off m <= imax /\ nnz_count fz ft imax tc m n bA bB Aptr Aind Bptr Bind opflag = Some (success, Some C) /\ room (opflag =? 3) C.
  Proof.
    intros fz ft imax tc opflag Hz Ht (T1 & T2). pose proof (wf_m _ _ _ _ _ _ WA) as HM. pose proof (wf_n _ _ _ _ _ _ WB) as HN.
    unfold nnz_count. pose proof (Hz (m + 1) ltac:(lia)) as Lz. rewrite wr_upd by lia.
    destruct (team_ok (list Z) (list Z) m (zlen tc) tc (zrep n (-1)) (pcount_row bA bB Aptr Aind Bptr Bind) (upd (fz (m + 1)) 0 0)
      (fun c => zlen c = m + 1 /\ zn c 0 = 0) (mk_old n) (fun i c => zn c (i + 1) = zlen (prow i))) as (c1 & E & (L1 & Z1) & D); auto.
    - destruct tc; [congruence|]. rewrite zlen_cons. pose proof (zlen_nonneg _ tc). lia.
    - rewrite zlen_upd. split; auto. rewrite nthZ_upd by lia. reflexivity.
    - intros i Hi. now apply mk_init.
    - intros i p s Hi (Ls & Zs) Ho. destruct (pcount_row_ok i p s Hi Ho Ls) as (nz & E & Ho'). exists nz. eexists. split; [exact E|].
      rewrite zlen_upd. split; [split; auto; rewrite nthZ_upd by lia; replace (0 =? i + 1) with false by lia; auto|]. split; auto. split.
      + rewrite nthZ_upd by lia. rewrite Z.eqb_refl. reflexivity.
      + intros i' Hi' Ne Hd. rewrite nthZ_upd by lia. replace (i' + 1 =? i + 1) with false by lia. auto.
    - rewrite E. clear E.
      match goal with |- context [for_ 1 (m + 1) ?f ?s] => destruct (for_inv _ (fun k (st : list Z * Z) => zlen (fst st) = m + 1 /\ snd st = off (k - 1) /\
        (forall i, 0 <= i < k -> zn (fst st) i = off i) /\ (forall i, k <= i <= m -> zn (fst st) i = zlen (prow (i - 1)))) 1 (m + 1) f s) as ([c2 s2] & E & I1 & I2 & I3 & I4) end.
      + lia.
      + cbn [fst snd]. replace (1 - 1) with 0 by lia. split; auto. split; [reflexivity|]. split.
        * intros i Hi. replace i with 0 by lia. exact Z1.
        * intros i Hi. specialize (D (i - 1) ltac:(lia)). now replace (i - 1 + 1) with i in D by lia.
      + intros k [c2 s2] Hk (I1 & I2 & I3 & I4). cbn [fst snd] in *. rewrite (rd_nthZ _ 0) by lia. rewrite wr_upd by lia. eexists; split; [reflexivity|]. cbn [fst snd].
        assert (SS : s2 + zn c2 k = off k).
        { rewrite I4, I2 by lia. pose proof (off_S (k - 1) ltac:(lia)) as X. replace (k - 1 + 1) with k in X by lia. lia. }
        rewrite zlen_upd. split; auto. split; [rewrite SS; f_equal; lia|]. split.
        * intros i Hi. rewrite nthZ_upd by lia. destruct (Z.eqb_spec i k) as [->|]; auto. apply I3. lia.
        * intros i Hi. rewrite nthZ_upd by lia. replace (i =? k) with false by lia. apply I4. lia.
      + rewrite E. clear E. cbn [fst snd] in *. replace (m + 1 - 1) with m in I2 by lia. rewrite I2. pose proof (off_mono 0 m ltac:(lia)) as OM.
        destruct (Z.ltb_spec imax (off m)); [left; auto|]. right. rewrite (rd_nthZ _ 0) by lia. rewrite I3 by lia.
        assert (SL : forall d, slot d (mk_csr m n (off m) d c2 (fz (off m)) (ft (off m)))).
        { intros d. exists c2, (fz (off m)), (ft (off m)). ands; auto; try (apply Hz; lia); try (apply Ht; lia). intros i Hi. apply I3. lia. }
        destruct (opflag =? 3) eqn:Eo.
        * assert (FP : exists p, (if off m =? 0 then fill_range 0 (n + 1) 0 (fz (n + 1)) else Some (fz (n + 1))) = Some p /\ zlen p = n + 1).
          { pose proof (Hz (n + 1) ltac:(lia)). destruct (off m =? 0); [|eauto]. destruct (fill_range_ok _ 0 0 (n + 1) 0 (fz (n + 1))) as (p & Ep & Lp & _); try lia. exists p. split; auto. lia. }
          destruct FP as (p & -> & Lp). eexists. split; [lia|]. split; [reflexivity|]. unfold room. do 4 eexists. split; [apply SL|]. split; [reflexivity|]. ands; auto; try (apply Hz; lia); try (apply Ht; lia).
        * eexists. split; [lia|]. split; [reflexivity|]. unfold room. eexists. split; [apply SL|reflexivity].
  Qed.

  (** The product of the two arrays. *)
  Definition prodmat (i j : Z) : T := sumz O 0 kk (fun l => omul O (cjh O conjA (csr_mat O bA Aptr Aind Aval i l)) (cjh O conjB (csr_mat O bB Bptr Bind Bval l j))).

  Lemma cut_all : forall (X : Type) (l : list X), cut (zlen l) l = l.
  Proof. intros. unfold cut, zlen. rewrite Nat2Z.id. apply firstn_all. Qed.

  Lemma final_team : forall tf ptr ind val, team tf -> zlen ptr = m + 1 -> (forall i, 0 <= i <= m -> zn ptr i = off i) -> zlen ind = off m -> zlen val = off m ->
    exists ind' val', run_team m (zlen tf) tf (zrep (n + bB) (-1), zrep (n + bB) (o0 O)) (final_row O conjA conjB bA bB Aptr Aind Aval Bptr Bind Bval ptr) (ind, val, false) = Some (ind', val', false) /\
      zlen ind' = off m /\ zlen val' = off m /\ csr_wf m n (off m) 0 ptr ind' /\ rows_distinct m 0 ptr ind' /\
      forall i j, 0 <= i < m -> 0 <= j < n -> csr_mat O 0 ptr ind' val' i j = prodmat i j.
  Proof.
    intros tf ptr ind val (T1 & T2) Lp Hp Li Lv. pose proof (wf_m _ _ _ _ _ _ WA) as HM. pose proof (wf_n _ _ _ _ _ _ WB) as HN.
    destruct (team_ok _ _ m (zlen tf) tf (zrep (n + bB) (-1), zrep (n + bB) (o0 O)) (final_row O conjA conjB bA bB Aptr Aind Aval Bptr Bind Bval ptr) (ind, val, false)
      (fun st => snd st = false /\ zlen (fst (fst st)) = off m /\ zlen (snd (fst st)) = off m)
      (fun i p => mk_old (n + bB) i (fst p) /\ zlen (snd p) = n + bB)
      (fun i st => rowl (o0 O) (off i) (off (i + 1)) (fst (fst st)) (snd (fst st)) = prow i)) as ([[i1 v1] b1] & E & (I1 & I2 & I3) & D); auto.
    - destruct tf; [congruence|]. rewrite zlen_cons. pose proof (zlen_nonneg _ tf). lia.
    - intros i Hi. cbn [fst snd]. rewrite zlen_zrep by lia. split; auto. apply mk_init; lia.
    - intros i [ai as_] [[i1 v1] b1] Hi (I1 & I2 & I3) (O1 & O2). cbn [fst snd] in *. subst b1. pose proof (off_mono 0 i). pose proof (off_mono (i + 1) m).
      destruct (final_row_ok i ai as_ i1 v1 false ptr Hi O1 O2) as (ai' & as' & i2 & v2 & E & K1 & K2 & K3 & K4 & K5 & K6); auto; try (rewrite Hp by lia; lia).
      { rewrite !Hp by lia. apply off_S. lia. }
      eexists; eexists. split; [exact E|]. cbn [fst snd]. rewrite !Hp in K5, K6 by lia. ands; auto; try lia.
      intros i' Hi' Ne D. rewrite <- D. apply rowl_ext. intros k Hk. pose proof (off_mono 0 i'). apply K6; [lia|].
      destruct (Z_lt_dec i' i).
      + pose proof (off_mono (i' + 1) i). lia.
      + pose proof (off_mono (i + 1) i'). lia.
    - cbn [fst snd] in *. subst b1. exists i1, v1. split; auto. split; auto. split; auto.
      assert (Bt : built O m 0 prow ptr i1 v1) by (unfold built; fold off; ands; auto; try lia; intros i Hi; rewrite Hp by lia; lia).
      assert (PC : forall i p, 0 <= i < m -> In p (prow i) -> 0 <= fst p < 0 + n) by (intros; eapply prow_cols; eauto).
      destruct (built_wf O m n 0 prow HM ptr i1 v1 Bt HN PC) as (W & Lv'). pose proof (built_row O m n 0 prow ptr i1 v1 Bt PC) as BR. pose proof (built_mat O L m n 0 prow HM ptr i1 v1 Bt HN PC) as BM.
      fold off in W, Lv', BR, BM. assert (C1 : cut (off m) i1 = i1) by (rewrite <- I2; apply cut_all). assert (C2 : cut (off m) v1 = v1) by (rewrite <- I3; apply cut_all). rewrite C1 in W, BR, BM. rewrite C2 in BR, BM.
      split; auto. split.
      + intros i k k' Hi K K' Ne Ek. apply Ne. pose proof (prow_nodup i) as ND. rewrite <- (BR i Hi) in ND. unfold crow, rowl in ND. rewrite map_map in ND. cbn [fst] in ND.
        apply (NoDup_map_eq _ _ (zn i1) _ ND); auto; apply in_zrange; unfold in_row in *; lia.
      + intros i j Hi Hj. rewrite BM by auto. apply prow_mat. auto.
  Qed.

  Lemma final_stage : forall tf opflag C, team tf -> room (opflag =? 3) C ->
    exists C', finalize O tf m n conjA conjB bA bB Aptr Aind Aval Bptr Bind Bval (Some C) opflag = Some (success, Some C') /\ room (opflag =? 3) C' /\
      if opflag =? 3 then product_handle O n m (mT prodmat) C' else product_handle O m n prodmat C'.
  Proof.
    intros tf opflag C Tf R. pose proof (wf_m _ _ _ _ _ _ WA) as HM. pose proof (wf_n _ _ _ _ _ _ WB) as HN. unfold room in R.
    destruct (opflag =? 3) eqn:Eo.
    - destruct R as (c & p & ii & v & (ptr & ind & val & -> & Lp & Hp & Li & Lv) & -> & Lp2 & Li2 & Lv2). unfold finalize, mk_csr. rewrite Eo. cbn [H_mats find_pos c_doid].
      change (gt =? gt) with true. change (gn =? gt) with false. cbn [Bool.eqb H_n H_m c_ptr c_ind c_val]. rewrite !Z.eqb_refl. cbn [negb orb].
      destruct (final_team tf ptr ind val Tf Lp Hp Li Lv) as (i1 & v1 & -> & J1 & J2 & J3 & J4 & J5). cbv iota. cbn [put set_arrays H_m H_n H_nnz H_mats upd_nat H_sort H_full H_optfull H_optimized H_hints mk_csr c_m c_n c_nnz c_doid c_b c_idiag c_iurow c_opt c_mdiag c_dval].
      destruct (csr2csc_ok T m n (off m) 0 0 ptr i1 v1 p ii v) as (cp & ri & cv & -> & W' & Lv' & _ & HE); auto.
      eexists. split; [reflexivity|]. cbn [put set_arrays H_m H_n H_nnz H_mats upd_nat H_sort H_full H_optfull H_optimized H_hints mk_csr c_m c_n c_nnz c_doid c_b c_idiag c_iurow c_opt c_mdiag c_dval].
      assert (D' : rows_distinct n 0 cp ri).
      { apply (AddProof.ents_distinct T n m (off m) 0 cp ri cv); auto. intros i j Hi Hj. rewrite (HE j i) by lia. apply (AddProof.distinct_ents T m n (off m)); auto. }
      pose proof (wf_len _ _ _ _ _ _ W') as (W1 & W2).
      split.
      + unfold room. do 4 eexists. split; [exists ptr, i1, v1; ands; auto|]. split; [reflexivity|]. auto.
      + split; [reflexivity|]. split; [reflexivity|]. split; [do 2 eexists; reflexivity|]. split; [eexists; split; [right; left; reflexivity|reflexivity]|].
        apply Forall_cons; [|apply Forall_cons; [|constructor]]; eexists; (split; [reflexivity|]).
        * split; [|split; [reflexivity|split; [exact J4|]]].
          -- unfold user_mat, arrays_ok; cbn; ands; auto using distinct_unique.
          -- intros i j Hi Hj. unfold hnd_mat, stored_as, mT. cbn. apply J5; auto.
        * split; [|split; [reflexivity|split; [exact D'|]]].
          -- unfold user_mat, arrays_ok; cbn; ands; auto using distinct_unique.
          -- intros i j Hi Hj. unfold hnd_mat, stored_as, mT. cbn. unfold csr_mat. rewrite (HE j i) by lia. apply J5; auto.
    - destruct R as (c & (ptr & ind & val & -> & Lp & Hp & Li & Lv) & ->). unfold finalize, mk_csr. rewrite Eo. cbn [H_mats find_pos c_doid].
      change (gn =? gt) with false. cbn [Bool.eqb H_n H_m c_ptr c_ind c_val]. rewrite !Z.eqb_refl. cbn [negb orb].
      destruct (final_team tf ptr ind val Tf Lp Hp Li Lv) as (i1 & v1 & -> & J1 & J2 & J3 & J4 & J5). cbv iota.
      eexists. split; [reflexivity|]. cbn [put set_arrays H_m H_n H_nnz H_mats upd_nat H_sort H_full H_optfull H_optimized H_hints mk_csr c_m c_n c_nnz c_doid c_b c_idiag c_iurow c_opt c_mdiag c_dval]. split.
      + unfold room. eexists. split; [exists ptr, i1, v1; ands; auto|]. reflexivity.
      + split; [reflexivity|]. split; [reflexivity|]. split; [do 2 eexists; reflexivity|]. split; [eexists; split; [left; reflexivity|reflexivity]|].
        apply Forall_cons; [|constructor]; eexists; (split; [reflexivity|]).
        split; [|split; [reflexivity|split; [exact J4|]]].
        -- unfold user_mat, arrays_ok; cbn; ands; auto using distinct_unique.
        -- intros i j Hi Hj. unfold hnd_mat, stored_as, mT. cbn. apply J5; auto.
  Qed.
End R.

(** ** The space needed depends on the structure only *)
Definition stored (b : Z) (ptr ind : list Z) (i j : Z) : Prop := exists k, in_row ptr b i k /\ zn ind k = j + b.
Lemma contrib_in : forall T (O : ops T) cA cB m kk n bA bB nA nB Aptr Aind (Aval : list T) Bptr Bind (Bval : list T),
  csr_wf m kk nA bA Aptr Aind -> csr_wf kk n nB bB Bptr Bind -> forall i c, 0 <= i < m ->
  In c (cols (contrib O cA cB bA bB Aptr Aind Aval Bptr Bind Bval i)) <-> exists l, 0 <= l < kk /\ stored bA Aptr Aind i l /\ stored bB Bptr Bind l (c - bB).
Proof.
  intros T O cA cB m kk n bA bB nA nB Aptr Aind Aval Bptr Bind Bval WA WB i c Hi. unfold cols, contrib, parts. rewrite in_map_iff. split.
  - intros (p & <- & I). apply in_flat_map in I. destruct I as (j & Hj & I). unfold part in I. apply in_map_iff in I. destruct I as (k & <- & Hk). apply in_zrange in Hj, Hk. cbn [fst].
    pose proof (in_row_range _ _ _ _ (wf_ptr _ _ _ _ _ _ WA) i j Hi Hj) as Rj. pose proof (wf_ind _ _ _ _ _ _ WA j Rj).
    exists (zn Aind j - bA). split; [lia|]. split; [exists j; split; [exact Hj|lia]|]. exists k. split; [exact Hk|lia].
  - intros (l & Hl & (j & Kj & Ej) & (k & Kk & Ek)). unfold in_row in Kj, Kk. eexists. split; [|apply in_flat_map; exists j; split; [apply in_zrange; lia|]; unfold part; apply in_map; apply in_zrange; instantiate (1 := k)].
    + cbn [fst]. lia.
    + unfold blo_, bhi_. replace (zn Aind j - bA) with l by lia. lia.
Qed.
Lemma prow_len : forall T (O : ops T) m kk n cA cB bA bB nA nB Aptr Aind (Aval : list T) Bptr Bind (Bval : list T) cA' cB' nA' nB' Aptr' Aind' (Aval' : list T) Bptr' Bind' (Bval' : list T),
  csr_wf m kk nA bA Aptr Aind -> csr_wf kk n nB bB Bptr Bind -> csr_wf m kk nA' bA Aptr' Aind' -> csr_wf kk n nB' bB Bptr' Bind' ->
  (forall i j, 0 <= i < m -> 0 <= j < kk -> (stored bA Aptr Aind i j <-> stored bA Aptr' Aind' i j)) ->
  (forall i j, 0 <= i < kk -> 0 <= j < n -> (stored bB Bptr Bind i j <-> stored bB Bptr' Bind' i j)) ->
  forall i, 0 <= i < m -> zlen (prow O cA cB bA bB Aptr Aind Aval Bptr Bind Bval i) = zlen (prow O cA' cB' bA bB Aptr' Aind' Aval' Bptr' Bind' Bval' i).
Proof.
  intros T O m kk n cA cB bA bB nA nB Aptr Aind Aval Bptr Bind Bval cA' cB' nA' nB' Aptr' Aind' Aval' Bptr' Bind' Bval' WA WB WA' WB' SA SB i Hi.
  unfold prow. rewrite !zlen_map. unfold zlen. f_equal. apply Permutation_length. apply NoDup_Permutation; try apply firsts_nodup. intros c. rewrite !firsts_in.
  rewrite (contrib_in T O cA cB m kk n bA bB nA nB) by auto. rewrite (contrib_in T O cA' cB' m kk n bA bB nA' nB') by auto.
  assert (CB : forall l ptr ind nb, csr_wf kk n nb bB ptr ind -> 0 <= l < kk -> stored bB ptr ind l (c - bB) -> 0 <= c - bB < n).
  { intros l ptr ind nb W Hl (k & K & E). pose proof (in_row_range _ _ _ _ (wf_ptr _ _ _ _ _ _ W) l k Hl K) as R. pose proof (wf_ind _ _ _ _ _ _ W k R). lia. }
  split; intros (l & Hl & S1 & S2); exists l; (split; [auto|]).
  - pose proof (CB l Bptr Bind nB WB Hl S2). split; [now apply SA|now apply SB].
  - pose proof (CB l Bptr' Bind' nB' WB' Hl S2). split; [now apply SA|now apply SB].
Qed.
Lemma offs_ext : forall T (R R' : Z -> list (Z * T)) m, (forall i, 0 <= i < m -> zlen (R i) = zlen (R' i)) -> forall i, 0 <= i <= m -> offs R i = offs R' i.
Proof. intros. unfold offs. apply (sumz_ext Zops). intros k Hk. apply H. lia. Qed.
Lemma stored_ents : forall T m n nnz b ptr ind (val : list T) i j, csr_wf m n nnz b ptr ind -> zlen val = nnz -> 0 <= i < m -> (stored b ptr ind i j <-> ents b ptr ind val i j <> []).
Proof.
  intros T m n nnz b ptr ind val i j W Lv Hi. unfold ents. split.
  - intros (k & K & E) N. pose proof (in_row_range _ _ _ _ (wf_ptr _ _ _ _ _ _ W) i k Hi K) as R. assert (D : exists d : T, True). { destruct val; [unfold zlen in Lv; cbn in Lv; lia|eauto]. }
    destruct D as (d & _). assert (I : In (nthZ d val k) []); [|destruct I]. rewrite <- N. apply in_flat_map. exists k. split; [now apply in_zrange|]. replace (zn ind k =? j + b) with true by lia.
    rewrite (rd_nthZ _ d) by lia. now left.
  - intros N. destruct (flat_map _ _) as [|v l] eqn:E; [congruence|]. assert (I : In v (v :: l)) by now left. rewrite <- E in I. apply in_flat_map in I. destruct I as (k & Hk & Iv).
    exists k. split; [now apply in_zrange in Hk|]. destruct (Z.eqb_spec (zn ind k) (j + b)); [auto|destruct Iv].
Qed.
