(** The estimate of the size of a symmetric product is an overestimate. *)
From Coq Require Import ZArith List Bool Lia ZifyBool Permutation.
From Verif Require Import Base BaseFacts Algebra UtilModel UtilProof Csr CsrFacts CheckModel SortSpec MvFacts MvProof AddProof Csr2mProof SyrkModel.
Import ListNotations.
Open Scope Z_scope.
Local Notation zs := (sumz Zops).

Lemma zs_le : forall lo hi f g, (forall i, lo <= i < hi -> f i <= g i) -> zs lo hi f <= zs lo hi g.
Proof.
  intros lo hi f g H. unfold sumz. assert (G : forall l, (forall x, In x l -> f x <= g x) -> suml Zops f l <= suml Zops g l).
  { induction l as [|x l IH]; intros Hl; [cbn; lia|]. change (f x + suml Zops f l <= g x + suml Zops g l). pose proof (Hl x (or_introl eq_refl)). specialize (IH (fun y Hy => Hl y (or_intror Hy))). lia. }
  apply G. intros x Hx. apply in_zrange in Hx. auto.
Qed.
Lemma zs_nonneg : forall lo hi f, (forall i, lo <= i < hi -> 0 <= f i) -> 0 <= zs lo hi f.
Proof. intros lo hi f H. assert (E : zs lo hi (fun _ => 0) = 0) by (now apply (sumz_zero Zops Zlaws)). rewrite <- E. now apply zs_le. Qed.
Lemma zs_ext : forall lo hi f g, (forall i, lo <= i < hi -> f i = g i) -> zs lo hi f = zs lo hi g.
Proof. exact (sumz_ext Zops). Qed.
Lemma zs_add : forall lo hi f g, zs lo hi (fun i => f i + g i) = zs lo hi f + zs lo hi g.
Proof. exact (sumz_add Zops Zlaws). Qed.
Lemma zs_mul : forall lo hi c f, zs lo hi (fun i => c * f i) = c * zs lo hi f.
Proof. exact (sumz_mul_l Zops Zlaws). Qed.
Lemma zs_swap : forall lo hi lo' hi' f, zs lo hi (fun i => zs lo' hi' (fun j => f i j)) = zs lo' hi' (fun j => zs lo hi (fun i => f i j)).
Proof. exact (sumz_swap Zops Zlaws). Qed.
Lemma zs_delta : forall lo hi j f, lo <= j < hi -> zs lo hi (fun i => if i =? j then f i else 0) = f j.
Proof.
  intros lo hi j f H. rewrite (sumz_delta Zops Zlaws lo hi j (fun i => if i =? j then f i else 0) H).
  - now rewrite Z.eqb_refl.
  - intros k _ Hk. destruct (Z.eqb_spec k j); [contradiction|reflexivity].
Qed.
Lemma zs_last : forall lo hi f, lo <= hi -> zs lo (hi + 1) f = zs lo hi f + f hi.
Proof. exact (sumz_last Zops Zlaws). Qed.
Lemma zs_split : forall lo mid hi f, lo <= mid <= hi -> zs lo hi f = zs lo mid f + zs mid hi f.
Proof. exact (sumz_split Zops Zlaws). Qed.
Lemma zs_1 : forall lo hi, lo <= hi -> zs lo hi (fun _ => 1) = hi - lo.
Proof.
  intros lo hi H. replace hi with (lo + Z.of_nat (Z.to_nat (hi - lo))) by lia. generalize (Z.to_nat (hi - lo)). induction n as [|n IH]; [rewrite (sumz_nil Zops) by lia; cbn; lia|].
  replace (lo + Z.of_nat (S n)) with (lo + Z.of_nat n + 1) by lia. rewrite zs_last by lia. lia.
Qed.

(** A list without repetition, counted position by position. *)
Lemma count_nodup : forall n l, 0 <= n -> NoDup l -> (forall x, In x l -> 0 <= x < n) -> zlen l = zs 0 n (fun j => if inb j l then 1 else 0).
Proof.
  intros n l Hn. induction l as [|x l IH]; intros ND R.
  - rewrite (sumz_zero Zops Zlaws) by reflexivity. reflexivity.
  - inversion ND; subst. replace (zlen (x :: l)) with (1 + zlen l) by (unfold zlen; cbn [length]; lia). rewrite IH; auto; [|intros y Hy; apply R; now right].
    pose proof (zs_delta 0 n x (fun _ => 1) (R x (or_introl eq_refl))) as D. cbv beta in D. rewrite <- D at 1. rewrite <- zs_add. apply zs_ext. intros j Hj. unfold inb. cbn [existsb]. fold (inb j l). destruct (Z.eqb_spec j x) as [->|]; [|reflexivity].
    destruct (inb x l) eqn:E; [apply inb_iff in E; contradiction|reflexivity].
Qed.

Lemma est_row_ge : forall lim s t, 0 <= t -> t <= s -> t <= lim -> t <= 2 * (est_row lim s - 1).
Proof.
  intros lim s t H0 H1 H2. unfold est_row. set (x := if lim <? s then lim else s). assert (t <= x) by (unfold x; destruct (Z.ltb_spec lim s); lia).
  rewrite Z.quot_div_nonneg by lia. pose proof (Z.div_mod (x + 1) 2 ltac:(lia)). pose proof (Z.mod_pos_bound (x + 1) 2 ltac:(lia)). lia.
Qed.
Lemma est_row_le : forall lim s, 0 <= lim -> 0 <= s -> 1 <= est_row lim s <= (lim + 1) / 2 + 1.
Proof.
  intros lim s H0 H1. unfold est_row. set (x := if lim <? s then lim else s). assert (0 <= x <= lim) by (unfold x; destruct (Z.ltb_spec lim s); lia).
  rewrite Z.quot_div_nonneg by lia. pose proof (Z.div_le_mono (x + 1) (lim + 1) 2 ltac:(lia) ltac:(lia)). pose proof (Z.div_pos (x + 1) 2 ltac:(lia) ltac:(lia)). lia.
Qed.

(** ** Positions of a symmetric product: [N r i] tells whether row r of the matrix has an
    element in column i; [mm] rows, [K] columns. *)
Section C.
  Variables (mm K : Z) (N : Z -> Z -> Z).
  Hypothesis (Hm : 0 <= mm) (HK : 0 <= K).
  Hypothesis N01 : forall r i, 0 <= r < mm -> 0 <= i < K -> 0 <= N r i <= 1.
  Definition rowlen (r : Z) : Z := zs 0 K (N r).
  (** Positions i and j share a row. *)
  Definition meet (i j : Z) : Z := if 0 <? zs 0 mm (fun r => N r i * N r j) then 1 else 0.
  Definition others (i : Z) : Z := zs 0 mm (fun r => N r i * (rowlen r - 1)).

  Lemma meet_sym : forall i j, meet i j = meet j i.
  Proof. intros i j. unfold meet. rewrite (zs_ext 0 mm (fun r => N r i * N r j) (fun r => N r j * N r i)) by (intros; lia). reflexivity. Qed.
  Lemma meet_le : forall i j, 0 <= i < K -> 0 <= j < K -> 0 <= meet i j <= 1 /\ meet i j <= zs 0 mm (fun r => N r i * N r j).
  Proof.
    intros i j Hi Hj. unfold meet. assert (0 <= zs 0 mm (fun r => N r i * N r j)) by (apply zs_nonneg; intros r Hr; pose proof (N01 r i Hr Hi); pose proof (N01 r j Hr Hj); nia).
    destruct (Z.ltb_spec 0 (zs 0 mm (fun r => N r i * N r j))); lia.
  Qed.
  Definition off_row (i : Z) : Z := zs 0 K (fun j => if j =? i then 0 else meet i j).
  Lemma off_row_bounds : forall i, 0 <= i < K -> 0 <= off_row i /\ off_row i <= K - 1 /\ off_row i <= others i.
  Proof.
    intros i Hi. unfold off_row. split; [|split].
    - apply zs_nonneg. intros j Hj. pose proof (meet_le i j Hi Hj). destruct (j =? i); lia.
    - transitivity (zs 0 K (fun j => 1 + (if j =? i then -1 else 0))).
      + apply zs_le. intros j Hj. pose proof (meet_le i j Hi Hj). destruct (j =? i); lia.
      + rewrite zs_add, zs_1, (zs_delta 0 K i (fun _ => -1)) by lia. lia.
    - transitivity (zs 0 K (fun j => zs 0 mm (fun r => N r i * (N r j - if j =? i then 1 else 0)))).
      + apply zs_le. intros j Hj. destruct (Z.eqb_spec j i) as [->|].
        * apply zs_nonneg. intros r Hr. pose proof (N01 r i Hr Hi). assert (C : N r i = 0 \/ N r i = 1) by lia. destruct C as [-> | ->]; lia.
        * rewrite (zs_ext 0 mm _ (fun r => N r i * N r j)) by (intros; f_equal; lia). apply meet_le; auto.
      + rewrite zs_swap. unfold others. apply zs_le. intros r Hr. rewrite zs_mul. unfold rowlen.
        rewrite (zs_ext 0 K _ (fun j => N r j + (if j =? i then -1 else 0))) by (intros j Hj; destruct (j =? i); lia). rewrite zs_add, (zs_delta 0 K i (fun _ => -1)) by lia.
        apply Z.eq_le_incl. f_equal; lia.
  Qed.

  (** The upper triangle has half of the off-diagonal positions. *)
  Lemma upper_half : 2 * zs 0 K (fun i => zs 0 K (fun j => if i <? j then meet i j else 0)) = zs 0 K off_row.
  Proof.
    set (U := zs 0 K (fun i => zs 0 K (fun j => if i <? j then meet i j else 0))).
    assert (E : U = zs 0 K (fun i => zs 0 K (fun j => if j <? i then meet i j else 0))).
    { unfold U. rewrite zs_swap. apply zs_ext. intros j Hj. apply zs_ext. intros i Hi. rewrite meet_sym. reflexivity. }
    replace (2 * U) with (U + U) by lia. rewrite E at 2. unfold U. rewrite <- zs_add. apply zs_ext. intros i Hi. unfold off_row. rewrite <- zs_add. apply zs_ext. intros j Hj.
    destruct (Z.ltb_spec i j), (Z.ltb_spec j i), (Z.eqb_spec j i); lia.
  Qed.
  Lemma upper_bound : zs 0 K (fun i => zs 0 K (fun j => if i <=? j then meet i j else 0)) <= zs 0 K (fun i => est_row (K - 1) (others i)).
  Proof.
    assert (A : zs 0 K (fun i => zs 0 K (fun j => if i <=? j then meet i j else 0)) <= zs 0 K (fun i => 1 + zs 0 K (fun j => if i <? j then meet i j else 0))).
    { apply zs_le. intros i Hi. transitivity (zs 0 K (fun j => (if j =? i then 1 else 0) + (if i <? j then meet i j else 0))).
      - apply zs_le. intros j Hj. pose proof (meet_le i j Hi Hj). destruct (Z.leb_spec i j), (Z.ltb_spec i j), (Z.eqb_spec j i); lia.
      - rewrite zs_add, (zs_delta 0 K i (fun _ => 1)) by lia. lia. }
    assert (B : zs 0 K off_row <= zs 0 K (fun i => 2 * (est_row (K - 1) (others i) - 1))).
    { apply zs_le. intros i Hi. destruct (off_row_bounds i Hi) as (B1 & B2 & B3). apply est_row_ge; lia. }
    rewrite zs_mul, <- upper_half in B. rewrite zs_add in A. rewrite (zs_ext 0 K (fun i => est_row (K - 1) (others i)) (fun i => 1 + (est_row (K - 1) (others i) - 1))) by (intros; lia). rewrite zs_add. lia.
  Qed.
End C.

(** ** The counts of a CSR matrix *)
Lemma zlen_if : forall A (c : bool) (x : list A), zlen (if c then x else []) = if c then zlen x else 0.
Proof. intros A [|] x; reflexivity. Qed.
Lemma zlen_flat_map : forall A B (f : A -> list B) l, zlen (flat_map f l) = suml Zops (fun x => zlen (f x)) l.
Proof. induction l as [|x l IH]; [reflexivity|]. cbn [flat_map]. rewrite zlen_app, IH. reflexivity. Qed.
Lemma suml_zext : forall A (f g : A -> Z) l, (forall x, In x l -> f x = g x) -> suml Zops f l = suml Zops g l.
Proof. intros A f g l H. now apply (suml_ext Zops). Qed.

Section M.
  Context {T : Type}.
  Variables (m n nnz b : Z) (ptr ind : list Z) (val : list T).
  Hypothesis (W : csr_wf m n nnz b ptr ind) (Lv : zlen val = nnz) (HD : rows_distinct m b ptr ind).
  Local Notation lo i := (zn ptr i - b).
  Local Notation hi i := (zn ptr (i + 1) - b).
  Definition Nt (r j : Z) : Z := zlen (ents b ptr ind val r j).
  Definition at_col (j k : Z) : Z := if zn ind k =? j + b then 1 else 0.

  Lemma mn : 0 <= m /\ 0 <= n. Proof. destruct W; lia. Qed.
  Lemma Nt_sum : forall r j, 0 <= r < m -> Nt r j = zs (lo r) (hi r) (at_col j).
  Proof.
    intros r j Hr. destruct (row_bounds _ _ _ _ _ _ r W Hr) as (_ & _ & B1 & B2 & B3). unfold Nt, ents. rewrite zlen_flat_map. unfold sumz. apply suml_zext. intros k Hk. apply in_zrange in Hk.
    unfold at_col. destruct (zn ind k =? j + b); [|reflexivity]. assert (E : exists v, rd val k = Some v).
    { unfold rd. replace (k <? 0) with false by lia. destruct (nth_error val (Z.to_nat k)) eqn:E; [eauto|]. apply nth_error_None in E. unfold zlen in Lv. lia. }
    destruct E as (v & ->). reflexivity.
  Qed.
  Lemma Nt_01 : forall r j, 0 <= r < m -> 0 <= Nt r j <= 1.
  Proof. intros r j Hr. pose proof (distinct_ents T m n nnz b ptr ind val W Lv HD r j Hr). unfold Nt, zlen. lia. Qed.
  Lemma Nt_in : forall r k, 0 <= r < m -> in_row ptr b r k -> Nt r (zn ind k - b) = 1.
  Proof.
    intros r k Hr Hk. pose proof (Nt_01 r (zn ind k - b) Hr). enough (1 <= Nt r (zn ind k - b)) by lia. rewrite Nt_sum by auto. destruct (row_bounds _ _ _ _ _ _ r W Hr) as (_ & _ & B1 & B2 & B3). unfold in_row in Hk.
    transitivity (zs (lo r) (hi r) (fun q => if q =? k then 1 else 0)).
    - pose proof (zs_delta (lo r) (hi r) k (fun _ => 1) ltac:(lia)) as D. cbv beta in D. lia.
    - apply zs_le. intros q Hq. unfold at_col. destruct (Z.eqb_spec q k) as [->|]; [replace (zn ind k =? zn ind k - b + b) with true by lia; lia|]. destruct (zn ind q =? _); lia.
  Qed.

  (** Sums over a row, column by column *)
  Lemma row_by_col : forall r (f : Z -> Z), 0 <= r < m -> zs (lo r) (hi r) (fun k => f (zn ind k - b)) = zs 0 n (fun j => Nt r j * f j).
  Proof.
    intros r f Hr. destruct (row_bounds _ _ _ _ _ _ r W Hr) as (_ & _ & B1 & B2 & B3).
    rewrite (zs_ext 0 n (fun j => Nt r j * f j) (fun j => zs (lo r) (hi r) (fun k => f j * at_col j k))) by (intros j Hj; rewrite zs_mul, <- Nt_sum by auto; lia).
    rewrite <- zs_swap. apply zs_ext. intros k Hk. pose proof (wf_ind _ _ _ _ _ _ W k ltac:(lia)). symmetry.
    rewrite (zs_ext 0 n _ (fun j => if j =? zn ind k - b then f j else 0)).
    - apply zs_delta. lia.
    - intros j Hj. unfold at_col. destruct (Z.eqb_spec (zn ind k) (j + b)), (Z.eqb_spec j (zn ind k - b)); lia.
  Qed.
  Lemma len_sum : forall r, 0 <= r < m -> rowlen n Nt r = hi r - lo r.
  Proof.
    intros r Hr. destruct (row_bounds _ _ _ _ _ _ r W Hr) as (_ & _ & B1 & B2 & B3). unfold rowlen. rewrite <- (zs_1 (lo r) (hi r)) by lia.
    rewrite (row_by_col r (fun _ => 1) Hr). apply zs_ext. intros; lia.
  Qed.
  Lemma len_total : forall i, 0 <= i <= m -> zs 0 i (fun r => hi r - lo r) = lo i.
  Proof.
    intros i Hi. pose proof (wf_ptr _ _ _ _ _ _ W) as (P0 & _). assert (G : forall k : nat, Z.of_nat k <= m -> zs 0 (Z.of_nat k) (fun r => hi r - lo r) = lo (Z.of_nat k)).
    { induction k as [|k IH]; intros Hk; [rewrite (sumz_nil Zops 0 (Z.of_nat 0)) by lia; cbn; change (Z.of_nat 0) with 0; rewrite P0; lia|].
      replace (Z.of_nat (S k)) with (Z.of_nat k + 1) by lia. rewrite zs_last by lia. rewrite IH by lia. lia. }
    replace i with (Z.of_nat (Z.to_nat i)) by lia. apply G. lia.
  Qed.

  (** One row: add [x] at every column that is stored. *)
  Lemma bump_row : forall w x i (f : Z -> list Z -> option (list Z)) row, 0 <= i < m -> 0 <= x -> 0 < w -> zlen row = n ->
    (forall k row c r, in_row ptr b i k -> rd ind k = Some c -> rd row (c - b) = Some r -> f k row = (let* r := chk w (r + x) in wr row (c - b) r)) ->
    (forall j, 0 <= j < n -> 0 <= zn row j /\ zn row j + x * Nt i j <= int_max w) ->
    exists row', for_ (lo i) (hi i) f row = Some row' /\ zlen row' = n /\ forall j, 0 <= j < n -> zn row' j = zn row j + x * Nt i j.
  Proof.
    intros w x i f row Hi Hx Hw Hl Hf Hb. destruct (row_bounds _ _ _ _ _ _ i W Hi) as (_ & Lind & B1 & B2 & B3).
    destruct (for_inv _ (fun k (row' : list Z) => zlen row' = n /\ forall j, 0 <= j < n -> zn row' j = zn row j + x * zs (lo i) k (at_col j)) (lo i) (hi i) f row) as (row' & E & Hl' & H).
    - lia.
    - split; auto. intros j Hj. rewrite (sumz_nil Zops (lo i) (lo i)) by lia. cbn. lia.
    - intros k row' Hk (Hl' & H). pose proof (wf_ind _ _ _ _ _ _ W k ltac:(lia)) as Hc. rewrite (Hf k row' (zn ind k) (zn row' (zn ind k - b))).
      2:{ unfold in_row. lia. } 2:{ apply (rd_nthZ _ 0). lia. } 2:{ apply (rd_nthZ _ 0). lia. }
      assert (St : forall j, zs (lo i) (k + 1) (at_col j) = zs (lo i) k (at_col j) + at_col j k) by (intros; apply zs_last; lia).
      set (c := zn ind k - b) in *. assert (Hcr : 0 <= c < n) by (unfold c; lia).
      assert (Ac : at_col c k = 1) by (unfold at_col, c; replace (zn ind k =? zn ind k - b + b) with true by lia; reflexivity).
      assert (Pn : forall j, 0 <= zs (lo i) k (at_col j)) by (intros; apply zs_nonneg; intros q _; unfold at_col; destruct (_ =? _); lia).
      assert (Le : zs (lo i) (k + 1) (at_col c) <= Nt i c).
      { rewrite Nt_sum by auto. rewrite (zs_split (lo i) (k + 1) (hi i)) by lia. assert (0 <= zs (k + 1) (hi i) (at_col c)) by (apply zs_nonneg; intros q _; unfold at_col; destruct (_ =? _); lia). lia. }
      destruct (Hb c Hcr) as (Hb1 & Hb2). pose proof (H c Hcr) as Hc'. specialize (Pn c).
      assert (R : int_min w <= zn row' c + x <= int_max w). { unfold int_min. pose proof (pow_w w Hw). rewrite Hc'. rewrite St, Ac in Le. nia. }
      unfold chk, in_int. replace ((int_min w <=? zn row' c + x) && (zn row' c + x <=? int_max w)) with true by lia. rewrite wr_upd by lia. eexists. split; [reflexivity|]. rewrite zlen_upd. split; auto.
      intros j Hj. rewrite nthZ_upd by lia. rewrite St. destruct (Z.eqb_spec j c) as [->|Nc].
      + rewrite Hc', Ac. lia.
      + rewrite H by auto. assert (Z0 : at_col j k = 0) by (unfold at_col; replace (zn ind k =? j + b) with false by (unfold c in Nc; lia); reflexivity). rewrite Z0. lia.
    - exists row'. split; auto. split; auto. intros j Hj. rewrite H, <- Nt_sum by auto. reflexivity.
  Qed.

  Variables (w : Z).
  Hypothesis (Hw : 0 < w) (Hnnz : nnz <= int_max w).
  Lemma hi_le : forall i, 0 <= i < m -> 0 <= hi i - lo i /\ lo (i + 1) <= nnz.
  Proof. intros i Hi. destruct (row_bounds _ _ _ _ _ _ i W Hi) as (_ & _ & B1 & B2 & B3). lia. Qed.
  Lemma zs_N_le : forall i j f, 0 <= i <= m -> (forall r, 0 <= r < m -> 0 <= f r <= hi r - lo r) -> zs 0 i (fun r => Nt r j * f r) <= lo i.
  Proof. intros i j f Hi Hf. rewrite <- len_total by auto. apply zs_le. intros r Hr. pose proof (Nt_01 r j ltac:(lia)). specialize (Hf r ltac:(lia)). nia. Qed.

  Lemma lo_le : forall i, 0 <= i <= m -> lo i <= nnz.
  Proof. intros i Hi. destruct (ptr_range m nnz b ptr (wf_ptr _ _ _ _ _ _ W) i Hi). lia. Qed.
  (** [row[c] += x(r)] over all the rows *)
  Lemma bump_all : forall (x : Z -> Z) (F : Z -> list Z -> option (list Z)),
    (forall r, 0 <= r < m -> (lo r < hi r -> 0 <= x r) /\ x r <= hi r - lo r) ->
    (forall i row, 0 <= i < m -> zlen row = n -> exists f, F i row = for_ (lo i) (hi i) f row /\
       forall k row c r, in_row ptr b i k -> rd ind k = Some c -> rd row (c - b) = Some r -> f k row = (let* r := chk w (r + x i) in wr row (c - b) r)) ->
    exists row, for_ 0 m F (zrep n 0) = Some row /\ zlen row = n /\ forall j, 0 <= j < n -> zn row j = zs 0 m (fun r => Nt r j * x r).
  Proof.
    intros x F Hx HF. destruct mn as (M0 & N0).
    assert (Nx : forall r j, 0 <= r < m -> 0 <= Nt r j * x r <= hi r - lo r).
    { intros r j Hr. destruct (Hx r Hr) as (X1 & X2). pose proof (Nt_01 r j Hr) as N1. destruct (hi_le r Hr). destruct (Z_lt_dec (lo r) (hi r)) as [Lt|Ge]; [specialize (X1 Lt); nia|].
      assert (E0 : Nt r j = 0) by (rewrite Nt_sum by auto; now rewrite (sumz_nil Zops (lo r) (hi r)) by lia). rewrite E0. lia. }
    apply (for_inv _ (fun i (row : list Z) => zlen row = n /\ forall j, 0 <= j < n -> zn row j = zs 0 i (fun r => Nt r j * x r)) 0 m F (zrep n 0)); auto.
    - split; [rewrite zlen_zrep; lia|]. intros j Hj. rewrite nthZ_zrep by lia. reflexivity.
    - intros i row Hi (Hl & H). destruct (HF i row Hi Hl) as (f & -> & Hf). destruct (hi_le i Hi) as (H1 & H2).
      assert (S1 : forall j, zs 0 (i + 1) (fun r => Nt r j * x r) = zs 0 i (fun r => Nt r j * x r) + Nt i j * x i) by (intros; rewrite zs_last by lia; reflexivity).
      assert (Bd : forall j, 0 <= zs 0 i (fun r => Nt r j * x r) /\ zs 0 i (fun r => Nt r j * x r) <= lo i).
      { intros j. split; [apply zs_nonneg; intros r Hr; apply Nx; lia|]. rewrite <- len_total by lia. apply zs_le. intros r Hr. apply Nx. lia. }
      destruct (Z_lt_dec (lo i) (hi i)) as [Lt|Ge].
      + destruct (bump_row w (x i) i f row Hi (proj1 (Hx i Hi) Lt) Hw Hl Hf) as (row' & E & Hl' & H').
        { intros j Hj. rewrite H by auto. specialize (Bd j). pose proof (Nx i j Hi). lia. }
        exists row'. split; auto. split; auto. intros j Hj. rewrite H', H, S1 by auto. lia.
      + exists row. split; [unfold for_; rewrite zrange_nil by lia; reflexivity|]. split; auto. intros j Hj. rewrite S1, H by auto.
        assert (E0 : Nt i j = 0) by (rewrite Nt_sum by auto; now rewrite (sumz_nil Zops (lo i) (hi i)) by lia). rewrite E0. lia.
  Qed.

  Lemma ata_ok : estimate_ata w b ptr ind m n = Some (zs 0 n (fun i => est_row (n - 1) (others m n Nt i))).
  Proof.
    destruct mn as (M0 & N0). assert (Lp : zlen ptr = m + 1) by (destruct (wf_len _ _ _ _ _ _ W); assumption). unfold estimate_ata.
    destruct (for_inv _ (fun i (cnt : list Z) => zlen cnt = m /\ forall r, 0 <= r < i -> zn cnt r = hi r - lo r) 0 m
      (fun i cnt => let* s := rd ptr i in let* e := rd ptr (i + 1) in wr cnt i (e - s)) (zrep m 0)) as (cnt & -> & Lc & Hc); auto.
    { split; [rewrite zlen_zrep; lia|intros; lia]. }
    { intros i cnt Hi (Hl & H). rewrite !(rd_nthZ _ 0) by lia. rewrite wr_upd by lia. eexists. split; [reflexivity|]. rewrite zlen_upd. split; auto. intros r Hr. rewrite nthZ_upd by lia. destruct (Z.eqb_spec r i) as [->|]; [lia|apply H; lia]. }
    destruct (bump_all (fun r => hi r - lo r - 1) (fun i row => let* s := rd ptr i in let* e := rd ptr (i + 1) in for_ (s - b) (e - b) (fun k row =>
        let* c := rd ind k in let* x := rd cnt i in let* r := rd row (c - b) in let* r := chk w (r + (x - 1)) in wr row (c - b) r) row)) as (row & -> & Lr & Hr).
    { intros r Hr. lia. }
    { intros i row Hi Hl. rewrite !(rd_nthZ _ 0) by lia. eexists. split; [reflexivity|]. intros k row' c r Hk E1 E2. cbv beta. rewrite E1. rewrite E2. rewrite Hc by lia. reflexivity. }
    destruct (for_inv _ (fun j tot => tot = zs 0 j (fun i => est_row (n - 1) (others m n Nt i))) 0 n (fun j tot => let* r := rd row j in Some (tot + est_row (n - 1) r)) 0) as (tot & E & Ht); auto.
    - intros j tot Hj ->. rewrite (rd_nthZ _ 0) by lia. eexists. split; [reflexivity|]. rewrite zs_last by lia. f_equal. rewrite Hr by lia. unfold others. f_equal. apply zs_ext. intros r Hr'. now rewrite len_sum.
    - rewrite E. now f_equal.
  Qed.

  Lemma aat_ok : estimate_aat w b ptr ind m n = Some (zs 0 m (fun i => est_row (m - 1) (others n m (fun r i => Nt i r) i))).
  Proof.
    destruct mn as (M0 & N0). assert (Lp : zlen ptr = m + 1) by (destruct (wf_len _ _ _ _ _ _ W); assumption). unfold estimate_aat.
    destruct (bump_all (fun r => if lo r <? hi r then 1 else 0) (fun i cnt => let* s := rd ptr i in let* e := rd ptr (i + 1) in for_ (s - b) (e - b) (fun k cnt =>
        let* c := rd ind k in let* x := rd cnt (c - b) in let* x := chk w (x + 1) in wr cnt (c - b) x) cnt)) as (cnt & -> & Lc & Hc).
    { intros r Hr. destruct (Z.ltb_spec (lo r) (hi r)); destruct (hi_le r Hr); lia. }
    { intros i row Hi Hl. rewrite !(rd_nthZ _ 0) by lia. eexists. split; [reflexivity|]. intros k row' c r Hk E1 E2. cbv beta. rewrite E1. unfold in_row in Hk. replace (lo i <? hi i) with true by lia. rewrite E2. reflexivity. }
    assert (Hc' : forall j, 0 <= j < n -> zn cnt j = rowlen m (fun r i => Nt i r) j).
    { intros j Hj. rewrite Hc by auto. unfold rowlen. apply zs_ext. intros r Hr. destruct (Z.ltb_spec (lo r) (hi r)); [lia|]. assert (E0 : Nt r j = 0) by (rewrite Nt_sum by auto; now rewrite (sumz_nil Zops (lo r) (hi r)) by lia). rewrite E0. lia. }
    assert (Tot : zs 0 n (fun j => rowlen m (fun r i => Nt i r) j) = nnz).
    { unfold rowlen. rewrite zs_swap. pose proof (wf_ptr _ _ _ _ _ _ W) as (_ & P1 & _). rewrite (zs_ext 0 m _ (fun r => hi r - lo r)) by (intros r Hr; rewrite <- len_sum by auto; reflexivity). rewrite len_total by lia. lia. }
    assert (Cpos : forall i k, 0 <= i < m -> in_row ptr b i k -> 1 <= rowlen m (fun r i => Nt i r) (zn ind k - b)).
    { intros i k Hi Hk. unfold rowlen. transitivity (zs 0 m (fun r => if r =? i then Nt r (zn ind k - b) else 0)).
      - rewrite (zs_delta 0 m i (fun r => Nt r (zn ind k - b))) by lia. rewrite Nt_in by auto. lia.
      - apply zs_le. intros r Hr. pose proof (Nt_01 r (zn ind k - b) Hr). destruct (r =? i); lia. }
    destruct (for_inv _ (fun j tot => tot = zs 0 j (fun i => est_row (m - 1) (others n m (fun r i => Nt i r) i))) 0 m
      (fun i tot => let* s := rd ptr i in let* e := rd ptr (i + 1) in let* r := for_ (s - b) (e - b) (fun k r => let* c := rd ind k in let* x := rd cnt (c - b) in chk w (r + (x - 1))) 0 in Some (tot + est_row (m - 1) r)) 0) as (tot & E & Ht); auto.
    - intros i tot Hi ->. destruct (row_bounds _ _ _ _ _ _ i W Hi) as (_ & Lind & B1 & B2 & B3). rewrite !(rd_nthZ _ 0) by lia.
      set (g := fun k => rowlen m (fun r i => Nt i r) (zn ind k - b) - 1).
      assert (Gp : forall k, lo i <= k < hi i -> 0 <= g k) by (intros k Hk; unfold g; specialize (Cpos i k Hi ltac:(unfold in_row; lia)); lia).
      assert (Gt : zs (lo i) (hi i) g = others n m (fun r i => Nt i r) i).
      { unfold g. rewrite (row_by_col i (fun j => rowlen m (fun r i => Nt i r) j - 1)) by auto. reflexivity. }
      assert (Gb : zs (lo i) (hi i) g <= nnz).
      { rewrite Gt. unfold others. rewrite <- Tot. apply zs_le. intros j Hj. pose proof (Nt_01 i j Hi) as N1. assert (0 <= rowlen m (fun r i => Nt i r) j) by (apply zs_nonneg; intros r Hr; apply (Nt_01 r j Hr)).
        assert (C : Nt i j = 0 \/ Nt i j = 1) by lia. destruct C as [-> | ->]; lia. }
      destruct (for_inv _ (fun k r => r = zs (lo i) k g) (lo i) (hi i) (fun k r => let* c := rd ind k in let* x := rd cnt (c - b) in chk w (r + (x - 1))) 0) as (r & -> & Hr); [lia| | |].
      + rewrite (sumz_nil Zops (lo i) (lo i)) by lia. reflexivity.
      + intros k r Hk ->. pose proof (wf_ind _ _ _ _ _ _ W k ltac:(lia)). rewrite (rd_nthZ _ 0) by lia. rewrite (rd_nthZ _ 0) by lia. rewrite Hc' by lia. fold (g k). exists (zs (lo i) (k + 1) g). rewrite zs_last by lia. split; auto.
        assert (0 <= zs (lo i) k g) by (apply zs_nonneg; intros; apply Gp; lia). specialize (Gp k Hk) as Gk.
        assert (zs (lo i) (k + 1) g <= nnz). { rewrite (zs_split (lo i) (k + 1) (hi i)) in Gb by lia. assert (0 <= zs (k + 1) (hi i) g) by (apply zs_nonneg; intros; apply Gp; lia). lia. }
        rewrite zs_last in * by lia. pose proof (pow_w w Hw). unfold chk, in_int, int_min. replace (_ && _) with true by lia. reflexivity.
      + eexists. split; [reflexivity|]. rewrite zs_last by lia. rewrite Hr, Gt. reflexivity.
    - rewrite E. now f_equal.
  Qed.
End M.
