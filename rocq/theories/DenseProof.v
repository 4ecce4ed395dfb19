From Coq Require Import ZArith List Bool Lia.
From Verif Require Import Base BaseFacts Algebra UtilModel Csr CsrFacts DescrModel DenseModel DenseSpec Writes.
Import ListNotations.
Open Scope Z_scope.

Lemma addr_inj : forall ld i j i' j', 0 <= j < ld -> 0 <= j' < ld -> i * ld + j = i' * ld + j' -> i = i' /\ j = j'.
Proof. intros. assert (i = i') by nia. split; [assumption|]. subst. lia. Qed.

Lemma ents_flat : forall T (d : T) m n nnz b ptr ind val i j,
  csr_wf m n nnz b ptr ind -> zlen val = nnz -> 0 <= i < m ->
  ents b ptr ind val i j =
  flat_map (fun k => if zn ind k =? j + b then [nthZ d val k] else []) (zrange (zn ptr i - b) (zn ptr (i + 1) - b)).
Proof.
  intros T d m n nnz b ptr ind val i j W Lv Hi. apply flat_map_ext_in. intros k Hk. apply in_zrange in Hk.
  pose proof (in_row_range _ _ _ _ (wf_ptr _ _ _ _ _ _ W) i k Hi Hk).
  rewrite (rd_nthZ _ d) by lia. reflexivity.
Qed.

Section D.
  Context {T : Type} (O : ops T).
  Let z : T := o0 O.

  Definition row_stores (b : Z) (ptr ind : list Z) (val : list T) (wp : Z -> stores T)
      (we : Z -> Z -> T -> stores T) (row : Z) : stores T :=
    wp row ++ flat_map (fun k => we row (zn ind k - b) (nthZ z val k)) (zrange (zn ptr row - b) (zn ptr (row + 1) - b)).

  Lemma dense_rows_ok : forall m n nnz b ptr ind val pre ent wp we len A,
    csr_wf m n nnz b ptr ind -> zlen val = nnz -> zlen A = len ->
    (forall row B, (0 <= row < m)%Z -> zlen B = len -> pre row B = Some (apply (wp row) B)) ->
    (forall row col v B, (0 <= row < m)%Z -> (0 <= col < n)%Z -> zlen B = len -> ent row col v B = Some (apply (we row col v) B)) ->
    dense_rows m b ptr ind val pre ent A
    = Some (apply (flat_map (row_stores b ptr ind val wp we) (zrange 0%Z m)) A).
  Proof.
    intros m n nnz b ptr ind val pre ent wp we len A W Lv LA Hp He. unfold dense_rows.
    destruct (wf_len _ _ _ _ _ _ W) as [L1 L2].
    apply for_stores with (len := len); [assumption|]. intros row B Hr HB. cbv beta.
    rewrite Hp by auto. rewrite !(rd_nthZ _ 0%Z ptr) by lia.
    unfold row_stores. rewrite apply_app.
    apply for_stores with (len := len); [now rewrite zlen_apply|]. intros k C Hk HC. cbv beta.
    pose proof (in_row_range _ _ _ _ (wf_ptr _ _ _ _ _ _ W) row k Hr Hk).
    pose proof (wf_ind _ _ _ _ _ _ W k ltac:(lia)).
    rewrite (rd_nthZ _ 0%Z ind), (rd_nthZ _ z val) by lia. apply He; auto; lia.
  Qed.

  (** Stores into the window only. *)
  Definition win (order ld m n : Z) (ws : stores T) : Prop :=
    forall w, In w ws -> exists i j, (0 <= i < m)%Z /\ (0 <= j < n)%Z /\ fst w = dense_at order ld i j.

  Lemma win_app : forall order ld m n ws ws', win order ld m n ws -> win order ld m n ws' -> win order ld m n (ws ++ ws').
  Proof. intros order ld m n ws ws' H1 H2 w Hw. apply in_app_or in Hw as [?|?]; auto. Qed.
  Lemma win_flat : forall X order ld m n (g : X -> stores T) l,
    (forall x, In x l -> win order ld m n (g x)) -> win order ld m n (flat_map g l).
  Proof. intros X order ld m n g l H w Hw. apply in_flat_map in Hw as (x & Hx & Hw). exact (H x Hx w Hw). Qed.
  Lemma win_one : forall order ld m n i j v, (0 <= i < m)%Z -> (0 <= j < n)%Z ->
    win order ld m n [(dense_at order ld i j, v)].
  Proof. intros order ld m n i j v Hi Hj w [<-|[]]. exists i, j. auto. Qed.
  Lemma win_nil : forall order ld m n, win order ld m n [].
  Proof. intros order ld m n w []. Qed.

  Lemma fits_range : forall order ld m n (A : list T) i j, window_fits order ld m n A ->
    (0 <= i < m)%Z -> (0 <= j < n)%Z -> (0 <= dense_at order ld i j < zlen A)%Z.
  Proof. unfold window_fits, dense_at. intros. destruct (order =? 1)%Z; nia. Qed.

  Lemma at_inj : forall order ld m n (A : list T) i j i' j', window_fits order ld m n A ->
    (0 <= i < m)%Z -> (0 <= j < n)%Z -> (0 <= i' < m)%Z -> (0 <= j' < n)%Z ->
    dense_at order ld i j = dense_at order ld i' j' -> i = i' /\ j = j'.
  Proof.
    unfold window_fits, dense_at. intros order ld m n A i j i' j' F Hi Hj Hi' Hj' E. destruct (order =? 1)%Z.
    - destruct (addr_inj ld j i j' i') as [? ?]; lia.
    - apply (addr_inj ld); lia.
  Qed.

  Lemma win_inb : forall order ld m n (A : list T) ws, window_fits order ld m n A ->
    win order ld m n ws -> inb (zlen A) ws.
  Proof. intros order ld m n A ws F H w Hw. destruct (H w Hw) as (i & j & Hi & Hj & ->). now apply (fits_range _ _ m n). Qed.

  Lemma window_done : forall order ld m n (A : list T) ws M, window_fits order ld m n A ->
    win order ld m n ws ->
    (forall i j, (0 <= i < m)%Z -> (0 <= j < n)%Z -> last (at_pos (dense_at order ld i j) ws) (nthZ z A (dense_at order ld i j)) = M i j) ->
    holds_window z order ld m n M A (apply ws A).
  Proof.
    intros order ld m n A ws M F W H. pose proof (win_inb _ _ _ _ _ _ F W) as B.
    split; [apply zlen_apply|]. split.
    - intros i j Hi Hj. rewrite nthZ_apply by (auto; now apply (fits_range _ _ m n)). auto.
    - intros p Hp Hn. rewrite nthZ_apply by auto.
      replace (at_pos p ws) with (@nil T); [reflexivity|]. symmetry. apply flat_map_nil.
      intros w Hw. destruct (W w Hw) as (i & j & Hi & Hj & E). pose proof (Hn i j Hi Hj).
      replace (fst w =? p)%Z with false by lia. reflexivity.
  Qed.

  (** The zeroing pass. *)
  Definition zero_stores (order ld m n : Z) : stores T :=
    if (order =? 1)%Z then flat_map (fun j => flat_map (fun i => [(i + ld * j, z)]%Z) (zrange 0%Z m)) (zrange 0%Z n)
    else flat_map (fun i => flat_map (fun j => [(j + ld * i, z)]%Z) (zrange 0%Z n)) (zrange 0%Z m).

  Lemma zero_win : forall order ld m n, win order ld m n (zero_stores order ld m n).
  Proof.
    intros. unfold zero_stores. destruct (order =? 1)%Z eqn:E;
      apply win_flat; intros x Hx; apply win_flat; intros y Hy; apply in_zrange in Hx, Hy.
    - replace (y + ld * x)%Z with (dense_at order ld y x) by (unfold dense_at; rewrite E; lia). apply win_one; lia.
    - replace (y + ld * x)%Z with (dense_at order ld x y) by (unfold dense_at; rewrite E; lia). apply win_one; lia.
  Qed.
  Lemma zero_at : forall order ld m n (A : list T) i j d, window_fits order ld m n A ->
    (0 <= i < m)%Z -> (0 <= j < n)%Z ->
    last (at_pos (dense_at order ld i j) (zero_stores order ld m n)) d = z.
  Proof.
    intros order ld m n A i j d F Hi Hj. unfold zero_stores.
    pose proof (fun i' j' Hi' Hj' => at_inj order ld m n A i' j' i j F Hi' Hj' Hi Hj) as I. unfold dense_at in *.
    destruct (order =? 1)%Z; rewrite at_pos_flat_map.
    - rewrite (flat_map_single _ 0 n j); [|lia|].
      + rewrite at_pos_flat_map, (flat_map_single _ 0 m i); [|lia|].
        * cbn. rewrite Z.eqb_refl. reflexivity.
        * intros x Hx Hn. cbn. destruct (_ =? _)%Z eqn:E; [|reflexivity]. destruct (I x j); lia.
      + intros x Hx Hn. rewrite at_pos_flat_map. apply flat_map_nil. intros y Hy. apply in_zrange in Hy.
        cbn. destruct (_ =? _)%Z eqn:E; [|reflexivity]. destruct (I y x); lia.
    - rewrite (flat_map_single _ 0 m i); [|lia|].
      + rewrite at_pos_flat_map, (flat_map_single _ 0 n j); [|lia|].
        * cbn. replace (_ =? _)%Z with true by lia. reflexivity.
        * intros x Hx Hn. cbn. destruct (_ =? _)%Z eqn:E; [|reflexivity]. destruct (I i x); lia.
      + intros x Hx Hn. rewrite at_pos_flat_map. apply flat_map_nil. intros y Hy. apply in_zrange in Hy.
        cbn. destruct (_ =? _)%Z eqn:E; [|reflexivity]. destruct (I x y); lia.
  Qed.

  Lemma zero_run : forall order ld m n (A : list T), window_fits order ld m n A ->
    (if (order =? 1)%Z then for_ 0 n (fun col A => for_ 0 m (fun row A => wr A (row + ld * col)%Z (o0 O)) A) A
     else for_ 0 m (fun row A => for_ 0 n (fun col A => wr A (col + ld * row)%Z (o0 O)) A) A)
    = Some (apply (zero_stores order ld m n) A).
  Proof.
    intros order ld m n A F. unfold zero_stores. destruct (order =? 1)%Z eqn:E.
    - apply for_stores with (len := zlen A); [reflexivity|]. intros j B Hj HB.
      apply for_stores with (len := zlen A); [assumption|]. intros i C Hi HC.
      apply wr_apply. rewrite HC. pose proof (fits_range order ld m n A i j F Hi Hj) as R.
      unfold dense_at in R. rewrite E in R. exact R.
    - apply for_stores with (len := zlen A); [reflexivity|]. intros i B Hi HB.
      apply for_stores with (len := zlen A); [assumption|]. intros j C Hj HC.
      apply wr_apply. rewrite HC. pose proof (fits_range order ld m n A i j F Hi Hj) as R.
      unfold dense_at in R. rewrite E in R. lia.
  Qed.

  Lemma zero_then : forall order ld m n (A : list T) ws M, window_fits order ld m n A ->
    win order ld m n ws ->
    (forall i j, (0 <= i < m)%Z -> (0 <= j < n)%Z -> last (at_pos (dense_at order ld i j) ws) z = M i j) ->
    holds_window z order ld m n M A (apply ws (apply (zero_stores order ld m n) A)).
  Proof.
    intros order ld m n A ws M F W H. rewrite <- apply_app. apply window_done; auto.
    - apply win_app; [apply zero_win|assumption].
    - intros i j Hi Hj. rewrite at_pos_app, last_app2, (zero_at _ _ m n A) by auto. auto.
  Qed.

  (** General matrices. *)
  Lemma general_rows : forall order ld m n nnz b ptr ind val (A B : list T),
    csr_wf m n nnz b ptr ind -> zlen val = nnz -> window_fits order ld m n A -> zlen B = zlen A ->
    exists ws,
      dense_rows m b ptr ind val (fun _ A => Some A) (fun row col v A => wr A (dense_at order ld row col) v) B = Some (apply ws B) /\
      win order ld m n ws /\
      (forall i j, (0 <= i < m)%Z -> (0 <= j < n)%Z -> at_pos (dense_at order ld i j) ws = ents b ptr ind val i j).
  Proof.
    intros order ld m n nnz b ptr ind val A B W Lv F LB.
    set (we := fun row col (v : T) => [(dense_at order ld row col, v)]).
    exists (flat_map (row_stores b ptr ind val (fun _ => []) we) (zrange 0%Z m)).
    assert (G : forall row k, (0 <= row < m)%Z -> In k (zrange (zn ptr row - b)%Z (zn ptr (row + 1) - b)%Z) -> (0 <= zn ind k - b < n)%Z).
    { intros row k Hr Hk. apply in_zrange in Hk.
      pose proof (in_row_range _ _ _ _ (wf_ptr _ _ _ _ _ _ W) row k Hr Hk).
      pose proof (wf_ind _ _ _ _ _ _ W k ltac:(lia)). lia. }
    split; [|split].
    - apply dense_rows_ok with (n := n) (nnz := nnz) (len := zlen A); auto.
      intros row col v C Hr Hc HC. apply wr_apply. rewrite HC. now apply (fits_range _ _ m n).
    - apply win_flat. intros row Hr. apply in_zrange in Hr. unfold row_stores. cbn [app].
      apply win_flat. intros k Hk. apply win_one; [lia|]. now apply (G row).
    - intros i j Hi Hj. rewrite at_pos_flat_map, (flat_map_single _ 0 m i); [|lia|].
      + unfold row_stores. cbn [app]. rewrite at_pos_flat_map, (ents_flat _ z m n nnz) by auto.
        apply flat_map_ext_in. intros k Hk. pose proof (G i k Hi Hk) as R. unfold we. cbn [at_pos flat_map fst snd app].
        destruct (zn ind k =? j + b)%Z eqn:E.
        * replace (zn ind k - b)%Z with j by lia. rewrite Z.eqb_refl. reflexivity.
        * destruct (dense_at _ _ _ _ =? _)%Z eqn:E2; [|reflexivity]. apply Z.eqb_eq in E2.
          apply (at_inj order ld m n A) in E2; auto; lia.
      + intros row Hr Hn. unfold row_stores. cbn [app]. rewrite at_pos_flat_map. apply flat_map_nil.
        intros k Hk. pose proof (G row k Hr Hk) as R. unfold we. cbn [at_pos flat_map fst snd app].
        destruct (dense_at _ _ _ _ =? _)%Z eqn:E2; [|reflexivity]. apply Z.eqb_eq in E2.
        apply (at_inj order ld m n A) in E2; auto; lia.
  Qed.

  (** Half-stored matrices, addressed by rows. *)
  Definition in_tri (fill i j : Z) : bool := (if fill =? 0 then j <? i else i <? j)%Z.
  Definition half_ents (diag fill : Z) (mirror : T -> option T) b ptr ind (val : list T) (i j : Z) : list T :=
    if (i =? j)%Z then (if diag =? 0 then ents b ptr ind val i i else if diag =? 1 then [o1 O] else if diag =? 2 then [o0 O] else [])%Z
    else if in_tri fill i j then ents b ptr ind val i j
    else flat_map (fun v => olist (mirror v)) (ents b ptr ind val j i).

  Lemma half_rows : forall ld n nnz b diag fill dpos mirror ptr ind val (A B : list T),
    csr_wf n n nnz b ptr ind -> zlen val = nnz -> window_fits 0 ld n n A -> zlen B = zlen A ->
    (forall r, dpos r r = (r * ld + r)%Z) -> (diag = 0 \/ diag = 1 \/ diag = 2)%Z ->
    exists ws,
      dense_rows n b ptr ind val (dense_diag O diag ld) (dense_half fill diag ld dpos mirror) B = Some (apply ws B) /\
      win 0 ld n n ws /\
      (forall i j, (0 <= i < n)%Z -> (0 <= j < n)%Z ->
         at_pos (dense_at 0 ld i j) ws = half_ents diag fill mirror b ptr ind val i j).
  Proof.
    intros ld n nnz b diag fill dpos mirror ptr ind val A B W Lv F LB Hd HD.
    set (wp := fun row => if (diag =? 1)%Z then [(dense_at 0 ld row row, o1 O)]
                          else if (diag =? 2)%Z then [(dense_at 0 ld row row, o0 O)] else []).
    set (we := fun row col (v : T) =>
      if (row =? col)%Z then (if (diag =? 0)%Z then [(dense_at 0 ld row row, v)] else [])
      else if in_tri fill row col then
        (dense_at 0 ld row col, v) :: map (fun v' => (dense_at 0 ld col row, v')) (olist (mirror v)) else []).
    exists (flat_map (row_stores b ptr ind val wp we) (zrange 0%Z n)).
    assert (G : forall row k, (0 <= row < n)%Z -> In k (zrange (zn ptr row - b)%Z (zn ptr (row + 1) - b)%Z) -> (0 <= zn ind k - b < n)%Z).
    { intros row k Hr Hk. apply in_zrange in Hk.
      pose proof (in_row_range _ _ _ _ (wf_ptr _ _ _ _ _ _ W) row k Hr Hk).
      pose proof (wf_ind _ _ _ _ _ _ W k ltac:(lia)). lia. }
    pose proof (fun i j => fits_range 0 ld n n A i j F) as R.
    split; [|split].
    - apply dense_rows_ok with (n := n) (nnz := nnz) (len := zlen A); auto.
      + intros row C Hr HC. unfold dense_diag, wp. pose proof (R row row Hr Hr) as R1. unfold dense_at in *. cbn in R1.
        destruct (diag =? 1)%Z; [apply wr_apply; lia|]. destruct (diag =? 2)%Z; [apply wr_apply; lia|]. reflexivity.
      + intros row col v C Hr Hc HC. unfold dense_half, we. pose proof (R row col Hr Hc) as R1.
        pose proof (R col row Hc Hr) as R2. unfold dense_at in *. cbn in R1, R2.
        destruct (row =? col)%Z eqn:E.
        { apply Z.eqb_eq in E; subst col. rewrite Hd. destruct (diag =? 0)%Z; [|reflexivity]. apply wr_apply; lia. }
        fold (in_tri fill row col). destruct (in_tri fill row col); [|reflexivity].
        rewrite wr_apply by lia. cbn [Z.eqb]. destruct (mirror v) as [v'|]; [|reflexivity].
        rewrite wr_apply by (rewrite zlen_apply; lia). reflexivity.
    - apply win_flat. intros row Hr. apply in_zrange in Hr. unfold row_stores. apply win_app.
      + unfold wp. destruct (diag =? 1)%Z; [apply win_one; lia|]. destruct (diag =? 2)%Z; [apply win_one; lia|]. apply win_nil.
      + apply win_flat. intros k Hk. pose proof (G row k Hr Hk) as Rk. unfold we.
        destruct (row =? _)%Z. { destruct (diag =? 0)%Z; [apply win_one; lia|apply win_nil]. }
        destruct (in_tri _ _ _); [|apply win_nil].
        apply (win_app _ _ _ _ [_] _); [apply win_one; lia|].
        destruct (mirror _); [apply win_one; lia|apply win_nil].
    - intros i j Hi Hj.
      assert (I : forall i' j', (0 <= i' < n)%Z -> (0 <= j' < n)%Z ->
         (dense_at 0 ld i' j' =? dense_at 0 ld i j)%Z = ((i' =? i)%Z && (j' =? j)%Z)).
      { intros i' j' Hi' Hj'. destruct ((i' =? i)%Z && (j' =? j)%Z) eqn:E.
        - apply andb_true_iff in E as [E1%Z.eqb_eq E2%Z.eqb_eq]. subst. apply Z.eqb_refl.
        - apply Z.eqb_neq. intros E2. apply (at_inj 0 ld n n A) in E2; auto. lia. }
      (* what one row contributes *)
      assert (P : forall row, (0 <= row < n)%Z -> at_pos (dense_at 0 ld i j) (wp row) =
        if ((row =? i)%Z && (row =? j)%Z) then (if diag =? 1 then [o1 O] else if diag =? 2 then [o0 O] else [])%Z else []).
      { intros row Hr. unfold wp. destruct (diag =? 1)%Z; [|destruct (diag =? 2)%Z]; cbn [at_pos flat_map fst snd app];
          rewrite ?I by auto; destruct (_ && _); reflexivity. }
      assert (E : forall row col v, (0 <= row < n)%Z -> (0 <= col < n)%Z -> at_pos (dense_at 0 ld i j) (we row col v) =
        if (row =? col)%Z then (if (diag =? 0)%Z && ((row =? i)%Z && (row =? j)%Z) then [v] else [])
        else if in_tri fill row col then
          (if (row =? i)%Z && (col =? j)%Z then [v] else []) ++
          (if (col =? i)%Z && (row =? j)%Z then olist (mirror v) else [])
        else []).
      { intros row col v Hr Hc. unfold we. destruct (row =? col)%Z.
        { destruct (diag =? 0)%Z; [|reflexivity]. cbn [at_pos flat_map fst snd app andb]. rewrite I by auto.
          destruct (_ && _); reflexivity. }
        destruct (in_tri _ _ _); [|reflexivity]. cbn [at_pos flat_map fst snd]. rewrite I by auto. f_equal.
        destruct (mirror v); cbn [olist map flat_map fst snd app]; [rewrite I by auto|]; destruct (_ && _); reflexivity. }
      rewrite at_pos_flat_map. unfold half_ents.
      destruct (i =? j)%Z eqn:Eij.
      { apply Z.eqb_eq in Eij; subst j. rewrite (flat_map_single _ 0 n i); [|lia|].
        - unfold row_stores. rewrite at_pos_app, P, Z.eqb_refl by auto. cbn [andb].
          rewrite at_pos_flat_map.
          replace (flat_map _ _) with (if (diag =? 0)%Z then ents b ptr ind val i i else []).
          { destruct HD as [-> | [-> | ->]]; cbn; rewrite ?app_nil_r; reflexivity. }
          rewrite (ents_flat _ z n n nnz) by auto.
          destruct (diag =? 0)%Z eqn:E0.
          + apply flat_map_ext_in. intros k Hk. pose proof (G i k Hi Hk). rewrite E by auto.
            destruct (zn ind k =? i + b)%Z eqn:Ek.
            * replace (i =? zn ind k - b)%Z with true by lia. rewrite ?Z.eqb_refl. reflexivity.
            * replace (i =? zn ind k - b)%Z with false by lia. destruct (in_tri _ _ _); [|reflexivity].
              replace (zn ind k - b =? i)%Z with false by lia. rewrite andb_false_r. reflexivity.
          + symmetry. apply flat_map_nil. intros k Hk. pose proof (G i k Hi Hk). rewrite E by auto. cbn [andb].
            destruct (i =? zn ind k - b)%Z eqn:Ek; [reflexivity|]. destruct (in_tri _ _ _); [|reflexivity].
            replace (zn ind k - b =? i)%Z with false by lia. rewrite andb_false_r. reflexivity.
        - intros row Hr Hn. unfold row_stores. rewrite at_pos_app, P by auto.
          replace (row =? i)%Z with false by lia. cbn [andb app]. rewrite at_pos_flat_map. apply flat_map_nil.
          intros k Hk. pose proof (G row k Hr Hk). rewrite E by auto. replace (row =? i)%Z with false by lia.
          cbn [andb app]. rewrite !andb_false_r. destruct (row =? _)%Z; [reflexivity|]. destruct (in_tri _ _ _); reflexivity. }
      assert (P0 : forall row, (0 <= row < n)%Z -> at_pos (dense_at 0 ld i j) (wp row) = []).
      { intros row Hr. rewrite P by auto. destruct (row =? i)%Z eqn:E1; [|reflexivity].
        replace (row =? j)%Z with false by lia. reflexivity. }
      assert (Z0 : forall row col v, (0 <= row < n)%Z -> (0 <= col < n)%Z -> ~ (row = i /\ col = j) ->
        ~ (row = j /\ col = i) -> at_pos (dense_at 0 ld i j) (we row col v) = []).
      { intros row col v Hr Hc N1 N2. rewrite E by auto. destruct (row =? col)%Z eqn:E1.
        - replace ((row =? i)%Z && (row =? j)%Z) with false by lia. now rewrite andb_false_r.
        - destruct (in_tri _ _ _); [|reflexivity]. replace ((row =? i)%Z && (col =? j)%Z) with false by lia.
          replace ((col =? i)%Z && (row =? j)%Z) with false by lia. reflexivity. }
      destruct (in_tri fill i j) eqn:Et.
      + rewrite (flat_map_single _ 0 n i); [|lia|].
        * unfold row_stores. rewrite at_pos_app, P0 by auto. cbn [app]. rewrite at_pos_flat_map.
          rewrite (ents_flat _ z n n nnz) by auto. apply flat_map_ext_in. intros k Hk. pose proof (G i k Hi Hk).
          destruct (zn ind k =? j + b)%Z eqn:Ek.
          { rewrite E by auto. replace (zn ind k - b)%Z with j by lia. rewrite Eij, Et, !Z.eqb_refl.
            replace (j =? i)%Z with false by lia. reflexivity. }
          apply Z0; auto; lia.
        * intros row Hr Hn. unfold row_stores. rewrite at_pos_app, P0 by auto. cbn [app]. rewrite at_pos_flat_map.
          apply flat_map_nil. intros k Hk. pose proof (G row k Hr Hk). rewrite E by auto.
          destruct (row =? zn ind k - b)%Z eqn:E1. { replace (row =? i)%Z with false by lia. now rewrite !andb_false_r. }
          destruct (in_tri fill row (zn ind k - b)) eqn:E2; [|reflexivity].
          replace (row =? i)%Z with false by lia. cbn [andb app].
          destruct ((_ =? i)%Z && (_ =? j)%Z) eqn:E3; [|reflexivity]. exfalso.
          unfold in_tri in *. destruct (fill =? 0)%Z; lia.
      + assert (Et' : in_tri fill j i = true) by (unfold in_tri in *; destruct (fill =? 0)%Z; lia).
        rewrite (flat_map_single _ 0 n j); [|lia|].
        * unfold row_stores. rewrite at_pos_app, P0 by auto. cbn [app]. rewrite at_pos_flat_map.
          rewrite (ents_flat _ z n n nnz b ptr ind val j i) by auto.
          generalize (G j). intros Gj.
          induction (zrange (zn ptr j - b)%Z (zn ptr (j + 1) - b)%Z) as [|k l IH]; [reflexivity|].
          cbn [flat_map]. rewrite flat_map_app. f_equal.
          { pose proof (Gj k Hj ltac:(now left)). destruct (zn ind k =? i + b)%Z eqn:Ek.
            - rewrite E by auto. replace (zn ind k - b)%Z with i by lia. rewrite Et', !Z.eqb_refl.
              replace (j =? i)%Z with false by lia. cbn. now rewrite app_nil_r.
            - apply Z0; auto; lia. }
          { apply IH. intros k' Hk' Hin. apply Gj; auto. now right. }
        * intros row Hr Hn. unfold row_stores. rewrite at_pos_app, P0 by auto. cbn [app]. rewrite at_pos_flat_map.
          apply flat_map_nil. intros k Hk. pose proof (G row k Hr Hk). rewrite E by auto.
          destruct (row =? zn ind k - b)%Z eqn:E1. { replace (row =? j)%Z with false by lia. now rewrite !andb_false_r. }
          destruct (in_tri fill row (zn ind k - b)) eqn:E2; [|reflexivity].
          replace (row =? j)%Z with false by lia. rewrite andb_false_r, app_nil_r.
          destruct ((_ =? i)%Z && (_ =? j)%Z) eqn:E3; [|reflexivity]. exfalso.
          replace row with i in E2 by lia. replace (zn ind k - b)%Z with j in E2 by lia. congruence.
  Qed.
End D.

From Verif Require Import UtilProof.

Lemma last_map0 : forall X Y (f : X -> Y) l d, last (map f l) (f d) = f (last l d).
Proof.
  intros X Y f l d. induction l as [|x l IH] using rev_ind; [reflexivity|]. rewrite map_app. cbn. now rewrite !last_last.
Qed.

Section Main.
  Context {T : Type} (O : ops T) (L : laws O).

  Lemma half_last : forall (ty fill diag b : Z) ptr ind (val : list T) mirror i j,
    (ty = 1 /\ (forall v, mirror v = Some v) \/ ty = 2 /\ (forall v, mirror v = Some (ocj O v)) \/
     ty = 3 /\ (forall v, mirror v = None)) -> (diag = 0 \/ diag = 1 \/ diag = 2) ->
    last (half_ents O diag fill mirror b ptr ind val i j) (o0 O) = descr_mat O ty fill diag b ptr ind val i j.
  Proof.
    intros ty fill diag b ptr ind val mirror i j Hm Hd. unfold half_ents, descr_mat, last_at.
    replace (ty =? 0) with false by lia.
    destruct (i =? j) eqn:E.
    { replace j with i by lia. destruct Hd as [-> | [-> | ->]]; reflexivity. }
    unfold in_tri. destruct (if fill =? 0 then j <? i else i <? j); [reflexivity|].
    destruct Hm as [[-> Hm] | [[-> Hm] | [-> Hm]]]; cbn [Z.eqb Pos.eqb].
    - f_equal. induction (ents b ptr ind val j i) as [|v l IH]; [reflexivity|]. cbn. rewrite Hm. cbn. now f_equal.
    - rewrite <- (last_map0 _ _ (ocj O)), (cj_0 O L). f_equal.
      induction (ents b ptr ind val j i) as [|v l IH]; [reflexivity|]. cbn. rewrite Hm. cbn. now f_equal.
    - rewrite flat_map_nil; [reflexivity|]. intros v _. now rewrite Hm.
  Qed.

  Lemma descr_sym : forall fill diag b ptr ind (val : list T) i j, 
    descr_mat O 1 fill diag b ptr ind val i j = descr_mat O 1 fill diag b ptr ind val j i.
  Proof.
    intros. unfold descr_mat. cbn [Z.eqb Pos.eqb]. destruct (i =? j) eqn:E; [replace j with i by lia; now rewrite Z.eqb_refl|].
    replace (j =? i) with false by lia.
    destruct (fill =? 0).
    - destruct (j <? i) eqn:A1; [replace (i <? j) with false by lia|replace (i <? j) with true by lia]; reflexivity.
    - destruct (i <? j) eqn:A1; [replace (j <? i) with false by lia|replace (j <? i) with true by lia]; reflexivity.
  Qed.

  Lemma csr2dense_core_ok : forall m n nnz d ptr ind (val A : list T) ld order,
    (0 <= md_type d <= 3) ->
    (md_type d <> 0 -> m = n /\ (md_diag d = 0 \/ md_diag d = 1 \/ md_diag d = 2)) ->
    (order = 1 -> md_type d = 0 \/ md_type d = 1) ->
    csr_wf m n nnz (md_base d) ptr ind -> zlen val = nnz -> window_fits order ld m n A ->
    exists A', csr2dense_core O m n d ptr ind val A ld order = Some A' /\
      holds_window (o0 O) order ld m n (descr_mat O (md_type d) (md_fill d) (md_diag d) (md_base d) ptr ind val) A A'.
  Proof.
    intros m n nnz d ptr ind val A ld order Ht Hs Ho W Lv F. unfold csr2dense_core.
    pose proof (zero_run O order ld m n A F) as Z0.
    set (B := apply (zero_stores O order ld m n) A) in *.
    assert (LB : zlen B = zlen A) by apply zlen_apply.
    destruct (order =? 1) eqn:Eo.
    - rewrite Z0. destruct (Z.eq_dec (md_type d) 0) as [T0|T0].
      + rewrite T0. cbn [Z.eqb].
        destruct (general_rows O order ld m n nnz (md_base d) ptr ind val A B W Lv F LB) as (ws & E & Wn & H).
        unfold dense_at in E. rewrite Eo in E.
        exists (apply ws B). split.
        * rewrite <- E. unfold dense_rows. apply for_ext. intros r s Hr. cbv beta. destruct (rd ptr r); [|reflexivity].
          destruct (rd ptr (r + 1)); [|reflexivity]. apply for_ext. intros k s' Hk. cbv beta. destruct (rd ind k); [|reflexivity].
          destruct (rd val k); [|reflexivity]. f_equal. ring.
        * apply zero_then; auto. intros i j Hi Hj. rewrite H by auto. unfold descr_mat. cbn [Z.eqb]. reflexivity.
      + destruct (Ho ltac:(lia)) as [?|T1]; [contradiction|]. destruct (Hs T0) as [-> Hd]. rewrite T1. cbn [Z.eqb Pos.eqb].
        assert (F0 : window_fits 0 ld n n A) by (unfold window_fits in *; rewrite Eo in F; exact F).
        destruct (half_rows O ld n nnz (md_base d) (md_diag d) (md_fill d) (fun row col => row + col * ld) Some
                    ptr ind val A B W Lv F0 LB ltac:(intros; ring) Hd) as (ws & E & Wn & H).
        exists (apply ws B). split; [exact E|].
        assert (SW : forall i j, dense_at order ld i j = dense_at 0 ld j i) by (intros; unfold dense_at; rewrite Eo; cbn; ring).
        apply zero_then; auto.
        * intros w Hw. destruct (Wn w Hw) as (i & j & Hi & Hj & E'). exists j, i. now rewrite SW.
        * intros i j Hi Hj. rewrite SW, H by auto. rewrite descr_sym. apply half_last; auto.
    - rewrite Z0. destruct (Z.eq_dec (md_type d) 0) as [T0|T0].
      + rewrite T0. cbn [Z.eqb].
        destruct (general_rows O order ld m n nnz (md_base d) ptr ind val A B W Lv F LB) as (ws & E & Wn & H).
        unfold dense_at in E. rewrite Eo in E.
        exists (apply ws B). split; [exact E|].
        apply zero_then; auto. intros i j Hi Hj. rewrite H by auto. unfold descr_mat. cbn [Z.eqb]. reflexivity.
      + destruct (Hs T0) as [-> Hd].
        assert (F0 : window_fits 0 ld n n A) by (unfold window_fits in *; rewrite Eo in F; exact F).
        assert (SW : forall i j, dense_at order ld i j = dense_at 0 ld i j) by (intros; unfold dense_at; rewrite Eo; cbn; ring).
        assert (G : forall mirror,
          (md_type d = 1 /\ (forall v, mirror v = Some v) \/ md_type d = 2 /\ (forall v, mirror v = Some (ocj O v)) \/
           md_type d = 3 /\ (forall v, mirror v = None)) ->
          exists A', dense_rows n (md_base d) ptr ind val (dense_diag O (md_diag d) ld)
             (dense_half (md_fill d) (md_diag d) ld (fun row col => row * ld + col) mirror) B = Some A' /\
          holds_window (o0 O) order ld n n (descr_mat O (md_type d) (md_fill d) (md_diag d) (md_base d) ptr ind val) A A').
        { intros mirror Hm.
          destruct (half_rows O ld n nnz (md_base d) (md_diag d) (md_fill d) (fun row col => row * ld + col) mirror
                    ptr ind val A B W Lv F0 LB ltac:(intros; ring) Hd) as (ws & E & Wn & H).
          exists (apply ws B). split; [exact E|]. apply zero_then; auto.
          - intros w Hw. destruct (Wn w Hw) as (i & j & Hi & Hj & E'). exists i, j. now rewrite SW.
          - intros i j Hi Hj. rewrite SW, H by auto. apply half_last; auto. }
        replace (md_type d =? 0) with false by lia.
        destruct ((md_type d =? 1) || (md_type d =? 2)) eqn:E12.
        * apply G. destruct (md_type d =? 2) eqn:E2; [right; left|left]; split; auto; lia.
        * replace (md_type d =? 3) with true by lia. apply G. right; right. split; auto; lia.
  Qed.

  Lemma csr2dense_ok : forall w m n nnz d ptr ind (val A : list T) ld order,
    0 < w -> 0 < m <= int_max w -> 0 < n <= int_max w -> 0 <= ld <= int_max w ->
    (if order =? 1 then n else m) * ld <= int_max w ->
    (md_base d = 0 \/ md_base d = 1) -> (0 <= md_type d <= 3) ->
    (md_type d <> 0 -> m = n /\ (md_fill d = 0 \/ md_fill d = 1) /\ (md_diag d = 0 \/ md_diag d = 1 \/ md_diag d = 2)) ->
    (order = 1 -> md_type d = 0 \/ md_type d = 1) ->
    csr_wf m n nnz (md_base d) ptr ind -> zlen val = nnz -> window_fits order ld m n A ->
    exists A', csr2dense O w m n (Some d) (Some val) (Some ptr) (Some ind) (Some A) ld order = Some (success, Some A') /\
      holds_window (o0 O) order ld m n (descr_mat O (md_type d) (md_fill d) (md_diag d) (md_base d) ptr ind val) A A'.
  Proof.
    intros w m n nnz d ptr ind val A ld order Hw Hm Hn Hl Hov Hb Ht Hs Ho W Lv F. unfold csr2dense.
    destruct (csr2dense_core_ok m n nnz d ptr ind val A ld order Ht) as (A' & E & H); auto.
    { intros T0. destruct (Hs T0) as (? & ? & ?). auto. }
    replace (negb (md_base d =? 0) && negb (md_base d =? 1)) with false by lia.
    replace (negb (md_type d =? 0) && negb (md_type d =? 1) && negb (md_type d =? 3) && negb (md_type d =? 2)) with false by lia.
    replace ((order =? 1) && ((md_type d =? 3) || (md_type d =? 2))) with false by lia.
    replace (negb (md_type d =? 0) && (negb (md_fill d =? 0) && negb (md_fill d =? 1))) with false by lia.
    replace (negb (md_type d =? 0) && (negb (md_diag d =? 0) && negb (md_diag d =? 1) && negb (md_diag d =? 2))) with false by lia.
    replace ((m <? 0) || (n <? 0)) with false by lia. replace ((m =? 0) || (n =? 0)) with false by lia.
    destruct (int_product_exact_nonneg w (if order =? 1 then n else m) ld Hw) as (r & Er & Hr); [destruct (order =? 1); lia|lia|].
    rewrite Er. destruct r; [destruct Hr as [Hr _]; specialize (Hr eq_refl); lia|]. rewrite E. eauto.
  Qed.

  (** Rejections. *)
  Lemma csr2dense_reject : forall w m n d_p (val_p : option (list T)) ptr_p ind_p A_p ld order st A',
    0 < w -> - 2 ^ w <= m <= int_max w -> - 2 ^ w <= n <= int_max w -> - 2 ^ w <= ld <= int_max w ->
    csr2dense O w m n d_p val_p ptr_p ind_p A_p ld order = Some (st, A') -> st <> success ->
    A' = A_p /\
    (st = invalid_pointer /\ (d_p = None \/ val_p = None \/ ptr_p = None \/ ind_p = None \/ A_p = None) \/
     st = invalid_size /\ (m < 0 \/ n < 0 \/ (if order =? 1 then n else m) * ld <= - 2 ^ w \/ int_max w < (if order =? 1 then n else m) * ld) \/
     exists d, d_p = Some d /\
       (st = not_implemented /\ order = 1 /\ (md_type d = 2 \/ md_type d = 3) \/
        st = invalid_value /\
          (~ (0 <= md_base d <= 1) \/ ~ (0 <= md_type d <= 3) \/
           md_type d <> 0 /\ (~ (0 <= md_fill d <= 1) \/ ~ (0 <= md_diag d <= 2))))).
  Proof.
    intros w m n d_p val_p ptr_p ind_p A_p ld order st A' Hw Hm Hn Hl E Hst. unfold csr2dense in E.
    destruct d_p as [d|]; [|inversion E; subst; auto 10].
    repeat match type of E with
    | (if ?c then Some _ else _) = _ => let C := fresh "C" in destruct c eqn:C; [inversion E; subst; split; [reflexivity|]|]
    end; try (exfalso; congruence);
    try (right; right; exists d; split; [reflexivity|]; right; split; [reflexivity|]; lia).
    - right; right; exists d; split; [reflexivity|]; left; split; [reflexivity|]; lia.
    - right; left. split; [reflexivity|]. lia.
    - destruct val_p as [val|]; [|inversion E; subst; auto 10]. destruct ptr_p as [ptr|]; [|inversion E; subst; auto 10].
      destruct ind_p as [ind|]; [|inversion E; subst; auto 10]. destruct A_p as [A|]; [|inversion E; subst; auto 10].
      pose proof (pow_w w Hw) as Hp.
      rewrite int_product_overflow_spec in E by (unfold in_int, int_min, int_max in *; destruct (order =? 1); lia).
      set (ab := (if order =? 1 then n else m) * ld) in *.
      destruct (negb _) eqn:N in E.
      + inversion E; subst. split; [reflexivity|]. right; left. split; [reflexivity|].
        unfold in_int, int_min in N. lia.
      + destruct (csr2dense_core _ _ _ _ _ _ _ _ _ _) in E; [|discriminate]. inversion E; congruence.
  Qed.
End Main.

(** A 2 x 1 "triangular" matrix with unit diagonal: row 1 has no diagonal, yet 1 is
    stored at [1*ld + 1], outside the window (here outside the array). *)
Lemma csr2dense_tall_refuted :
  csr2dense Zops 31 2 1 (Some (mkMD 3 0 1 0)) (Some []) (Some [0;0;0]) (Some []) (Some [5;5]) 1 0 = None /\
  csr2dense Zops 31 2 1 (Some (mkMD 3 0 1 0)) (Some []) (Some [0;0;0]) (Some []) (Some [5;5;5;5]) 2 0
    = Some (success, Some [1;5;0;1]).
Proof. split; reflexivity. Qed.
