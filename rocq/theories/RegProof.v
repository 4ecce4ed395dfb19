From Coq Require Import ZArith List Bool Ascii String Lia.
From Verif Require Import Base BaseFacts UtilModel RegModel RegSpec.
Import ListNotations.
Open Scope Z_scope.

(** * Characters *)
Lemma lower_space : forall c, is_space (lower c) = is_space c.
Proof. intros c. destruct c as [[] [] [] [] [] [] [] []]; reflexivity. Qed.
Lemma lower_lower : forall c, lower (lower c) = lower c.
Proof. intros c. destruct c as [[] [] [] [] [] [] [] []]; reflexivity. Qed.
Lemma space_blank : is_space blank = true. Proof. reflexivity. Qed.

(** * Words *)
Fixpoint join (ws : list str) : str :=
  match ws with [] => [] | [w] => w | w :: t => w ++ blank :: join t end.

Definition hd_space (s : str) : bool := match s with c :: _ => is_space c | [] => false end.
Definition end_ok (s : str) : Prop := match rev s with c :: _ => is_space c = false | [] => True end.

Lemma words_cons_space : forall c t, is_space c = true -> words (c :: t) = words t.
Proof. intros c t H. cbn. rewrite H. reflexivity. Qed.

Lemma words_nonnil : forall c t, is_space c = false -> words (c :: t) <> [].
Proof.
  intros c t H. cbn. rewrite H. destruct t as [|d t']; [discriminate|].
  destruct (is_space d); [discriminate|].
  destruct (words (d :: t')); discriminate.
Qed.

Lemma end_ok_cons : forall c t, end_ok (c :: t) -> t <> [] -> end_ok t.
Proof.
  intros c t H N. unfold end_ok in *. cbn [rev] in H.
  destruct (rev t) as [|x r] eqn:E; [trivial|]. exact H.
Qed.

Lemma end_ok_one : forall c, end_ok [c] -> is_space c = false.
Proof. intros c H. exact H. Qed.

Lemma end_ok_words : forall s, end_ok s -> s <> [] -> words s <> [].
Proof.
  induction s as [|c t IH]; intros E N; [congruence|].
  destruct (is_space c) eqn:S; [|apply words_nonnil; exact S].
  rewrite words_cons_space by exact S.
  destruct t as [|d t']; [apply end_ok_one in E; congruence|].
  apply IH; [eapply end_ok_cons; eauto; discriminate|discriminate].
Qed.

Lemma squeeze_n : forall c t, is_space c = false -> squeeze (c :: t) = c :: squeeze t.
Proof. intros c t H. cbn. rewrite H. reflexivity. Qed.
Lemma squeeze_ss : forall c d t, is_space c = true -> is_space d = true -> squeeze (c :: d :: t) = squeeze (d :: t).
Proof. intros c d t H D. remember (d :: t) as L. cbn [squeeze]. rewrite H. subst L. rewrite D. reflexivity. Qed.
Lemma squeeze_sn : forall c d t, is_space c = true -> is_space d = false -> squeeze (c :: d :: t) = blank :: squeeze (d :: t).
Proof. intros c d t H D. remember (d :: t) as L. cbn [squeeze]. rewrite H. subst L. rewrite D. reflexivity. Qed.
Lemma words_ns : forall c d t, is_space c = false -> is_space d = true -> words (c :: d :: t) = [lower c] :: words (d :: t).
Proof. intros c d t H D. remember (d :: t) as L. cbn [words]. rewrite H. subst L. rewrite D. reflexivity. Qed.
Lemma words_nn : forall c d t, is_space c = false -> is_space d = false ->
  words (c :: d :: t) = match words (d :: t) with w :: ws => (lower c :: w) :: ws | [] => [[lower c]] end.
Proof. intros c d t H D. remember (d :: t) as L. cbn [words]. rewrite H. subst L. rewrite D. reflexivity. Qed.

Lemma squeeze_words : forall s, end_ok s ->
  map lower (squeeze s) = (if hd_space s then [blank] else []) ++ join (words s).
Proof.
  induction s as [|c t IH]; intros E; [reflexivity|].
  destruct t as [|d t'].
  - pose proof (end_ok_one _ E) as S. cbn. rewrite S. cbn. reflexivity.
  - assert (E' : end_ok (d :: t')) by (eapply end_ok_cons; eauto; discriminate).
    specialize (IH E').
    assert (N : words (d :: t') <> []) by (apply end_ok_words; [exact E'|discriminate]).
    change (hd_space (d :: t')) with (is_space d) in IH.
    change (hd_space (c :: d :: t')) with (is_space c).
    destruct (is_space c) eqn:S, (is_space d) eqn:D.
    + rewrite squeeze_ss, words_cons_space by assumption. exact IH.
    + rewrite squeeze_sn, words_cons_space by assumption. cbn [map]. rewrite IH. reflexivity.
    + rewrite squeeze_n, words_ns by assumption. cbn [map]. rewrite IH.
      destruct (words (d :: t')); [congruence|]. reflexivity.
    + rewrite squeeze_n, words_nn by assumption. cbn [map]. rewrite IH.
      destruct (words (d :: t')) as [|w [|w' ws]]; [congruence| |]; reflexivity.
Qed.

Lemma ltrim_words : forall s, words (ltrim s) = words s.
Proof.
  induction s as [|c t IH]; [reflexivity|]. cbn [ltrim].
  destruct (is_space c) eqn:S; [|reflexivity]. rewrite IH. symmetry. apply words_cons_space; exact S.
Qed.

Lemma ltrim_hd : forall s, hd_space (ltrim s) = false.
Proof. induction s as [|c t IH]; [reflexivity|]. cbn [ltrim]. destruct (is_space c) eqn:S; [exact IH|exact S]. Qed.

Lemma ltrim_split : forall s, exists a, s = a ++ ltrim s /\ forall c, In c a -> is_space c = true.
Proof.
  induction s as [|c t IH]; [exists []; split; [reflexivity|intros ? []]|]. cbn [ltrim].
  destruct (is_space c) eqn:S.
  - destruct IH as (a & E & H). exists (c :: a). split; [cbn; congruence|]. intros x [<- | X]; auto.
  - exists []. split; [reflexivity|intros ? []].
Qed.

Lemma rtrim_split : forall s, exists a, s = rtrim s ++ a /\ forall c, In c a -> is_space c = true.
Proof.
  intros s. destruct (ltrim_split (rev s)) as (a & E & H). exists (rev a). split.
  - unfold rtrim. rewrite <- rev_app_distr, <- E, rev_involutive. reflexivity.
  - intros c Hc. apply H. apply in_rev. exact Hc.
Qed.

Lemma rtrim_end : forall s, end_ok (rtrim s).
Proof.
  intros s. unfold end_ok, rtrim. rewrite rev_involutive. pose proof (ltrim_hd (rev s)) as H.
  destruct (ltrim (rev s)); [trivial|exact H].
Qed.

Lemma words_tail : forall s a, (forall c, In c a -> is_space c = true) -> words (s ++ a) = words s.
Proof.
  intros s a H.
  assert (A : words a = []).
  { clear s. induction a as [|c a IH]; [reflexivity|]. rewrite words_cons_space by (apply H; left; reflexivity). apply IH. intros; apply H; right; assumption. }
  induction s as [|c t IH]; [exact A|].
  change ((c :: t) ++ a) with (c :: (t ++ a)).
  destruct (is_space c) eqn:S; [rewrite !words_cons_space by exact S; exact IH|].
  destruct t as [|d t'].
  - cbn [app]. destruct a as [|e a']; [reflexivity|].
    cbn [words]. rewrite S. rewrite (H e) by (left; reflexivity).
    cbn [words] in A. rewrite (H e) in A by (left; reflexivity). rewrite A. reflexivity.
  - change ((d :: t') ++ a) with (d :: (t' ++ a)) in *.
    remember (d :: t' ++ a) as L eqn:EL. remember (d :: t') as L0 eqn:EL0.
    cbn [words]. rewrite S. rewrite IH, EL, EL0. reflexivity.
Qed.

Lemma prepare_join : forall s, prepare s = join (words s).
Proof.
  intros s. unfold prepare. rewrite squeeze_words by apply rtrim_end.
  destruct (rtrim_split (ltrim s)) as (a & E & H).
  assert (W : words (rtrim (ltrim s)) = words s).
  { rewrite <- (ltrim_words s). rewrite E at 2. symmetry. apply words_tail; exact H. }
  rewrite W.
  assert (D : hd_space (rtrim (ltrim s)) = false).
  { pose proof (ltrim_hd s) as Hh. destruct (rtrim (ltrim s)) as [|c r]; [reflexivity|]. rewrite E in Hh. exact Hh. }
  rewrite D. reflexivity.
Qed.

Definition word_ok (w : str) : Prop := w <> [] /\ forall c, In c w -> is_space c = false /\ lower c = c.

Lemma words_ok : forall s, Forall word_ok (words s).
Proof.
  induction s as [|c t IH]; [constructor|].
  destruct (is_space c) eqn:S; [rewrite words_cons_space by exact S; exact IH|].
  assert (C : is_space (lower c) = false /\ lower (lower c) = lower c) by (rewrite lower_space, lower_lower; auto).
  assert (O : word_ok [lower c]).
  { split; [discriminate|]. intros x [<- | []]; exact C. }
  destruct t as [|d t'].
  - cbn [words]. rewrite S. constructor; [exact O|constructor].
  - destruct (is_space d) eqn:D.
    + rewrite words_ns by assumption. constructor; assumption.
    + rewrite words_nn by assumption.
      destruct (words (d :: t')) as [|w ws]; [constructor; [exact O|constructor]|].
      inversion IH as [|? ? Hw Hws]; subst. constructor; [|assumption].
      split; [discriminate|]. intros x [<- | X]; [exact C|]. apply Hw; exact X.
Qed.

Lemma words_word : forall w rest, word_ok w -> (rest = [] \/ hd_space rest = true) -> words (w ++ rest) = w :: words rest.
Proof.
  induction w as [|c t IH]; intros rest W R; [destruct W; congruence|].
  destruct W as (_ & W). destruct (W c (or_introl eq_refl)) as (S & L).
  destruct t as [|d t'].
  - cbn [app]. destruct R as [-> | R]; [cbn [words]; rewrite S, L; reflexivity|]. destruct rest as [|e r]; [discriminate|].
    cbn [hd_space] in R. rewrite words_ns, L by assumption. reflexivity.
  - destruct (W d (or_intror (or_introl eq_refl))) as (Sd & _).
    assert (Wt : word_ok (d :: t')) by (split; [discriminate|intros x X; apply W; right; exact X]).
    change ((c :: d :: t') ++ rest) with (c :: d :: (t' ++ rest)). rewrite words_nn by assumption.
    change (d :: t' ++ rest) with ((d :: t') ++ rest). rewrite (IH rest Wt R), L. reflexivity.
Qed.

Lemma words_join : forall ws, Forall word_ok ws -> words (join ws) = ws.
Proof.
  induction ws as [|w ws IH]; intros F; [reflexivity|]. inversion F as [|? ? Hw Hws]; subst.
  destruct ws as [|w' ws'].
  - cbn [join]. rewrite <- (app_nil_r w) at 1. rewrite words_word by (auto). reflexivity.
  - change (join (w :: w' :: ws')) with (w ++ blank :: join (w' :: ws')).
    rewrite words_word by (auto). rewrite words_cons_space by reflexivity. rewrite IH by assumption. reflexivity.
Qed.

Lemma words_prepare : forall s, words (prepare s) = words s.
Proof. intros s. rewrite prepare_join. apply words_join. apply words_ok. Qed.

Theorem prepare_same : forall a b, prepare a = prepare b <-> same_name a b.
Proof.
  intros a b. unfold same_name. split; intros H.
  - rewrite <- (words_prepare a), <- (words_prepare b), H. reflexivity.
  - rewrite !prepare_join, H. reflexivity.
Qed.

Lemma prepare_idem : forall s, prepare (prepare s) = prepare s.
Proof. intros s. apply prepare_same. unfold same_name. apply words_prepare. Qed.

Lemma eqs_true : forall a b, eqs a b = true <-> a = b.
Proof. intros a b. unfold eqs. destruct (list_eq_dec ascii_dec a b); split; congruence. Qed.

(** * Searching *)
Section Find.
  Context {O : Type} (name : O -> str).
  Lemma found_some : forall p l o, found name p l = Some o ->
    name o = p /\ exists a b, l = a ++ o :: b /\
    forall (set : O -> Z + O) locked,
      set_first name set p locked l =
      if locked : bool then (4, l) else match set o with inl c => (c, l) | inr o' => (0, a ++ o' :: b) end.
  Proof.
    intros p l o. unfold found. induction l as [|x l IH]; [discriminate|]. cbn [find].
    destruct (eqs (name x) p) eqn:E.
    - intros H. injection H as ->. split; [apply eqs_true; exact E|]. exists [], l. split; [reflexivity|].
      intros set locked. cbn [set_first]. rewrite E. reflexivity.
    - intros H. destruct (IH H) as (N & a & b & -> & Hs). split; [exact N|]. exists (x :: a), b. split; [reflexivity|].
      intros set locked. cbn [set_first]. rewrite E, Hs. destruct locked; [reflexivity|]. destruct (set o); reflexivity.
  Qed.
  Lemma found_none : forall p l, found name p l = None -> forall o, In o l -> name o <> p.
  Proof. intros p l H o Ho E. apply (find_none _ _ H) in Ho. rewrite E in Ho. assert (eqs p p = true) by (apply eqs_true; reflexivity). congruence. Qed.
  Lemma found_in : forall p l o, In o l -> name o = p -> exists o', found name p l = Some o'.
  Proof.
    intros p l o H E. destruct (found name p l) eqn:Q; [eauto|]. exfalso. exact (found_none _ _ Q o H E).
  Qed.
End Find.

Section R.
  Context {F : Type} (lt le : F -> F -> bool) (nan : F -> bool) (stod : str -> option F).
  Notation registry := (registry F).
  Notation options := (@options F).
  Notation allowed := (allowed lt le nan).
  Notation reg_ok := (reg_ok lt le nan).
  Notation reads := (reads stod).
  Notation parse := (parse_option lt le nan stod).

  Definition d_int (o : int_opt) : str * kind F * value F := (i_name o, k_int (i_lo o) (i_lb o) (i_hi o) (i_ub o), v_int (i_val o)).
  Definition d_real (o : real_opt F) : str * kind F * value F := (r_name o, k_real (r_lo o) (r_lb o) (r_hi o) (r_ub o), v_real (r_val o)).
  Definition d_str (o : str_opt) : str * kind F * value F := (s_name o, k_str (s_labels o), v_str (s_val o)).
  Definition d_bool (o : bool_opt) : str * kind F * value F := (b_name o, k_bool, v_bool (b_val o)).

  Lemma options_eq : forall g : registry, options g = map d_int (g_int g) ++ map d_real (g_real g) ++ map d_str (g_str g) ++ map d_bool (g_bool g).
  Proof. reflexivity. Qed.

  Lemma int_flag_ok : forall v lo lb hi ub, int_flag v lo lb hi ub = 0 <-> above lo v lb /\ below v hi ub.
  Proof.
    intros v lo lb hi ub. unfold int_flag.
    destruct lb, ub; cbn [above below];
      repeat match goal with |- context [if ?c then _ else _] => destruct c eqn:? end; split; intros; lia.
  Qed.
  Lemma real_flag_ok : forall v lo lb hi ub, real_flag lt le v lo lb hi ub = 0 <-> aboveR lt le lo v lb /\ belowR lt le v hi ub.
  Proof.
    intros v lo lb hi ub. unfold real_flag.
    destruct lb, ub; cbn [aboveR belowR];
      repeat match goal with |- context [if ?c then _ else _] => destruct c eqn:? end;
      split; intros H; try (destruct H; discriminate); try lia; auto.
  Qed.

  Lemma label_in : forall v ls, existsb (fun e : str * Z => eqs (fst e) v) ls = true <-> exists k, In (v, k) ls.
  Proof.
    intros v ls. rewrite existsb_exists. split.
    - intros ((a, k) & Hi & E). apply eqs_true in E. cbn in E. subst. eauto.
    - intros (k & Hi). exists (v, k). split; [exact Hi|]. apply eqs_true. reflexivity.
  Qed.

  Lemma key_some : forall o : str_opt, (exists k, In (s_val o, k) (s_labels o)) -> exists z, label_key o = Some z.
  Proof.
    intros o (k & H). unfold label_key.
    destruct (find _ _) eqn:E; [cbn; eauto|]. exfalso. apply (find_none _ _ E) in H. cbn in H.
    assert (eqs (s_val o) (s_val o) = true) by (apply eqs_true; reflexivity). congruence.
  Qed.

  (** An entry is replaced *)
  Definition changed (g g' : registry) (n : str) (k : kind F) (v v' : value F) : Prop :=
    exists A B, options g = A ++ (prepare n, k, v) :: B /\ options g' = A ++ (prepare n, k, v') :: B.

  Definition set_done (g : registry) (n t : str) (r : outcome * registry) : Prop :=
    (fst r <> returns success /\ snd r = g) \/
    (fst r = returns success /\ g_locked g = false /\ g_locked (snd r) = false /\
     exists k v v', reads k t v' /\ allowed k v' /\ changed g (snd r) n k v v').

  Lemma flag_fail : forall c, 1 <= c <= 4 -> returns (flag_status c) <> returns success.
  Proof. intros c H E. unfold flag_status in E. destruct (c =? 0) eqn:?; [lia|]. destruct ((1 <=? c) && (c <=? 4)); discriminate. Qed.

  Lemma reg_eta : forall g : registry, mkReg (g_int g) (g_real g) (g_bool g) (g_str g) (g_locked g) = g.
  Proof. intros []; reflexivity. Qed.

  (** Whatever is asked, either nothing changes or one entry is replaced by an allowed value *)
  Theorem parse_cases : forall g n t, reg_ok g -> set_done g n t (parse g (Some n) (Some t)).
  Proof.
    intros g n t (Hok & ND). unfold parse_option.
    unfold get_int, get_real, get_bool.
    destruct (found i_name (prepare n) (g_int g)) as [o|] eqn:FI; cbn [option_map].
    { destruct (found_some _ _ _ _ FI) as (N & a & b & El & Hs).
      destruct (stoi t) as [z|] eqn:Z1; [|left; split; [discriminate|reflexivity]].
      unfold opt_set_int. rewrite Hs. destruct (g_locked g) eqn:LK.
      - left. rewrite <- LK, reg_eta. split; [apply (flag_fail 4); lia|reflexivity].
      - unfold set_int. destruct (int_flag z (i_lo o) (i_lb o) (i_hi o) (i_ub o) =? 0) eqn:Fl.
        + right. split; [reflexivity|]. split; [exact LK|]. split; [reflexivity|].
          exists (k_int (i_lo o) (i_lb o) (i_hi o) (i_ub o)), (v_int (i_val o)), (v_int z).
          split; [exact Z1|]. split; [apply int_flag_ok; lia|].
          exists (map d_int a), (map d_int b ++ map d_real (g_real g) ++ map d_str (g_str g) ++ map d_bool (g_bool g)).
          rewrite !options_eq. cbn [fst snd g_int g_real g_str g_bool]. rewrite El, !map_app. cbn [map].
          rewrite <- !app_assoc. cbn [app]. unfold d_int at 2 5. cbn. rewrite N. split; reflexivity.
        + left. rewrite <- LK, reg_eta. split; [apply (flag_fail 1); lia|reflexivity]. }
    destruct (found r_name (prepare n) (g_real g)) as [o|] eqn:FR; cbn [option_map].
    { destruct (found_some _ _ _ _ FR) as (N & a & b & El & Hs).
      destruct (stod t) as [z|] eqn:Z1; [|left; split; [discriminate|reflexivity]].
      unfold opt_set_real. rewrite Hs. destruct (g_locked g) eqn:LK.
      - left. rewrite <- LK, reg_eta. split; [apply (flag_fail 4); lia|reflexivity].
      - unfold set_real. destruct (nan z) eqn:NN; [left; rewrite <- LK, reg_eta; split; [apply (flag_fail 2); lia|reflexivity]|].
        destruct (real_flag lt le z (r_lo o) (r_lb o) (r_hi o) (r_ub o) =? 0) eqn:Fl.
        + right. split; [reflexivity|]. split; [exact LK|]. split; [reflexivity|].
          exists (k_real (r_lo o) (r_lb o) (r_hi o) (r_ub o)), (v_real (r_val o)), (v_real z).
          split; [exact Z1|]. split; [split; [exact NN|apply real_flag_ok; lia]|].
          exists (map d_int (g_int g) ++ map d_real a), (map d_real b ++ map d_str (g_str g) ++ map d_bool (g_bool g)).
          rewrite !options_eq. cbn [fst snd g_int g_real g_str g_bool]. rewrite El, !map_app. cbn [map].
          rewrite <- !app_assoc. cbn [app]. unfold d_real at 2 5. cbn. rewrite N. split; reflexivity.
        + left. rewrite <- LK, reg_eta. split; [apply (flag_fail 1); lia|reflexivity]. }
    destruct (found s_name (prepare n) (g_str g)) as [o|] eqn:FS.
    { destruct (found_some _ _ _ _ FS) as (N & a & b & El & Hs).
      destruct (label_key o) as [z|] eqn:Z1; [|left; split; [discriminate|reflexivity]].
      unfold opt_set_str. rewrite Hs. destruct (g_locked g) eqn:LK.
      - left. rewrite <- LK, reg_eta. split; [apply (flag_fail 4); lia|reflexivity].
      - unfold set_str. cbv zeta. destruct (existsb _ (s_labels o)) eqn:Fl.
        + right. split; [reflexivity|]. split; [exact LK|]. split; [reflexivity|].
          exists (k_str (s_labels o)), (v_str (s_val o)), (v_str (prepare t)).
          split; [reflexivity|]. split; [apply label_in; exact Fl|].
          exists (map d_int (g_int g) ++ map d_real (g_real g) ++ map d_str a), (map d_str b ++ map d_bool (g_bool g)).
          rewrite !options_eq. cbn [fst snd g_int g_real g_str g_bool]. rewrite El, !map_app. cbn [map].
          rewrite <- !app_assoc. cbn [app]. unfold d_str at 2 5. cbn. rewrite N. split; reflexivity.
        + left. rewrite <- LK, reg_eta. split; [apply (flag_fail 2); lia|reflexivity]. }
    destruct (found b_name (prepare n) (g_bool g)) as [o|] eqn:FB; cbn [option_map].
    { destruct (found_some _ _ _ _ FB) as (N & a & b & El & Hs).
      destruct (stoi t) as [z|] eqn:Z1; [|left; split; [discriminate|reflexivity]].
      unfold opt_set_bool. rewrite Hs. destruct (g_locked g) eqn:LK.
      - left. rewrite <- LK, reg_eta. split; [apply (flag_fail 4); lia|reflexivity].
      - unfold set_bool.
        right. split; [reflexivity|]. split; [exact LK|]. split; [reflexivity|].
        exists k_bool, (v_bool (b_val o)), (v_bool (negb (z =? 0))).
        split; [exists z; auto|]. split; [exact I|].
        exists (map d_int (g_int g) ++ map d_real (g_real g) ++ map d_str (g_str g) ++ map d_bool a), (map d_bool b).
        rewrite !options_eq. cbn [fst snd g_int g_real g_str g_bool]. rewrite El, !map_app. cbn [map].
        rewrite <- !app_assoc. cbn [app]. unfold d_bool at 2 5. cbn. rewrite N. split; reflexivity. }
    left. split; [discriminate|reflexivity].
  Qed.

  (** * What a replacement means *)
  Lemma changed_ok : forall g g' n k v v', reg_ok g -> allowed k v' -> changed g g' n k v v' -> reg_ok g'.
  Proof.
    intros g g' n k v v' (H & ND) Al (A & B & E & E'). unfold RegSpec.reg_ok in *. rewrite E in *. rewrite E'. split.
    - intros n1 k1 v1 Hi. apply in_app_or in Hi. destruct Hi as [Hi | [Hi | Hi]].
      + apply H. apply in_or_app. left; exact Hi.
      + injection Hi as <- <- <-. split; [apply prepare_idem|exact Al].
      + apply H. apply in_or_app. right; right; exact Hi.
    - rewrite map_app in *. cbn [map fst] in *. exact ND.
  Qed.

  Lemma changed_has : forall g g' n k v v', changed g g' n k v v' -> has g n k v /\ has g' n k v'.
  Proof.
    intros g g' n k v v' (A & B & E & E'). unfold has. rewrite E, E'.
    split; exists (prepare n); (split; [unfold same_name; symmetry; apply words_prepare|]); apply in_or_app; right; left; reflexivity.
  Qed.

  Lemma changed_other : forall g g' n k v v' m k1 v1, reg_ok g -> changed g g' n k v v' -> ~ same_name m n ->
    (has g' m k1 v1 <-> has g m k1 v1).
  Proof.
    intros g g' n k v v' m k1 v1 (H & ND) (A & B & E & E') NS. unfold has. rewrite E, E'.
    split; intros (n' & S & Hi); exists n'; (split; [exact S|]);
      apply in_app_or in Hi; apply in_or_app; (destruct Hi as [Hi | [Hi | Hi]]; [left; exact Hi| |right; right; exact Hi]);
      exfalso; apply NS; injection Hi as <- <- <-; unfold same_name in *; rewrite S; apply words_prepare.
  Qed.

  Lemma has_unique : forall g n k v k' v', reg_ok g -> has g n k v -> has g n k' v' -> k = k' /\ v = v'.
  Proof.
    intros g n k v k' v' (H & ND) (a & Sa & Ia) (b & Sb & Ib).
    unfold same_name in *.
    assert (E : words a = words b) by congruence.
    destruct (in_split _ _ Ia) as (X & Y & EX). rewrite EX in Ib, ND. rewrite map_app in ND. cbn [map fst] in ND.
    apply NoDup_remove_2 in ND.
    apply in_app_or in Ib. destruct Ib as [Ib | [Ib | Ib]].
    - exfalso. apply ND. apply in_or_app. left. rewrite E. apply (in_map (fun o : str * kind F * value F => words (fst (fst o)))) in Ib. exact Ib.
    - injection Ib as _ -> ->. auto.
    - exfalso. apply ND. apply in_or_app. right. rewrite E. apply (in_map (fun o : str * kind F * value F => words (fst (fst o)))) in Ib. exact Ib.
  Qed.

  (** * Completeness *)
  Lemma in_options : forall (g : registry) n k v, reg_ok g -> has g n k v -> In (prepare n, k, v) (options g).
  Proof.
    intros g n k v (H & ND) (n' & S & Hi). destruct (H _ _ _ Hi) as (P & _).
    apply prepare_same in S. rewrite S, P. exact Hi.
  Qed.

  Lemma kind_int : forall (g : registry) n k v, reg_ok g -> has g n k v -> forall o, found i_name (prepare n) (g_int g) = Some o ->
    k = k_int (i_lo o) (i_lb o) (i_hi o) (i_ub o).
  Proof.
    intros g n k v R Hh o Fo. destruct (found_some _ _ _ _ Fo) as (N & a & b & El & _).
    apply (has_unique g n k v _ (v_int (i_val o)) R Hh).
    exists (prepare n). split; [unfold same_name; symmetry; apply words_prepare|].
    rewrite options_eq. apply in_or_app. left. rewrite <- N. apply (in_map d_int). rewrite El. apply in_or_app. right; left; reflexivity.
  Qed.
  Lemma kind_real : forall (g : registry) n k v, reg_ok g -> has g n k v -> forall o, found r_name (prepare n) (g_real g) = Some o ->
    k = k_real (r_lo o) (r_lb o) (r_hi o) (r_ub o).
  Proof.
    intros g n k v R Hh o Fo. destruct (found_some _ _ _ _ Fo) as (N & a & b & El & _).
    apply (has_unique g n k v _ (v_real (r_val o)) R Hh).
    exists (prepare n). split; [unfold same_name; symmetry; apply words_prepare|].
    rewrite options_eq. apply in_or_app. right. apply in_or_app. left. rewrite <- N. apply (in_map d_real). rewrite El. apply in_or_app. right; left; reflexivity.
  Qed.
  Lemma kind_str : forall (g : registry) n k v, reg_ok g -> has g n k v -> forall o, found s_name (prepare n) (g_str g) = Some o ->
    k = k_str (s_labels o) /\ v = v_str (s_val o).
  Proof.
    intros g n k v R Hh o Fo. destruct (found_some _ _ _ _ Fo) as (N & a & b & El & _).
    apply (has_unique g n k v _ _ R Hh).
    exists (prepare n). split; [unfold same_name; symmetry; apply words_prepare|].
    rewrite options_eq. apply in_or_app. right. apply in_or_app. right. apply in_or_app. left.
    rewrite <- N. apply (in_map d_str). rewrite El. apply in_or_app. right; left; reflexivity.
  Qed.
  Lemma kind_bool : forall (g : registry) n k v, reg_ok g -> has g n k v -> forall o, found b_name (prepare n) (g_bool g) = Some o -> k = k_bool.
  Proof.
    intros g n k v R Hh o Fo. destruct (found_some _ _ _ _ Fo) as (N & a & b & El & _).
    apply (has_unique g n k v _ (v_bool (b_val o)) R Hh).
    exists (prepare n). split; [unfold same_name; symmetry; apply words_prepare|].
    rewrite options_eq. apply in_or_app. right. apply in_or_app. right. apply in_or_app. right.
    rewrite <- N. apply (in_map d_bool). rewrite El. apply in_or_app. right; left; reflexivity.
  Qed.

  Lemma parse_success : forall g n t k v v', reg_ok g -> has g n k v -> reads k t v' -> allowed k v' -> g_locked g = false ->
    fst (parse g (Some n) (Some t)) = returns success.
  Proof.
    intros g n t k v v' R Hh Rd Al LK. unfold parse_option. unfold get_int, get_real, get_bool.
    destruct (found i_name (prepare n) (g_int g)) as [o|] eqn:FI; cbn [option_map].
    { rewrite (kind_int _ _ _ _ R Hh _ FI) in *. destruct (found_some _ _ _ _ FI) as (N & a & b & El & Hs).
      destruct v'; try contradiction. cbn in Rd. rewrite Rd. unfold opt_set_int. rewrite Hs, LK. unfold set_int.
      destruct Al as (A1 & A2). rewrite (proj2 (int_flag_ok _ _ _ _ _) (conj A1 A2)). reflexivity. }
    destruct (found r_name (prepare n) (g_real g)) as [o|] eqn:FR; cbn [option_map].
    { rewrite (kind_real _ _ _ _ R Hh _ FR) in *. destruct (found_some _ _ _ _ FR) as (N & a & b & El & Hs).
      destruct v'; try contradiction. cbn in Rd. rewrite Rd. unfold opt_set_real. rewrite Hs, LK. unfold set_real.
      destruct Al as (A0 & A1). rewrite A0. rewrite (proj2 (real_flag_ok _ _ _ _ _) A1). reflexivity. }
    destruct (found s_name (prepare n) (g_str g)) as [o|] eqn:FS.
    { destruct (kind_str _ _ _ _ R Hh _ FS) as (-> & ->). destruct (found_some _ _ _ _ FS) as (N & a & b & El & Hs).
      destruct v'; try contradiction. cbn in Rd. subst s.
      pose proof (in_options _ _ _ _ R Hh) as Hin. destruct R as (R & ND). destruct (R _ _ _ Hin) as (_ & A0).
      destruct (key_some _ A0) as (z & ->). unfold opt_set_str. rewrite Hs, LK. unfold set_str. cbv zeta.
      rewrite (proj2 (label_in _ _) Al). reflexivity. }
    destruct (found b_name (prepare n) (g_bool g)) as [o|] eqn:FB; cbn [option_map].
    { rewrite (kind_bool _ _ _ _ R Hh _ FB) in *. destruct (found_some _ _ _ _ FB) as (N & a & b & El & Hs).
      destruct v'; try contradiction. destruct Rd as (z & E & _). rewrite E. unfold opt_set_bool. rewrite Hs, LK. reflexivity. }
    exfalso. pose proof (in_options _ _ _ _ R Hh) as Hin. rewrite options_eq in Hin.
    repeat (apply in_app_or in Hin; destruct Hin as [Hin | Hin]);
      apply in_map_iff in Hin; destruct Hin as (o & E & Ho).
    - apply (found_none _ _ _ FI _ Ho). injection E as <- _ _. reflexivity.
    - apply (found_none _ _ _ FR _ Ho). injection E as <- _ _. reflexivity.
    - apply (found_none _ _ _ FS _ Ho). injection E as <- _ _. reflexivity.
    - apply (found_none _ _ _ FB _ Ho). injection E as <- _ _. reflexivity.
  Qed.

  (** Set and read back *)
  Theorem set_ok : forall g n t k v v', reg_ok g -> has g n k v -> reads k t v' -> allowed k v' -> g_locked g = false ->
    exists g', parse g (Some n) (Some t) = (returns success, g') /\ reg_ok g' /\ g_locked g' = false /\
      (forall m, same_name m n -> has g' m k v') /\
      (forall m k1 v1, ~ same_name m n -> (has g' m k1 v1 <-> has g m k1 v1)).
  Proof.
    intros g n t k v v' R Hh Rd Al LK.
    pose proof (parse_success g n t k v v' R Hh Rd Al LK) as S.
    destruct (parse_cases g n t R) as [(NS & _) | (_ & _ & LK' & k2 & v2 & v2' & Rd2 & Al2 & C)]; [congruence|].
    exists (snd (parse g (Some n) (Some t))). rewrite <- S. split; [destruct (parse g (Some n) (Some t)); reflexivity|].
    destruct (changed_has _ _ _ _ _ _ C) as (H1 & H2).
    destruct (has_unique _ _ _ _ _ _ R Hh H1) as (<- & <-).
    assert (v2' = v') as ->.
    { destruct k, v2', v'; cbn in Rd, Rd2; try contradiction; try congruence.
      destruct Rd as (z & E1 & ->), Rd2 as (z2 & E2 & ->). congruence. }
    split; [eapply changed_ok; eauto|]. split; [exact LK'|]. split.
    - intros m Sm. destruct H2 as (n' & Sn & Hi). exists n'. split; [unfold same_name in *; congruence|exact Hi].
    - intros m k1 v1 NS. eapply changed_other; eauto.
  Qed.

  Theorem set_only : forall g n t o g', reg_ok g -> parse g n t = (o, g') ->
    (o = returns success -> exists n0 t0 k v v', n = Some n0 /\ t = Some t0 /\ g_locked g = false /\
       has g n0 k v /\ reads k t0 v' /\ allowed k v') /\
    (o <> returns success -> g' = g).
  Proof.
    intros g n t o g' R E.
    destruct n as [n|], t as [t|]; try (cbn in E; injection E as <- <-; split; [discriminate|reflexivity]).
    pose proof (parse_cases g n t R) as C. rewrite E in C. cbn [fst snd] in C.
    destruct C as [(NS & Eg) | (S & LK & _ & k & v & v' & Rd & Al & C)].
    - split; [contradiction|intros _; exact Eg].
    - split; [intros _|contradiction]. exists n, t, k, v, v'. destruct (changed_has _ _ _ _ _ _ C) as (H1 & _). auto 10.
  Qed.

  (** The getters *)
  Theorem get_ok : forall (g : registry) n k v, reg_ok g -> has g n k v ->
    match v with
    | v_int z => get_int n g = Some z
    | v_real x => get_real n g = Some x
    | v_str s => get_str n g = Some s
    | v_bool b => get_bool n g = Some b
    end.
  Proof.
    intros g n k v R Hh. pose proof (in_options _ _ _ _ R Hh) as Hin. rewrite options_eq in Hin.
    repeat (apply in_app_or in Hin; destruct Hin as [Hin | Hin]);
      apply in_map_iff in Hin; destruct Hin as (o & E & Ho);
      [unfold d_int in E|unfold d_real in E|unfold d_str in E|unfold d_bool in E]; injection E as E1 E2 E3; subst v;
      [destruct (found_in i_name _ _ _ Ho E1) as (o' & Fo)|destruct (found_in r_name _ _ _ Ho E1) as (o' & Fo)
      |destruct (found_in s_name _ _ _ Ho E1) as (o' & Fo)|destruct (found_in b_name _ _ _ Ho E1) as (o' & Fo)];
      unfold get_int, get_real, get_str, get_bool; rewrite Fo; cbn [option_map];
      destruct (found_some _ _ _ _ Fo) as (N & a & b & El & _).
    - assert (H2 : has g n (k_int (i_lo o') (i_lb o') (i_hi o') (i_ub o')) (v_int (i_val o'))).
      { exists (prepare n). split; [unfold same_name; symmetry; apply words_prepare|]. rewrite options_eq.
        apply in_or_app; left. rewrite <- N. apply (in_map d_int). rewrite El. apply in_or_app. right; left; reflexivity. }
      destruct (has_unique _ _ _ _ _ _ R Hh H2) as (_ & V). injection V as ->. reflexivity.
    - assert (H2 : has g n (k_real (r_lo o') (r_lb o') (r_hi o') (r_ub o')) (v_real (r_val o'))).
      { exists (prepare n). split; [unfold same_name; symmetry; apply words_prepare|]. rewrite options_eq.
        apply in_or_app; right; apply in_or_app; left. rewrite <- N. apply (in_map d_real). rewrite El. apply in_or_app. right; left; reflexivity. }
      destruct (has_unique _ _ _ _ _ _ R Hh H2) as (_ & V). injection V as ->. reflexivity.
    - destruct (kind_str _ _ _ _ R Hh _ Fo) as (_ & V). injection V as ->. reflexivity.
    - assert (H2 : has g n k_bool (v_bool (b_val o'))).
      { exists (prepare n). split; [unfold same_name; symmetry; apply words_prepare|]. rewrite options_eq.
        apply in_or_app; right; apply in_or_app; right; apply in_or_app; right. rewrite <- N. apply (in_map d_bool). rewrite El. apply in_or_app. right; left; reflexivity. }
      destruct (has_unique _ _ _ _ _ _ R Hh H2) as (_ & V). injection V as ->. reflexivity.
  Qed.

  (** * Histories *)
  Notation step := (step lt le nan stod).
  Notation run := (run lt le nan stod).
  Notation quiet := (quiet lt le nan stod).
  Notation orderly := (orderly lt le nan stod).

  Lemma options_lock : forall b (g : registry), options (set_lock b g) = options g.
  Proof. reflexivity. Qed.
  Lemma init_reg : forall s, ss_reg (solver_init s) = ss_reg s :> registry.
  Proof.
    intros s. unfold solver_init. destruct (key_of _ _) as [z|]; [|reflexivity].
    destruct z as [|p|p]; try reflexivity. destruct p as [p|p|]; try reflexivity. destruct p; try reflexivity.
    destruct (ss_restart s); reflexivity.
  Qed.

  (** The option an event changes, if any *)
  Lemma step_options : forall e s, reg_ok (ss_reg s) ->
    options (ss_reg (snd (step e s))) = options (ss_reg s) \/
    exists n t k v v', e = ev_set (Some n) (Some t) /\ fst (step e s) = returns success /\
      reads k t v' /\ allowed k v' /\ changed (ss_reg s) (ss_reg (snd (step e s))) n k v v'.
  Proof.
    intros e s R. destruct e as [n t| |stops|].
    - destruct n as [n|], t as [t|]; try (left; reflexivity).
      cbn [RegModel.step]. pose proof (parse_cases (ss_reg s) n t R) as C. unfold set_done in C.
      destruct (parse (ss_reg s) (Some n) (Some t)) as (o, g'). cbn [fst snd ss_reg] in *.
      destruct C as [(_ & ->) | (S & LK & _ & k & v & v' & Rd & Al & C)]; [left; reflexivity|].
      right. exists n, t, k, v, v'. auto 10.
    - left; reflexivity.
    - left. cbn [RegModel.step snd]. destruct (ss_solving s), stops; cbn [ss_reg]; try reflexivity;
        rewrite ?options_lock, init_reg; reflexivity.
    - left. cbn [RegModel.step snd ss_reg]. rewrite options_lock, init_reg. reflexivity.
  Qed.

  Lemma reg_ok_options : forall g g' : registry, options g' = options g -> reg_ok g -> reg_ok g'.
  Proof. intros g g' E H. unfold RegSpec.reg_ok in *. rewrite E. exact H. Qed.

  Lemma step_ok : forall e s, reg_ok (ss_reg s) -> reg_ok (ss_reg (snd (step e s))).
  Proof.
    intros e s R. destruct (step_options e s R) as [E | (n & t & k & v & v' & _ & _ & _ & Al & C)].
    - eapply reg_ok_options; eauto.
    - eapply changed_ok; eauto.
  Qed.

  Lemma step_has : forall e s m k v, reg_ok (ss_reg s) ->
    (forall n t, e = ev_set (Some n) (Some t) -> same_name n m -> fst (step e s) <> returns success) ->
    has (ss_reg s) m k v -> has (ss_reg (snd (step e s))) m k v.
  Proof.
    intros e s m k v R No H. destruct (step_options e s R) as [E | (n & t & k1 & v1 & v1' & Ee & S & _ & _ & C)].
    - unfold has in *. rewrite E. exact H.
    - apply (changed_other _ _ _ _ _ _ m k v R C); [|exact H].
      intros Sm. apply (No n t Ee); [unfold same_name in *; congruence|exact S].
  Qed.

  Lemma run_app : forall a b s, run (a ++ b) s = run b (run a s).
  Proof. intros a b s. apply fold_left_app. Qed.
  Lemma run_cons : forall e b s, run (e :: b) s = run b (snd (step e s)).
  Proof. reflexivity. Qed.

  Theorem run_ok : forall l s, reg_ok (ss_reg s) -> reg_ok (ss_reg (run l s)).
  Proof. induction l as [|e l IH]; intros s R; [exact R|]. rewrite run_cons. apply IH. apply step_ok; exact R. Qed.

  Theorem run_has : forall l s m k v, reg_ok (ss_reg s) -> quiet l s m -> has (ss_reg s) m k v -> has (ss_reg (run l s)) m k v.
  Proof.
    induction l as [|e l IH]; intros s m k v R Q H; [exact H|]. rewrite run_cons. apply IH.
    - apply step_ok; exact R.
    - intros a e' b n t -> Ee S. apply (Q (e :: a) e' b n t eq_refl Ee S).
    - apply step_has; [exact R| |exact H]. intros n t Ee S. apply (Q [] e l n t eq_refl Ee S).
  Qed.

  Theorem run_last_set : forall l1 l2 s n t k v, reg_ok (ss_reg s) ->
    let mid := run l1 s in
    has (ss_reg mid) n k v -> fst (step (ev_set (Some n) (Some t)) mid) = returns success ->
    quiet l2 (snd (step (ev_set (Some n) (Some t)) mid)) n ->
    exists v', reads k t v' /\ allowed k v' /\ has (ss_reg (run (l1 ++ ev_set (Some n) (Some t) :: l2) s)) n k v'.
  Proof.
    intros l1 l2 s n t k v R mid Hm S Q.
    assert (Rm : reg_ok (ss_reg mid)) by (apply run_ok; exact R).
    rewrite run_app, run_cons. fold mid.
    pose proof (step_ok (ev_set (Some n) (Some t)) mid Rm) as Rs.
    pose proof (fun m k1 v1 => run_has l2 (snd (step (ev_set (Some n) (Some t)) mid)) m k1 v1 Rs) as RH.
    clearbody mid.
    pose proof (parse_cases (ss_reg mid) n t Rm) as C. unfold set_done in C.
    unfold RegModel.step in *. cbn [RegModel.step] in *.
    destruct (parse (ss_reg mid) (Some n) (Some t)) as (o, g') eqn:P. cbn [fst snd ss_reg] in *. subst o.
    destruct C as [(NS & _) | (_ & _ & _ & k1 & v1 & v' & Rd & Al & C)]; [congruence|].
    destruct (changed_has _ _ _ _ _ _ C) as (H1 & H2).
    destruct (has_unique _ _ _ _ _ _ Rm Hm H1) as (<- & _).
    exists v'. split; [exact Rd|]. split; [exact Al|]. apply RH; assumption.
  Qed.

  (** * The lock *)
  Lemma step_lock : forall e s, reg_ok (ss_reg s) -> (e = ev_input -> ss_solving s = false) -> lock_ok s -> lock_ok (snd (step e s)).
  Proof.
    intros e s R I0 L. unfold lock_ok in *. destruct e as [n t| |stops|].
    - cbn [RegModel.step]. destruct n as [n|], t as [t|]; try exact L.
      pose proof (parse_cases (ss_reg s) n t R) as C. unfold set_done in C.
      destruct (parse (ss_reg s) (Some n) (Some t)) as (o, g'). cbn [fst snd ss_reg ss_solving] in *.
      destruct C as [(_ & ->) | (_ & LK & LK' & _)]; [exact L|congruence].
    - cbn. rewrite L. auto.
    - cbn [RegModel.step snd]. destruct stops; [reflexivity|]. destruct (ss_solving s) eqn:Q; [|reflexivity]. rewrite L. symmetry; exact Q.
    - reflexivity.
  Qed.

  Theorem run_lock : forall l s, reg_ok (ss_reg s) -> orderly l s -> lock_ok s -> lock_ok (run l s).
  Proof.
    induction l as [|e l IH]; intros s R O L; [exact L|]. rewrite run_cons. apply IH.
    - apply step_ok; exact R.
    - intros a b ->. apply (O (e :: a) b). reflexivity.
    - apply step_lock; [exact R| |exact L]. intros ->. apply (O [] l). reflexivity.
  Qed.
End R.
