(** Facts about the hint functions (C41). *)
From Coq Require Import ZArith List Bool Lia ZifyBool.
From Verif Require Import Base BaseFacts DoidModel DescrModel HintModel HintSpec.
Import ListNotations.
Open Scope Z_scope.

Section P.
  Context {M : Type}.
  Implicit Types h : hhnd M.

  Lemma doid_defined : forall re ty fm t, 111 <= t <= 113 -> exists e, get_doid re (type_of ty) (fill_of fm) (op_of t) = Some e.
  Proof.
    intros re ty fm t Ht. assert (C : t = 111 \/ t = 112 \/ t = 113) by lia.
    unfold type_of, fill_of, op_of. destruct C as [-> | [-> | ->]]; destruct (ty =? 0), (ty =? 1), (ty =? 2), (fm =? 0), re; eexists; vm_compute; reflexivity.
  Qed.

  (** The common function, for an action code in range *)
  Lemma set_hint_ok : forall A act t d n k ok, 0 < act < 13 ->
    exists st A', set_hint (M := M) A act t d n k ok = Some (st, A') /\
    let good := exists h d' b, A = Some h /\ d = Some d' /\ hh_base h = Some b /\ (b = 0 \/ b = 1) /\ md_base d' = b /\
       0 <= md_fill d' <= 1 /\ 0 <= md_diag d' <= 2 /\ 0 <= md_type d' <= 3 /\ 111 <= t <= 113 /\ (0 < n \/ n = 0 /\ k <> -1) in
    (st = success <-> good /\ ok = true) /\ (good -> ok = false -> st = memory_error) /\
    (st <> success -> A' = A) /\
    (st = success -> exists h d' e, A = Some h /\ d = Some d' /\
       hr_act e = act /\ hr_trans e = t /\ hr_type e = md_type d' /\ hr_fill e = md_fill d' /\ hr_nop e = n /\ hr_kid e = k /\ hr_done e = false /\
       A' = Some (mkHH (hh_mat h) (hh_base h) (hh_real h) (hh_policy h) (e :: hh_hints h))).
  Proof.
    intros A act t d n k ok Ha. unfold set_hint.
    Ltac bad := eexists; eexists; split; [reflexivity|cbv zeta; split; [split; [discriminate|]|split; [|split; [auto|discriminate]]]].
    destruct A as [h|]; [|bad; [intros ((h & ? & ? & E & _) & _); discriminate|intros (h & ? & ? & E & _); discriminate]].
    destruct (hh_base h) as [b|] eqn:Eb; [|bad; [intros ((h' & ? & ? & E & _ & E2 & _) & _)|intros (h' & ? & ? & E & _ & E2 & _)]; inversion E; subst; congruence].
    destruct d as [d|]; [|bad; [intros ((h' & ? & ? & _ & E2 & _) & _)|intros (h' & ? & ? & _ & E2 & _)]; discriminate].
    assert (BAD : forall P : Prop, (let good := exists h0 d' b0, Some h = Some h0 /\ Some d = Some d' /\ hh_base h0 = Some b0 /\ (b0 = 0 \/ b0 = 1) /\ md_base d' = b0 /\
       0 <= md_fill d' <= 1 /\ 0 <= md_diag d' <= 2 /\ 0 <= md_type d' <= 3 /\ 111 <= t <= 113 /\ (0 < n \/ n = 0 /\ k <> -1) in good) ->
       ((b = 0 \/ b = 1) /\ md_base d = b /\ 0 <= md_fill d <= 1 /\ 0 <= md_diag d <= 2 /\ 0 <= md_type d <= 3 /\ 111 <= t <= 113 /\ (0 < n \/ n = 0 /\ k <> -1) -> P) -> P).
    { cbv zeta. intros P (h' & d' & b' & E1 & E2 & E3 & R) HP. inversion E1; inversion E2; subst h' d'. rewrite Eb in E3. inversion E3; subst b'. auto. }
    Ltac bad2 B := bad; [intros (Gd & _); apply (B _ Gd); intros; lia|intros Gd; apply (B _ Gd); intros; lia].
    do 7 (match goal with |- context [if ?c then _ else _] => destruct c eqn:?; [bad2 BAD|] end).
    match goal with |- context [if ?c then _ else _] => destruct c eqn:E8; [unfold act_max in E8; lia|] end. clear BAD.
    unfold add_hint. destruct ok; cbn [negb].
    - destruct (doid_defined (hh_real h) (md_type d) (md_fill d) t ltac:(lia)) as (e & Ee). rewrite Ee.
      eexists. eexists. split; [reflexivity|]. cbv zeta. split; [|split; [discriminate|split; [congruence|]]].
      + split; [|reflexivity]. intros _. split; [|reflexivity]. exists h, d, b. rewrite Eb. do 5 (split; [auto; lia|]). lia.
      + intros _. exists h, d, (mkHR act t (md_type d) (md_fill d) k e n false). do 9 (split; [reflexivity|]). reflexivity.
    - eexists. eexists. split; [reflexivity|]. cbv zeta. split; [|split; [reflexivity|split; [auto|discriminate]]].
      split; [discriminate|]. intros (_ & E). discriminate.
  Qed.

  Definition adds (c : hint_call) A A' : Prop :=
    exists h h' : hhnd M, A = Some h /\ A' = Some h' /\ hh_mat h' = hh_mat h /\ hh_base h' = hh_base h /\ hh_real h' = hh_real h /\
      match c with
      | set_memory_hint p => hh_policy h' = p /\ hh_hints h' = hh_hints h
      | _ => hh_policy h' = hh_policy h /\ exists e, records c e /\ hh_hints h' = e :: hh_hints h
      end.

  Lemma do_hint_ok : forall A c ok, exists st A', do_hint (M := M) A c ok = Some (st, A') /\
    (st = success <-> legal A c /\ (ok = true \/ is_memory_hint c = true)) /\
    (legal A c -> st <> success -> st = memory_error) /\
    (st <> success -> A' = A) /\ (st = success -> adds c A A').
  Proof.
    intros A c ok.
    assert (USE : forall act t d n k, 0 < act < 13 -> request c = Some (act, t, d, n, k) -> do_hint A c ok = set_hint A act t d n k ok ->
      match c with set_sm_hint _ _ o _ => 0 <= o <= 1 | set_sorv_hint _ ty _ => 0 <= ty <= 2 | set_memory_hint p => False | _ => True end ->
      exists st A', do_hint A c ok = Some (st, A') /\ (st = success <-> legal A c /\ (ok = true \/ is_memory_hint c = true)) /\ (legal A c -> st <> success -> st = memory_error) /\
        (st <> success -> A' = A) /\ (st = success -> adds c A A')).
    { intros act t d n k Ha Er Ed Hc. destruct (set_hint_ok A act t d n k ok Ha) as (st & A' & E & SU & ME & UN & RE). cbv zeta in SU, ME.
      exists st, A'. rewrite Ed. split; [exact E|].
      assert (NM : is_memory_hint c = false) by (destruct c; auto; contradiction).
      assert (LG : legal A c <-> (exists h d' b, A = Some h /\ d = Some d' /\ hh_base h = Some b /\ (b = 0 \/ b = 1) /\ md_base d' = b /\
       0 <= md_fill d' <= 1 /\ 0 <= md_diag d' <= 2 /\ 0 <= md_type d' <= 3 /\ 111 <= t <= 113 /\ (0 < n \/ n = 0 /\ k <> -1))).
      { unfold legal. rewrite Er. split.
        - intros (h & EA & ((d' & b & D1 & D2 & D3 & D4 & D5 & D6 & D7) & D8 & D9) & _). exists h, d', b. tauto.
        - intros (h & d' & b & D0 & D1 & D2 & D3 & D4 & D5 & D6 & D7 & D8 & D9). exists h. split; [exact D0|]. split; [|destruct c; auto; contradiction]. split; [|tauto]. exists d', b. tauto. }
      rewrite LG, NM. split; [split; [intros S; apply SU in S; tauto|intros (G & [O|O]); [apply SU; tauto|discriminate]]|].
      split; [intros G N; destruct ok; [elim N; apply SU; auto|apply ME; auto]|]. split; [exact UN|].
      intros S. destruct (RE S) as (h & d' & e & EA & Ee & R1 & R2 & R3 & R4 & R5 & R6 & R7 & EA'). exists h. eexists. split; [exact EA|]. split; [exact EA'|]. cbn [hh_mat hh_base hh_real hh_policy hh_hints].
      do 3 (split; [reflexivity|]).
      assert (RC : records c e) by (unfold records; rewrite Er, Ee; tauto).
      destruct c; try contradiction; split; [reflexivity|exists e; auto|reflexivity|exists e; auto|reflexivity|exists e; auto|reflexivity|exists e; auto|reflexivity|exists e; auto|reflexivity|exists e; auto|reflexivity|exists e; auto|reflexivity|exists e; auto|reflexivity|exists e; auto|reflexivity|exists e; auto]. }
    destruct c as [t d n|t d n k|t d n|t d n|t d n|t d n|t d n|t d o n|t d n|d ty n|p];
      try (eapply USE; [|reflexivity|reflexivity|exact I]; unfold act_mv, act_sv, act_mm, act_2m, act_ilu0, act_dotmv, act_symgs; lia).
    - destruct (negb (o =? 0) && negb (o =? 1)) eqn:E.
      + cbn [do_hint]. rewrite E. exists invalid_value, A; split; [reflexivity|]; split; [split; [discriminate|]|split; [|split; [auto|discriminate]]].
        * intros ((h & _ & _ & Ho) & _). lia.
        * intros (h & _ & _ & Ho). lia.
      + assert (o = 0 \/ o = 1) as [-> | ->] by lia; (eapply USE; [|reflexivity|reflexivity|]; lia).
    - destruct (negb (ty =? 0) && negb (ty =? 1) && negb (ty =? 2)) eqn:E.
      + cbn [do_hint]. rewrite E. exists invalid_value, A; split; [reflexivity|]; split; [split; [discriminate|]|split; [|split; [auto|discriminate]]].
        * intros ((h & _ & _ & Ho) & _). lia.
        * intros (h & _ & _ & Ho). lia.
      + assert (ty = 0 \/ ty = 1 \/ ty = 2) as [-> | [-> | ->]] by lia; (eapply USE; [|reflexivity|reflexivity|]; lia).
    - cbn [do_hint]. destruct A as [h|].
      + destruct (negb (p =? 0) && negb (p =? 1)) eqn:E.
        * exists invalid_value, (Some h); split; [reflexivity|]; split; [split; [discriminate|]|split; [|split; [auto|discriminate]]].
          -- intros ((h' & _ & _ & Ho) & _). lia.
          -- intros (h' & _ & _ & Ho). lia.
        * eexists. eexists. split; [reflexivity|]. split; [split; [intros _|reflexivity]|split; [congruence|split; [congruence|]]].
          -- split; [|now right]. exists h. split; [reflexivity|]. split; [exact I|lia].
          -- intros _. exists h. eexists. split; [reflexivity|]. split; [reflexivity|]. cbn. auto 10.
      + exists invalid_pointer, None; split; [reflexivity|]; split; [split; [discriminate|]|split; [|split; [auto|discriminate]]]; [intros ((h & E & _) & _)|intros (h & E & _)]; discriminate.
  Qed.

  (** Legality only depends on the base of the stored matrix *)
  Lemma legal_base : forall h h' c, hh_base h' = hh_base h -> legal (Some h') c <-> legal (Some h) c.
  Proof.
    assert (ONE : forall h h' c, hh_base h' = hh_base h -> legal (Some h') c -> legal (Some h) c).
    { intros h h' c E (x & Ex & R1 & R2). inversion Ex; subst x. exists h. rewrite E in R1. auto. }
    intros h h' c E. split; apply ONE; auto.
  Qed.

  (** A whole sequence *)
  Lemma do_hints_ok : forall (l : list (hint_call * bool)) h, exists sts h' new, do_hints (Some h) l = Some (sts, Some h') /\
    Forall2 (fun cb st => st = success <-> legal (Some h) (fst cb) /\ (snd cb = true \/ is_memory_hint (fst cb) = true)) l sts /\
    hh_mat h' = hh_mat h /\ hh_base h' = hh_base h /\ hh_real h' = hh_real h /\
    hh_hints h' = rev new ++ hh_hints h /\
    Forall2 records (accepted_calls l sts) new.
  Proof.
    induction l as [|(c, ok) l IH]; intros h.
    - exists [], h, []. cbn. auto 10 using Forall2_nil.
    - destruct (do_hint_ok (Some h) c ok) as (st & A' & E & SU & _ & UN & AD).
      assert (Es : {st = success} + {st <> success}) by (destruct st; (left; reflexivity) || (right; discriminate)). destruct Es as [Es|Es].
      + destruct (AD Es) as (x & h1 & Ex & -> & Q1 & Q2 & Q3 & Q4). inversion Ex; subst x. clear Ex.
        destruct (IH h1) as (sts & h' & new & E2 & F2 & S1 & S2 & S3 & S4 & S5).
        assert (F2' : Forall2 (fun cb st => st = success <-> legal (Some h) (fst cb) /\ (snd cb = true \/ is_memory_hint (fst cb) = true)) l sts).
        { clear - F2 Q2. induction F2; constructor; auto. rewrite <- (legal_base h h1) by auto. auto. }
        destruct (is_memory_hint c) eqn:Em.
        * destruct c; try discriminate. destruct Q4 as (Q4 & Q5). exists (st :: sts), h', new. cbn [do_hints]. rewrite E, E2. split; [reflexivity|].
          split; [constructor; auto|]. split; [congruence|]. split; [congruence|]. split; [congruence|]. split; [rewrite S4; congruence|].
          unfold accepted_calls. cbn [combine filter fst snd is_memory_hint negb]. rewrite andb_false_r. exact S5.
        * assert (Q5 : exists e, records c e /\ hh_hints h1 = e :: hh_hints h) by (destruct c; try discriminate; apply Q4). destruct Q5 as (e & Re & Eh).
          exists (st :: sts), h', (e :: new). cbn [do_hints]. rewrite E, E2. split; [reflexivity|].
          split; [constructor; auto; cbn [fst snd]; rewrite Em; exact SU|]. split; [congruence|]. split; [congruence|]. split; [congruence|]. split; [rewrite S4, Eh; cbn [rev]; now rewrite <- app_assoc|].
          unfold accepted_calls. cbn [combine filter fst snd]. rewrite Em, Es. cbn [accepted negb andb map fst]. constructor; auto.
      + rewrite (UN Es) in E. destruct (IH h) as (sts & h' & new & E2 & F2 & S1 & S2 & S3 & S4 & S5). exists (st :: sts), h', new. cbn [do_hints]. rewrite E, E2. split; [reflexivity|].
        split; [constructor; auto|]. do 4 (split; [auto|]). unfold accepted_calls. cbn [combine filter fst snd]. replace (accepted st) with false by (destruct st; reflexivity || (now elim Es)). cbn [andb]. exact S5.
  Qed.
End P.
