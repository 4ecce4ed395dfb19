From Coq Require Import ZArith List Bool Lia ZifyBool.
From Verif Require Import Base BaseFacts Algebra CgModel CgSpec CgProof.
Import ListNotations.
Open Scope Z_scope.

Section LP.
  Context {T N : Type} (O : ops T) (L : laws O).
  Context (npos : N -> bool) (nle : N -> N -> bool) (nmul : N -> N -> N) (nnan : N -> bool) (n0 : N).
  Context (nrm : list T -> N) (negz : T -> bool) (rz1 : T).
  Context (A : Z -> Z -> T) (n : Z) (b : list T) (prec : list T -> list T -> Prop).
  Context (Hn : 0 <= n) (Hb : zlen b = n).
  Context {E : Type} (mv symgs : E -> list T -> list T -> option (status * list T * E)).
  Context (pc : E -> list T -> list T -> Z * list T * E) (monit : E -> option (list T) -> option (list T) -> Z * E).
  Context (EI : E -> Prop) (p0 : Z).
  Notation rci := (rci_solve O npos nle nmul nnan n0 nrm negz rz1 n b).
  Notation reaches := (reaches O npos nle nmul nnan n0 nrm negz rz1 A n b prec).
  Notation loop := (cg_loop O npos nle nmul nnan n0 nrm negz rz1 mv symgs pc monit).
  (** The pieces the loop calls do their work *)
  Context (Hmv : forall e u v, EI e -> zlen u = n -> zlen v = n ->
    exists w e', mv e u v = Some (success, w, e') /\ EI e' /\ product O A n w u).
  Context (Hpc : p0 = 1 -> forall e u v, EI e -> zlen u = n -> zlen v = n ->
    exists f w e', pc e u v = (f, w, e') /\ EI e' /\ zlen w = n /\ (f = 0 -> prec u w)).
  Context (Hsg : p0 = 3 -> forall e u v, EI e -> zlen u = n -> zlen v = n ->
    exists w e', symgs e u v = Some (success, w, e') /\ EI e' /\ zlen w = n /\ prec u w).
  Context (Hmon : forall e x r, EI e -> EI (snd (monit e x r))).
  Context (Hp0 : p0 = 0 \/ p0 = 1 \/ p0 = 3).

  (** [K]: a bound on the number of calls while the solver runs *)
  Theorem loop_ok : forall c o (K : Z), 0 <= K -> fresh n c o -> g_precond c = p0 ->
    (forall k st jb c' o', reaches c o k st jb c' o' -> jb <> j_stop -> Z.of_nat k <= K) ->
    forall fuel e, EI e -> K < Z.of_nat fuel ->
    exists k st e' c' o', loop fuel n b e c o j_start = Some (st, e', c', o') /\ EI e' /\ reaches c o k st j_stop c' o'.
  Proof.
    intros c o K K0 F P0 HK.
    (* from any reached state *)
    assert (X : forall fuel k st jb c1 o1 c2 jb2 e, reaches c o k st jb c1 o1 -> jb <> j_stop -> answered O A n prec o1 c1 jb c2 jb2 -> EI e ->
      K - Z.of_nat k < Z.of_nat fuel ->
      exists k st e' c' o', loop fuel n b e c2 o1 jb2 = Some (st, e', c', o') /\ EI e' /\ reaches c o k st j_stop c' o').
    { induction fuel as [|fuel IH]; intros k st jb c1 o1 c2 jb2 e R NS Sv He HF.
      { pose proof (HK _ _ _ _ _ R NS). lia. }
      pose proof (reaches_post O L npos nle nmul nnan n0 nrm negz rz1 A n b prec Hn Hb _ _ _ _ _ _ _ F R) as P.
      destruct P as [(Q & _) | (-> & _ & I & Rk)]; [congruence|].
      destruct (next_ok O L npos nle nmul nnan n0 nrm negz rz1 A n b prec Hn c jb c1 o1 c2 jb2 I Sv) as ((((st', jb'), c3), o3) & E1 & P).
      assert (R3 : reaches c o (Datatypes.S k) st' jb' c3 o3) by (eapply r_next; eauto).
      cbn [cg_loop]. rewrite E1.
      destruct P as [(-> & S) | (-> & NS3 & I3 & Rk3)].
      { exists (Datatypes.S k), st', e, c3, o3. auto. }
      pose proof (HK _ _ _ _ _ R3 NS3) as KB.
      destruct I3 as (Hl & (S1 & S2 & S3 & S4) & H0 & I3).
      assert (PE : g_precond c3 = p0) by congruence.
      destruct (g_task c3) eqn:TK; try contradiction.
      - destruct I3 as (-> & Eu & Ev & _). rewrite Eu, Ev. cbn [get_buf].
        destruct (Hmv e (g_p c3) (g_q c3) He ltac:(apply Hl) ltac:(apply Hl)) as (w & e' & Em & He' & Pw). rewrite Em.
        apply (IH _ _ _ _ _ _ _ _ R3 NS3); [|exact He'|lia]. left. split; [reflexivity|]. rewrite <- Ev. apply (sv_mv _ _ _ _ _ _ (g_p c3)); [rewrite Eu; reflexivity|exact Pw].
      - destruct I3 as (-> & Eu & Ev & _).
        pose proof (Hmon e (get_buf (o_u o3) c3) (get_buf (o_v o3) c3) He) as HM. destruct (monit _ _ _) as [flag e']. cbn [snd] in HM.
        apply (IH _ _ _ _ _ _ _ _ R3 NS3); [|exact HM|lia].
        destruct (flag =? 0); [left; split; [reflexivity|constructor]|right; split; [reflexivity|left; reflexivity]].
      - destruct I3 as (-> & Eu & Ev & _ & NP & _). rewrite Eu, Ev. cbn [get_buf]. rewrite PE.
        destruct Hp0 as [Q | [Q | Q]]; [congruence| |].
        + replace (p0 =? 1) with true by lia.
          destruct (Hpc Q e (g_r c3) (g_z c3) He ltac:(apply Hl) ltac:(apply Hl)) as (f & w & e' & Em & He' & Lw & Pw). rewrite Em.
          apply (IH _ _ _ _ _ _ _ _ R3 NS3); [|exact He'|lia]. rewrite <- Ev. destruct (Z.eqb_spec f 0) as [Q0|Q0].
          * left. split; [reflexivity|]. apply (sv_precond _ _ _ _ _ _ (g_r c3)); auto. rewrite Eu; reflexivity.
          * right. split; [reflexivity|]. right. eauto.
        + replace (p0 =? 1) with false by lia. replace (p0 =? 3) with true by lia.
          destruct (Hsg Q e (g_r c3) (g_z c3) He ltac:(apply Hl) ltac:(apply Hl)) as (w & e' & Em & He' & Lw & Pw). rewrite Em.
          apply (IH _ _ _ _ _ _ _ _ R3 NS3); [|exact He'|lia]. rewrite <- Ev.
          left. split; [reflexivity|]. apply (sv_precond _ _ _ _ _ _ (g_r c3)); auto. rewrite Eu; reflexivity.
      - destruct I3 as (-> & Eu & Ev & _). rewrite Eu, Ev. cbn [get_buf].
        destruct (Hmv e (g_p c3) (g_q c3) He ltac:(apply Hl) ltac:(apply Hl)) as (w & e' & Em & He' & Pw). rewrite Em.
        apply (IH _ _ _ _ _ _ _ _ R3 NS3); [|exact He'|lia]. left. split; [reflexivity|]. rewrite <- Ev. apply (sv_mv _ _ _ _ _ _ (g_p c3)); [rewrite Eu; reflexivity|exact Pw]. }
    intros fuel e He HF.
    destruct (first_ok O npos nle nmul nnan n0 nrm negz rz1 A n b prec Hn Hb c o j_start F) as ((((st', jb'), c3), o3) & E1 & P).
    assert (R3 : reaches c o 1 st' jb' c3 o3) by (eapply r_first; eauto).
    destruct fuel as [|fuel]; [lia|]. cbn [cg_loop]. rewrite E1.
    destruct P as [(-> & S) | (-> & NS3 & I3 & Rk3)].
    { exists 1%nat, st', e, c3, o3. auto. }
    pose proof (HK _ _ _ _ _ R3 NS3) as KB.
    assert (jb' = j_mv /\ o_u o3 = b_p /\ o_v o3 = b_q /\ lens n c3 o3) as (-> & Eu & Ev & Hl).
    { destruct F as (TK & _). unfold rci_solve, cg_rci in E1. rewrite TK in E1. unfold do_start in E1.
      destruct (fill _ _ _) in E1; [|discriminate]. destruct (fill _ _ _) in E1; [|discriminate].
      destruct (nnan (nrm b)) in E1; [discriminate|]. injection E1 as E2 E3 E4. subst. cbn. repeat split; try apply I3. }
    rewrite Eu, Ev. cbn [get_buf].
    destruct (Hmv e (g_p c3) (g_q c3) He ltac:(apply Hl) ltac:(apply Hl)) as (w & e' & Em & He' & Pw). rewrite Em.
    apply (X fuel _ _ _ _ _ _ _ _ R3 NS3); [|exact He'|lia]. left. split; [reflexivity|]. rewrite <- Ev. apply (sv_mv _ _ _ _ _ _ (g_p c3)); [rewrite Eu; reflexivity|exact Pw].
  Qed.

  (** With a positive iteration limit *)
  Lemma limit_calls : forall c o k st jb c' o', fresh n c o -> 0 < g_maxit c ->
    reaches c o k st jb c' o' -> jb <> j_stop -> Z.of_nat k <= 3 * g_maxit c + 4.
  Proof.
    clear - L Hn Hb. intros c o k st jb c' o' F HM R NJ.
    pose proof (reaches_post O L npos nle nmul nnan n0 nrm negz rz1 A n b prec Hn Hb _ _ _ _ _ _ _ F R) as P.
    destruct P as [(Q & _) | (-> & _ & (Hl & So & H0 & I) & Rk)]; [congruence|].
    unfold rank in Rk. destruct (g_task c') eqn:TK; try contradiction; try lia.
  Qed.
End LP.
