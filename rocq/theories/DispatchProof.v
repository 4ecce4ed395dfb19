(** Proofs about kernel selection. *)
From Coq Require Import ZArith List Bool Lia ZifyBool String Ascii.
From Verif Require Import Base BaseFacts DispatchModel DispatchSpec.
Import ListNotations.
Open Scope Z_scope.

Lemma supports_ok : forall flags isa, zlen flags = isa_length -> 0 <= isa < isa_length ->
  exists s, supports flags isa = Some s /\ (s = true <-> isa = isa_generic \/ nthZ false flags isa = true).
Proof.
  intros flags isa L H. unfold supports. destruct (isa =? isa_generic) eqn:E.
  - exists true. split; auto. split; auto. intros _. left. lia.
  - rewrite (rd_nthZ _ false) by lia. eexists. split; [reflexivity|]. split; [auto|]. intros [?|?]; auto. lia.
Qed.

Lemma popcount_le : forall w, 0 <= popcount w <= 32.
Proof.
  intros w. unfold popcount.
  assert (H : forall l a, 0 <= a -> 0 <= fold_left (fun a k => if Z.testbit w k then a + 1 else a) l a <= a + Z.of_nat (List.length l)).
  { induction l as [|k l IH]; intros a Ha; cbn [fold_left List.length]; [lia|].
    destruct (Z.testbit w k); [specialize (IH (a + 1) ltac:(lia))|specialize (IH a Ha)]; lia. }
  specialize (H (zrange 0 32) 0 ltac:(lia)). change (Z.of_nat (List.length (zrange 0 32))) with 32 in H. lia.
Qed.

Lemma popcount_pos : forall w, Z.land (2 ^ 32 - 1) w <> 0 -> 1 <= popcount w.
Proof.
  intros w H. unfold popcount.
  assert (Hx : exists k, 0 <= k < 32 /\ Z.testbit w k = true).
  { destruct (existsb (Z.testbit w) (zrange 0 32)) eqn:E.
    - apply existsb_exists in E. destruct E as (k & Hk & E). apply in_zrange in Hk. eauto.
    - exfalso. apply H. apply Z.bits_inj_0. intros k. rewrite Z.land_spec.
      destruct (Z.ltb_spec k 0); [rewrite (Z.testbit_neg_r w) by lia; apply andb_false_r|].
      change (2 ^ 32 - 1) with (Z.pred (2 ^ 32)). rewrite <- Z.ones_equiv.
      destruct (Z.ltb_spec k 32).
      + assert (F : Z.testbit w k = false).
        { destruct (Z.testbit w k) eqn:F; auto. assert (existsb (Z.testbit w) (zrange 0 32) = true).
          { apply existsb_exists. exists k. split; auto. apply in_zrange. lia. } congruence. }
        rewrite F. apply andb_false_r.
      + rewrite Z.ones_spec_high by lia. reflexivity. }
  destruct Hx as (k & Hk & Hb).
  assert (G : forall l a, 0 <= a -> (1 <= a \/ In k l) -> 1 <= fold_left (fun a k => if Z.testbit w k then a + 1 else a) l a).
  { induction l as [|q l IH]; intros a Ha [C|C]; cbn [fold_left]; auto; try contradiction.
    - apply IH; destruct (Z.testbit w q); lia.
    - destruct C as [->|C]; [rewrite Hb; apply IH; lia|]. apply IH; [destruct (Z.testbit w q); lia|auto]. }
  apply G; [lia|]. right. apply in_zrange. lia.
Qed.

Lemma land_sub : forall a w, 0 <= w -> Z.land a w <> 0 -> w < 2 ^ 32 -> Z.land (2 ^ 32 - 1) w <> 0.
Proof.
  intros a w Hw H Hlt E. change (2 ^ 32 - 1) with (Z.pred (2 ^ 32)) in E. rewrite <- Z.ones_equiv in E.
  rewrite Z.land_comm, Z.land_ones in E by lia. rewrite Z.mod_small in E by lia. subst w. apply H. apply Z.land_0_r.
Qed.

Lemma score_bounds : forall la hint e, 0 <= k_arch e < 2 ^ 32 ->
  (hint = k_flag e -> 100 <= score la hint e) /\ (hint <> k_flag e -> 0 <= score la hint e <= 32) /\ 0 <= score la hint e.
Proof.
  intros la hint e He. unfold score.
  set (ab := Z.land la (k_arch e)).
  assert (S : 0 <= (if negb (ab =? 0) then 32 - (if negb (Z.land (arch_all - ab) (k_arch e) =? 0) then 1 else 0) * (popcount (k_arch e) - 1) else 1)
             * (if negb (ab =? 0) then 1 else 0) <= 32).
  { destruct (ab =? 0) eqn:E; cbn [negb]; [lia|].
    assert (P : 1 <= popcount (k_arch e)) by (apply popcount_pos, (land_sub la); fold ab; lia).
    pose proof (popcount_le (k_arch e)). destruct (negb _); lia. }
  destruct (hint =? k_flag e) eqn:E; repeat split; intros; lia.
Qed.

(** The scan keeps the last best supported row. *)
Lemma oracle_scan : forall flags la hint updated tbl best0 kid lo hi,
  table_ok flags tbl -> kid < 0 -> 0 <= lo -> lo <= hi -> hi <= zlen tbl -> (best0 = None \/ updated = true) ->
  exists r, oracle flags la hint updated tbl best0 kid lo hi = Some r /\
    ((forall k, lo <= k < hi -> ~ runs flags (row tbl k)) /\ r = best0 \/
     exists k, lo <= k < hi /\ runs flags (row tbl k) /\ r = k_kernel (row tbl k) /\
       (forall q, lo <= q < hi -> runs flags (row tbl q) -> score la hint (row tbl q) <= score la hint (row tbl k)) /\
       (forall q, k < q < hi -> runs flags (row tbl q) -> score la hint (row tbl q) < score la hint (row tbl k))).
Proof.
  intros flags la hint updated tbl best0 kid lo hi [LF TO] Hkid Hlo Hlh Hhi Hb. unfold oracle.
  replace (0 <=? kid) with false by lia.
  replace ((match best0 with None => true | Some _ => false end) || updated) with true
    by (destruct Hb as [->| ->]; [reflexivity|destruct best0; reflexivity]).
  match goal with |- context [for_ lo hi ?f ?s] =>
    destruct (for_inv (Z * option Z) (fun i st => let '(ms, best) := st in
      ((forall k, lo <= k < i -> ~ runs flags (row tbl k)) /\ best = best0 /\ ms = 0 \/
       exists k, lo <= k < i /\ runs flags (row tbl k) /\ best = k_kernel (row tbl k) /\ ms = score la hint (row tbl k) /\
       (forall q, lo <= q < i -> runs flags (row tbl q) -> score la hint (row tbl q) <= ms) /\
       (forall q, k < q < i -> runs flags (row tbl q) -> score la hint (row tbl q) < ms))) lo hi f s Hlh) as (st & E & R) end.
  - left. split; [intros; lia|auto].
  - intros i [ms best] Hi R. rewrite (rd_nthZ _ (mkEntry None 0 0)) by lia. fold (row tbl i).
    destruct (TO i ltac:(lia)) as [Hf Ha]. fold (row tbl i) in Hf, Ha.
    destruct (supports_ok flags (k_flag (row tbl i)) LF Hf) as (s & -> & Hs).
    pose proof (score_bounds la hint (row tbl i) Ha) as (_ & _ & Hpos).
    destruct s.
    + assert (Hr : runs flags (row tbl i)) by (apply Hs; reflexivity).
      destruct (ms <=? score la hint (row tbl i)) eqn:Ec; eexists; (split; [reflexivity|]); right.
      * exists i. repeat split; auto; try lia. intros q Hq Hrq. destruct (Z.eq_dec q i); [subst; lia|].
        destruct R as [(R & _)|(k & _ & _ & _ & _ & R & _)]; [exfalso; eapply R; eauto; lia|].
        etransitivity; [apply R; auto; lia|lia].
      * destruct R as [(_ & _ & ->)|(k & K1 & K2 & K3 & K4 & K5 & K6)]; [lia|].
        exists k. ands; auto; try lia.
        -- intros q Hq Hrq. destruct (Z.eq_dec q i); [subst; lia|]. apply K5; auto; lia.
        -- intros q Hq Hrq. destruct (Z.eq_dec q i); [subst; lia|]. apply K6; auto; lia.
    + assert (Hr : ~ runs flags (row tbl i)) by (intros C; apply Hs in C; discriminate).
      eexists. split; [reflexivity|]. destruct R as [(R & -> & ->)|(k & K1 & K2 & K3 & K4 & K5 & K6)].
      * left. split; auto. intros k Hk. destruct (Z.eq_dec k i); [subst; auto|apply R; lia].
      * right. exists k. ands; auto; try lia.
        -- intros q Hq Hrq. destruct (Z.eq_dec q i); [subst; contradiction|]. apply K5; auto; lia.
        -- intros q Hq Hrq. destruct (Z.eq_dec q i); [subst; contradiction|]. apply K6; auto; lia.
  - rewrite E. destruct st as [ms best]. exists best. split; [reflexivity|].
    destruct R as [(R1 & R2 & _)|(k & K1 & K2 & K3 & K4 & K5 & K6)]; [left; auto|right].
    exists k. subst ms. ands; auto; lia.
Qed.

Lemma oracle_requested : forall flags la hint updated tbl best0 kid lo hi,
  table_ok flags tbl -> 0 <= kid ->
  exists r, oracle flags la hint updated tbl best0 kid lo hi = Some r /\
    (0 <= lo /\ hi <= zlen tbl /\ kid < hi - lo /\ runs flags (row tbl (lo + kid)) -> r = k_kernel (row tbl (lo + kid))) /\
    (~ (0 <= lo /\ hi <= zlen tbl /\ kid < hi - lo /\ runs flags (row tbl (lo + kid))) -> r = None).
Proof.
  intros flags la hint updated tbl best0 kid lo hi [LF TO] Hk. unfold oracle. replace (0 <=? kid) with true by lia.
  unfold in_range. destruct (_ || _) eqn:C.
  - exists None. split; [reflexivity|]. split; auto. intros H. exfalso. lia.
  - rewrite (rd_nthZ _ (mkEntry None 0 0)) by lia. fold (row tbl (lo + kid)).
    destruct (TO (lo + kid) ltac:(lia)) as [Hf Ha]. fold (row tbl (lo + kid)) in Hf.
    destruct (supports_ok flags (k_flag (row tbl (lo + kid))) LF Hf) as (s & -> & Hs).
    assert (Hs' : s = true <-> runs flags (row tbl (lo + kid))) by exact Hs.
    destruct s; eexists; (split; [reflexivity|]); split; intros H; auto.
    + exfalso. apply H. ands; try lia. apply Hs'; auto.
    + exfalso. destruct H as (_ & _ & _ & H). apply Hs' in H. discriminate.
Qed.

(** Automatic choice: a usable kernel, and the hinted path when one exists. *)
Lemma oracle_auto : forall flags la hint updated tbl kid lo hi,
  table_ok flags tbl -> kid < 0 -> 0 <= lo -> lo <= hi -> hi <= zlen tbl ->
  (exists g, lo <= g < hi /\ k_flag (row tbl g) = isa_generic) ->
  (forall k, lo <= k < hi -> runs flags (row tbl k) -> k_kernel (row tbl k) <> None) ->
  exists k, lo <= k < hi /\ runs flags (row tbl k) /\ k_kernel (row tbl k) <> None /\
    oracle flags la hint updated tbl None kid lo hi = Some (k_kernel (row tbl k)) /\
    ((exists q, lo <= q < hi /\ runs flags (row tbl q) /\ k_flag (row tbl q) = hint) -> k_flag (row tbl k) = hint) /\
    (forall q, lo <= q < hi -> runs flags (row tbl q) -> k_flag (row tbl q) = k_flag (row tbl k) ->
       k_arch (row tbl q) = la -> la <> 0 -> popcount la = 1 -> Z.land la (k_arch (row tbl k)) <> 0).
Proof.
  intros flags la hint updated tbl kid lo hi T Hkid Hlo Hlh Hhi (g & Hg & Eg) Hnn.
  destruct (oracle_scan flags la hint updated tbl None kid lo hi T Hkid Hlo Hlh Hhi (or_introl eq_refl)) as (r & E & [(N & _)|(k & K1 & K2 & K3 & K4 & K5)]).
  - exfalso. apply (N g Hg). left; auto.
  - subst r. exists k. split; [auto|]. split; [auto|]. split; [auto|]. split; [auto|]. split.
    + intros (q & Q1 & Q2 & Q3). specialize (K4 q Q1 Q2).
      destruct T as [LF TO]. destruct (TO q ltac:(lia)) as [_ A1]. destruct (TO k ltac:(lia)) as [_ A2].
      destruct (score_bounds la hint (row tbl q) A1) as (S1 & _). destruct (score_bounds la hint (row tbl k) A2) as (_ & S2 & _).
      destruct (Z.eq_dec hint (k_flag (row tbl k))); [auto|]. specialize (S1 ltac:(auto)). specialize (S2 ltac:(auto)). lia.
    + intros q Q1 Q2 Q3 Q4 Hla Hpop C. specialize (K4 q Q1 Q2). destruct T as [LF TO].
      destruct (TO q ltac:(lia)) as [_ A1]. fold (row tbl q) in A1.
      unfold score in K4. rewrite Q3, C, Q4 in K4. rewrite Z.land_diag in K4.
      rewrite (proj2 (Z.eqb_neq la 0)) in K4 by auto. change (0 =? 0) with true in K4. cbn [negb] in K4. rewrite Hpop in K4.
      destruct (negb _) in K4; lia.
Qed.

(** The csrmv tables. *)
Lemma csrmv_table_ok : forall flags build, zlen flags = isa_length -> table_ok flags (csrmv_table build).
Proof.
  intros flags build L. split; auto. intros k Hk. unfold csrmv_table in *.
  assert (E : k = 0 \/ k = 1 \/ k = 2 \/ k = 3) by (change (0 <= k < 4) in Hk; lia).
  destruct E as [->|[->|[->| ->]]]; destruct build; vm_compute; split; split; congruence.
Qed.
(** cpuflags[UNSET] is never set (context.hpp 150-151). *)
Lemma csrmv_choice_auto : forall flags la hint updated build kid,
  zlen flags = isa_length -> nthZ false flags isa_unset = false -> kid < 0 ->
  exists k, csrmv_choice flags la hint updated build kid = Some k /\ 0 <= k < 4 /\
    (1 <= k -> nthZ false flags isa_avx2 = true \/ k = 3) /\ (k = 3 -> nthZ false flags isa_avx512f = true /\ build = true).
Proof.
  intros flags la hint updated build kid L U Hk.
  destruct (oracle_auto flags la hint updated (csrmv_table build) kid 0 4 (csrmv_table_ok _ build L) Hk) as (k & K1 & K2 & K3 & K4 & _); try lia.
  - unfold csrmv_table, zlen. cbn. lia.
  - exists 0. split; [lia|reflexivity].
  - intros k Hk' R. assert (E : k = 0 \/ k = 1 \/ k = 2 \/ k = 3) by lia.
    destruct E as [->|[->|[->| ->]]]; try discriminate. destruct build; [discriminate|].
    exfalso. destruct R as [R|R]; [discriminate R|]. change (nthZ false flags isa_unset = true) in R. congruence.
  - unfold csrmv_choice. rewrite K4. assert (E : k = 0 \/ k = 1 \/ k = 2 \/ k = 3) by lia.
    destruct E as [->|[->|[->| ->]]].
    + exists 0. ands; try reflexivity; try lia.
    + exists 1. ands; try reflexivity; try lia. intros _. left. destruct K2 as [K2|K2]; [discriminate|exact K2].
    + exists 2. ands; try reflexivity; try lia. intros _. left. destruct K2 as [K2|K2]; [discriminate|exact K2].
    + destruct build; [|exfalso; apply K3; reflexivity]. exists 3. ands; try reflexivity; try lia; auto.
      intros _. split; auto. destruct K2 as [K2|K2]; [discriminate|exact K2].
Qed.

(** ** ISA names *)
Ltac fin := repeat split; auto 10; try congruence; try discriminate; try (unfold hint_ok; cbn; auto 10; fail).
Lemma enable_ok : forall flags env h pref,
  let '(st, h') := enable_instructions flags env h pref in
  (st = success <-> In (upper pref) [""; "AVX512"; "AVX2"; "GENERIC"; "ENV"]%string) /\
  (st = success \/ st = invalid_value) /\
  (st <> success -> h' = h) /\
  (st = success -> old_hint h' = current_hint h /\ hint_ok flags (current_hint h') /\
     (upper pref = "AVX512"%string -> current_hint h' =
        if has flags isa_avx512f then isa_avx512f else if has flags isa_avx2 then isa_avx2 else isa_generic) /\
     (upper pref = "AVX2"%string -> current_hint h' = if has flags isa_avx2 then isa_avx2 else isa_generic) /\
     (upper pref = "GENERIC"%string -> current_hint h' = isa_generic) /\
     (upper pref = ""%string -> current_hint h' = isa_unset)).
Proof.
  intros flags env h pref. unfold enable_instructions.
  destruct (String.eqb_spec pref "") as [->|N]; cbn [negb].
  - cbn. fin.
  - assert (N' : upper pref <> ""%string) by (destruct pref; cbn; congruence).
    unfold env_get_var_cstr. cbn [String.eqb negb].
    destruct (String.eqb_spec (upper pref) "ENV") as [E|E].
    + cbn. rewrite E. fin.
    + destruct (String.eqb_spec (upper pref) ""); [contradiction|].
      destruct (String.eqb_spec (upper pref) "AVX512") as [E1|E1].
      { rewrite E1. unfold has. destruct (nthZ false flags isa_avx512f) eqn:F1; cbn; [fin|].
        destruct (nthZ false flags isa_avx2) eqn:F2; cbn; fin. }
      cbn [andb]. destruct (String.eqb_spec (upper pref) "AVX2") as [E2|E2].
      { rewrite E2. unfold has. cbn [orb andb]. destruct (nthZ false flags isa_avx2) eqn:F2; cbn; fin. }
      change (String.eqb "" "AVX2") with false. cbn [orb andb].
      destruct (String.eqb_spec (upper pref) "GENERIC") as [E3|E3].
      { rewrite E3. cbn. fin. }
      change (String.eqb "" "GENERIC") with false. cbn [orb].
      fin. intros H. cbn in H. exfalso. intuition congruence.
Qed.

Lemma ctor_hint_ok : forall flags env, hint_ok flags (ctor_hint flags env).
Proof.
  intros flags env. unfold ctor_hint, hint_ok, has. set (s := env_get_var_string env "").
  destruct (String.eqb s ""); cbn [negb]; [auto|].
  destruct (String.eqb_spec (upper s) "AVX512") as [->|E].
  - destruct (nthZ false flags isa_avx512f) eqn:F1; cbn.
    + right; right; auto.
    + destruct (nthZ false flags isa_avx2) eqn:F2; cbn; [right; right; auto|right; left; reflexivity].
  - destruct (String.eqb_spec (upper s) "AVX2") as [->|E2].
    + destruct (nthZ false flags isa_avx2) eqn:F2; cbn; [right; right; auto|right; left; reflexivity].
    + cbn. destruct (String.eqb (upper s) "GENERIC"); cbn; auto.
Qed.

(** Whatever sequence of calls, the hint is always one the hardware has. *)
Lemma enable_history : forall flags (calls : list (option string * string)) h0,
  hint_ok flags (current_hint h0) ->
  hint_ok flags (current_hint (fold_left (fun h c => snd (enable_instructions flags (fst c) h (snd c))) calls h0)).
Proof.
  intros flags calls. induction calls as [|[e p] calls IH]; intros h0 H; [exact H|]. cbn [fold_left]. apply IH. cbn [fst snd].
  pose proof (enable_ok flags e h0 p) as G. destruct (enable_instructions flags e h0 p) as [st h']. cbn [snd].
  destruct G as (_ & [C|C] & G1 & G2); [apply G2; auto|rewrite G1; [auto|congruence]].
Qed.

Lemma threads_ok : forall env procs mx lim lv cur, 1 <= procs -> 1 <= mx -> 1 <= lim ->
  let nt := get_num_threads env procs mx lim lv cur in
  1 <= nt /\ nt <= mx /\ nt <= lim /\ (forall e, env = Some e -> 1 <= e -> nt <= e) /\
  (forall e, env = Some e -> e <= 0 -> nt = 1) /\ (lv <= cur -> nt = 1).
Proof.
  intros env procs mx lim lv cur H1 H2 H3 nt. subst nt. unfold get_num_threads, get_thread_from_env.
  destruct env as [e|].
  - destruct (e <=? 0) eqn:A1, (lim <? mx) eqn:A2;
    repeat match goal with |- context [if ?c then _ else _] => destruct c eqn:? end; repeat split; intros;
    repeat match goal with H : Some _ = Some _ |- _ => inversion H; clear H; subst end; lia.
  - destruct (procs <=? 0) eqn:A1, (lim <? mx) eqn:A2;
    repeat match goal with |- context [if ?c then _ else _] => destruct c eqn:? end; repeat split; intros; try discriminate; lia.
Qed.
