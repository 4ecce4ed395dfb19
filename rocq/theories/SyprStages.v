(** Two stages and refilling of the symmetric triple product. *)
From Coq Require Import ZArith List Bool Lia ZifyBool.
From Verif Require Import Base BaseFacts CsrFacts Algebra UtilModel UtilProof Csr SortSpec SortModel SortProof CheckModel CheckSpec DoidModel DoidSpec MvModel MvSpec CsrmvModel HandleModel HandleSpec
  AddSpec Csr2mModel Csr2mSpec ConvertModel OftModel SyrkdSpec SyrkModel SyrkSpec SyprdSpec SyprModel SyprSpec SyprProof.
Import ListNotations.
Open Scope Z_scope.

Lemma same_data_pattern : forall T (z : T) B b B' b', hnd_ok z B b -> hnd_ok z B' b' -> c_doid b = gn -> same_data b b' -> same_pattern B b B' b'.
Proof.
  intros T z B b B' b' ((_ & N1 & _ & _ & D1) & _) ((_ & N2 & _ & _ & D2) & _) D (S1 & S2 & S3 & S4 & S5 & S6 & S7 & S8). unfold same_pattern.
  destruct D1 as [(_ & X1 & X2)|(X & _)]; [|rewrite D in X; discriminate]. destruct D2 as [(_ & Y1 & Y2)|(Y & _)]; [|rewrite S4, D in Y; discriminate].
  split; [lia|]. split; [lia|]. split; [lia|]. intros i j _ _. unfold stored_at, centries. rewrite S4, S5, S6, S7, S8. reflexivity.
Qed.
Lemma upper_sized : forall T (O : ops T) n F C c, upper_result O n 0 F C c -> sized n C c.
Proof.
  intros T O n F C c [U1 U2 U3 U4 U5 U6 U7 (U8 & U8') U9 U10 U11 U12]. unfold sized. do 7 (split; [assumption|]). split; [apply U9|]. split; [assumption|]. split; [assumption|].
  intros i Hi. pose proof (wf_ptr _ _ _ _ _ _ U9) as P. pose proof (ptr_range _ _ _ _ P i Hi). lia.
Qed.

Section R.
  Context {T : Type} (O : ops T) (L : laws O) (is_real : bool) (HR : is_real = true -> forall v : T, ocj O v = v).
  Local Notation z := (o0 O).
  Variables (w : Z) (srt : (Z -> Z -> bool) -> list Z -> list Z) (fz : Z -> list Z) (ft : Z -> list T).
  Hypothesis (Hw : 0 < w <= 63) (Hsrt : sort_contract srt) (Hfz : forall k, 0 <= k -> zlen (fz k) = k) (Hft : forall k, 0 <= k -> zlen (ft k) = k).
  Local Notation sy := (sypr O is_real w srt fz ft).

  Lemma second_stage : forall op (A : hnd T) a B b d, sypr_call z is_real op A a B b d ->
    forall rq C0 B1 C1, rq = rq_count \/ rq = rq_full -> sy op (Some A) (Some B) (Some d) rq (Some C0) = Some (success, B1, C1) ->
    exists C c nC, C1 = Some C /\ sized (rows_of op A) C c /\ H_nnz C = nC /\
    forall A' a' B' b', sypr_call z is_real op A' a' B' b' d -> same_pattern A a A' a' -> same_pattern B b B' b' ->
    forall C c, sized (rows_of op A) C c -> H_nnz C = nC ->
    exists B'' C' c', sy op (Some A') (Some B') (Some d) rq_finalize (Some (Some C)) = Some (success, Some B'', Some C') /\ H_nnz C' = nC /\
      upper_result O (rows_of op A) 0 (triple O op (H_m B) a' (descr_sem O (d_type d) (d_fill d) (hnd_mat O b'))) C' c'.
  Proof.
    intros op A a B b d HC rq C0 B1 C1 Hrq E. destruct (sypr_run O L is_real HR w srt fz ft Hw Hsrt Hfz Hft op A a B b d HC) as (Bn & bn & _ & _ & nC & over & SZ & Q1 & Q2 & Q3 & _). cbv zeta in Q2, Q3.
    destruct over. { specialize (Q2 eq_refl rq C0). rewrite Q2 in E by tauto. discriminate. } specialize (Q3 eq_refl). destruct Q3 as (QF & QC).
    assert (N : exists C c, C1 = Some C /\ sized (rows_of op A) C c /\ H_nnz C = nC).
    { destruct Hrq as [-> | ->].
      - destruct (QC C0) as (C & c & E' & S' & N'). rewrite E' in E. injection E as _ <-. eauto.
      - destruct (QF C0) as (C & c & E' & U' & N'). rewrite E' in E. injection E as _ <-. exists C, c. split; [reflexivity|]. split; [exact (upper_sized _ O _ _ _ _ U')|exact N']. }
    destruct N as (C & c & N1 & N2 & N3). exists C, c, nC. split; [exact N1|]. split; [exact N2|]. split; [exact N3|].
    intros A' a' B' b' HC' PA PB C' c' HS HN.
    destruct (sypr_run O L is_real HR w srt fz ft Hw Hsrt Hfz Hft op A' a' B' b' d HC') as (Bn' & bn' & _ & _ & nC' & over' & SZ' & _ & _ & _ & QZ). cbv zeta in QZ.
    destruct (sizes_unique O is_real HR w fz ft Hw Hfz Hft op A a A' a' B b B' b' d nC false nC' over' (sc_op _ _ _ _ _ _ _ _ HC) (sc_square _ _ _ _ _ _ _ _ HC) (sc_dim _ _ _ _ _ _ _ _ HC) PA PB (sc_csr _ _ _ _ _ _ _ _ HC) (sc_csr _ _ _ _ _ _ _ _ HC') SZ SZ') as (<- & <-).
    assert (RO : rows_of op A' = rows_of op A) by (destruct PA as (X1 & X2 & _); unfold rows_of; destruct op; congruence). rewrite RO in QZ.
    destruct (QZ eq_refl C' c' HS HN) as (C2 & c2 & E2 & U2 & N2'). destruct PB as (PB1 & _). rewrite PB1 in U2. exists Bn', C2, c2. auto.
  Qed.

  (** The handles of a sequence of refills, one call after the other *)
  Fixpoint refill (op : operation) (d : descr) (l : list (hnd T * hnd T)) (C : hnd T) : option (hnd T) :=
    match l with
    | [] => Some C
    | (A, B) :: l =>
        match sy op (Some A) (Some B) (Some d) rq_finalize (Some (Some C)) with
        | Some (success, _, Some C') => refill op d l C'
        | _ => None
        end
    end.
  Lemma refill_ok : forall op (A : hnd T) a B b d, sypr_call z is_real op A a B b d ->
    forall rq C0 B1 C1, rq = rq_count \/ rq = rq_full -> sy op (Some A) (Some B) (Some d) rq (Some C0) = Some (success, B1, C1) ->
    exists C, C1 = Some C /\ forall l, Forall (fun x => exists a' b', sypr_call z is_real op (fst x) a' (snd x) b' d /\ same_pattern A a (fst x) a' /\ same_pattern B b (snd x) b') l ->
    forall A' a' B' b', sypr_call z is_real op A' a' B' b' d -> same_pattern A a A' a' -> same_pattern B b B' b' ->
    exists C' c', refill op d (l ++ [(A', B')]) C = Some C' /\ H_nnz C' = H_nnz C /\
      upper_result O (rows_of op A) 0 (triple O op (H_m B) a' (descr_sem O (d_type d) (d_fill d) (hnd_mat O b'))) C' c'.
  Proof.
    intros op A a B b d HC rq C0 B1 C1 Hrq E. destruct (second_stage op A a B b d HC rq C0 B1 C1 Hrq E) as (C & c & nC & E1 & S1 & N1 & GO). exists C. split; [exact E1|]. clear E E1.
    intros l. revert C c S1 N1. induction l as [|(A2, B2) l IH]; intros C c S1 N1 Hl A' a' B' b' HC' PA PB; cbn [app refill].
    - destruct (GO A' a' B' b' HC' PA PB C c S1 N1) as (B'' & C' & c' & -> & N2 & U). exists C', c'. split; [reflexivity|]. split; [lia|exact U].
    - inversion Hl as [|x l' (a2 & b2 & Q1 & Q2 & Q3) Hl']; subst x l'. cbn [fst snd] in Q1, Q2, Q3. destruct (GO A2 a2 B2 b2 Q1 Q2 Q3 C c S1 N1) as (B'' & C' & c' & -> & N2 & U).
      destruct (IH C' c' (upper_sized _ O _ _ _ _ U) N2 Hl' A' a' B' b' HC' PA PB) as (C3 & c3 & E3 & N3 & U3). exists C3, c3. split; [exact E3|]. split; [lia|exact U3].
  Qed.
End R.
