(** C52: symmetric triple product into a sparse matrix. *)
From Coq Require Import ZArith List Bool Lia ZifyBool.
From Verif Require Import Base BaseFacts Algebra UtilModel UtilProof Csr SortSpec SortModel SortProof CheckModel CheckSpec Decide DoidModel DoidSpec MvModel MvSpec CsrmvModel HandleModel HandleSpec
  AddSpec Csr2mModel Csr2mSpec ConvertModel OftModel SyrkdSpec SyrkModel SyrkSpec SyprdSpec SyprModel SyprSpec SyprProof SyprStages SortInst Props_Add Props_Syrkd Props_Syrk.
Import ListNotations.
Open Scope Z_scope.

(** C52.  Single stage.  For every documented call: whatever fresh memory contains, the call
    succeeds, never leaves the arrays it allocated and returns the upper triangle of
    op(A)*B*op(A)^H as a new zero-based handle; or, when the size of the product or of the
    intermediate product does not fit the index type, it returns invalid_size and no handle.
    The handle B keeps the user's matrix and can be used in the next call (it may have got
    an optimised copy).
    Missing (refuted below): matrices that store a position more than once; use of the
    returned handle in further calls. *)
Theorem C52_sypr_partial : forall T (O : ops T), laws O -> forall is_real, (is_real = true -> forall x, ocj O x = x) ->
  forall w srt fz ft, 0 < w <= 63 -> sort_contract srt -> (forall k, 0 <= k -> zlen (fz k) = k) -> (forall k, 0 <= k -> zlen (ft k) = k) ->
  forall op (A : hnd T) a B b d, sypr_call (o0 O) is_real op A a B b d ->
  let n := rows_of op A in
  let F := triple O op (H_m B) a (descr_sem O (d_type d) (d_fill d) (hnd_mat O b)) in
  exists B' b', sypr_call (o0 O) is_real op A a B' b' d /\ same_data b b' /\ same_pattern B b B' b' /\ forall C0,
    (exists C c, sypr O is_real w srt fz ft op (Some A) (Some B) (Some d) rq_full (Some C0) = Some (success, Some B', Some C) /\ upper_result O n 0 F C c) \/
    (sypr O is_real w srt fz ft op (Some A) (Some B) (Some d) rq_full (Some C0) = Some (invalid_size, Some B', None) /\ int_max w < n * Z.max (H_m B) n).
Proof.
  intros T O L is_real HR w srt fz ft Hw Hs Hfz Hft op A a B b d HC n F.
  destruct (sypr_run O L is_real HR w srt fz ft Hw Hs Hfz Hft op A a B b d HC) as (B' & b' & H1 & H2 & nC & over & _ & Q1 & Q2 & Q3 & _). exists B', b'. split; [exact H1|]. split; [exact H2|].
  split; [exact (same_data_pattern T _ B b B' b' (sc_B _ _ _ _ _ _ _ _ HC) (sc_B _ _ _ _ _ _ _ _ H1) (sc_csr _ _ _ _ _ _ _ _ HC) H2)|]. intros C0. destruct over.
  - right. split; [apply (Q2 eq_refl rq_full C0 (or_introl eq_refl))|auto].
  - left. destruct (proj1 (Q3 eq_refl) C0) as (C & c & E1 & E2 & _). exists C, c. auto.
Qed.
Print Assumptions C52_sypr_partial.

(** C52.  First of two stages: a handle with room for the elements of the product, the row
    pointers in place; or invalid_size and no handle. *)
Theorem C52_count_partial : forall T (O : ops T), laws O -> forall is_real, (is_real = true -> forall x, ocj O x = x) ->
  forall w srt fz ft, 0 < w <= 63 -> sort_contract srt -> (forall k, 0 <= k -> zlen (fz k) = k) -> (forall k, 0 <= k -> zlen (ft k) = k) ->
  forall op (A : hnd T) a B b d, sypr_call (o0 O) is_real op A a B b d ->
  let n := rows_of op A in
  exists B' b', sypr_call (o0 O) is_real op A a B' b' d /\ same_data b b' /\ forall C0,
    (exists C c, sypr O is_real w srt fz ft op (Some A) (Some B) (Some d) rq_count (Some C0) = Some (success, Some B', Some C) /\ sized n C c) \/
    (sypr O is_real w srt fz ft op (Some A) (Some B) (Some d) rq_count (Some C0) = Some (invalid_size, Some B', None) /\ int_max w < n * Z.max (H_m B) n).
Proof.
  intros T O L is_real HR w srt fz ft Hw Hs Hfz Hft op A a B b d HC n.
  destruct (sypr_run O L is_real HR w srt fz ft Hw Hs Hfz Hft op A a B b d HC) as (B' & b' & H1 & H2 & nC & over & _ & Q1 & Q2 & Q3 & _). exists B', b'. split; [exact H1|]. split; [exact H2|]. intros C0. destruct over.
  - right. split; [apply (Q2 eq_refl rq_count C0 (or_intror eq_refl))|auto].
  - left. destruct (proj2 (Q3 eq_refl) C0) as (C & c & E1 & E2 & _). exists C, c. auto.
Qed.
Print Assumptions C52_count_partial.

(** C52.  Second stage, and every further one: let the handle C come from the first stage or
    from a call that did everything at once.  Then it can be filled any number of times, with
    any matrices that store elements at the same positions as those of the first call (other
    values, or another of the two formats for A): after each of these calls it is the upper
    triangle of op(A)*B*op(A)^H for the matrices of the last call, and nothing is written
    outside of its arrays. *)
Theorem C52_refill_partial : forall T (O : ops T), laws O -> forall is_real, (is_real = true -> forall x, ocj O x = x) ->
  forall w srt fz ft, 0 < w <= 63 -> sort_contract srt -> (forall k, 0 <= k -> zlen (fz k) = k) -> (forall k, 0 <= k -> zlen (ft k) = k) ->
  forall op (A : hnd T) a B b d, sypr_call (o0 O) is_real op A a B b d ->
  let good A' a' B' b' := sypr_call (o0 O) is_real op A' a' B' b' d /\ same_pattern A a A' a' /\ same_pattern B b B' b' in
  forall rq C0 B1 C1, rq = rq_count \/ rq = rq_full ->
  sypr O is_real w srt fz ft op (Some A) (Some B) (Some d) rq (Some C0) = Some (success, B1, C1) ->
  exists C, C1 = Some C /\
  forall l, Forall (fun x => exists a' b', good (fst x) a' (snd x) b') l -> forall A' a' B' b', good A' a' B' b' ->
  exists C' c', refill O is_real w srt fz ft op d (l ++ [(A', B')]) C = Some C' /\ H_nnz C' = H_nnz C /\
    upper_result O (rows_of op A) 0 (triple O op (H_m B) a' (descr_sem O (d_type d) (d_fill d) (hnd_mat O b'))) C' c'.
Proof.
  intros T O L is_real HR w srt fz ft Hw Hs Hfz Hft op A a B b d HC good rq C0 B1 C1 Hrq E.
  destruct (refill_ok O L is_real HR w srt fz ft Hw Hs Hfz Hft op A a B b d HC rq C0 B1 C1 Hrq E) as (C & E1 & H). exists C. split; [exact E1|].
  intros l Hl A' a' B' b' (G1 & G2 & G3). exact (H l Hl A' a' B' b' G1 G2 G3).
Qed.
Print Assumptions C52_refill_partial.

Local Ltac fin := eexists; split; [reflexivity|auto].
(** C52.  Calls outside of the documented ones are refused: B is unchanged, C is as it was or
    null. *)
Theorem C52_rejects : forall T (O : ops T) is_real w srt fz ft op (A B : option (hnd T)) d rq Cp,
  let C := match Cp with Some C => C | None => None end in
  let out s := exists C', sypr O is_real w srt fz ft op A B d rq Cp = Some (s, B, C') /\ (C' = None \/ C' = C) in
  (rq = rq_other \/ valid_op op = false -> out invalid_value) /\
  (rq <> rq_other -> valid_op op = true ->
     (A = None \/ B = None \/ d = None \/ Cp = None -> out invalid_pointer) /\
     forall hA a hB b dd p, A = Some hA -> B = Some hB -> d = Some dd -> Cp = Some p -> holds hA a -> holds hB b ->
       (c_doid b = gt -> out not_implemented) /\
       (c_doid b = gn ->
          (is_real = false -> op = op_transpose -> out not_implemented) /\
          (is_real = true \/ op <> op_transpose ->
             (d_base dd <> c_b b \/ d_type dd <> (if is_real then mt_symmetric else mt_hermitian) -> out invalid_value) /\
             (d_base dd = c_b b -> d_type dd = (if is_real then mt_symmetric else mt_hermitian) ->
                (d_diag dd <> dg_non_unit -> out not_implemented) /\
                (d_diag dd = dg_non_unit ->
                   (H_m hB <> H_n hB \/ cols_of op hA <> H_m hB -> out invalid_size) /\
                   (H_m hB = H_n hB -> cols_of op hA = H_m hB ->
                      (rq = rq_finalize -> p = None -> out invalid_value) /\
                      (rq <> rq_finalize -> H_m hB <> 0 -> rows_of op hA <> 0 -> H_nnz hA <> 0 -> H_nnz hB <> 0 ->
                         H_sort hB <> fully_sorted \/ stored_rows op a = true /\ H_sort hA <> fully_sorted -> out unsorted_input))))))).
Proof.
  intros T O is_real w srt fz ft op A B d rq Cp C out. unfold out, C, sypr. split.
  { intros [-> | H]; [fin|]. rewrite H. destruct rq; fin. }
  intros Hrq Ho. replace (match rq with rq_other => true | _ => false end) with false by (destruct rq; congruence). rewrite Ho. cbn [negb]. split.
  { intros H. destruct d; [|fin]. destruct A; [|fin]. destruct B; [|fin]. destruct Cp; [|fin]. intuition discriminate. }
  intros hA a hB b dd p -> -> -> -> HA HB.
  assert (NO : forall X : option (hnd T), match rq with rq_finalize => X | _ => None end = None \/ match rq with rq_finalize => X | _ => None end = X) by (intros X; destruct rq; auto).
  assert (DA : c_doid a = gn \/ c_doid a = gt) by (destruct HA as ((_ & _ & _ & _ & ?) & _); intuition).
  assert (MA : first_mtx hA = Some a) by (destruct HA as (_ & rest & EA); unfold first_mtx; rewrite EA; reflexivity).
  assert (MB : first_mtx hB = Some b) by (destruct HB as (_ & rest & EB); unfold first_mtx; rewrite EB; reflexivity).
  assert (BA : c_b a = 0 \/ c_b a = 1) by (destruct HA as (((_ & _ & _ & ?) & _) & _); assumption).
  rewrite MA, MB. cbv zeta. replace (negb (c_doid a =? gt) && negb (c_doid a =? gn)) with false by (destruct DA as [-> | ->]; reflexivity). split.
  { intros ->. cbn [gt gn Z.eqb negb]. fin. }
  intros ->. cbn [gn Z.eqb negb]. split.
  { intros -> ->. cbn [negb andb]. fin. }
  intros Hc. replace (negb is_real && match op with op_transpose => true | _ => false end) with false by (destruct is_real; [reflexivity|]; destruct op; try reflexivity; destruct Hc; congruence). split.
  { intros H. destruct (Z.eqb_spec (c_b b) (d_base dd)); cbn [negb]; [|fin]. destruct H as [H|H]; [congruence|].
    replace (if is_real then match d_type dd with mt_symmetric => true | _ => false end else match d_type dd with mt_hermitian => true | _ => false end) with false by (destruct is_real, (d_type dd); congruence). cbn [negb]. fin. }
  intros -> Ty. rewrite Z.eqb_refl. cbn [negb].
  replace (if is_real then match d_type dd with mt_symmetric => true | _ => false end else match d_type dd with mt_hermitian => true | _ => false end) with true by (rewrite Ty; destruct is_real; reflexivity). cbn [negb]. split.
  { intros H. destruct (d_diag dd); try (fin; fail). congruence. }
  intros ->. split.
  { intros H. destruct (Z.eqb_spec (H_m hB) (H_n hB)); cbn [negb]; [|fin]. destruct H as [H|H]; [congruence|].
    replace (H_m hB =? (if match op with op_none => true | _ => false end then H_n hA else H_m hA)) with false by (unfold cols_of in H; destruct op; lia). cbn [negb]. fin. }
  intros Hsq Hd. replace (H_m hB =? H_n hB) with true by lia. cbn [negb].
  replace (H_m hB =? (if match op with op_none => true | _ => false end then H_n hA else H_m hA)) with true by (unfold cols_of in Hd; destruct op; lia). cbn [negb].
  replace (negb ((c_b a =? 0) || (c_b a =? 1))) with false by lia. split.
  { intros -> ->. fin. }
  intros Hf M0 N0 NA NB Hs. replace (match rq with rq_finalize => _ | _ => false end) with false by (destruct rq; congruence).
  replace ((H_m hB =? 0) || ((if match op with op_none => true | _ => false end then H_m hA else H_n hA) =? 0) || (H_nnz hA =? 0) || (H_nnz hB =? 0)) with false by (unfold rows_of in N0; destruct op; lia).
  match goal with |- context [if ?c then Some (unsorted_input, _, _) else _] => replace c with true end; [fin|].
  symmetry. apply orb_true_iff. destruct Hs as [Hs|(Hs & Hs')].
  - right. destruct (H_sort hB); try reflexivity. congruence.
  - left. apply andb_true_iff. split; [destruct (H_sort hA); try reflexivity; congruence|]. unfold stored_rows in Hs. destruct op, (c_doid a =? gt); try discriminate; reflexivity.
Qed.
Print Assumptions C52_rejects.

(** Concrete cases: the 3x2 matrix of C49 as CSR and as CSC, a Hermitian 2x2 matrix given by
    its lower triangle, the value 9+9i above the diagonal is not to be used; and other values
    at the same positions. *)
Definition C52_b (v : list G) : cmat G := mkCmat 2 2 4 gn 0 [0;2;4] [0;1;0;1] v None None false dg_non_unit None.
Definition C52_B (v : list G) : hnd G := C49_h 2 2 4 (C52_b v).
Definition C52_v1 : list G := [(2,0);(9,9);(1,1);(3,0)].
Definition C52_v2 : list G := [(1,0);(5,5);(0,2);(-1,0)].
Definition C52_d : descr := mkDescr mt_hermitian fm_lower dg_non_unit 0.
Lemma C52_call : forall v A a, (v = C52_v1 \/ v = C52_v2) -> (A = C49_A /\ a = C49_a \/ A = C49_B /\ a = C49_b) -> sypr_call (o0 Gops) false op_none A a (C52_B v) (C52_b v) C52_d.
Proof.
  intros v A a Hv HA. destruct C49_hyps as ((H1 & H2) & (S1 & S2) & (D1 & D2) & _).
  assert (HV : zlen v = 4) by (destruct Hv; subst; reflexivity).
  assert (HB : holds (C52_B v) (C52_b v)) by (destruct Hv; subst v; [exact (holds_case G 2 2 4 gn 0 [0;2;4] [0;1;0;1] C52_v1 eq_refl eq_refl eq_refl eq_refl eq_refl)|exact (holds_case G 2 2 4 gn 0 [0;2;4] [0;1;0;1] C52_v2 eq_refl eq_refl eq_refl eq_refl eq_refl)]).
  constructor; try reflexivity; try discriminate.
  - destruct HA as [(-> & ->)|(-> & ->)]; assumption.
  - destruct HB as (U & rest & E). split; [exact U|]. exists []. split; [reflexivity|]. split; [discriminate|constructor].
  - destruct HA as [(-> & ->)|(-> & ->)]; reflexivity.
  - intros _. destruct HA as [(-> & ->)|(-> & ->)]; reflexivity.
  - destruct HA as [(-> & ->)|(-> & ->)]; [discriminate|]. intros _. exact S2.
  - destruct HA as [(-> & ->)|(-> & ->)]; assumption.
  - intros c [E|[]]. inversion E; subst c. apply rows_sortedb_ok. reflexivity.
  - apply rows_distinctb_ok. reflexivity.
Qed.
Example C52_hyps : sypr_call (o0 Gops) false op_none C49_A C49_a (C52_B C52_v1) (C52_b C52_v1) C52_d /\
  sypr_call (o0 Gops) false op_none C49_B C49_b (C52_B C52_v2) (C52_b C52_v2) C52_d /\
  same_pattern C49_A C49_a C49_B C49_b /\ same_pattern (C52_B C52_v1) (C52_b C52_v1) (C52_B C52_v2) (C52_b C52_v2).
Proof.
  split; [apply C52_call; auto|]. split; [apply C52_call; auto|]. split; (do 3 (split; [reflexivity|])); intros i j Hi Hj; cbn in Hi, Hj;
    assert (Q : i = 0 \/ i = 1 \/ i = 2) by lia; assert (Q' : j = 0 \/ j = 1) by lia; destruct Q as [-> |[-> | ->]]; try lia; destruct Q' as [-> | ->]; vm_compute; split; intuition discriminate.
Qed.
Definition C52_run (A : hnd G) (v : list G) (rq : request) (C : option (hnd G)) := sypr Gops false 31 isort C51_fz C51_fg op_none (Some A) (Some (C52_B v)) (Some C52_d) rq (Some C).
Definition C52_show (r : option (status * option (hnd G) * option (hnd G))) : option (Z * list Z * list Z * list G) :=
  match r with Some (success, _, Some h) => match H_mats h with Some c :: _ => Some (H_nnz h, c_ptr c, c_ind c, c_val c) | _ => None end | _ => None end.
Example C52_case_full : map (fun A => C52_show (C52_run A C52_v1 rq_full None)) [C49_A; C49_B]
  = [Some (6, [0;3;5;6], [0;2;1;2;1;2], [(24,0);(16,16);(0,-24);(-12,12);(27,0);(32,0)]);
     Some (6, [0;3;5;6], [0;2;1;2;1;2], [(24,0);(16,16);(0,-24);(-12,12);(27,0);(32,0)])].
Proof. vm_compute. reflexivity. Qed.
Example C52_case_stages : match C52_run C49_A C52_v1 rq_count None with
  | Some (success, _, Some C) =>
      match refill Gops false 31 isort C51_fz C51_fg op_none C52_d [(C49_A, C52_B C52_v1); (C49_B, C52_B C52_v2)] C with
      | Some C2 => C52_show (Some (success, None, Some C2)) = C52_show (C52_run C49_A C52_v2 rq_full None) /\ H_nnz C2 = 6
      | None => False
      end
  | _ => False
  end.
Proof. vm_compute. split; reflexivity. Qed.

(** C52 refuted for matrices that store a position twice (accepted off the diagonal): the row
    A = (0, 1+1, 1) and B = (1) give A^T B A with 4, 2 and 1; the library reports success and
    returns 2 and 1 in row one, and nothing in row two. *)
Theorem C52_repeated_columns_refuted : ~ (forall (A : hnd Z) a B b op d,
  holds A a -> holds B b -> valid_op op = true -> sort_says (H_sort A) (c_m a) (c_b a) (c_ptr a) (c_ind a) -> H_sort A = fully_sorted ->
  sort_says (H_sort B) (c_m b) (c_b b) (c_ptr b) (c_ind b) -> H_sort B = fully_sorted -> c_doid b = gn -> d_base d = c_b b -> d_type d = mt_symmetric -> d_diag d = dg_non_unit ->
  H_m B = H_n B -> cols_of op A = H_m B ->
  exists B' C c, sypr Zops true 31 isort C51_fz C51_fz op (Some A) (Some B) (Some d) rq_full (Some None) = Some (success, B', Some C) /\
    upper_result Zops (rows_of op A) 0 (triple Zops op (H_m B) a (descr_sem Zops (d_type d) (d_fill d) (hnd_mat Zops b))) C c).
Proof.
  intros H.
  set (a := mkCmat 1 3 3 gn 0 [0;3] [1;1;2] [1;1;1] None None false dg_non_unit None : cmat Z). set (A := mkHnd 1 3 3 [Some a] fully_sorted false false false []).
  set (b := mkCmat 1 1 1 gn 0 [0;1] [0] [1] None None false dg_non_unit None : cmat Z). set (B := mkHnd 1 1 1 [Some b] fully_sorted false false false []).
  destruct (H A a B b op_transpose (mkDescr mt_symmetric fm_lower dg_non_unit 0)) as (B' & C & c & E & R); try reflexivity.
  - exact (holds_case Z 1 3 3 gn 0 [0;3] [1;1;2] [1;1;1] eq_refl eq_refl eq_refl eq_refl eq_refl).
  - exact (holds_case Z 1 1 1 gn 0 [0;1] [0] [1] eq_refl eq_refl eq_refl eq_refl eq_refl).
  - apply rows_sortedb_ok. reflexivity.
  - apply rows_sortedb_ok. reflexivity.
  - pose proof (ur_mats _ _ _ _ _ _ R) as M. pose proof (ur_mat _ _ _ _ _ _ R 1 1 ltac:(lia)) as V. specialize (V ltac:(vm_compute; reflexivity)).
    assert (X : exists B0 C0 c0, sypr Zops true 31 isort C51_fz C51_fz op_transpose (Some A) (Some B) (Some (mkDescr mt_symmetric fm_lower dg_non_unit 0)) rq_full (Some None) = Some (success, B0, Some C0) /\ H_mats C0 = [Some c0] /\
      csr_mat Zops 0 (c_ptr c0) (prefix (H_nnz C0) (c_ind c0)) (prefix (H_nnz C0) (c_val c0)) 1 1 = 2) by (vm_compute; do 3 eexists; repeat split; reflexivity).
    destruct X as (B0 & C0 & c0 & X1 & X2 & X3). rewrite X1 in E. inversion E; subst C0. rewrite X2 in M. inversion M; subst c0. rewrite X3 in V. vm_compute in V. discriminate.
Qed.
Print Assumptions C52_repeated_columns_refuted.

(** The handle the product returns cannot be used further: its matrix object keeps "-1" as the
    number of its elements.  The first call that needs it analysed (a product with a symmetric
    matrix, a solve, aoclsparse_optimize) makes a copy of its rows, which are not sorted, in a
    new object without arrays for indices and values and writes through null pointers;
    aoclsparse_convert_csr copies minus one elements. *)
Theorem C52_use_refuted : ~ (forall A a B b B' C c, sypr_call (o0 Gops) false op_none A a B b C52_d ->
  sypr Gops false 31 isort C51_fz C51_fg op_none (Some A) (Some B) (Some C52_d) rq_full (Some None) = Some (success, B', Some C) ->
  upper_result Gops (rows_of op_none A) 0 (triple Gops op_none (H_m B) a (descr_sem Gops mt_hermitian fm_lower (hnd_mat Gops b))) C c ->
  csr_csc_optimize Gops isort C51_fz C51_fg C <> None).
Proof.
  intros H. pose proof (C52_call C52_v1 C49_A C49_a (or_introl eq_refl) (or_introl (conj eq_refl eq_refl))) as HC.
  destruct (C52_sypr_partial G Gops Glaws false ltac:(discriminate) 31 isort C51_fz C51_fg ltac:(lia) isort_contract ltac:(intros; now apply zlen_zrep) ltac:(intros; now apply zlen_zrep) _ _ _ _ _ _ HC) as (B' & b' & _ & _ & _ & R). destruct (R None) as [(C & c & E & U)|(E & _)].
  - apply (H C49_A C49_a _ _ (Some B') C c HC E U).
    assert (X : exists B0 C0, C52_run C49_A C52_v1 rq_full None = Some (success, B0, Some C0) /\ csr_csc_optimize Gops isort C51_fz C51_fg C0 = None) by (vm_compute; do 2 eexists; split; reflexivity).
    destruct X as (B0 & C0 & X1 & X2). unfold C52_run in X1. rewrite X1 in E. inversion E; subst C0. exact X2.
  - vm_compute in E. discriminate.
Qed.
Print Assumptions C52_use_refuted.
Theorem C52_convert_refuted : ~ (forall A a B b B' C c, sypr_call (o0 Gops) false op_none A a B b C52_d ->
  sypr Gops false 31 isort C51_fz C51_fg op_none (Some A) (Some B) (Some C52_d) rq_full (Some None) = Some (success, B', Some C) ->
  upper_result Gops (rows_of op_none A) 0 (triple Gops op_none (H_m B) a (descr_sem Gops mt_hermitian fm_lower (hnd_mat Gops b))) C c ->
  convert_csr (ocj Gops) true C51_fz C51_fg (Some C) op_none true <> None).
Proof.
  intros H. pose proof (C52_call C52_v1 C49_A C49_a (or_introl eq_refl) (or_introl (conj eq_refl eq_refl))) as HC.
  destruct (C52_sypr_partial G Gops Glaws false ltac:(discriminate) 31 isort C51_fz C51_fg ltac:(lia) isort_contract ltac:(intros; now apply zlen_zrep) ltac:(intros; now apply zlen_zrep) _ _ _ _ _ _ HC) as (B' & b' & _ & _ & _ & R). destruct (R None) as [(C & c & E & U)|(E & _)].
  - apply (H C49_A C49_a _ _ (Some B') C c HC E U).
    assert (X : exists B0 C0, C52_run C49_A C52_v1 rq_full None = Some (success, B0, Some C0) /\ convert_csr (ocj Gops) true C51_fz C51_fg (Some C0) op_none true = None) by (vm_compute; do 2 eexists; split; reflexivity).
    destruct X as (B0 & C0 & X1 & X2). unfold C52_run in X1. rewrite X1 in E. inversion E; subst C0. exact X2.
  - vm_compute in E. discriminate.
Qed.
Print Assumptions C52_convert_refuted.
