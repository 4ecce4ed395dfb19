(** C42: matrices stored as two triangles. *)
From Coq Require Import ZArith List Bool Lia ZifyBool QArith Qcanon.
From Verif Require Import Base BaseFacts Algebra Csr CheckModel CheckSpec Decide SortSpec DoidModel DoidSpec
  MvModel MvSpec CsrmvModel HandleModel HandleSpec TrsvModel TrsvSpec TcsrModel TcsrSpec TcsrProof Props_Trsv.
Import ListNotations.
Open Scope Z_scope.

(** Creation over arrays as long as the interface requires is defined, succeeds exactly
    on a valid pair of triangles, creates nothing otherwise, and the new handle holds
    the given arrays. *)
Theorem C42_create_validates : forall T fz b M N nnz ptrL ptrU indL indU (valL valU : list T),
  (forall z, 0 <= z -> zlen (fz z : list Z) = z) ->
  (0 <= M -> zlen ptrL = M + 1 /\ zlen ptrU = M + 1 /\
     (0 <= zn ptrL M - b -> zlen indL = zn ptrL M - b /\ zlen valL = zn ptrL M - b) /\
     (0 <= zn ptrU M - b -> zlen indU = zn ptrU M - b /\ zlen valU = zn ptrU M - b)) ->
  exists st r, create_tcsr fz false b M N nnz (Some ptrL) (Some ptrU) (Some indL) (Some indU) (Some valL) (Some valU) = Some (st, r) /\
    (st = success <-> tcsr_valid b M N nnz ptrL ptrU indL indU) /\
    (st <> success -> r = None) /\
    (st = success -> exists t, r = Some t /\ tcsr_ok t /\
       t_b t = b /\ t_m t = M /\ t_n t = N /\ t_nnz t = nnz /\
       t_ptrL t = ptrL /\ t_ptrU t = ptrU /\ t_indL t = indL /\ t_indU t = indU /\ t_valL t = valL /\ t_valU t = valU /\
       (t_sort t = fully_sorted \/ t_sort t = partially_sorted)).
Proof.
  intros T fz b M N nnz ptrL ptrU indL indU valL valU Hfz HL.
  destruct (create_tcsr_ok fz b M N nnz ptrL ptrU indL indU valL valU Hfz) as (st & r & E & I & Hn & Hs).
  { intros HM. destruct (HL HM) as (H1 & H2 & H3 & H4). repeat split; auto; intros H; [apply H3|apply H4]; auto. }
  exists st, r. split; [exact E|]. split; [exact I|]. split; [exact Hn|]. intros Es.
  destruct (Hs Es) as (t & -> & B1 & B2 & B3 & B4 & B5 & B6 & B7 & B8 & B9 & B10 & B11 & B12 & B13 & B14).
  exists t. split; [reflexivity|]. split; [|repeat split; auto]. apply I in Es.
  unfold tcsr_ok. rewrite B1, B2, B3, B4, B5, B6, B7, B8, B9, B10. split; [exact Es|]. split; [|auto].
  destruct Es as (_ & HM & _ & HLo & HUp & _). destruct (HL HM) as (H1 & H2 & H3 & H4).
  pose proof (half_ptr _ _ _ _ _ HM (or_introl HLo)) as N1. pose proof (half_ptr _ _ _ _ _ HM (or_intror HUp)) as N2.
  unfold tcsr_lens. destruct (H3 ltac:(lia)), (H4 ltac:(lia)). auto 8.
Qed.
Print Assumptions C42_create_validates.

(** A null handle pointer or array is reported, and nothing is created. *)
Theorem C42_create_null : forall T fz mn b M N nnz ptrL ptrU indL indU (valL valU : option (list T)),
  mn = true \/ ptrL = None \/ ptrU = None \/ indL = None \/ indU = None \/ valL = None \/ valU = None ->
  create_tcsr fz mn b M N nnz ptrL ptrU indL indU valL valU = Some (invalid_pointer, None).
Proof.
  intros T fz mn b M N nnz ptrL ptrU indL indU valL valU H. unfold create_tcsr. destruct mn; [reflexivity|].
  destruct ptrL, ptrU, indL, indU, valL, valU; try reflexivity.
  repeat (destruct H as [H|H]; [discriminate|]). discriminate.
Qed.
Print Assumptions C42_create_null.

(** Product.  For real types, the call on a handle denoting [A] is defined; it either
    computes alpha * op(A') * x + beta * y, A' what the descriptor selects of A, or
    reports not_implemented and leaves y alone, which happens only for Hermitian
    descriptors and for general ones with a transposition, with single precision or
    without AVX2.  Missing from the full property (refuted below): the upper triangle
    with its stored diagonal needs the diagonals of both halves to agree, and the
    double product of a unit upper triangle needs rows of at most four entries. *)
Theorem C42_product_partial : forall T (O : ops T) dt avx2 avx512 t A d op alpha beta x y,
  laws O -> is_cplx dt = false -> (forall a, ocj O a = a) ->
  tcsr_ok t -> denotes O t A -> d_base d = t_b t -> valid_op op = true ->
  zlen x = t_m t -> zlen y = t_m t ->
  (d_type d = mt_triangular \/ d_type d = mt_symmetric -> d_fill d = fm_upper -> d_diag d = dg_non_unit -> diagonals_agree O t) ->
  (dt = dt_d -> d_type d = mt_triangular -> d_fill d = fm_upper -> d_diag d = dg_unit -> op = op_none ->
   forall i, 0 <= i < t_m t -> zn (t_ptrU t) (i + 1) - zn (t_ptrU t) i <= 4) ->
  exists st yr, tcsr_mv O dt avx2 avx512 op (Some alpha) (Some t) (Some d) (Some x) (Some beta) (Some y) = Some (st, yr) /\
    (st = success /\ (exists y', yr = Some y' /\
       mv_spec O (t_m t) (t_m t) alpha beta (op_sem O op (described O (d_type d) (d_fill d) (d_diag d) A)) x y y') \/
     st = not_implemented /\ yr = None /\
       (d_type d = mt_hermitian \/ d_type d = mt_general /\ (op <> op_none \/ dt <> dt_d \/ avx2 = false))).
Proof.
  intros T O dt avx2 avx512 t A d op alpha beta x y L Hc Hr OK DA Hb Hop Lx Ly Hag Hu.
  apply tcsr_mv_ok; auto.
Qed.
Print Assumptions C42_product_partial.

(** Solve.  The call on a handle denoting [A] is defined; on success x solves
    op(A') * x = alpha * b for the selected triangle A' and only the strided entries of
    x are written; otherwise x is untouched and the status says why.  Missing from the
    full property: as for the product, diagonals that agree for the upper triangle; as
    in C21, alpha not zero and no repeated column when a vector kernel solves a
    transposed system. *)
Theorem C42_trsv_partial : forall T (O : ops T) dt choice w t A d op alpha rhs incb x incx kid,
  laws O -> div_law O -> (is_cplx dt = false -> forall a, ocj O a = a) ->
  tcsr_ok t -> denotes O t A -> 0 < t_m t ->
  d_base d = t_b t -> valid_op op = true -> d_type d = mt_triangular \/ d_type d = mt_symmetric -> d_diag d <> dg_zero ->
  0 < w -> t_m t <= 2 ^ w - 1 -> incx <= 2 ^ w - 1 -> incb <= 2 ^ w - 1 ->
  holds (t_m t) incx x -> holds (t_m t) incb rhs ->
  (d_fill d = fm_upper -> d_diag d = dg_non_unit -> diagonals_agree O t) ->
  (d_diag d = dg_non_unit -> forall i, 0 <= i < t_m t -> A i i <> o0 O) ->
  (choice kid = Some 0 \/ is_none op = true \/ alpha <> o0 O /\
     (if (match d_fill d with fm_lower => true | _ => false end) then rows_distinct (t_m t) (t_b t) (t_ptrL t) (t_indL t)
      else rows_distinct (t_m t) (t_b t) (t_ptrU t) (t_indU t))) ->
  exists st xr,
    tcsr_trsv O dt choice w op alpha (Some t) (Some d) (Some rhs) incb (Some x) incx kid = Some (st, xr) /\
    (st = success /\ (exists x1, xr = Some x1 /\ only_strided O (t_m t) incx x x1 /\
       solves O (t_m t) alpha (op_sem O op (described O mt_triangular (d_fill d) (d_diag d) A)) rhs incb x1 incx) \/
     st = invalid_kid /\ xr = None /\ choice kid = None \/
     st = invalid_size /\ xr = None /\ (2 ^ w - 1 < (t_m t - 1) * incx \/ 2 ^ w - 1 < (t_m t - 1) * incb)).
Proof. intros. apply tcsr_trsv_ok; auto. Qed.
Print Assumptions C42_trsv_partial.

(** ** A concrete case: the matrix
      [2 0 3]
      [1 4 0]
      [5 6 7]  in base one *)
Definition tx {T} (v : Z -> T) : tcsr T :=
  mkTcsr 3 3 7 1 [1;2;4;7] [1;3;4;5] [1;1;2;2;1;3] [1;3;2;3]
    [v 2;v 1;v 4;v 6;v 5;v 7] [v 2;v 3;v 4;v 7] [1;3;6] [2;4;5] partially_sorted.
Definition txL {T} (v : Z -> T) := [v 2;v 1;v 4;v 6;v 5;v 7].
Definition txU {T} (v : Z -> T) := [v 2;v 3;v 4;v 7].

Lemma three : forall i, 0 <= i < 3 -> i = 0 \/ i = 1 \/ i = 2.
Proof. intros. lia. Qed.

Ltac ptr_case := split; [reflexivity|]; split; [reflexivity|];
  intros i Hi; destruct (three i Hi) as [-> |[-> | ->]]; vm_compute; discriminate.

Example C42_case_valid : tcsr_valid 1 3 3 7 [1;2;4;7] [1;3;4;5] [1;1;2;2;1;3] [1;3;2;3].
Proof.
  split; [auto|]. split; [lia|]. split; [reflexivity|].
  split; [|split; [|reflexivity]]; (split; [ptr_case|]); intros i Hi;
    destruct (three i Hi) as [-> |[-> | ->]]; (split; [reflexivity|]); (split; [reflexivity|]); intros k Hk;
    repeat match type of Hk with context [zn ?l ?i] => let v := eval vm_compute in (zn l i) in change (zn l i) with v in Hk end;
    assert (k = 0 \/ k = 1 \/ k = 2 \/ k = 3 \/ k = 4 \/ k = 5) as C by lia;
    destruct C as [-> |[-> |[-> |[-> |[-> | ->]]]]]; first [exfalso; lia | vm_compute; split; congruence].
Qed.

Example C42_case_create : forall T (v : Z -> T),
  create_tcsr tjunk false 1 3 3 7 (Some [1;2;4;7]) (Some [1;3;4;5]) (Some [1;1;2;2;1;3]) (Some [1;3;2;3]) (Some (txL v)) (Some (txU v))
  = Some (success, Some (tx v)).
Proof. reflexivity. Qed.

Example C42_case_ok : forall T (v : Z -> T), tcsr_ok (tx v).
Proof.
  intros T v. split; [exact C42_case_valid|]. split; [repeat split; reflexivity|]. split; [reflexivity|]. split; [reflexivity|].
  intros i Hi. destruct (three i Hi) as [-> |[-> | ->]]; split; reflexivity.
Qed.

Example C42_case_agree : diagonals_agree Zops (tx (fun z => z)) /\ diagonals_agree Qops (tx (fun z => Q2Qc (inject_Z z))).
Proof. split; intros i Hi; destruct (three i Hi) as [-> |[-> | ->]]; vm_compute; reflexivity. Qed.

Example C42_case_product :
  tcsr_mv Zops dt_d true false op_none (Some 2) (Some (tx (fun z => z))) (Some (mkDescr mt_general fm_lower dg_non_unit 1)) (Some [1;10;100]) (Some 3) (Some [1;1;1])
    = Some (success, Some [607; 85; 1533]) /\
  tcsr_mv Zops dt_s true false op_transpose (Some 2) (Some (tx (fun z => z))) (Some (mkDescr mt_triangular fm_upper dg_non_unit 1)) (Some [1;10;100]) (Some 0) (Some [1;1;1])
    = Some (success, Some [4; 80; 1406]) /\
  tcsr_mv Zops dt_d true false op_none (Some 1) (Some (tx (fun z => z))) (Some (mkDescr mt_symmetric fm_lower dg_non_unit 1)) (Some [1;10;100]) (Some 0) (Some [1;1;1])
    = Some (success, Some [512; 641; 765]).
Proof. repeat split; reflexivity. Qed.

Example C42_case_solve :
  let q z := Q2Qc (inject_Z z) in
  option_map (fun r => (fst r, option_map (map this) (snd r)))
    (tcsr_trsv Qops dt_d tpick 31 op_none (q 2) (Some (tx q)) (Some (mkDescr mt_triangular fm_lower dg_non_unit 1))
       (Some [q 1; q 41; q 765]) 1 (Some [q 0; q 0; q 0]) 1 (-1))
  = Some (success, Some [1; 81 # 4; 401 # 2]%Q).
Proof. reflexivity. Qed.

(** ** Refutations *)

(** Creation does not compare the two diagonals: the same handle multiplies with the
    diagonal of L under a general or lower descriptor and with that of U under an upper
    one, so no single matrix explains all products. *)
Theorem C42_diagonals_unchecked_refuted : exists t : tcsr Z,
  create_tcsr tjunk false 0 1 1 1 (Some [0;1]) (Some [0;1]) (Some [0]) (Some [0]) (Some [2]) (Some [3]) = Some (success, Some t) /\
  tcsr_ok t /\
  (forall A, ~ (forall d, d_type d = mt_general \/ d_type d = mt_triangular -> d_diag d = dg_non_unit -> d_base d = 0 ->
    exists y', tcsr_mv Zops dt_d true false op_none (Some 1) (Some t) (Some d) (Some [1]) (Some 0) (Some [0]) = Some (success, Some y') /\
      mv_spec Zops 1 1 1 0 (described Zops (d_type d) (d_fill d) (d_diag d) A) [1] [0] y')).
Proof.
  exists (mkTcsr 1 1 1 0 [0;1] [0;1] [0] [0] [2] [3] [0] [1] fully_sorted). split; [reflexivity|]. split.
  - assert (U : forall i, 0 <= i < 1 -> i = 0) by (intros; lia).
    assert (P : ptr_ok 1 1 0 [0;1]) by (split; [reflexivity|]; split; [reflexivity|]; intros i Hi; rewrite (U i Hi); vm_compute; discriminate).
    split; [|split; [repeat split; reflexivity|]; split; [reflexivity|]; split; [reflexivity|]; intros i Hi; rewrite (U i Hi); split; reflexivity].
    split; [auto|]. split; [cbn; lia|]. split; [reflexivity|].
    split; [|split; [|reflexivity]]; (split; [exact P|]); intros i Hi; rewrite (U i Hi); (split; [reflexivity|]); (split; [reflexivity|]);
      intros k Hk; repeat match type of Hk with context [zn ?l ?i] => let v := eval vm_compute in (zn l i) in change (zn l i) with v in Hk end;
      cbn [t_b] in Hk; lia.
  - intros A H.
    destruct (H (mkDescr mt_general fm_lower dg_non_unit 0)) as (y1 & E1 & S1 & S2); auto.
    destruct (H (mkDescr mt_triangular fm_upper dg_non_unit 0)) as (y2 & E2 & S3 & S4); auto.
    assert (y1 = [2]) by (vm_compute in E1; congruence). assert (y2 = [3]) by (vm_compute in E2; congruence). subst y1 y2.
    specialize (S2 0 ltac:(lia)). specialize (S4 0 ltac:(lia)). 
    assert (2 = 1 * (A 0 0 * 1 + 0) + 0 * 0) as V1 by exact S2. assert (3 = 1 * (A 0 0 * 1 + 0) + 0 * 0) as V2 by exact S4. lia.
Qed.
Print Assumptions C42_diagonals_unchecked_refuted.

(** The double product of a unit upper triangle loses the diagonal in a row with four
    or more entries above it. *)
Definition tu : tcsr Z :=
  mkTcsr 5 5 9 0 [0;1;2;3;4;5] [0;5;6;7;8;9] [0;1;2;3;4] [0;1;2;3;4;1;2;3;4]
    [1;1;1;1;1] [1;1;1;1;1;1;1;1;1] [0;1;2;3;4] [1;6;7;8;9] fully_sorted.
Theorem C42_unit_upper_refuted : exists (t : tcsr Z) d x y y' ptrL ptrU indL indU valL valU,
  create_tcsr tjunk false 0 5 5 9 (Some ptrL) (Some ptrU) (Some indL) (Some indU) (Some valL) (Some valU) = Some (success, Some t) /\
  d_base d = t_b t /\ zlen x = 5 /\ zlen y = 5 /\ diagonals_agree Zops t /\
  tcsr_mv Zops dt_d true false op_none (Some 1) (Some t) (Some d) (Some x) (Some 0) (Some y) = Some (success, Some y') /\
  ~ mv_spec Zops 5 5 1 0 (described Zops (d_type d) (d_fill d) (d_diag d) (fun i j => if j <=? i then tlow Zops t i j else tupp Zops t i j)) x y y'.
Proof.
  exists tu, (mkDescr mt_triangular fm_upper dg_unit 0), [100;1;1;1;1], [0;0;0;0;0].
  eexists. exists [0;1;2;3;4;5], [0;5;6;7;8;9], [0;1;2;3;4], [0;1;2;3;4;1;2;3;4], [1;1;1;1;1], [1;1;1;1;1;1;1;1;1].
  split; [reflexivity|]. split; [reflexivity|]. split; [reflexivity|]. split; [reflexivity|]. split.
  { intros i Hi. assert (i = 0 \/ i = 1 \/ i = 2 \/ i = 3 \/ i = 4) as C by (cbn in Hi; lia).
    destruct C as [-> |[-> |[-> |[-> | ->]]]]; reflexivity. }
  split; [vm_compute; reflexivity|]. intros [_ S]. specialize (S 0 ltac:(lia)). vm_compute in S. discriminate.
Qed.
Print Assumptions C42_unit_upper_refuted.
