(** C20: products with ELL, transposed ELL, hybrid ELL and DIA matrices. *)
From Coq Require Import ZArith List Bool Lia ZifyBool.
From Verif Require Import Base BaseFacts Algebra Csr CsrFacts Decide DoidModel DescrModel MvModel EllModel EllSpec EllProof
  DiaModel DiaSpec DiaProof FmtMvModel FmtMvSpec FmtMvProof FmtHybProof DiaMvProof.
Import ListNotations.
Open Scope Z_scope.

(** For every element type and instruction set the first m elements of y become
    alpha*A*x + beta*y, where A is the matrix held in the ELL arrays.  Missing (refuted
    below): width zero or no columns. *)
Theorem C20_ellmv_partial : forall T (O : ops T) (L : laws O) is_double avx512 d alpha beta m n wd col val x y,
  (d_base d = 0 \/ d_base d = 1) -> d_type d = mt_general -> 0 < m -> 0 < n -> 0 < wd ->
  zlen col = m * wd -> zlen val = m * wd -> n <= zlen x -> m <= zlen y -> ell_ok m n (d_base d) wd col ->
  exists y1, ellmv O is_double avx512 op_none (Some alpha) m n (Some val) (Some col) wd (Some d) (Some x) (Some beta) (Some y) = Some (success, Some y1) /\
    product_of O m n alpha beta (ell_mat O (ell_slot wd) (d_base d) wd col val) x y y1.
Proof. exact @ellmv_ok. Qed.
Print Assumptions C20_ellmv_partial.

(** The slot-major format; missing as above. *)
Theorem C20_elltmv_partial : forall T (O : ops T) (L : laws O) is_double avx512 d alpha beta m n wd col val x y,
  (d_base d = 0 \/ d_base d = 1) -> d_type d = mt_general -> 0 < m -> 0 < n -> 0 < wd ->
  zlen col = m * wd -> zlen val = m * wd -> n <= zlen x -> m <= zlen y -> ellt_ok m n (d_base d) wd col ->
  exists y1, elltmv O is_double avx512 op_none (Some alpha) m n (Some val) (Some col) wd (Some d) (Some x) (Some beta) (Some y) = Some (success, Some y1) /\
    product_of O m n alpha beta (ell_mat O (ellt_slot m) (d_base d) wd col val) x y y1.
Proof. exact @elltmv_ok. Qed.
Print Assumptions C20_elltmv_partial.

(** Hybrid: rows listed in the map come from the CSR arrays. *)
Theorem C20_ellthybmv : forall T (O : ops T) (L : laws O) avx512 d alpha beta m n nnz wd col val em cval cptr cind rmap x y,
  0 <= wd -> zlen col = m * wd -> zlen val = m * wd -> n <= zlen x -> m <= zlen y -> ellt_ok m n (d_base d) wd col ->
  csr_wf m n nnz (d_base d) cptr cind -> zlen cval = nnz ->
  em <= m -> m - em <= zlen rmap ->
  (forall q, 0 <= q < m - em -> 0 <= zn rmap q < m) ->
  (forall q q', 0 <= q < m - em -> 0 <= q' < m - em -> zn rmap q = zn rmap q' -> q = q') ->
  exists y1, ellthybmv O true avx512 alpha m val col wd em cval cptr cind rmap d x beta y = Some (success, Some y1) /\
    product_of O m n alpha beta (hyb_mat rmap (m - em) (ell_mat O (ellt_slot m) (d_base d) wd col val) (csr_mat O (d_base d) cptr cind cval)) x y y1.
Proof. exact @ellthybmv_ok. Qed.
Print Assumptions C20_ellthybmv.

(** DIA: any offsets (also repeated or outside the matrix), any kernel the oracle may
    pick and either loop order.  Missing (refuted below): no columns. *)
Theorem C20_diamv_partial : forall T (O : ops T) (L : laws O) w256 w512 choice mode kid c d alpha beta m n nd off dv x y,
  0 < w256 -> 0 < w512 -> choice (if mode =? 0 then 0 else kid) = Some c ->
  (d_base d = 0 \/ d_base d = 1) -> d_type d = mt_general -> 0 <= m -> 0 < n -> 0 <= nd ->
  nd <= zlen off -> m * nd <= zlen dv -> n <= zlen x -> m <= zlen y ->
  exists y1, diamv O w256 w512 choice op_none (Some alpha) m n (Some dv) (Some off) nd (Some d) (Some x) (Some beta) (Some y) mode kid = Some (success, Some y1) /\
    product_of O m n alpha beta (dia_mat O m nd off dv) x y y1.
Proof. exact @diamv_ok. Qed.
Print Assumptions C20_diamv_partial.

(** Converting a CSR matrix and multiplying gives the product with the CSR matrix (with
    the exceptions above). *)
Theorem C20_csr2ell_then_ellmv_partial : forall T (O : ops T) (L : laws O) is_double avx512 d alpha beta m n nnz ptr ind val wd c v c' v' x y,
  (d_base d = 0 \/ d_base d = 1) -> d_type d = mt_general -> 0 < m -> 0 < n -> 0 < wd ->
  csr_wf m n nnz (d_base d) ptr ind -> zlen val = nnz -> n <= zlen x -> m <= zlen y ->
  csr2ell_width m nnz (Some ptr) (Some 0) = Some (success, Some wd) -> zlen c = m * wd -> zlen v = m * wd ->
  csr2ell (o0 O) m (Some (mkMD 0 0 0 (d_base d))) (Some ptr) (Some ind) (Some val) (Some c) (Some v) wd = Some (success, Some c', Some v') ->
  exists y1, ellmv O is_double avx512 op_none (Some alpha) m n (Some v') (Some c') wd (Some d) (Some x) (Some beta) (Some y) = Some (success, Some y1) /\
    product_of O m n alpha beta (csr_mat O (d_base d) ptr ind val) x y y1.
Proof.
  intros T O L is_double avx512 d alpha beta m n nnz ptr ind val wd c v c' v' x y Hb Ht Hm Hn Hw W Lv Lx Ly EW Lc Lvv EC.
  destruct (width_then_ell T (o0 O) m n nnz (mkMD 0 0 0 (d_base d)) ptr ind val 0 Hb W Lv) as (wd' & EW' & MX & _ & H).
  rewrite EW in EW'. inversion EW'; subst wd'. destruct (H c v Lc Lvv) as (c2 & v2 & EC2 & L1 & L2 & Hr & He).
  cbn [md_base] in *. rewrite EC in EC2. inversion EC2; subst c2 v2.
  destruct (ellmv_ok O L is_double avx512 d alpha beta m n wd c' v' x y) as (y1 & E & P); auto.
  - intros i Hi. exists (row_len ptr i). destruct MX as [MX _]. specialize (MX i Hi). specialize (Hr i Hi).
    destruct (MvProof.row_bounds m n nnz (d_base d) ptr ind i W Hi) as (_ & _ & B1 & B2 & B3).
    assert (Hlen : 0 <= row_len ptr i) by (unfold row_len; lia).
    split; [lia|]. split.
    + intros k Hk. specialize (Hr k ltac:(lia)). destruct (Z.ltb_spec k (row_len ptr i)); [|lia]. destruct Hr as [-> _].
      pose proof (wf_ind _ _ _ _ _ _ W (zn ptr i - d_base d + k)) as WI. unfold row_len in *. lia.
    + intros k Hk. specialize (Hr k ltac:(lia)). destruct (Z.ltb_spec k (row_len ptr i)); [lia|]. destruct Hr as [-> _]. lia.
  - exists y1. split; auto. destruct P as [P1 P2]. split; auto. intros i Hi. rewrite P2 by auto. destruct (Z.ltb_spec i m); auto.
    do 2 f_equal. apply sumz_ext. intros j Hj. unfold ell_mat, csr_mat. rewrite He by lia. reflexivity.
Qed.
Print Assumptions C20_csr2ell_then_ellmv_partial.

Theorem C20_csr2dia_then_diamv_partial : forall T (O : ops T) (L : laws O) w256 w512 choice mode kid c d alpha beta m n nnz ptr ind val nd off dv off' dv' x y,
  0 < w256 -> 0 < w512 -> choice (if mode =? 0 then 0 else kid) = Some c ->
  (d_base d = 0 \/ d_base d = 1) -> d_type d = mt_general -> 0 < n ->
  csr_wf m n nnz (d_base d) ptr ind -> zlen val = nnz -> n <= zlen x -> m <= zlen y ->
  (forall i j, 0 <= i < m -> (length (ents (d_base d) ptr ind val i j) <= 1)%nat) ->
  (forall p, 0 <= p < zlen dv -> nthZ (o0 O) dv p = o0 O) ->
  csr2dia_ndiag m n (Some (mkMD 0 0 0 (d_base d))) nnz (Some ptr) (Some ind) (Some 0) = Some (success, Some nd) ->
  zlen off = nd -> zlen dv = m * nd ->
  csr2dia m n (Some (mkMD 0 0 0 (d_base d))) (Some ptr) (Some ind) (Some val) nd (Some off) (Some dv) = Some (success, Some off', Some dv') ->
  exists y1, diamv O w256 w512 choice op_none (Some alpha) m n (Some dv') (Some off') nd (Some d) (Some x) (Some beta) (Some y) mode kid = Some (success, Some y1) /\
    product_of O m n alpha beta (csr_mat O (d_base d) ptr ind val) x y y1.
Proof.
  intros T O L w256 w512 choice mode kid c d alpha beta m n nnz ptr ind val nd off dv off' dv' x y W1 W2 Hc Hb Ht Hn W Lv Lx Ly Hu Hz EN Lo Ld EC.
  destruct (width_then_dia T O L m n nnz (mkMD 0 0 0 (d_base d)) ptr ind val 0 W Lv) as (LL & DG & EN' & H).
  rewrite EN in EN'. assert (ND : nd = zlen LL) by congruence. clear EN EN'. rewrite ND in *. clear ND. destruct (H off dv Lo Ld) as (o2 & v2 & EC2 & EO & L2 & _ & H2).
  cbn [md_base] in *. rewrite EC in EC2. assert (X : off' = o2 /\ dv' = v2) by (split; congruence). destruct X as [X1 X2]. rewrite <- X1 in EO. rewrite <- X2 in *. rewrite EO in *. destruct (H2 Hu Hz) as [HA HB].
  destruct (diamv_ok O L w256 w512 choice mode kid c d alpha beta m n (zlen LL) LL dv' x y) as (y1 & E & P); auto; try lia.
  { exact (wf_m _ _ _ _ _ _ W). } { apply zlen_nonneg. }
  exists y1. split; auto. destruct P as [P1 P2]. split; auto. intros i Hi. rewrite P2 by auto. destruct (Z.ltb_spec i m); auto.
  do 2 f_equal. apply sumz_ext. intros j Hj. f_equal. unfold dia_mat.
  destruct (in_dec Z.eq_dec (j - i) LL) as [HI|HI].
  - apply (In_nth _ _ 0) in HI. destruct HI as (q & Hq & Eq).
    assert (EQ : zn LL (Z.of_nat q) = j - i) by (unfold nthZ; rewrite Nat2Z.id; exact Eq).
    rewrite (sumz_delta O L 0 (zlen LL) (Z.of_nat q)).
    + rewrite EQ. rewrite Z.eqb_refl. rewrite HA by (unfold zlen; lia). rewrite EQ. f_equal. lia.
    + unfold zlen; lia.
    + intros k Hk Hne. replace (zn LL k =? j - i) with false; auto. symmetry. apply Z.eqb_neq. intros EK. apply Hne.
      destruct DG as [SI _]. assert (Hq2 : 0 <= Z.of_nat q < zlen LL) by (unfold zlen; lia).
      destruct (Z.lt_trichotomy k (Z.of_nat q)) as [C|[C|C]]; auto; [specialize (SI k (Z.of_nat q))|specialize (SI (Z.of_nat q) k)]; lia.
  - rewrite HB by (auto; lia). apply (sumz_zero O L). intros q Hq. replace (zn LL q =? j - i) with false; auto.
    symmetry. apply Z.eqb_neq. intros EK. apply HI. rewrite <- EK. unfold nthZ. apply nth_In. unfold zlen in Hq. lia.
Qed.
Print Assumptions C20_csr2dia_then_diamv_partial.

(** Invalid requests are refused and y stays as it was. *)
Theorem C20_ell_invalid_rejected : forall T (O : ops T) (tr is_double avx512 : bool) op alpha m n val col wd d x beta y,
  d = None \/ op <> op_none \/ m < 0 \/ n < 0 \/ wd < 0 \/ ((m = 0 \/ n = 0) /\ wd <> 0) \/
  (m <> 0 /\ n <> 0 /\ wd <> 0 /\ (val = None \/ col = None \/ x = None \/ y = None)) \/
  (exists d', d = Some d' /\ ((d_base d' <> 0 /\ d_base d' <> 1) \/ d_type d' <> mt_general)) ->
  exists st, (if tr then elltmv O else ellmv O) is_double avx512 op alpha m n val col wd d x beta y = Some (st, None) /\ st <> success.
Proof. intros T O tr. destruct tr; intros; apply ell_entry_rejects; assumption. Qed.
Print Assumptions C20_ell_invalid_rejected.
Theorem C20_dia_invalid_rejected : forall T (O : ops T) w256 w512 choice op alpha m n dv off nd d x beta y mode kid,
  alpha = None \/ beta = None \/ dv = None \/ off = None \/ x = None \/ y = None \/ d = None \/ op <> op_none \/ m < 0 \/ n < 0 \/ nd < 0 \/
  (exists d', d = Some d' /\ ((d_base d' <> 0 /\ d_base d' <> 1) \/ d_type d' <> mt_general)) ->
  exists st, diamv O w256 w512 choice op alpha m n dv off nd d x beta y mode kid = Some (st, None) /\ st <> success.
Proof.
  intros T O w256 w512 choice op alpha m n dv off nd d x beta y mode kid H. unfold diamv.
  destruct alpha; [|eexists; split; [reflexivity|discriminate]]. destruct beta; [|eexists; split; [reflexivity|discriminate]].
  destruct dv; [|eexists; split; [reflexivity|discriminate]]. destruct off; [|eexists; split; [reflexivity|discriminate]].
  destruct x; [|eexists; split; [reflexivity|discriminate]]. destruct y; [|eexists; split; [reflexivity|discriminate]].
  destruct d as [d|]; [|eexists; split; [reflexivity|discriminate]].
  destruct (negb ((d_base d =? 0) || (d_base d =? 1))) eqn:E1; [eexists; split; [reflexivity|discriminate]|].
  destruct (d_type d) eqn:E2; try (eexists; split; [reflexivity|discriminate]).
  destruct op; try (eexists; split; [reflexivity|discriminate]).
  destruct ((m <? 0) || (n <? 0) || (nd <? 0)) eqn:E3; [eexists; split; [reflexivity|discriminate]|].
  exfalso. repeat (destruct H as [H|H]; [first [discriminate | lia | congruence]|]).
  destruct H as (d' & Ed & H); inversion Ed; subst; destruct H as [H|H]; [lia|congruence].
Qed.
Print Assumptions C20_dia_invalid_rejected.

(** ** Concrete cases: [5 . 6; . . .; . 7 8] *)
Example C20_case_ell_ok : ell_ok 3 3 1 2 [1;3;-1;-1;2;3].
Proof.
  intros i Hi. assert (C : i = 0 \/ i = 1 \/ i = 2) by lia. destruct C as [-> |[-> | ->]].
  - exists 2. split; [lia|]. split; intros k Hk; [|lia]. assert (C : k = 0 \/ k = 1) by lia. destruct C as [-> | ->]; vm_compute; first [split; [discriminate | reflexivity] | reflexivity].
  - exists 0. split; [lia|]. split; intros k Hk; [lia|]. assert (C : k = 0 \/ k = 1) by lia. destruct C as [-> | ->]; vm_compute; first [split; [discriminate | reflexivity] | reflexivity].
  - exists 2. split; [lia|]. split; intros k Hk; [|lia]. assert (C : k = 0 \/ k = 1) by lia. destruct C as [-> | ->]; vm_compute; first [split; [discriminate | reflexivity] | reflexivity].
Qed.
Definition fd := mkDescr mt_general fm_lower dg_non_unit 1.
Example C20_case_ell : map (fun p => ellmv Zops (fst p) (snd p) op_none (Some 2) 3 3 (Some [5;6;0;0;7;8]) (Some [1;3;-1;-1;2;3]) 2 (Some fd)
    (Some [1;10;100]) (Some 3) (Some [1;1;1;9])) [(true, true); (true, false); (false, false)]
  = repeat (Some (success, Some [1213;3;1743;9])) 3.
Proof. reflexivity. Qed.
(** Width 9: full groups of four, a group that ends in padding. *)
Example C20_case_ell_groups : map (fun p => ellmv Zops (fst p) (snd p) op_none (Some 1) 2 9
    (Some ([1;1;1;1;1;1;1;1;1] ++ [2;2;2;2;2;2;0;0;0])) (Some ([0;1;2;3;4;5;6;7;8] ++ [0;1;2;3;4;5;-1;-1;-1])) 9 (Some (mkDescr mt_general fm_lower dg_non_unit 0))
    (Some [1;2;3;4;5;6;7;8;9]) (Some 0) (Some [7;7])) [(true, true); (true, false); (false, false)] = repeat (Some (success, Some [45;42])) 3.
Proof. reflexivity. Qed.
Example C20_case_ellt : ellt_ok 3 3 1 2 [1;3;2;3;3;3] /\
  map (fun p => elltmv Zops (fst p) (snd p) op_none (Some 2) 3 3 (Some [5;0;7;6;0;8]) (Some [1;3;2;3;3;3]) 2 (Some fd)
    (Some [1;10;100]) (Some 3) (Some [1;1;1;9])) [(true, true); (true, false); (false, false)]
  = repeat (Some (success, Some [1213;3;1743;9])) 3.
Proof.
  split; [|reflexivity]. intros i k Hi Hk. assert (C : i = 0 \/ i = 1 \/ i = 2) by lia. assert (C' : k = 0 \/ k = 1) by lia.
  destruct C as [-> |[-> | ->]], C' as [-> | ->]; vm_compute; first [split; [discriminate | reflexivity] | reflexivity].
Qed.
(** Width 1: rows 0 and 2 are too long and come from the CSR arrays. *)
Example C20_case_hybrid :
  ellthybmv Zops true false 2 3 [0;0;0] [3;3;3] 1 1 [5;6;7;8] [1;3;3;5] [1;3;2;3] [0;2] fd [1;10;100] 3 [1;1;1;9] = Some (success, Some [1213;3;1743;9]) /\
  csr_wf 3 3 4 1 [1;3;3;5] [1;3;2;3] /\ ellt_ok 3 3 1 1 [3;3;3].
Proof.
  split; [reflexivity|]. split; [apply csr_wfb_ok; reflexivity|].
  intros i k Hi Hk. assert (C : i = 0 \/ i = 1 \/ i = 2) by lia. assert (C' : k = 0) by lia.
  destruct C as [-> |[-> | ->]]; subst k; vm_compute; first [split; [discriminate | reflexivity] | reflexivity].
Qed.
Example C20_case_dia : map (fun p => diamv Zops 4 8 (fun k => Some k) op_none (Some 2) 3 3 (Some [5;0;8;6;0;0;0;0;7]) (Some [0;2;-1]) 3 (Some fd)
    (Some [1;10;100]) (Some 3) (Some [1;1;1;9]) (fst p) (snd p)) [(0,0);(1,1);(2,1);(1,3);(2,3)] = repeat (Some (success, Some [1213;3;1743;9])) 5.
Proof. reflexivity. Qed.

(** ** Requests for which the full property fails *)

(** An ELL matrix without elements has width 0 (csr2ell_width reports 0): ?ellmv and
    ?elltmv return success and leave y instead of scaling it by beta
    (ellmv.hpp 258-262, 494-498). *)
Theorem C20_zero_width_refuted : exists m n d y y1,
  d_type d = mt_general /\ 0 < m /\ 0 < n /\ zlen y = m /\
  ellmv Zops true false op_none (Some 1) m n (Some []) (Some []) 0 (Some d) (Some [1]) (Some 0) (Some y) = Some (success, Some y1) /\
  elltmv Zops true false op_none (Some 1) m n (Some []) (Some []) 0 (Some d) (Some [1]) (Some 0) (Some y) = Some (success, Some y1) /\
  ~ product_of Zops m n 1 0 (ell_mat Zops (ell_slot 0) (d_base d) 0 [] []) [1] y y1 /\
  ~ product_of Zops m n 1 0 (ell_mat Zops (ellt_slot m) (d_base d) 0 [] []) [1] y y1.
Proof.
  exists 1, 1, (mkDescr mt_general fm_lower dg_non_unit 0), [7], [7]. ands; try reflexivity; try lia.
  - intros [_ H]. specialize (H 0 ltac:(cbn; lia)). vm_compute in H. discriminate.
  - intros [_ H]. specialize (H 0 ltac:(cbn; lia)). vm_compute in H. discriminate.
Qed.
Print Assumptions C20_zero_width_refuted.

(** ?diamv with no columns: the same (diamv.hpp 186-189). *)
Theorem C20_no_columns_refuted : exists m d y y1,
  diamv Zops 4 8 (fun k => Some 0) op_none (Some 1) m 0 (Some []) (Some []) 0 (Some d) (Some []) (Some 0) (Some y) (-1) (-1) = Some (success, Some y1) /\
  0 < m /\ zlen y = m /\ ~ product_of Zops m 0 1 0 (dia_mat Zops m 0 [] []) [] y y1.
Proof.
  exists 1, (mkDescr mt_general fm_lower dg_non_unit 0), [7], [7]. ands; try reflexivity; try lia.
  intros [_ H]. specialize (H 0 ltac:(cbn; lia)). vm_compute in H. discriminate.
Qed.
Print Assumptions C20_no_columns_refuted.

(** alpha and beta are not checked before they are read by ?ellmv / ?elltmv. *)
Theorem C20_null_scalar_refuted : exists d m n wd val col x y, ell_ok m n (d_base d) wd col /\ d_type d = mt_general /\
  ellmv Zops true false op_none None m n (Some val) (Some col) wd (Some d) (Some x) (Some 0) (Some y) = None.
Proof.
  exists (mkDescr mt_general fm_lower dg_non_unit 0), 1, 1, 1, [1], [0], [1], [1]. ands; try reflexivity.
  intros i Hi. exists 1. split; [lia|]. split; intros k Hk; [|lia]. replace i with 0 by lia. replace k with 0 by lia. vm_compute. split; [discriminate | reflexivity].
Qed.
Print Assumptions C20_null_scalar_refuted.
