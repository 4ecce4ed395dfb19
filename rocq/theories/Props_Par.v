(** C34: the parallel loops of the product kernels do not depend on the schedule.  Each
    theorem says: if the kernel run in order delivers y1, then so does its parallel loop
    under every distribution of the iterations and every interleaving (ParSpec).  No ring
    law is used, so the result is the same bit by bit, also in IEEE arithmetic. *)
From Coq Require Import ZArith List Bool Lia Permutation Floats.SpecFloat.
From Coq Require Import ZifyBool.
From Verif Require Import Base BaseFacts Algebra Vec DoidModel UtilModel Csr CsrFacts Decide MvSpec MvModel MvKtProof FmtMvModel Br4Model ParModel ParSpec ParProof Float64.
Import ListNotations.
Open Scope Z_scope.

Ltac bind := repeat match goal with |- context [match ?e with Some _ => _ | None => None end] =>
  lazymatch e with context [match _ with Some _ => _ | None => None end] => fail | _ => destruct e; cbn [run a_of]; try reflexivity end end.
(** A row kernel: y_i is read and written by iteration i only *)
Ltac rows E := apply (disjoint_loop _ _ row_dom); [| |rewrite <- E; apply for_ext; intros i y' Hi].

(** csrmv_kr.hpp 448-513 *)
Theorem C34_csrmv_reference : forall T (O : ops T) b alpha m val col row x beta y y1,
  ref_csrmv_gn O b alpha m val col row x beta y = Some y1 ->
  any_schedule (gn_act O b alpha val col row x beta) 0 m y y1.
Proof.
  intros T O b alpha m val col row x beta y y1 E. rows E.
  - intros i Hi. apply within_of. intros v. apply within_fin. unfold row_dom. lia.
  - intros i j k _ _. apply row_dom_one.
  - unfold gn_act. rewrite run_of. bind. apply run_fin.
Qed.
Print Assumptions C34_csrmv_reference.

(** The AVX2 and AVX512 kernels of csrmv (float k = 8, double k = 4 and k = 8) *)
Theorem C34_csrmv_vectorised : forall T (O : ops T) k hsum b alpha m val col row x beta y y1,
  csrmv_vec O k hsum b alpha m val col row x beta y = Some y1 ->
  any_schedule (vec_act O k hsum b alpha val col row x beta) 0 m y y1.
Proof.
  intros T O k hsum b alpha m val col row x beta y y1 E. rows E.
  - intros i Hi. apply within_of. intros v. apply within_fin. unfold row_dom. lia.
  - intros i j q _ _. apply row_dom_one.
  - unfold vec_act. rewrite run_of. bind. apply run_fin.
Qed.
Print Assumptions C34_csrmv_vectorised.

(** The kernels on split rows used for triangular matrices *)
Theorem C34_csrmv_triangular : forall T (O : ops T) d alpha m val col crstart eoff crend x beta y y1,
  csrmv_vectorized_avx2ptr O d alpha m val col crstart eoff crend x beta y = Some y1 ->
  any_schedule (ptr_act O d alpha val col crstart eoff crend x beta) 0 m y y1.
Proof.
  intros T O d alpha m val col cs eoff ce x beta y y1 E. unfold csrmv_vectorized_avx2ptr in E. unfold ptr_act. destruct (tri_offsets d) as (so, eo). rows E.
  - intros i Hi. apply within_of. intros v. cbv zeta. destruct (negb (oeqb O beta (o0 O))); cbn; unfold row_dom; rewrite ?Z.eqb_refl; auto.
  - intros i j k _ _. apply row_dom_one.
  - rewrite run_of.
    assert (G : forall v, run (if negb (oeqb O beta (o0 O)) then a_rd i (fun yi => a_wr i (oadd O (omul O alpha v) (omul O beta yi)) a_end) else a_wr i (omul O alpha v) a_end) y' =
      if negb (oeqb O beta (o0 O)) then let* yi := rd y' i in wr y' i (oadd O (omul O alpha v) (omul O beta yi)) else wr y' i (omul O alpha v)).
    { intros v. destruct (negb (oeqb O beta (o0 O))); cbn; [destruct (rd y' i); auto|]; destruct (wr y' i _); auto. }
    destruct (rd cs i); auto. destruct (rd ce (i + eoff)); auto. destruct (if negb (so =? 0) && is_unit d then _ else _); auto. destruct (vec_row _ _ _ _ _ _ _ _ _ _); auto.
    destruct (if negb (eo =? 0) && is_unit d then _ else _); auto. 
Qed.
Print Assumptions C34_csrmv_triangular.

(** The templated kernel for all element types *)
Theorem C34_csrmv_templated : forall T (O : ops T) tsz b alpha m val col row x beta y y1,
  csrmv_kt O tsz b alpha m val col row x beta y = Some y1 ->
  any_schedule (kt_act O tsz b alpha val col row x beta) 0 m y y1.
Proof.
  intros T O tsz b alpha m val col row x beta y y1 E. rows E.
  - intros i Hi. apply within_of. intros v. cbv zeta. destruct (oeqb O beta (o0 O)); cbn; unfold row_dom; rewrite ?Z.eqb_refl; auto. split; auto.
    intros w. destruct (oeqb O beta (o1 O)); cbn; rewrite ?Z.eqb_refl; auto.
  - intros i j k _ _. apply row_dom_one.
  - unfold kt_act. rewrite run_of. destruct (rd row (i + 1)); auto. destruct (rd row i); auto. cbv zeta. destruct (vec_loop _ _ _ _ _ _ _ _ _); auto. destruct (dot_row _ _ _ _ _ _ _ _); auto.
    destruct (oeqb O beta (o0 O)); cbn [run]; [destruct (wr y' i _); auto|]. destruct (rd y' i); auto. destruct (oeqb O beta (o1 O)); cbn [run]; destruct (wr y' i _); auto.
Qed.
Print Assumptions C34_csrmv_templated.

(** ELL *)
Theorem C34_ellmv : forall T (O : ops T) alpha m val col wd b x beta y y1,
  (ellmv_ref O alpha m val col wd b x beta y = Some y1 -> any_schedule (ell_act O alpha val col wd b x beta) 0 m y y1) /\
  (forall k hsum, ellmv_vec O k hsum alpha m val col wd b x beta y = Some y1 -> any_schedule (ell_vec_act O k hsum alpha val col wd b x beta) 0 m y y1).
Proof.
  intros T O alpha m val col wd b x beta y y1. split; [|intros k hsum]; intros E; rows E.
  1,4: intros i Hi; apply within_of; intros v; apply within_fin; unfold row_dom; lia.
  1,3: intros i j q _ _; apply row_dom_one.
  - unfold ell_act. rewrite run_of. destruct (forb _ _ _ _); auto. apply run_fin.
  - unfold ell_vec_act. rewrite run_of. destruct (ell_vec_row _ _ _ _ _ _ _ _ _); auto. apply run_fin.
Qed.
Print Assumptions C34_ellmv.

Lemma ellt_tail : forall T (O : ops T) lo alpha m val col wd b x beta y y1,
  elltmv_rows O lo alpha m val col wd b x beta y = Some y1 -> any_schedule (ellt_act O alpha m val col wd b x beta) lo m y y1.
Proof.
  intros T O lo alpha m val col wd b x beta y y1 E. rows E.
  - intros i Hi. apply within_of. intros v. apply within_fin. unfold row_dom. lia.
  - intros i j k _ _. apply row_dom_one.
  - unfold ellt_act. rewrite run_of. destruct (ellt_dot _ _ _ _ _ _ _ _); auto. apply run_fin.
Qed.
Lemma ellt_blocks : forall T (O : ops T) k alpha m val col wd b x beta y y1 n, 0 < k ->
  for_ 0 n (ellt_block O k alpha m val col wd b x beta) y = Some y1 -> any_schedule (ellt_block_act O k alpha m val col wd b x beta) 0 n y y1.
Proof.
  intros T O k alpha m val col wd b x beta y y1 n Hk E. apply (disjoint_loop _ _ (blk_dom k)).
  - intros i Hi. apply within_block. lia.
  - intros i j q _ _. now apply blk_dom_one.
  - rewrite <- E. apply for_ext. intros j y' Hj. unfold ellt_block_act. rewrite run_block. unfold ellt_block. cbv zeta. destruct (for_ 0 wd _ _); auto.
Qed.
(** Transposed ELL: one loop, or a loop over blocks of k rows and, after the barrier that
    ends it, a loop over the rows left *)
Theorem C34_elltmv : forall T (O : ops T) alpha m val col wd b x beta y y1,
  (elltmv_rows O 0 alpha m val col wd b x beta y = Some y1 -> any_schedule (ellt_act O alpha m val col wd b x beta) 0 m y y1) /\
  (forall k, 0 < k -> elltmv_vec O k alpha m val col wd b x beta y = Some y1 ->
     exists yb, any_schedule (ellt_block_act O k alpha m val col wd b x beta) 0 (Z.quot m k) y yb /\
       any_schedule (ellt_act O alpha m val col wd b x beta) (Z.quot m k * k) m yb y1).
Proof.
  intros T O alpha m val col wd b x beta y y1. split; [apply ellt_tail|]. intros k Hk E. unfold elltmv_vec in E.
  destruct (for_ 0 (Z.quot m k) _ y) as [yb|] eqn:Eb; [|discriminate]. exists yb. split; [now apply ellt_blocks|now apply ellt_tail].
Qed.
Print Assumptions C34_elltmv.

(** Hybrid ELL: the CSR loop at the end, for a row map without repetitions *)
Theorem C34_ellthybmv_csr_rows : forall T (O : ops T) k hsum alpha n cval cptr cind rmap b x beta y y1,
  (forall i j r, 0 <= i < n -> 0 <= j < n -> rd rmap i = Some r -> rd rmap j = Some r -> i = j) ->
  for_ 0 n (fun i y =>
        let* r := rd rmap i in
        let* s := rd cptr r in
        let* e := rd cptr (r + 1) in
        let* result := vec_row O k hsum b s e cval cind x (o0 O) in
        finish_row O alpha beta y r result) y = Some y1 ->
  any_schedule (hyb_act O k hsum alpha cval cptr cind rmap b x beta) 0 n y y1.
Proof.
  intros T O k hsum alpha n cval cptr cind rmap b x beta y y1 Hr E.
  apply (disjoint_loop _ _ (fun i q => match rd rmap i with Some r => q =? r | None => false end)).
  - intros i Hi. unfold hyb_act. destruct (rd rmap i) as [r|]; cbn; auto. apply within_of. intros v. apply within_fin. lia.
  - intros i j q Hi Hj A B. destruct (rd rmap i) as [r|] eqn:Ei; [|discriminate]. destruct (rd rmap j) as [r'|] eqn:Ej; [|discriminate]. apply (Hr i j r); auto. rewrite Ej. f_equal. lia.
  - rewrite <- E. apply for_ext. intros i y' Hi. unfold hyb_act. destruct (rd rmap i) as [r|]; auto. rewrite run_of. bind. apply run_fin.
Qed.
Print Assumptions C34_ellthybmv_csr_rows.

(** The 4-row interleaved storage of C19 *)
Theorem C34_br4 : forall T (O : ops T) alpha m b bp ind4 val4 x beta y y1,
  br4_mv O alpha m b bp ind4 val4 x beta y = Some y1 ->
  exists yb, any_schedule (br4_act O alpha b bp ind4 val4 x beta) 0 (m / 4) y yb /\
    any_schedule (br4_tail_act O alpha b bp ind4 val4 x beta) (m / 4 * 4) m yb y1.
Proof.
  intros T O alpha m b bp ind4 val4 x beta y y1 E. unfold br4_mv in E. destruct (for_ 0 (m / 4) _ y) as [yb|] eqn:Eb; [|discriminate]. exists yb. split.
  - apply (disjoint_loop _ _ (blk_dom 4)).
    + intros i Hi. apply within_block. lia.
    + intros i j q _ _. now apply blk_dom_one.
    + rewrite <- Eb. apply for_ext. intros j y' Hj. unfold br4_act. rewrite run_block. unfold br4_rows. destruct (rd bp (j * 4)); auto. destruct (rd bp (j * 4 + 1)); auto.
  - rows E.
    + intros i Hi. apply within_of. intros v. apply within_fin. unfold row_dom. lia.
    + intros i j k _ _. apply row_dom_one.
    + unfold br4_tail_act. rewrite run_of. bind. destruct (for_ (_ - b) _ _ _); auto. apply run_fin.
Qed.
Print Assumptions C34_br4.

(** The transposed product: the loop that scales y is schedule independent; the threads
    then add private sums to y inside a critical section, in whatever order they get
    there.  In exact arithmetic the order does not matter. *)
Theorem C34_transposed_scaling : forall T (O : ops T) beta n y y1, oeqb O beta (o1 O) = false \/ oeqb O beta (o0 O) = true ->
  beta_scale O beta n y = Some y1 -> any_schedule (scale_act O beta) 0 n y y1.
Proof.
  intros T O beta n y y1 Hb E. unfold beta_scale in E. apply (disjoint_loop _ _ row_dom).
  - intros i Hi. unfold scale_act. destruct (oeqb O beta (o0 O)); cbn; unfold row_dom; rewrite Z.eqb_refl; auto.
  - intros i j k _ _. apply row_dom_one.
  - unfold scale_act. destruct (oeqb O beta (o0 O)) eqn:E0.
    + rewrite <- E. apply for_ext. intros i y' Hi. cbn. destruct (wr y' i _); auto.
    + destruct Hb as [Hb|]; [|congruence]. rewrite Hb in E. cbn [negb] in E. rewrite <- E. apply for_ext. intros i y' Hi. cbn. destruct (rd y' i); auto. destruct (wr y' i _); auto.
Qed.
Print Assumptions C34_transposed_scaling.

Theorem C34_transposed_exact : forall T (O : ops T), laws O -> forall tsz nthreads team1 team2 m n nnz b ptr ind val alpha beta x y,
  0 < tsz -> 0 < nthreads -> Permutation team1 (zrange 0 nthreads) -> Permutation team2 (zrange 0 nthreads) ->
  csr_wf m n nnz b ptr ind -> zlen val = nnz -> zlen x = m -> zlen y = n ->
  exists y1, csrmvt_kt_omp O nthreads team1 tsz b alpha m n val ind ptr x beta y = Some y1 /\
    csrmvt_kt_omp O nthreads team2 tsz b alpha m n val ind ptr x beta y = Some y1.
Proof.
  intros T O L tsz nt t1 t2 m n nnz b ptr ind val alpha beta x y Hk Hn P1 P2 W Lv Lx Ly.
  destruct (csrmvt_kt_omp_ok O L tsz nt t1 Hk Hn P1 m n nnz b ptr ind val alpha beta x y W Lv Lx Ly) as (y1 & E1 & S1 & S2).
  destruct (csrmvt_kt_omp_ok O L tsz nt t2 Hk Hn P2 m n nnz b ptr ind val alpha beta x y W Lv Lx Ly) as (y2 & E2 & S3 & S4).
  exists y1. split; auto. rewrite E2. f_equal. apply (nthZ_ext _ (o0 O)); [lia|]. intros i Hi. rewrite S2, S4 by lia. reflexivity.
Qed.
Print Assumptions C34_transposed_exact.

(** ** Finding: in IEEE double arithmetic the transposed product depends on the order in
    which the threads reach the critical section: two runs of the same call give different
    results.  3 threads, the 3 x 1 matrix (2^53, 1, 1)^T, x = (1, 1, 1), y = A^T x. *)
Theorem C34_transposed_order_refuted : exists m n nnz b ptr ind val x y team1 team2 y1 y2,
  csr_wf m n nnz b ptr ind /\ zlen val = nnz /\ zlen x = m /\ zlen y = n /\
  Permutation team1 (zrange 0 3) /\ Permutation team2 (zrange 0 3) /\
  csrmvt_kt_omp F64ops 3 team1 4 b (o1 F64ops) m n val ind ptr x (o0 F64ops) y = Some y1 /\
  csrmvt_kt_omp F64ops 3 team2 4 b (o1 F64ops) m n val ind ptr x (o0 F64ops) y = Some y2 /\
  y1 = [two_to 53] /\ y2 = [SFadd 53 1024 (two_to 53) (f_of 2)] /\ y1 <> y2.
Proof.
  exists 3, 1, 3, 0, [0;1;2;3], [0;0;0], [two_to 53; f_of 1; f_of 1], [f_of 1; f_of 1; f_of 1], [f_of 0], [0;1;2], [1;2;0].
  eexists _, _. split; [apply csr_wfb_ok; reflexivity|]. do 3 (split; [reflexivity|]). split; [apply Permutation_refl|].
  split; [change (zrange 0 3) with ([] ++ 0 :: [1;2]); apply (Permutation_cons_app [1;2] [] 0 (Permutation_refl _) : Permutation (0 :: [1;2]) _) || (apply Permutation_sym; apply (Permutation_cons_append [1;2] 0))|].
  split; [vm_compute; reflexivity|]. split; [vm_compute; reflexivity|]. split; [vm_compute; reflexivity|]. split; [vm_compute; reflexivity|]. vm_compute. discriminate.
Qed.
Print Assumptions C34_transposed_order_refuted.

(** ** Concrete cases: three rows on two threads, thread 1 first, interleaved in the
    middle of a row *)
Definition p_body := gn_act Zops 0 2 [5;6;7;8] [0;2;1;0] [0;2;3;4] [1;10;100] 3.
Example C34_case_owners : Permutation (concat [[2;0]; [1]]) (zrange 0 3).
Proof. cbn. apply Permutation_sym. apply (Permutation_trans (l' := [0;2;1])); [constructor; apply perm_swap|apply perm_swap]. Qed.
Example C34_case_run : exists ths,
  ref_csrmv_gn Zops 0 2 3 [5;6;7;8] [0;2;1;0] [0;2;3;4] [1;10;100] 3 [1;1;1] = Some [1213; 143; 19] /\
  exec [1;0;1;1;0;0;0]%nat (team_of [[2;0]; [1]] p_body, [1;1;1]) = Some (ths, [1213; 143; 19]) /\ finished ths.
Proof.
  eexists. split; [vm_compute; reflexivity|]. split; [vm_compute; reflexivity|]. intros [|[|t]]; cbn; auto. destruct t; reflexivity.
Qed.
Example C34_case_half_way : exists ths,
  exec [0;1;0]%nat (team_of [[2;0]; [1]] p_body, [1;1;1]) = Some (ths, [1; 1; 19]) /\ next_at (ths 0%nat) = Some 0 /\ next_at (ths 1%nat) = Some 1.
Proof. eexists. split; [vm_compute; reflexivity|]. split; reflexivity. Qed.
Example C34_case_hybrid : forall i j r, 0 <= i < 2 -> 0 <= j < 2 -> rd [4;1] i = Some r -> rd [4;1] j = Some r -> i = j.
Proof. intros i j r Hi Hj. assert (i = 0 \/ i = 1) as [-> | ->] by lia; assert (j = 0 \/ j = 1) as [-> | ->] by lia; vm_compute; congruence. Qed.
