(** C32: changing values of a matrix, and histories of value updates, preparation,
    products and triangular solves on one handle. *)
From Coq Require Import ZArith List Bool Lia ZifyBool QArith Qcanon Permutation.
From Verif Require Import Base BaseFacts Algebra Csr CheckModel CheckSpec Decide SortSpec SortInst DoidModel DoidSpec
  MvModel MvSpec CsrmvModel HandleModel HandleSpec HandleFacts OptProof TrsvModel TrsvSpec Props_Mv Props_Trsv IluModel IluSpec Props_Ilu
  ValueModel ValueSpec ValueProof ValueHistProof.
Import ListNotations.
Open Scope Z_scope.

(** C32, aoclsparse_?set_value on a CSR or CSC handle without repeated coordinates:
    for a coordinate of the matrix that is stored, the call succeeds, exactly that
    entry of the matrix is replaced, the pattern is unchanged and no older copy of the
    values stays behind; for any other coordinate the call fails and changes nothing. *)
Theorem C32_set_value : forall T (O : ops T), laws O -> forall (h : hnd T) u rest, H_mats h = Some u :: rest -> user_mat h u ->
  rows_distinct (c_m u) (c_b u) (c_ptr u) (c_ind u) -> forall i j v,
  let valid := 0 <= i - c_b u < H_m h /\ 0 <= j - c_b u < H_n h /\ stored u (i - c_b u) (j - c_b u) in
  (valid -> exists l, set_value (Some h) i j v = Some (success, Some (set_mats h (Some (with_val u l) :: map (fun _ => None) rest))) /\
     zlen l = zlen (c_val u) /\
     forall r c, 0 <= r < H_m h -> 0 <= c < H_n h -> hnd_mat O (with_val u l) r c = set_entry (hnd_mat O u) (i - c_b u) (j - c_b u) v r c) /\
  (~ valid -> exists st, st <> success /\ set_value (Some h) i j v = Some (st, Some h)).
Proof.
  intros T O L h u rest EM UM DI i j v valid.
  destruct (Z.leb_spec 0 (i - c_b u)) as [A1|A1]; [|split; [unfold valid; lia|intros _; exists invalid_value; split; [discriminate|]; apply (set_value_range h u rest); auto; lia]].
  destruct (Z.ltb_spec (i - c_b u) (H_m h)) as [A2|A2]; [|split; [unfold valid; lia|intros _; exists invalid_value; split; [discriminate|]; apply (set_value_range h u rest); auto; lia]].
  destruct (Z.leb_spec 0 (j - c_b u)) as [A3|A3]; [|split; [unfold valid; lia|intros _; exists invalid_value; split; [discriminate|]; apply (set_value_range h u rest); auto; lia]].
  destruct (Z.ltb_spec (j - c_b u) (H_n h)) as [A4|A4]; [|split; [unfold valid; lia|intros _; exists invalid_value; split; [discriminate|]; apply (set_value_range h u rest); auto; lia]].
  destruct (set_value_ok h u rest i j v EM UM (conj A1 A2) (conj A3 A4)) as [(k & K1 & K2 & K3 & K4)|(K1 & K2)].
  - split; [intros _|intros NV; exfalso; apply NV; split; [lia|split; [lia|exists k; exact K1]]].
    exists (upd (c_val u) k v). split; [exact K4|]. split; [apply zlen_upd|]. intros r c Hr Hc.
    apply (set_mat_entry O L h u (i - c_b u) (j - c_b u) k v); auto.
  - split; [intros (_ & _ & St); contradiction|intros _; exists invalid_index_value; split; [discriminate|exact K2]].
Qed.
Print Assumptions C32_set_value.

(** C32, the same entry point on the arrays of a COO handle: the first stored triple
    with the given coordinates receives the value; without one nothing changes. *)
Theorem C32_set_coo_value : forall T nnz rows cols (val : list T) ri ci v, 0 <= nnz -> zlen rows = nnz -> zlen cols = nnz -> zlen val = nnz ->
  (exists k, 0 <= k < nnz /\ nthZ 0 rows k = ri /\ nthZ 0 cols k = ci /\ (forall k', 0 <= k' < k -> ~ (nthZ 0 rows k' = ri /\ nthZ 0 cols k' = ci)) /\
     set_coo_value nnz rows cols val ri ci v = Some (success, upd val k v)) \/
  ((forall k, 0 <= k < nnz -> ~ (nthZ 0 rows k = ri /\ nthZ 0 cols k = ci)) /\ set_coo_value nnz rows cols val ri ci v = Some (invalid_index_value, val)).
Proof. intros T. exact set_coo_value_ok. Qed.
Print Assumptions C32_set_coo_value.

(** C32, aoclsparse_?update_values: succeeds exactly if as many values are supplied as
    are stored; they then replace the old ones and no older copy stays behind. *)
Theorem C32_update_values : forall T (O : ops T) (h : hnd T) u rest l, H_mats h = Some u :: rest -> user_mat h u ->
  (zlen l = H_nnz h -> update_values (Some h) (zlen l) (Some l) = Some (success, Some (set_mats h (Some (with_val u l) :: map (fun _ => None) rest)))) /\
  (zlen l <> H_nnz h -> update_values (Some h) (zlen l) (Some l) = Some (invalid_size, Some h)).
Proof.
  intros T O h u rest l EM UM. rewrite (update_values_ok O h u rest l EM UM).
  destruct (Z.eqb_spec (zlen l) (H_nnz h)); split; intros; auto; contradiction.
Qed.
Print Assumptions C32_update_values.

Lemma fresh_inv : forall T (O : ops T) (h : hnd T) u, H_mats h = [Some u] -> hnd_ok (o0 O) h u -> diag_flag_ok h u -> inv1 O h u h (c_val u).
Proof.
  intros T O h u EM HO FL.
  assert (ES : strip h = h) by (apply strip_full; rewrite EM; repeat constructor).
  split; [|now rewrite EM]. exists u, []. rewrite ES. split; [exact EM|]. split; [exact HO|]. split; [exact FL|]. split; [|auto].
  unfold same_data. cbn [with_val c_m c_n c_nnz c_doid c_b c_ptr c_ind c_val]. auto 10.
Qed.

(** C32, histories of value changes, preparation (aoclsparse_optimize) and triangular
    solves, of any length: every call is defined, and every solve works with exactly
    the values the preceding calls left in the matrix. *)
Theorem C32_history_solves : forall T (O : ops T) srt fz ft sup dt mvc nthreads team tsc w,
  solve_env O srt fz ft dt -> sup 1 = true -> nthreads <= 1 \/ Permutation team (zrange 0 nthreads) -> 0 < w ->
  forall (h : hnd T) u, H_mats h = [Some u] -> hnd_ok (o0 O) h u -> diag_flag_ok h u -> sortable u ->
  forall calls, valid_calls O dt tsc w h u (c_val u) calls -> forallb (fun c => negb (is_product c)) calls = true ->
  exists obs h' l', run O srt fz ft sup dt mvc nthreads team tsc w h calls = Some (obs, h') /\
    served O dt mvc tsc w h u (c_val u) calls obs l' /\ exists u' rest, H_mats h' = Some u' :: rest /\ same_data (with_val u l') u'.
Proof.
  intros T O srt fz ft sup dt mvc nthreads team tsc w [L HD S1 S2 S3 S4] E1 E2 Hw h u EM HO FL HS calls V NP.
  destruct (history_solves O L HD srt fz ft S1 S2 S3 sup dt mvc nthreads team tsc w E1 E2 S4 Hw h u HS calls h (c_val u)) as (obs & h' & l' & R & (u' & rest & I1 & _ & _ & I2 & _) & SV); auto.
  { exact (proj1 (fresh_inv T O h u EM HO FL)). }
  exists obs, h', l'. split; [exact R|]. split; [exact SV|]. eauto.
Qed.
Print Assumptions C32_history_solves.

(** C32 with products as well, for matrices whose rows are already in the order lower |
    diagonal | upper with a complete diagonal, so that the library works on the
    user's arrays.  Missing from the full property: matrices for which the library
    makes a copy (refuted below for products after a value change). *)
Theorem C32_history_partial : forall T (O : ops T) srt fz ft sup dt mvc nthreads team tsc w,
  solve_env O srt fz ft dt -> sup 1 = true -> nthreads <= 1 \/ Permutation team (zrange 0 nthreads) -> 0 < w ->
  forall (h : hnd T) u, H_mats h = [Some u] -> hnd_ok (o0 O) h u -> diag_flag_ok h u -> sortable u ->
  rows_grouped (c_m u) (c_b u) (c_ptr u) (c_ind u) -> full_diag (c_m u) (c_n u) (c_b u) (c_ptr u) (c_ind u) ->
  forall calls, valid_calls O dt tsc w h u (c_val u) calls ->
  exists obs h' l', run O srt fz ft sup dt mvc nthreads team tsc w h calls = Some (obs, h') /\
    served O dt mvc tsc w h u (c_val u) calls obs l' /\ exists u', H_mats h' = [Some u'] /\ same_data (with_val u l') u'.
Proof.
  intros T O srt fz ft sup dt mvc nthreads team tsc w [L HD S1 S2 S3 S4] E1 E2 Hw h u EM HO FL HS RG FD calls V.
  destruct (history_in_place O L HD srt fz ft S1 S2 S3 sup dt mvc nthreads team tsc w E1 E2 S4 Hw h u HS RG FD calls h (c_val u)) as (obs & h' & l' & R & I1 & SV); auto.
  { apply fresh_inv; auto. }
  exists obs, h', l'. split; [exact R|]. split; [exact SV|]. destruct (inv1_mats O fz ft S2 S3 sup dt mvc nthreads tsc w E1 S4 Hw h u _ _ I1) as (u' & Q1 & Q2 & _). eauto.
Qed.
Print Assumptions C32_history_partial.

(** ** Where the library fails the property *)

(** Finding B1.  Once a handle has an internal copy, every successful value change
    makes every later product undefined: the copies are deleted but their slots stay in
    the list (auxiliary.hpp 261-268, 463-471), and the product reads every slot
    (csr_util / get_best_matrix) without a null test. *)
Theorem C32_product_after_update_refuted : forall T (O : ops T) srt fz ft sup dt mvc nthreads team,
  solve_env O srt fz ft dt -> sup 1 = true ->
  forall (h : hnd T) u e rest, H_mats h = Some u :: e :: rest -> user_mat h u -> 0 < H_m h -> 0 < H_n h -> 0 < H_nnz h ->
  forall c st out h', (exists i j v, c = k_set i j v) \/ (exists l, c = k_update l) ->
  do_call O srt fz ft sup dt mvc nthreads team (fun _ => None) 31 h c = Some (st, out, h') -> st = success ->
  exists u' rest', H_mats h' = Some u' :: rest' /\
  forall d op alpha beta x y, mv_pre O dt h' u' d op ->
    mv O srt fz ft sup dt mvc nthreads team op (Some alpha) (Some h') (Some d) (Some x) (Some beta) (Some y) = None.
Proof.
  intros T O srt fz ft sup dt mvc nthreads team [L HD S1 S2 S3 S4] Hs h u e rest EM UM Pm Pn Pz c st out h' KC EC ->.
  assert (Q : exists l, h' = set_mats h (Some (with_val u l) :: map (fun _ => None) (e :: rest))).
  { destruct KC as [(i & j & v & ->)|(l & ->)]; cbn [do_call] in EC.
    - unfold set_value in EC. rewrite EM in EC.
      destruct ((H_m h + c_b u <=? i) || (i <? c_b u) || ((H_n h + c_b u <=? j) || (j <? c_b u))); [discriminate|].
      destruct (if c_doid u =? gt then set_csr_value u j i v else set_csr_value u i j v) as [(s, l)|]; [|discriminate].
      exists l. destruct s; try discriminate. inversion EC. reflexivity.
    - rewrite (update_values_ok O h u (e :: rest) l EM UM) in EC. destruct (zlen l =? H_nnz h); [|discriminate]. exists l. inversion EC. reflexivity. }
  destruct Q as (l & ->). exists (with_val u l), (map (fun _ => None) (e :: rest)). split; [reflexivity|].
  intros d op alpha beta x y MP. apply (mv_null O srt fz ft S2 S3 sup dt mvc nthreads team (fun _ => None) 1 Hs S4 ltac:(lia) _ (with_val u l) (map (fun _ => None) (e :: rest))); auto. now left.
Qed.
Print Assumptions C32_product_after_update_refuted.

(** ... and such handles are reached by three documented calls: create a matrix without
    a complete diagonal, prepare it (any triangular request does), change one value. *)
Definition va_user : cmat Qc := mkCmat 2 2 2 gn 0 [0;1;2] [0;0] (qv [1;2]%Q) None None false dg_non_unit None.
Definition va_hnd : hnd Qc := mkHnd 2 2 2 [Some va_user] fully_sorted false false false [].
Definition va_run := run Qops isort tjunk tjunkq all_isa dt_d pick2 1 [] tpick 31 va_hnd.
Definition va_mv : call Qc := k_mv op_none (Q2Qc 1) (mkDescr mt_general fm_lower dg_non_unit 0) (qv [1;1]%Q) (Q2Qc 0) (qv [0;0]%Q).
Definition va_out (r : option (list (status * option (list Qc)) * hnd Qc)) :=
  match r with Some (obs, _) => Some (map (fun o => (fst o, option_map (map this) (snd o))) obs) | None => None end.
Example C32_case_refuted :
  va_out (va_run [k_optimize; va_mv]) = Some [(success, None); (success, Some [1; 2]%Q)] /\
  va_out (va_run [k_set 1 0 (Q2Qc 5); va_mv]) = Some [(success, None); (success, Some [1; 5]%Q)] /\
  va_run [k_optimize; k_set 1 0 (Q2Qc 5); va_mv] = None.
Proof. split; [vm_compute; reflexivity|split; vm_compute; reflexivity]. Qed.

(** A coordinate stored twice: the call succeeds, yet the entry is not the value set
    (the other duplicate still contributes). *)
Theorem C32_duplicate_refuted : exists (h : hnd Z) u l i j v, H_mats h = [Some u] /\ user_mat h u /\ stored u i j /\
  set_value (Some h) i j v = Some (success, Some (set_mats h [Some (with_val u l)])) /\ hnd_mat Zops (with_val u l) i j <> v.
Proof.
  exists (mkHnd 1 2 2 [Some (mkCmat 1 2 2 gn 0 [0;2] [1;1] [10;20] None None false dg_non_unit None)] fully_sorted false false false []),
    (mkCmat 1 2 2 gn 0 [0;2] [1;1] [10;20] None None false dg_non_unit None), [5;20], 0, 1, 5.
  split; [reflexivity|]. split; [um|]. split; [exists 0; split; [split; vm_compute; congruence|reflexivity]|]. split; [reflexivity|]. vm_compute. discriminate.
Qed.
Print Assumptions C32_duplicate_refuted.

(** The ILU(0) factors survive a value change: after aoclsparse_?update_values the
    smoother still solves with the factors of the old values.
    A = diag(2, 4), then diag(1, 1); b = (2, 4). *)
Definition vi_user : cmat Qc := mkCmat 2 2 2 gn 0 [0;1;2] [0;1] (qv [2;4]%Q) None None false dg_non_unit None.
Theorem C32_ilu_stale_refuted : exists (h : hnd Qc) u d x bv l x1 s1 h2 u2 x2 s2, ilu_pre h u d /\
  ilu_smoother Qops qz ifz op_none (Some h) None (Some d) true (Some x) (Some bv) = Some (success, Some x1, factors, s1) /\
  update_values (Some h) (zlen l) (Some l) = Some (success, Some h2) /\ H_mats h2 = [Some u2] /\ ilu_pre h2 u2 d /\
  ilu_smoother Qops qz ifz op_none (Some h2) s1 (Some d) true (Some x) (Some bv) = Some (success, Some x2, factors, Some s2) /\
  (* the new matrix is diagonal, its factorisation is the matrix itself *)
  (hnd_mat Qops u2 0 1 = Q2Qc 0 /\ hnd_mat Qops u2 1 0 = Q2Qc 0) /\
  (hnd_mat Qops u2 0 0 * nthZ (Q2Qc 0) x2 0)%Qc <> nthZ (Q2Qc 0) bv 0.
Proof.
  exists (il_hnd vi_user fully_sorted), vi_user, (il_descr 0), (qv [0;0]%Q), (qv [2;4]%Q), (qv [1;1]%Q).
  do 2 eexists. eexists. eexists. do 2 eexists. split; [|split; [vm_compute; reflexivity|split; [cbv; reflexivity|split; [reflexivity|split; [|split; [vm_compute; reflexivity|split]]]]]].
  - constructor; try reflexivity; try (cbn; lia); [um|exists []; reflexivity|apply rows_sortedb_ok; reflexivity|apply full_diagb_ok; reflexivity].
  - constructor; try reflexivity; try (cbn; lia); [um|exists []; reflexivity|apply rows_sortedb_ok; reflexivity|apply full_diagb_ok; reflexivity].
  - split; vm_compute; reflexivity.
  - intros E. apply (f_equal this) in E. vm_compute in E. discriminate.
Qed.
Print Assumptions C32_ilu_stale_refuted.

(** ** Cases meeting the hypotheses *)
Definition vb_user : cmat Qc := mkCmat 2 2 3 gn 1 [1;2;4] [1;1;2] (qv [1;2;4]%Q) None None false dg_non_unit None.
Definition vb_hnd : hnd Qc := mkHnd 2 2 3 [Some vb_user] fully_sorted true false false [].
Definition vb_mv : call Qc := k_mv op_none (Q2Qc 1) (mkDescr mt_general fm_lower dg_non_unit 1) (qv [1;1]%Q) (Q2Qc 0) (qv [0;0]%Q).
Definition vb_sv : call Qc := k_trsv op_none (Q2Qc 1) (mkDescr mt_triangular fm_lower dg_non_unit 1) (qv [1;2]%Q) 1 (qv [0;0]%Q) 1 (-1).
Definition vb_calls : list (call Qc) := [vb_mv; k_optimize; k_set 2 1 (Q2Qc 7); vb_mv; k_set 1 2 (Q2Qc 9); k_update (qv [1;1]%Q); k_update (qv [1;2;1]%Q); vb_sv; vb_mv].
Example C32_case_hyps : H_mats vb_hnd = [Some vb_user] /\ hnd_ok (o0 Qops) vb_hnd vb_user /\ diag_flag_ok vb_hnd vb_user /\ sortable vb_user /\
  rows_distinct 2 1 (c_ptr vb_user) (c_ind vb_user) /\ rows_grouped 2 1 (c_ptr vb_user) (c_ind vb_user) /\ full_diag 2 2 1 (c_ptr vb_user) (c_ind vb_user) /\
  stored vb_user (2 - 1) (1 - 1) /\ ~ stored vb_user (1 - 1) (2 - 1).
Proof.
  split; [reflexivity|]. split; [split; [um|exists []; split; [reflexivity|split; [discriminate|constructor]]]|].
  split; [intros (c & [Hc|[]] & Oc); inversion Hc; subst c; discriminate|].
  assert (RG : rows_grouped 2 1 (c_ptr vb_user) (c_ind vb_user)) by (apply rows_groupedb_ok; reflexivity).
  assert (RD : rows_distinct 2 1 (c_ptr vb_user) (c_ind vb_user)) by (apply rows_distinctb_ok; reflexivity).
  split; [left; exact RG||right; exact RD|]. split; [exact RD|]. split; [exact RG|]. split; [apply full_diagb_ok; reflexivity|].
  split; [exists 1; split; [split; vm_compute; congruence|reflexivity]|].
  intros (k & (K1 & K2) & K3). vm_compute in K1, K2. assert (k = 0) by (destruct k; [reflexivity|exfalso; destruct p; discriminate|exfalso; now apply K1]). subst k. vm_compute in K3. discriminate.
Qed.
Example C32_case : va_out (run Qops isort tjunk tjunkq all_isa dt_d pick2 1 [] tpick 31 vb_hnd vb_calls) =
  Some [(success, Some [1; 6]%Q); (success, None); (success, None); (success, Some [1; 11]%Q); (invalid_index_value, None); (invalid_size, None);
        (success, None); (success, Some [1; 0]%Q); (success, Some [1; 3]%Q)].
Proof. vm_compute. reflexivity. Qed.
