(** C31: level-1 operations, for every CPU, kernel choice, vector width and data. *)
From Coq Require Import ZArith List Bool Lia.
From Verif Require Import Base BaseFacts Algebra DispatchModel L1Model L1Spec L1Proof.
Import ListNotations.
Open Scope Z_scope.

(** y[indx[i]] := a*x[i] + y[indx[i]]; every other element of y is unchanged. *)
Theorem C31_axpyi : forall T (O : ops T) w256 w512, 0 < w256 -> 0 < w512 ->
  forall c kid nnz a x indx y, cpu_ok c ->
  0 <= nnz -> nnz <= zlen x -> nnz <= zlen indx -> good_positions nnz (zn indx) (zlen y) ->
  exists st y', axpyi O w256 w512 c nnz a (Some x) (Some indx) (Some y) kid = Some (st, Some y') /\
    (st = success /\ stored (o0 O) nnz (zn indx) (fun i => oadd O (omul O a (nthZ (o0 O) x i)) (nthZ (o0 O) y (zn indx i))) y y' \/
     0 <= kid /\ st = invalid_kid /\ y' = y).
Proof. exact @axpyi_ok. Qed.
Print Assumptions C31_axpyi.

(** (x[i], y[indx[i]]) := (c*x[i] + s*y[indx[i]], c*y[indx[i]] - s*x[i]). *)
Theorem C31_roti : forall T (O : ops T), laws O -> forall w256 w512, 0 < w256 -> 0 < w512 ->
  forall cx kid nnz x indx y c s, cpu_ok cx ->
  0 <= nnz -> nnz <= zlen x -> nnz <= zlen indx -> good_positions nnz (zn indx) (zlen y) ->
  exists st x' y', roti O w256 w512 cx nnz (Some x) (Some indx) (Some y) c s kid = Some (st, (Some x', Some y')) /\
    (st = success /\
       stored (o0 O) nnz (fun i => i) (fun i => oadd O (omul O c (nthZ (o0 O) x i)) (omul O s (nthZ (o0 O) y (zn indx i)))) x x' /\
       stored (o0 O) nnz (zn indx) (fun i => osub O (omul O c (nthZ (o0 O) y (zn indx i))) (omul O s (nthZ (o0 O) x i))) y y' \/
     0 <= kid /\ st = invalid_kid /\ x' = x /\ y' = y).
Proof. exact @roti_ok. Qed.
Print Assumptions C31_roti.

(** Scatter, with an index array ([Indexed]) or a positive stride ([Strided]). *)
Theorem C31_scatter : forall T (O : ops T) w256 w512, 0 < w256 -> 0 < w512 ->
  forall c kid nnz (x : list T) xi y, cpu_ok c ->
  0 <= nnz -> nnz <= zlen x -> index_len xi nnz -> good_positions nnz (pos xi) (zlen y) ->
  (forall st, xi = Strided st -> 0 < st) ->
  exists st y', sctr w256 w512 c nnz (Some x) (Some xi) (Some y) kid = Some (st, Some y') /\
    (st = success /\ stored (o0 O) nnz (pos xi) (nthZ (o0 O) x) y y' \/ 0 <= kid /\ st = invalid_kid /\ y' = y).
Proof. exact @sctr_ok. Qed.
Print Assumptions C31_scatter.

(** Gather (repeated indices allowed) and gather-and-zero ([zap], distinct indices). *)
Theorem C31_gather : forall T (O : ops T) w256 w512, 0 < w256 -> 0 < w512 ->
  forall c kid zap nnz y (x : list T) xi, cpu_ok c ->
  0 <= nnz -> nnz <= zlen x -> index_len xi nnz ->
  (forall i, 0 <= i < nnz -> 0 <= pos xi i < zlen y) ->
  (forall st, xi = Strided st -> 0 <= st /\ zap = false) ->
  (zap = true -> good_positions nnz (pos xi) (zlen y)) ->
  exists st y' x', gthr O w256 w512 c zap nnz (Some y) (Some x) (Some xi) kid = Some (st, (Some y', Some x')) /\
    (st = success /\ stored (o0 O) nnz (fun i => i) (fun i => nthZ (o0 O) y (pos xi i)) x x' /\
       (if zap then stored (o0 O) nnz (pos xi) (fun _ => o0 O) y y' else y' = y) \/
     0 <= kid /\ st = invalid_kid /\ y' = y /\ x' = x).
Proof. exact @gthr_ok. Qed.
Print Assumptions C31_gather.

(** Sparse-dense dot products; repeated indices allowed. *)
Theorem C31_dot : forall T (O : ops T), laws O -> forall w256 w512, 0 < w256 -> 0 < w512 ->
  forall c kid nnz x indx y cnj, cpu_ok c ->
  0 < nnz -> nnz <= zlen x -> nnz <= zlen indx -> (forall i, 0 <= i < nnz -> 0 <= zn indx i < zlen y) ->
  dotp O w256 w512 c nnz (Some x) (Some indx) (Some y) true cnj kid =
    Some (success, Some (sumz O 0 nnz (fun i =>
      omul O (if cnj then ocj O (nthZ (o0 O) x i) else nthZ (o0 O) x i) (nthZ (o0 O) y (zn indx i))))) \/
  0 <= kid /\ dotp O w256 w512 c nnz (Some x) (Some indx) (Some y) true cnj kid = Some (invalid_kid, None).
Proof. exact @dotp_ok. Qed.
Print Assumptions C31_dot.

(** Dense-dense dot product used by the solvers. *)
Theorem C31_dense_dot : forall T (O : ops T), laws O -> forall w256 w512, 0 < w256 -> 0 < w512 ->
  forall c kid n x y, cpu_ok c -> 0 <= n -> n <= zlen x -> n <= zlen y ->
  dense_dot O w256 w512 c n x y kid = Some (success, Some (sumz O 0 n (fun i => omul O (ocj O (nthZ (o0 O) x i)) (nthZ (o0 O) y i)))) \/
  0 <= kid /\ dense_dot O w256 w512 c n x y kid = Some (invalid_kid, None).
Proof. exact @dense_dot_ok. Qed.
Print Assumptions C31_dense_dot.

(** Negative index at position [q], when the reference kernel is in use: the call
    returns invalid_index_value, elements before [q] are processed and nothing else is
    touched (x, indx and y need not even extend beyond [q]). *)
Theorem C44_negative_index_partial : forall T (O : ops T) w256 w512 q nnz (a c s : T) x indx y cx kid,
  0 <= q < nnz -> q <= zlen x -> q < zlen indx -> good_positions q (zn indx) (zlen y) -> zn indx q < 0 ->
  (pick4 cx kid = Some 0 ->
    (exists y', axpyi O w256 w512 cx nnz a (Some x) (Some indx) (Some y) kid = Some (invalid_index_value, Some y') /\
       stored (o0 O) q (zn indx) (fun i => oadd O (omul O a (nthZ (o0 O) x i)) (nthZ (o0 O) y (zn indx i))) y y') /\
    (exists x' y', roti O w256 w512 cx nnz (Some x) (Some indx) (Some y) c s kid = Some (invalid_index_value, (Some x', Some y')) /\
       stored (o0 O) q (fun i => i) (fun i => oadd O (omul O c (nthZ (o0 O) x i)) (omul O s (nthZ (o0 O) y (zn indx i)))) x x' /\
       stored (o0 O) q (zn indx) (fun i => osub O (omul O c (nthZ (o0 O) y (zn indx i))) (omul O s (nthZ (o0 O) x i))) y y') /\
    (exists y', sctr w256 w512 cx nnz (Some x) (Some (Indexed indx)) (Some y) kid = Some (invalid_index_value, Some y') /\
       stored (o0 O) q (zn indx) (nthZ (o0 O) x) y y')) /\
  (pick_gthr cx kid = Some 0 -> forall zap,
    exists y' x', gthr O w256 w512 cx zap nnz (Some y) (Some x) (Some (Indexed indx)) kid = Some (invalid_index_value, (Some y', Some x')) /\
      stored (o0 O) q (fun i => i) (fun i => nthZ (o0 O) y (zn indx i)) x x' /\
      (if zap then stored (o0 O) q (zn indx) (fun _ => o0 O) y y' else y' = y)).
Proof.
  intros T O w256 w512 q nnz a c s x indx y cx kid H1 H2 H3 H4 H5. split.
  - intros P. split; [|split].
    + apply axpyi_negative; auto.
    + apply roti_negative; auto.
    + apply sctr_negative; auto.
  - intros P zap. apply gthr_negative; auto.
Qed.
Print Assumptions C44_negative_index_partial.

(** Finding: the vector kernels, chosen by default on any CPU with AVX2, do not check.
    The documented invalid_index_value is never returned; the access is out of bounds
    ([None]). *)
Definition l1_cpu : cpu := mkCpu (map (fun k => k =? isa_avx2) (zrange 0 isa_length)) 2 isa_unset false false.
Theorem C44_negative_index_refuted :
  axpyi Zops 4 8 l1_cpu 2 3 (Some [1; 2]) (Some [0; -1]) (Some [5; 6]) (-1) = None /\
  axpyi Zops 4 8 l1_cpu 2 3 (Some [1; 2]) (Some [0; -1]) (Some [5; 6]) 0 = Some (invalid_index_value, Some [8; 6]) /\
  sctr 4 8 l1_cpu 2 (Some [1; 2]) (Some (Indexed [0; -1])) (Some [5; 6]) (-1) = None /\
  gthr Zops 4 8 l1_cpu false 2 (Some [5; 6]) (Some [1; 2]) (Some (Indexed [0; -1])) (-1) = None /\
  roti Zops 4 8 l1_cpu 2 (Some [1; 2]) (Some [0; -1]) (Some [5; 6]) 3 4 (-1) = None.
Proof. repeat split; vm_compute; reflexivity. Qed.
Print Assumptions C44_negative_index_refuted.

(** Invalid arguments: reported, nothing is written. *)
Theorem C31_bad_arguments : forall T (O : ops T) w256 w512 cx kid nnz (a c s : T) x indx y,
  (x = None \/ indx = None \/ y = None ->
     axpyi O w256 w512 cx nnz a x indx y kid = Some (invalid_pointer, y) /\
     roti O w256 w512 cx nnz x indx y c s kid = Some (invalid_pointer, (x, y))) /\
  (nnz < 0 -> x <> None -> indx <> None -> y <> None ->
     axpyi O w256 w512 cx nnz a x indx y kid = Some (invalid_size, y) /\
     roti O w256 w512 cx nnz x indx y c s kid = Some (invalid_size, (x, y)) /\
     (forall xi, sctr w256 w512 cx nnz x xi y kid = Some (invalid_size, y))) /\
  (nnz < 0 -> forall zap xi, gthr O w256 w512 cx zap nnz y x xi kid = Some (invalid_size, (y, x))) /\
  (nnz <= 0 -> forall cnj, dotp O w256 w512 cx nnz x indx y true cnj kid = Some (invalid_size, Some (o0 O))).
Proof.
  intros T O w256 w512 cx kid nnz a c s x indx y. split; [|split; [|split]].
  - intros H. unfold axpyi, roti. destruct x, indx, y; auto. destruct H as [H|[H|H]]; discriminate.
  - intros N Hx Hi Hy. unfold axpyi, roti, sctr. destruct x, indx, y; try congruence.
    replace (nnz =? 0) with false by (symmetry; apply Z.eqb_neq; lia). replace (nnz <? 0) with true by (symmetry; apply Z.ltb_lt; lia). auto.
  - intros N zap xi. unfold gthr. replace (nnz <? 0) with true by (symmetry; apply Z.ltb_lt; lia). reflexivity.
  - intros N cnj. unfold dotp. cbn [negb]. replace (nnz <=? 0) with true by (symmetry; apply Z.leb_le; lia). reflexivity.
Qed.
Print Assumptions C31_bad_arguments.

(** Concrete case: 5 elements, width 2 (two full vectors and a remainder). *)
Example C31_case_hyps : cpu_ok l1_cpu /\ good_positions 5 (zn [6; 0; 3; 5; 1]) (zlen [10; 11; 12; 13; 14; 15; 16]).
Proof.
  split; [split; reflexivity|]. split.
  - intros i Hi. assert (E : i = 0 \/ i = 1 \/ i = 2 \/ i = 3 \/ i = 4) by lia.
    destruct E as [->|[->|[->|[->| ->]]]]; vm_compute; split; congruence.
  - intros i j Hi Hj. assert (E : i = 0 \/ i = 1 \/ i = 2 \/ i = 3 \/ i = 4) by lia.
    assert (F : j = 0 \/ j = 1 \/ j = 2 \/ j = 3 \/ j = 4) by lia.
    destruct E as [->|[->|[->|[->| ->]]]]; destruct F as [->|[->|[->|[->| ->]]]]; vm_compute; congruence.
Qed.
Example C31_case :
  axpyi Zops 2 4 l1_cpu 5 10 (Some [1; 2; 3; 4; 5]) (Some [6; 0; 3; 5; 1]) (Some [10; 11; 12; 13; 14; 15; 16]) (-1)
    = Some (success, Some [30; 61; 12; 43; 14; 55; 26]) /\
  gthr Zops 2 4 l1_cpu true 5 (Some [10; 11; 12; 13; 14; 15; 16]) (Some [0; 0; 0; 0; 0]) (Some (Indexed [6; 0; 3; 5; 1])) (-1)
    = Some (success, (Some [0; 0; 12; 0; 14; 0; 0], Some [16; 10; 13; 15; 11])) /\
  sctr 2 4 l1_cpu 3 (Some [1; 2; 3]) (Some (Strided 2)) (Some [10; 11; 12; 13; 14; 15; 16]) (-1)
    = Some (success, Some [1; 11; 2; 13; 3; 15; 16]) /\
  dotp Zops 2 4 l1_cpu 3 (Some [1; 2; 3]) (Some [0; 2; 2]) (Some [10; 11; 12]) true false (-1) = Some (success, Some 70).
Proof. repeat split; vm_compute; reflexivity. Qed.
