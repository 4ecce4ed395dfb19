(** C01, C02, C03: matrix creation, classification, triangle positions. *)
From Coq Require Import ZArith List Bool.
From Verif Require Import Base Csr CheckModel CheckSpec CheckProof IndicesProof.
Import ListNotations.
Open Scope Z_scope.

(** C01.  With arrays of the advertised lengths, creation never reads out of
    bounds (the model returns a value), succeeds exactly on valid structures and
    otherwise reports the documented code of the first defect in storage order;
    no handle exists after a failure. *)
Theorem C01_create_csr_validates : forall b M N nnz ptr ind,
  (0 <= M -> zlen ptr = M + 1) -> (0 <= nnz -> zlen ind = nnz) ->
  let sizes := 0 <= N /\ 0 <= M /\ 0 <= nnz in
  let bad := bad_index shape_general M N b ptr ind in
  let dup := dup_diag M b ptr ind in
  exists st h, create_csr false true b M N nnz (Some ptr) (Some ind) false false = Some (st, h) /\
   (st = success <-> sizes /\ csr_wf M N nnz b ptr ind /\ diag_unique M b ptr ind) /\
   (st = invalid_size <-> ~ sizes) /\
   (st = invalid_value <-> sizes /\ (~ ptr_ok M nnz b ptr \/
       ptr_ok M nnz b ptr /\ exists k, dup k /\ ~ bad k /\ forall k', k' < k -> ~ bad k' /\ ~ dup k')) /\
   (st = invalid_index_value <-> sizes /\ ptr_ok M nnz b ptr /\
       exists k, bad k /\ forall k', k' < k -> ~ bad k' /\ ~ dup k') /\
   (st = success \/ st = invalid_size \/ st = invalid_value \/ st = invalid_index_value) /\
   (st <> success -> h = None) /\
   (st = success -> exists so fd, h = Some (mkHandle M N nnz (mkRep M N nnz b ptr ind false) so fd) /\
       (so = fully_sorted <-> rows_sorted M b ptr ind) /\
       (so = partially_sorted <-> ~ rows_sorted M b ptr ind /\ rows_grouped M b ptr ind) /\
       (so = unsorted <-> ~ rows_grouped M b ptr ind) /\
       (so <> unknown_sort) /\
       (fd = true <-> full_diag M N b ptr ind)).
Proof. exact create_csr_lemma. Qed.
Print Assumptions C01_create_csr_validates.

Example C01_case_partially_sorted :
  exists h, create_csr false true 1 3 4 6 (Some [1;3;4;7]) (Some [1;4; 2; 2;1;3]) false false
            = Some (success, Some h) /\ h_sort h = partially_sorted /\ h_fulldiag h = true.
Proof. eexists; split; [vm_compute; reflexivity|]. vm_compute; auto. Qed.
Example C01_case_dup_diag :
  create_csr false true 0 2 2 3 (Some [0;2;3]) (Some [0;0;5]) false false = Some (invalid_value, None).
Proof. reflexivity. Qed.
Example C01_case_bad_index :
  create_csr false true 0 2 2 3 (Some [0;1;3]) (Some [0;2;1]) false false = Some (invalid_index_value, None).
Proof. reflexivity. Qed.

Theorem C01_create_csc_validates : forall b M N nnz ptr ind,
  (0 <= N -> zlen ptr = N + 1) -> (0 <= nnz -> zlen ind = nnz) ->
  exists st h, create_csc false true b M N nnz (Some ptr) (Some ind) false = Some (st, h) /\
   (st = success <-> (0 <= M /\ 0 <= N /\ 0 <= nnz) /\ csr_wf N M nnz b ptr ind /\ diag_unique N b ptr ind) /\
   (st = invalid_size <-> ~ (0 <= M /\ 0 <= N /\ 0 <= nnz)) /\
   (st = success \/ st = invalid_size \/ st = invalid_value \/ st = invalid_index_value) /\
   (st <> success -> h = None) /\
   (st = success -> exists so fd, h = Some (mkHandle M N nnz (mkRep N M nnz b ptr ind true) so fd) /\
       (so = fully_sorted <-> rows_sorted N b ptr ind) /\
       (so = partially_sorted <-> ~ rows_sorted N b ptr ind /\ rows_grouped N b ptr ind) /\
       (so = unsorted <-> ~ rows_grouped N b ptr ind) /\
       (fd = true <-> full_diag N M b ptr ind)).
Proof. exact create_csc_lemma. Qed.
Print Assumptions C01_create_csc_validates.

Example C01_case_csc :
  exists h, create_csc false true 0 3 2 3 (Some [0;2;3]) (Some [0;2;1]) false
            = Some (success, Some h) /\ h_sort h = fully_sorted.
Proof. eexists; split; [vm_compute; reflexivity|]. vm_compute; auto. Qed.

Theorem C01_create_null_pointers : forall mat_null alloc b M N nnz ptr_p ind_p val_null fast,
  mat_null = true \/ ptr_p = None \/ ind_p = None \/ val_null = true ->
  create_csr mat_null alloc b M N nnz ptr_p ind_p val_null fast = Some (invalid_pointer, None) /\
  create_csc mat_null alloc b M N nnz ptr_p ind_p val_null = Some (invalid_pointer, None).
Proof. exact create_null_lemma. Qed.
Print Assumptions C01_create_null_pointers.

Theorem C01_create_coo_validates : forall b M N nnz row col,
  (0 <= nnz -> zlen row = nnz /\ zlen col = nnz) ->
  exists st, create_coo false true b M N nnz (Some row) (Some col) false = Some st /\
    (st = success <-> (0 <= M /\ 0 <= N /\ 0 <= nnz) /\
       forall k, 0 <= k < nnz -> b <= zn row k < b + M /\ b <= zn col k < b + N) /\
    (st = invalid_size <-> ~ (0 <= M /\ 0 <= N /\ 0 <= nnz)) /\
    (st = invalid_index_value <-> (0 <= M /\ 0 <= N /\ 0 <= nnz) /\
       exists k, 0 <= k < nnz /\ ~ (b <= zn row k < b + M /\ b <= zn col k < b + N)).
Proof. exact create_coo_lemma. Qed.
Print Assumptions C01_create_coo_validates.

Example C01_case_coo : create_coo false true 1 2 3 3 (Some [1;2;1]) (Some [3;1;3]) false = Some success.
Proof. reflexivity. Qed.

(** C02.  The second classifier (used when optimising) on validated input: it
    reports exactly lower|diagonal|upper grouping and, for grouped input, whether
    the diagonal is complete. *)
Theorem C02_check_sort_diag_exact : forall m n nnz b ptr ind,
  0 <= m -> 0 <= n -> lens_ok m nnz ptr ind -> ptr_ok m nnz b ptr -> diag_unique m b ptr ind ->
  exists so fd, check_sort_diag m n b (Some ptr) (Some ind) = Some (success, so, fd) /\
    (so = true <-> rows_grouped m b ptr ind) /\
    (fd = true <-> rows_grouped m b ptr ind /\ full_diag m n b ptr ind).
Proof. exact check_sort_diag_ok. Qed.
Print Assumptions C02_check_sort_diag_exact.

Example C02_case : check_sort_diag 3 3 0 (Some [0;2;3;6]) (Some [0;2; 1; 1;0;2]) = Some (success, true, true)
  /\ check_sort_diag 3 3 0 (Some [0;2;3;6]) (Some [2;0; 1; 1;0;2]) = Some (success, false, false).
Proof. split; reflexivity. Qed.

(** C03.  The computed positions split every row, whatever the fresh arrays
    contained before. *)
Theorem C03_triangle_positions : forall m nnz b ptr ind,
  0 <= m -> lens_ok m nnz ptr ind -> ptr_ok m nnz b ptr -> diag_unique m b ptr ind ->
  rows_grouped m b ptr ind ->
  forall idiag0 iurow0, zlen idiag0 = m -> zlen iurow0 = m ->
  exists idiag iurow, csr_csc_indices m b ptr ind idiag0 iurow0 = Some (idiag, iurow) /\
    zlen idiag = m /\ zlen iurow = m /\
    (forall i, 0 <= i < m -> splits_row b ptr ind idiag iurow i).
Proof. exact indices_ok. Qed.
Print Assumptions C03_triangle_positions.

Example C03_case : csr_csc_indices 3 1 [1;3;4;6] [1;3; 1; 2;3] [7;7;7] [9;9;9] = Some ([1;4;5], [2;4;6]).
Proof. reflexivity. Qed.
