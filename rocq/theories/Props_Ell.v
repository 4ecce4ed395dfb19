(** C08: ELL conversions. *)
From Coq Require Import ZArith List Bool Lia.
From Verif Require Import Base Csr Decide DescrModel EllModel EllSpec EllProof.
Import ListNotations.
Open Scope Z_scope.

(** The reported width is the longest row; with arrays of that width, whatever they
    held, the conversion succeeds in bounds, every slot holds the row's next element
    or padding (column -1, value zero), and every coordinate holds exactly the
    stored values. *)
Theorem C08_csr2ell : forall T (z : T) m n nnz d ptr ind (val : list T) w0,
  (md_base d = 0 \/ md_base d = 1) ->
  csr_wf m n nnz (md_base d) ptr ind -> zlen val = nnz ->
  exists wd, csr2ell_width m nnz (Some ptr) (Some w0) = Some (success, Some wd) /\ is_max_row m ptr wd /\ 0 <= wd /\
  forall c v, zlen c = m * wd -> zlen v = m * wd ->
    exists c' v',
      csr2ell z m (Some d) (Some ptr) (Some ind) (Some val) (Some c) (Some v) wd = Some (success, Some c', Some v') /\
      zlen c' = m * wd /\ zlen v' = m * wd /\
      (forall i, 0 <= i < m -> ell_row_ok z (ell_slot wd) (md_base d) wd ptr ind val (-1) c' v' i) /\
      (forall i j, 0 <= i < m -> 0 <= j < n ->
         ell_ents z (ell_slot wd) (md_base d) wd c' v' i j = ents (md_base d) ptr ind val i j).
Proof. exact width_then_ell. Qed.
Print Assumptions C08_csr2ell.

Example C08_wf : csr_wf 3 3 4 1 [1;3;3;5] [3;1;2;2].
Proof. apply csr_wfb_ok; reflexivity. Qed.
Example C08_case :
  csr2ell 0 3 (Some (mkMD 0 0 0 1)) (Some [1;3;3;5]) (Some [3;1;2;2]) (Some [5;6;7;8]) (Some [9;9;9;9;9;9]) (Some [4;4;4;4;4;4]) 2
  = Some (success, Some [3;1;-1;-1;2;2], Some [5;6;0;0;7;8]).
Proof. reflexivity. Qed.

(** The slot-major variant: the same values followed by explicit zeros, and the
    padding column is always a column index of the matrix.  Missing (refuted below): rows
    to be padded before the first stored element. *)
Theorem C08_csr2ellt_partial : forall T (z : T) m n nnz d ptr ind (val : list T) c v wd,
  csr_wf m n nnz (md_base d) ptr ind -> zlen val = nnz -> 0 <= wd ->
  (forall i, 0 <= i < m -> row_len ptr i <= wd) -> zlen c = m * wd -> zlen v = m * wd ->
  pad_source m (md_base d) wd ptr ->
  exists c' v',
    csr2ellt z m (Some d) (Some ptr) (Some ind) (Some val) (Some c) (Some v) wd = Some (success, Some c', Some v') /\
    zlen c' = m * wd /\ zlen v' = m * wd /\
    (forall i, 0 <= i < m -> ell_row_ok z (ellt_slot m) (md_base d) wd ptr ind val (zn ind (zn ptr (i + 1) - md_base d - 1)) c' v' i) /\
    (forall i j, 0 <= i < m -> 0 <= j < n -> exists q,
       ell_ents z (ellt_slot m) (md_base d) wd c' v' i j = ents (md_base d) ptr ind val i j ++ repeat z q).
Proof. exact @csr2ellt_ok. Qed.
Print Assumptions C08_csr2ellt_partial.
Example C08_ellt_source : pad_source 3 1 2 [1;3;3;5].
Proof. intros i Hi _. assert (i = 0 \/ i = 1 \/ i = 2) as [-> | [-> | ->]] by lia; reflexivity. Qed.
Example C08_ellt_case :
  csr2ellt 0 3 (Some (mkMD 0 0 0 1)) (Some [1;3;3;5]) (Some [3;1;2;2]) (Some [5;6;7;8]) (Some [9;9;9;9;9;9]) (Some [4;4;4;4;4;4]) 2
  = Some (success, Some [3;1;2;1;1;2], Some [5;0;7;6;0;8]).
Proof. reflexivity. Qed.

(** The hybrid: rows longer than the width are listed in order and hold zeros in
    the ELL part; all other rows are as above; *ell_m is the number of the latter.
    Missing (refuted below): as above. *)
Theorem C08_csr2ellthybrid_partial : forall T (z : T) m n nnz b em ptr ind (val : list T) rmap c v wd,
  csr_wf m n nnz b ptr ind -> zlen val = nnz -> 0 < m -> 0 <= wd ->
  zlen (long_rows m wd ptr) <= zlen rmap -> zlen c = m * wd -> zlen v = m * wd ->
  pad_source m b wd ptr ->
  exists rmap' c' v',
    csr2ellthybrid z m b (Some em) (Some ptr) (Some ind) (Some val) (Some rmap) (Some c) (Some v) wd
      = Some (success, Some (m - zlen (long_rows m wd ptr)), Some rmap', Some c', Some v') /\
    zlen c' = m * wd /\ zlen v' = m * wd /\
    firstn (length (long_rows m wd ptr)) rmap' = long_rows m wd ptr /\
    (forall i, 0 <= i < m -> row_len ptr i <= wd ->
       ell_row_ok z (ellt_slot m) b wd ptr ind val (zn ind (zn ptr (i + 1) - b - 1)) c' v' i) /\
    (forall i k, 0 <= i < m -> wd < row_len ptr i -> 0 <= k < wd ->
       nthZ z v' (ellt_slot m i k) = z /\ zn c' (ellt_slot m i k) = zn ind (zn ptr (i + 1) - b - 1)).
Proof. exact @csr2ellthybrid_ok. Qed.
Print Assumptions C08_csr2ellthybrid_partial.
Example C08_hybrid_case :
  csr2ellthybrid 0 3 0 (Some 7) (Some [0;1;3;4]) (Some [0;1;2;2]) (Some [5;6;7;8]) (Some [9;9;9]) (Some [9;9;9]) (Some [4;4;4]) 1
  = Some (success, Some 2, Some [1;9;9], Some [0;2;2], Some [5;0;8]).
Proof. reflexivity. Qed.

(** The width suggested for the hybrid is in range, at least one row fits, and
    *ell_m counts the rows that fit. *)
Theorem C08_hybrid_width : forall m n nnz b ptr ind e0 w0, csr_wf m n nnz b ptr ind -> 0 < m ->
  exists wd, csr2ellthyb_width m nnz (Some ptr) (Some e0) (Some w0)
    = Some (success, Some (m - zlen (long_rows m wd ptr)), Some wd) /\ 0 <= wd <= nnz /\
    (exists i, 0 <= i < m /\ row_len ptr i <= wd).
Proof. exact hyb_width_ok. Qed.
Print Assumptions C08_hybrid_width.
Example C08_hybrid_width_case : csr2ellthyb_width 3 4 (Some [0;1;3;4]) (Some 9) (Some 9) = Some (success, Some 2, Some 1).
Proof. reflexivity. Qed.

(** Rejections ([tr]: the slot-major variant) leave the outputs alone. *)
Theorem C08_rejections : forall T (z : T) (tr : bool) m d_p ptr_p ind_p (val_p : option (list T)) c_p v_p wd,
  let f := if tr then csr2ellt z else csr2ell z in
  (m < 0 \/ wd < 0 -> f m d_p ptr_p ind_p val_p c_p v_p wd = Some (invalid_size, c_p, v_p)) /\
  (0 < m -> 0 < wd -> (ptr_p = None \/ ind_p = None \/ val_p = None \/ c_p = None \/ v_p = None) ->
     f m d_p ptr_p ind_p val_p c_p v_p wd = Some (invalid_pointer, c_p, v_p)).
Proof. exact @ell_reject. Qed.
Print Assumptions C08_rejections.

(** Finding: when the first rows are empty the padding reads csr_col_ind[-1]. *)
Theorem C08_empty_first_row_refuted :
  csr2ellt 0 2 (Some (mkMD 0 0 0 0)) (Some [0;0;1]) (Some [0]) (Some [5]) (Some [9;9]) (Some [9;9]) 1 = None /\
  csr2ellthybrid 0 2 0 (Some 0) (Some [0;0;1]) (Some [0]) (Some [5]) (Some [9;9]) (Some [9;9]) (Some [9;9]) 1 = None.
Proof. exact csr2ellt_empty_first_row. Qed.
Print Assumptions C08_empty_first_row_refuted.

(** Finding: a null descriptor is not rejected but dereferenced. *)
Theorem C08_null_descriptor_refuted :
  csr2ell 0 2 None (Some [0;1;1]) (Some [0]) (Some [5]) (Some [9;9]) (Some [9;9]) 1 = None.
Proof. exact csr2ell_null_descr. Qed.
Print Assumptions C08_null_descriptor_refuted.
