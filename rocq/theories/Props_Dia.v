(** C09: CSR -> DIA conversion. *)
From Coq Require Import ZArith List Bool Lia.
From Verif Require Import Base Algebra Csr Decide DescrModel DiaModel DiaSpec DiaProof.
Import ListNotations.
Open Scope Z_scope.

(** There is one increasing list [L] of occupied diagonals: csr2dia_ndiag reports
    its length; with arrays of the documented sizes csr2dia writes [L] as offsets
    and, at each position of these diagonals, the last stored value (the previous
    content when nothing is stored).  On zeroed storage and without duplicates that
    is the matrix, and the matrix is zero on every other diagonal. *)
Theorem C09_csr2dia : forall T (O : ops T), laws O -> forall m n nnz d ptr ind (val : list T) o0_,
  csr_wf m n nnz (md_base d) ptr ind -> zlen val = nnz ->
  exists L, diagonals m (md_base d) ptr ind L /\
  csr2dia_ndiag m n (Some d) nnz (Some ptr) (Some ind) (Some o0_) = Some (success, Some (zlen L)) /\
  forall off dv, zlen off = zlen L -> zlen dv = m * zlen L ->
  exists off' dv',
    csr2dia m n (Some d) (Some ptr) (Some ind) (Some val) (zlen L) (Some off) (Some dv) = Some (success, Some off', Some dv') /\
    off' = L /\ zlen dv' = m * zlen L /\
    (forall i q, 0 <= i < m -> 0 <= q < zlen L ->
       nthZ (o0 O) dv' (dia_at m i q) = last (ents (md_base d) ptr ind val i (i + zn L q)) (nthZ (o0 O) dv (dia_at m i q))) /\
    ((forall i j, 0 <= i < m -> (length (ents (md_base d) ptr ind val i j) <= 1)%nat) ->
     (forall p, 0 <= p < zlen dv -> nthZ (o0 O) dv p = o0 O) ->
       (forall i q, 0 <= i < m -> 0 <= q < zlen L ->
          nthZ (o0 O) dv' (dia_at m i q) = csr_mat O (md_base d) ptr ind val i (i + zn L q)) /\
       (forall i j, 0 <= i < m -> ~ In (j - i) L -> csr_mat O (md_base d) ptr ind val i j = o0 O)).
Proof. exact width_then_dia. Qed.
Print Assumptions C09_csr2dia.

Example C09_wf : csr_wf 2 3 4 1 [1;3;5] [3;1;2;3].
Proof. apply csr_wfb_ok; reflexivity. Qed.
Example C09_ndiag : csr2dia_ndiag 2 3 (Some (mkMD 0 0 0 1)) 4 (Some [1;3;5]) (Some [3;1;2;3]) (Some 77) = Some (success, Some 3).
Proof. reflexivity. Qed.
Example C09_case :
  csr2dia 2 3 (Some (mkMD 0 0 0 1)) (Some [1;3;5]) (Some [3;1;2;3]) (Some [5;6;7;8]) 3 (Some [9;9;9]) (Some [0;0;0;0;0;0])
  = Some (success, Some [0;1;2], Some [6;7;0;8;5;0]).
Proof. reflexivity. Qed.

Theorem C09_rejections : forall T m n d_p ptr_p ind_p (val_p : option (list T)) nd off_p dv_p,
  (m < 0 \/ n < 0 \/ nd < 0 -> csr2dia m n d_p ptr_p ind_p val_p nd off_p dv_p = Some (invalid_size, off_p, dv_p)) /\
  (0 < m -> 0 < n -> 0 < nd -> ptr_p = None \/ ind_p = None \/ val_p = None \/ off_p = None \/ dv_p = None ->
     csr2dia m n d_p ptr_p ind_p val_p nd off_p dv_p = Some (invalid_pointer, off_p, dv_p)).
Proof. exact dia_reject. Qed.
Print Assumptions C09_rejections.

(** Findings: storage is not zeroed by the conversion, and duplicates are
    overwritten instead of summed. *)
Theorem C09_preserves_every_matrix_refuted :
  csr2dia 2 2 (Some (mkMD 0 0 0 0)) (Some [0;1;1]) (Some [0]) (Some [5]) 1 (Some [9]) (Some [7;7]) = Some (success, Some [0], Some [5;7]) /\
  csr2dia 1 1 (Some (mkMD 0 0 0 0)) (Some [0;2]) (Some [0;0]) (Some [5;6]) 1 (Some [9]) (Some [0]) = Some (success, Some [0], Some [6]) /\
  csr_mat Zops 0 [0;2] [0;0] [5;6] 0 0 = 11.
Proof. exact dia_findings. Qed.
Print Assumptions C09_preserves_every_matrix_refuted.
