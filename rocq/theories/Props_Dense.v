(** C11: CSR -> dense conversion. *)
From Coq Require Import ZArith List Bool Lia.
From Verif Require Import Base Algebra UtilModel Csr Decide DescrModel DenseModel DenseSpec DenseProof.
Import ListNotations.
Open Scope Z_scope.

(** Whatever the array held, afterwards the m x n window is the matrix the
    descriptor denotes and the rest of the array is untouched.  [w] is the number of
    value bits of the index type. *)
Theorem C11_csr2dense : forall T (O : ops T), laws O -> forall w m n nnz d ptr ind (val A : list T) ld order,
  0 < w -> 0 < m <= int_max w -> 0 < n <= int_max w -> 0 <= ld <= int_max w ->
  (if order =? 1 then n else m) * ld <= int_max w ->
  (md_base d = 0 \/ md_base d = 1) -> (0 <= md_type d <= 3) ->
  (md_type d <> 0 -> m = n /\ (md_fill d = 0 \/ md_fill d = 1) /\ (md_diag d = 0 \/ md_diag d = 1 \/ md_diag d = 2)) ->
  (order = 1 -> md_type d = 0 \/ md_type d = 1) ->
  csr_wf m n nnz (md_base d) ptr ind -> zlen val = nnz -> window_fits order ld m n A ->
  exists A', csr2dense O w m n (Some d) (Some val) (Some ptr) (Some ind) (Some A) ld order = Some (success, Some A') /\
    holds_window (o0 O) order ld m n (descr_mat O (md_type d) (md_fill d) (md_diag d) (md_base d) ptr ind val) A A'.
Proof. exact @csr2dense_ok. Qed.
Print Assumptions C11_csr2dense.

(** [[1 . 3] [4 5 .] [. 6 7]] with a stale upper triangle, one-based, ld = 4. *)
Example C11_case_wf : csr_wf 3 3 6 1 [1;3;5;7] [1;3;1;2;2;3].
Proof. apply csr_wfb_ok; reflexivity. Qed.
Example C11_case_fits : window_fits 0 4 3 3 (repeat 9 12).
Proof. cbv [window_fits]; cbn; lia. Qed.
Example C11_case_herm :
  csr2dense Gops 31 3 3 (Some (mkMD 2 0 0 1)) (Some [(1,0);(3,3);(4,4);(5,0);(6,6);(7,0)])
    (Some [1;3;5;7]) (Some [1;3;1;2;2;3]) (Some (repeat (9,9) 12)) 4 0
  = Some (success, Some [(1,0);(4,-4);(0,0);(9,9); (4,4);(5,0);(6,-6);(9,9); (0,0);(6,6);(7,0);(9,9)]).
Proof. reflexivity. Qed.

(** Every rejection has a stated cause, and then nothing is written. *)
Theorem C11_rejections : forall T (O : ops T) w m n d_p (val_p : option (list T)) ptr_p ind_p A_p ld order st A',
  0 < w -> - 2 ^ w <= m <= int_max w -> - 2 ^ w <= n <= int_max w -> - 2 ^ w <= ld <= int_max w ->
  csr2dense O w m n d_p val_p ptr_p ind_p A_p ld order = Some (st, A') -> st <> success ->
  A' = A_p /\
  (st = invalid_pointer /\ (d_p = None \/ val_p = None \/ ptr_p = None \/ ind_p = None \/ A_p = None) \/
   st = invalid_size /\ (m < 0 \/ n < 0 \/ (if order =? 1 then n else m) * ld <= - 2 ^ w \/ int_max w < (if order =? 1 then n else m) * ld) \/
   exists d, d_p = Some d /\
     (st = not_implemented /\ order = 1 /\ (md_type d = 2 \/ md_type d = 3) \/
      st = invalid_value /\
        (~ (0 <= md_base d <= 1) \/ ~ (0 <= md_type d <= 3) \/
         md_type d <> 0 /\ (~ (0 <= md_fill d <= 1) \/ ~ (0 <= md_diag d <= 2))))).
Proof. exact @csr2dense_reject. Qed.
Print Assumptions C11_rejections.
Example C11_reject_case :
  csr2dense Zops 31 2 2 (Some (mkMD 3 0 0 0)) (Some [5]) (Some [0;1;1]) (Some [0]) (Some [1;1;1;1]) 2 1
  = Some (not_implemented, Some [1;1;1;1]).
Proof. reflexivity. Qed.

(** Finding: a unit (or zero) diagonal is written in every row, also in rows that
    have no diagonal element: a non-square matrix is written outside the window,
    even outside the array. *)
Theorem C11_tall_unit_diagonal_refuted :
  csr2dense Zops 31 2 1 (Some (mkMD 3 0 1 0)) (Some []) (Some [0;0;0]) (Some []) (Some [5;5]) 1 0 = None /\
  csr2dense Zops 31 2 1 (Some (mkMD 3 0 1 0)) (Some []) (Some [0;0;0]) (Some []) (Some [5;5;5;5]) 2 0
    = Some (success, Some [1;5;0;1]).
Proof. exact csr2dense_tall_refuted. Qed.
Print Assumptions C11_tall_unit_diagonal_refuted.
