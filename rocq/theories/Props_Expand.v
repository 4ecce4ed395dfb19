(** C12: the full-storage copies made when symmetric, Hermitian or transposed
    products are hinted. *)
From Coq Require Import ZArith List Bool Lia.
From Verif Require Import Base BaseFacts Algebra Csr CheckModel Decide DoidModel DoidSpec MvModel MvSpec HandleModel HandleSpec
  ExpandModel ExpandSpec TransformProof.
Import ListNotations.
Open Scope Z_scope.

(** C12.  Expanding the stored triangle: off the diagonal the copy holds the stored
    triangle and its mirror image (conjugated for Hermitian matrices), on the diagonal
    the stored value (its real part for Hermitian matrices, [re] being std::real); the
    entries of the other triangle play no part.  [fz], [ft] are the contents of freshly
    allocated arrays. *)
Theorem C12_expand : forall T (O : ops T), laws O -> forall re : T -> T, (forall v, ocj O v = v -> re v = v) ->
  forall (fz : Z -> list Z) (ft : Z -> list T), (forall k, 0 <= k -> zlen (fz k) = k) -> (forall k, 0 <= k -> zlen (ft k) = k) ->
  forall herm m nnz b ptr ind (val : list T) fm doid A,
  csr_wf m m nnz b ptr ind -> diag_unique m b ptr ind -> zlen val = nnz -> A = csr_mat O b ptr ind val ->
  exists c, convert_mat_to_general O re fz ft herm m ptr ind val fm b doid = Some c /\
    c_m c = m /\ c_n c = m /\ c_b c = 0 /\ csr_wf m m (c_nnz c) 0 (c_ptr c) (c_ind c) /\ zlen (c_val c) = c_nnz c /\
    forall i j, 0 <= i < m -> 0 <= j < m -> csr_mat O 0 (c_ptr c) (c_ind c) (c_val c) i j =
      if i =? j then (if herm then re (A i i) else A i i)
      else if (if is_upper fm then i <? j else j <? i) then A i j
      else if herm then ocj O (A j i) else A j i.
Proof. exact @expand_mat. Qed.
Print Assumptions C12_expand.

(** C12.  Hints for products: every copy appended to the handle holds the matrix the
    hinted operation denotes, for CSR and CSC user matrices; every hint for which a
    copy is due finds one afterwards; the user's matrix and all earlier copies stay. *)
Theorem C12_hinted_copies : forall T (O : ops T), laws O -> forall re : T -> T, (forall v, ocj O v = v -> re v = v) ->
  forall (fz : Z -> list Z) (ft : Z -> list T), (forall k, 0 <= k -> zlen (fz k) = k) -> (forall k, 0 <= k -> zlen (ft k) = k) ->
  forall h u rest hs, user_mat h u -> H_mats h = Some u :: rest ->
    (forall e, In e hs -> hint_ok e /\ (is_one_tri (mh_doid e) = true -> H_m h = H_n h) /\
       (is_herm_doid (mh_doid e) -> real_diag O (hnd_mat O u))) ->
    exists copies hs', matrix_transform O re fz ft (Some h) hs = Some (success, Some (set_mats h (H_mats h ++ map Some copies)), hs') /\
      (forall c, In c copies -> exists e, In e hs /\ copied (c_doid u) (mh_doid e) = true /\
         copy_ok O (H_m h) (H_n h) (hnd_mat O u) (mh_doid e) c /\ c_opt c = false /\ c_mdiag c = dg_non_unit) /\
      map mh_doid hs' = map mh_doid hs /\ map mh_fill hs' = map mh_fill hs /\
      (forall e, In e hs -> mh_done e = false -> copied (c_doid u) (mh_doid e) = true ->
         exists c, In (Some c) (H_mats h ++ map Some copies) /\ c_doid c = mh_doid e).
Proof. exact @transform_ok. Qed.
Print Assumptions C12_hinted_copies.

(** C12.  A symmetric or Hermitian hint on a rectangular matrix is rejected and
    changes nothing. *)
Theorem C12_rectangular_rejected : forall T (O : ops T) (re : T -> T) (fz : Z -> list Z) (ft : Z -> list T),
  (forall k, 0 <= k -> zlen (fz k) = k) -> (forall k, 0 <= k -> zlen (ft k) = k) -> forall h u rest e hs,
  user_mat h u -> H_mats h = Some u :: rest -> H_m h <> H_n h ->
  0 <= mh_doid e < 20 -> is_one_tri (mh_doid e) = true -> mh_done e = false -> (forall c, In (Some c) (H_mats h) -> c_doid c <> mh_doid e) ->
  matrix_transform O re fz ft (Some h) (e :: hs) = Some (invalid_size, Some h, e :: hs).
Proof. exact @transform_rect. Qed.
Print Assumptions C12_rectangular_rejected.

(** A concrete case: a one-based 3x3 matrix over the Gaussian integers with entries in
    both triangles and a missing diagonal entry; Hermitian-lower and conjugate
    transpose hints. *)
Definition C12_re (v : G) : G := (fst v, 0).
Definition C12_u : cmat G := mkCmat 3 3 5 gn 1 [1;2;4;6] [1;3;1;2;1] [(1,0);(9,9);(2,3);(4,1);(5,6)] None None false dg_non_unit None.
Definition C12_h : hnd G := mkHnd 3 3 5 [Some C12_u] unsorted false false false [].
Example C12_re_law : forall v, ocj Gops v = v -> C12_re v = v.
Proof. intros [a b] E. cbn in E. injection E as E. unfold C12_re. cbn. f_equal. lia. Qed.
Example C12_fresh : (forall k, 0 <= k -> zlen (zrep k 7) = k) /\ (forall k, 0 <= k -> zlen (zrep k (7, 7)) = k).
Proof. split; intros k Hk; rewrite ?zlen_zrep; lia. Qed.
Example C12_user : user_mat C12_h C12_u.
Proof.
  split; [split; [apply csr_wfb_ok; reflexivity|split; [apply diag_uniqueb_ok; reflexivity|split; [reflexivity|right; reflexivity]]]|].
  split; [reflexivity|]. split; [reflexivity|]. split; [reflexivity|]. left. auto.
Qed.
Definition C12_view (r : option (status * option (hnd G) * list mhint)) :=
  match r with
  | Some (st, Some h, hs) => Some (st, map (fun c => match c with Some c => Some (c_doid c, c_ptr c, c_ind c, c_val c) | None => None end) (tl (H_mats h)), map mh_done hs)
  | _ => None end.
Example C12_case : C12_view (matrix_transform Gops C12_re (fun k => zrep k 7) (fun k => zrep k (7, 7)) (Some C12_h)
    [mkHint hl fm_lower false; mkHint gh fm_lower false; mkHint gn fm_lower false; mkHint hl fm_lower false])
  = Some (success,
     [Some (hl, [0;3;6;9], [0;1;2;0;1;2;1;0;2], [(1,0);(2,-3);(5,-6);(2,3);(0,0);(4,-1);(4,1);(5,6);(0,0)]);
      Some (gh, [0;3;4;5], [0;1;2;2;1], [(1,0);(2,-3);(5,-6);(4,-1);(9,-9)])], [true;true;false;false]).
Proof. vm_compute. reflexivity. Qed.
Example C12_hints_ok : forall e, In e [mkHint hl fm_lower false; mkHint gh fm_lower false; mkHint gn fm_lower false; mkHint hl fm_lower false] ->
  hint_ok e /\ (is_one_tri (mh_doid e) = true -> H_m C12_h = H_n C12_h) /\ (is_herm_doid (mh_doid e) -> real_diag Gops (hnd_mat Gops C12_u)).
Proof.
  intros e I. split; [|split; [reflexivity|]].
  - repeat destruct I as [<- | I]; try contradiction; (split; [vm_compute; split; [discriminate | reflexivity]|first [reflexivity | discriminate]]).
  - intros _ i. destruct (Z_lt_dec i 0); [|destruct (Z_lt_dec 3 i)].
    1,2: (unfold hnd_mat, stored_as, csr_mat, ents; cbn [C12_u c_doid Z.eqb gt gn c_b c_ptr c_ind c_val];
      assert (X : zn [1;2;4;6] (i + 1) = zn [1;2;4;6] i)
        by (unfold nthZ; first [rewrite !nth_overflow by (cbn; lia); reflexivity
                               | replace (Z.to_nat (i + 1)) with 0%nat by lia; replace (Z.to_nat i) with 0%nat by lia; reflexivity]);
      rewrite X, zrange_nil by lia; reflexivity).
    assert (C : In i [0;1;2;3]) by (cbn; lia). repeat destruct C as [<- | C]; try contradiction; reflexivity.
Qed.
