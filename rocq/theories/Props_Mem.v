(** C40, C41: copies, exports, hints and the life of matrix handles. *)
From Coq Require Import ZArith List Bool Lia ZifyBool QArith Qcanon.
From Verif Require Import Base BaseFacts Algebra DoidModel DescrModel Csr CheckModel Decide MvModel HandleModel HandleSpec
  MemModel MemSpec MemHistProof HintModel HintSpec HintProof ExportModel ExportProof SortInst OptProof Props_Opt ExpandModel Props_Expand IluModel Props_Ilu.
Import ListNotations.
Open Scope Z_scope.

(** ** C41: hints *)

(** Every hint call succeeds exactly if it is legal (and memory is available); a call that
    does not succeed changes nothing; an accepted one puts exactly its request in front
    of the recorded hints (or sets the memory policy) and leaves the matrix alone. *)
Theorem C41_hint : forall M (A : option (hhnd M)) c (ok : bool), exists st A',
  do_hint A c ok = Some (st, A') /\
  (st = success <-> legal A c /\ (ok = true \/ is_memory_hint c = true)) /\
  (legal A c -> st <> success -> st = memory_error) /\
  (st <> success -> A' = A) /\
  (st = success -> exists h h', A = Some h /\ A' = Some h' /\ hh_mat h' = hh_mat h /\ hh_base h' = hh_base h /\ hh_real h' = hh_real h /\
     match c with
     | set_memory_hint p => hh_policy h' = p /\ hh_hints h' = hh_hints h
     | _ => hh_policy h' = hh_policy h /\ exists e, records c e /\ hh_hints h' = e :: hh_hints h
     end).
Proof. exact @do_hint_ok. Qed.
Print Assumptions C41_hint.

(** Every sequence of hint calls: the recorded hints are those of the accepted calls,
    newest first, in front of the earlier ones; the matrix is never changed. *)
Theorem C41_hint_sequence : forall M (l : list (hint_call * bool)) (h : hhnd M), exists sts h' new,
  do_hints (Some h) l = Some (sts, Some h') /\
  Forall2 (fun cb st => st = success <-> legal (Some h) (fst cb) /\ (snd cb = true \/ is_memory_hint (fst cb) = true)) l sts /\
  hh_mat h' = hh_mat h /\ hh_base h' = hh_base h /\ hh_real h' = hh_real h /\
  hh_hints h' = rev new ++ hh_hints h /\ Forall2 records (accepted_calls l sts) new.
Proof. exact @do_hints_ok. Qed.
Print Assumptions C41_hint_sequence.

Definition hd_ok : mdescr := mkMD 1 0 0 1.
Definition C41_h : hhnd Z := mkHH 77 (Some 1) true 0 [].
Example C41_hint_case :
  do_hints (Some C41_h) [(set_mv_hint 112 (Some hd_ok) 100, true); (set_mv_hint 114 (Some hd_ok) 100, true); (set_memory_hint 1, false);
     (set_sm_hint 111 (Some hd_ok) 1 10, true); (set_sv_hint 111 (Some (mkMD 1 0 0 0)) 10, true); (set_mv_hint_kid 111 (Some hd_ok) 0 2, true); (set_dotmv_hint 111 (Some hd_ok) 5, false)] =
  Some ([success; invalid_value; success; success; invalid_value; success; memory_error],
    Some (mkHH 77 (Some 1) true 1 [mkHR 1 111 1 0 2 4 0 false; mkHR 7 111 1 0 (-1) 4 10 false; mkHR 1 112 1 0 (-1) 4 100 false])).
Proof. vm_compute. reflexivity. Qed.

(** ** C41: life of handles *)

(** Every allocator (which may fail at any moment), every sequence of creations, hints,
    preparations of all kinds, value updates, copies and destructions on any number of
    handles that share the program's arrays: no dead block is ever used or freed, the
    program's index arrays are never changed or freed, its value arrays are never freed
    and change only by value updates, and when all handles are destroyed exactly the
    program's own blocks are left: every internal block was released once. *)
Theorem C41_life_partial : forall T (pick : Z -> heap T -> option Z), allocator pick ->
  forall fuel U l s, live_is s U -> valid_run pick fuel U l s [] -> (length l <= fuel)%nat ->
  exists s' hs' U', mrun pick fuel l s [] = Some (s', hs') /\ same_places U U' /\ (Forall no_write l -> U' = U) /\
    (forall p b, In (p, b) U' -> hp s' p = Some b) /\ (hs' = [] -> live_is s' U').
Proof. intros T pick Hp. exact (life pick Hp). Qed.
Print Assumptions C41_life_partial.

(** Hints, preparations, copies and the destruction of other handles never change what a
    handle holds. *)
Theorem C41_keeps_matrix : forall T (pick : Z -> heap T -> option Z), allocator pick ->
  forall fuel U s l s1 hs1 l2 b, live_is s U -> valid_run pick fuel U (l ++ l2) s [] -> (length l + length l2 <= fuel)%nat ->
  mrun pick fuel l s [] = Some (s1, hs1) -> In b hs1 -> Forall (fun c => no_write c /\ c <> m_destroy b) l2 ->
  exists s2 hs2, mrun pick fuel l2 s1 hs1 = Some (s2, hs2) /\ In b hs2 /\ reads s2 b = reads s1 b.
Proof. intros T pick Hp. exact (unchanged pick Hp). Qed.
Print Assumptions C41_keeps_matrix.

(** Concrete case: addresses counted upwards. *)
Definition bump (t : Z) (H : heap Z) : option Z := match H (100 + Z.abs t) with None => Some (100 + Z.abs t) | Some _ => None end.
Example bump_allocator : allocator bump.
Proof. intros t h p. unfold bump. pose proof (Z.abs_nonneg t). destruct (h (100 + Z.abs t)) eqn:E; intros X; [discriminate|]. assert (EP : p = 100 + Z.abs t) by congruence. rewrite EP. split; [lia|exact E]. Qed.
Definition my_arrays : list (Z * blk Z) := [(1, B_ints [0;1;2]); (2, B_ints [0;1]); (3, B_vals [5;6])].
Definition my_mem : mem Z := mkMem 0 (fun p => if p =? 1 then Some (B_ints [0;1;2]) else if p =? 2 then Some (B_ints [0;1]) else if p =? 3 then Some (B_vals [5;6]) else None).
Example C41_start : live_is my_mem my_arrays.
Proof.
  split; [repeat constructor; cbn; lia|]. split; [reflexivity|]. intros p b. cbn [hp my_mem my_arrays In]. split.
  - destruct (p =? 1) eqn:E1; [intros E; inversion E; left; f_equal; lia|]. destruct (p =? 2) eqn:E2; [intros E; inversion E; right; left; f_equal; lia|].
    destruct (p =? 3) eqn:E3; [intros E; inversion E; right; right; left; f_equal; lia|]. discriminate.
  - intros [E|[E|[E|[]]]]; inversion E; reflexivity.
Qed.
(** Handle 100 on the program's arrays with a hint, a prepared copy, a transposed copy and
    ILU factors; its copy (handle 111); a value update; destruction of both. *)
Definition my_calls : list (mcall Z) :=
  [m_create 2 2 2 false 0 1 2 3 false; m_hint 100 7; m_optimize 100 (co_copy [0;1;2] [0;1] [5;6] false None [0;1] [1;2] false);
   m_hinted 100 gt (hc_transposed [0;1;2] [0;1] [5;6] false false); m_ilu 100 [0;1]; m_copy 100 false; m_write 100 (w_at 1 9); m_destroy 100; m_destroy 115].
Example C41_case_run : option_map (fun r => (snd r, map (hp (fst r)) [1;2;3;100;101;102;110;115])) (mrun bump 10 my_calls my_mem []) =
  Some ([], [Some (B_ints [0;1;2]); Some (B_ints [0;1]); Some (B_vals [5;9]); None; None; None; None; None]).
Proof. vm_compute. reflexivity. Qed.
Ltac vstep := cbn [valid_run]; split; [|let E := fresh "E" in intros ?s' ?st ?hs' E; vm_compute in E; inversion E; subst; clear E].
Example C41_case_valid : valid_run bump 10 my_arrays my_calls my_mem [].
Proof.
  unfold my_calls.
  vstep. { cbn. do 3 (split; [lia|]). exists [0;1;2], [0;1], [5;6]. cbn. repeat split; auto; lia. }
  vstep. { now left. } vstep. { now left. } vstep. { now left. }
  vstep. { split; [now left|]. intros s st hs E. vm_compute in E. inversion E. discriminate. }
  vstep. { now left. }
  vstep. { split; [cbn; auto|]. vm_compute. split; [discriminate|reflexivity]. }
  vstep. { right. cbn. auto. }
  vstep. { right. cbn. auto. }
  exact I.
Qed.

(** The ILU preparation must not run out of memory: after a failure of its second
    allocation the handle keeps a dangling pointer and destroy frees the block again. *)
Definition bump_until (n : Z) (t : Z) (H : heap Z) : option Z := if t =? n then None else bump t H.
Theorem C41_ilu_memory_refuted : exists pick l s U, allocator (T := Z) pick /\ live_is s U /\
  (forall p b, In (p, b) U -> hp s p = Some b) /\
  l = [m_create 2 2 2 false 0 1 2 3 false; m_ilu 100 [0;1]; m_destroy 100] /\
  option_map snd (mrun pick 10 (firstn 2 l) s []) = Some [100] /\ mrun pick 10 l s [] = None.
Proof.
  exists (bump_until 3). eexists. exists my_mem, my_arrays. split; [|split; [exact C41_start|split; [|split; [reflexivity|vm_compute; split; reflexivity]]]].
  - intros t h p. unfold bump_until. destruct (t =? 3); [discriminate|]. apply bump_allocator.
  - intros p b I. apply C41_start. exact I.
Qed.
Print Assumptions C41_ilu_memory_refuted.

(** ** C40: copies *)

(** After every history, a copy either fails and leaves all handles as they were, or
    gives a new handle that holds exactly what the copied one holds. *)
Theorem C40_copy : forall T (pick : Z -> heap T -> option Z), allocator pick ->
  forall fuel U s l a pf, live_is s U -> valid_run pick fuel U (l ++ [m_copy a pf]) s [] -> (length l + 1 <= fuel)%nat ->
  exists s1 hs1 s2 r hs2, mrun pick fuel l s [] = Some (s1, hs1) /\ do_mcall pick fuel (m_copy a pf) s1 hs1 = Some (s2, r, hs2) /\
    (r <> success -> hs2 = hs1) /\
    (r = success -> exists d, hs2 = d :: hs1 /\ d <> 0 /\ ~ In d hs1 /\ reads s2 d = reads s1 a /\ reads s1 a <> None) /\
    forall b, In b hs1 -> reads s2 b = reads s1 b.
Proof. intros T pick Hp. exact (copy_main pick Hp). Qed.
Print Assumptions C40_copy.

(** The copy is independent: whatever is then done to the other handles or to the
    program's values through them, including destroying the original, the copy keeps its
    content; and value updates through the copy do not reach any other handle. *)
Theorem C40_copy_independent : forall T (pick : Z -> heap T -> option Z), allocator pick ->
  forall fuel U s l a pf s1 hs1 s2 d l2, live_is s U -> valid_run pick fuel U (l ++ m_copy a pf :: l2) s [] -> (length l + 1 + length l2 <= fuel)%nat ->
  mrun pick fuel l s [] = Some (s1, hs1) -> do_mcall pick fuel (m_copy a pf) s1 hs1 = Some (s2, success, d :: hs1) ->
  exists s3 hs3, mrun pick fuel l2 s2 (d :: hs1) = Some (s3, hs3) /\
    (Forall (spares d) l2 -> In d hs3 /\ reads s3 d = reads s1 a) /\
    (forall b, In b hs1 -> Forall (only_writes d b) l2 -> In b hs3 /\ reads s3 b = reads s1 b).
Proof. intros T pick Hp. exact (indep pick Hp). Qed.
Print Assumptions C40_copy_independent.

Example C40_case_valid : valid_run bump 10 my_arrays (firstn 5 my_calls ++ m_copy 100 false :: skipn 6 my_calls) my_mem [] /\ nth 5 my_calls (m_destroy 0) = m_copy 100 false.
Proof. split; [exact C41_case_valid|reflexivity]. Qed.
Example C40_case : exists s1 s2, mrun bump 10 (firstn 5 my_calls) my_mem [] = Some (s1, [100]) /\
  do_mcall bump 10 (m_copy 100 false) s1 [100] = Some (s2, success, [115; 100]) /\
  reads s2 115 = Some (2, 2, 2, (2, 2, 2, gn, 0), ([0;1;2], [0;1], [5;6])).
Proof. eexists. eexists. split; [vm_compute; reflexivity|]. split; [vm_compute; reflexivity|]. vm_compute. reflexivity. Qed.

(** The copy of every consistent handle is a consistent handle with the same user data
    and sizes, without prepared forms. *)
Theorem C40_copy_handle : forall T (O : ops T) h u, hnd_ok (o0 O) h u ->
  exists h' u', copy_handle (Some h) = Some (success, Some h') /\ hnd_ok (o0 O) h' u' /\ same_data u u' /\
    H_m h' = H_m h /\ H_n h' = H_n h /\ H_nnz h' = H_nnz h.
Proof. intros T O. exact (copy_handle_ok O). Qed.
Print Assumptions C40_copy_handle.

(** ** C40: export *)

(** Export from every consistent handle (prepared or not) in the orientation it was created in: valid
    arrays of the user's matrix; exactly the user's arrays if the handle was not
    prepared, or was prepared in place.  In the other orientation the call is refused. *)
Theorem C40_export_partial : forall T (O : ops T), laws O -> forall (csc : bool) h u, hnd_ok (o0 O) h u ->
  let ex := if csc then export_csc true true (Some h) else export_csr true true (Some h) in
  let users := mkEx (c_b u) (H_m h) (H_n h) (c_nnz u) (c_ptr u) (c_ind u) (c_val u) in
  ((c_doid u =? gt) = csc -> exists e, ex = Some (success, Some e) /\ ex_m e = H_m h /\ ex_n e = H_n h /\
     csr_wf (c_m u) (c_n u) (ex_nnz e) (ex_base e) (ex_ptr e) (ex_ind e) /\ zlen (ex_val e) = ex_nnz e /\ (ex_base e = 0 \/ ex_base e = 1) /\
     (forall i j, 0 <= i < c_m u -> csr_mat O (ex_base e) (ex_ptr e) (ex_ind e) (ex_val e) i j = csr_mat O (c_b u) (c_ptr u) (c_ind u) (c_val u) i j) /\
     (e = users \/
      forall i j, 0 <= i < c_m u -> ents (ex_base e) (ex_ptr e) (ex_ind e) (ex_val e) i j =
        match ents (c_b u) (c_ptr u) (c_ind u) (c_val u) i j with [] => if (i =? j) && (i <? c_n u) then [o0 O] else [] | l => l end) /\
     (c_opt u = true \/ H_mats h = [Some u] -> e = users)) /\
  ((c_doid u =? gt) <> csc -> ex = Some (invalid_value, None)).
Proof. intros T O L csc h u. exact (export_ok O L csc h u). Qed.
Print Assumptions C40_export_partial.
Example C40_export_case : hnd_ok 0 demo_hnd demo_user /\
  export_csr true true (Some demo_hnd) = Some (success, Some (mkEx 1 3 3 5 [1;3;5;6] [3;1;3;1;3] [10;20;30;40;50])).
Proof. split; [apply C13_case_hyps|reflexivity]. Qed.

(** Full claim "export returns the user's matrix" fails in two ways.  After the matrix was
    prepared, the exported arrays have another base and more entries than the user's. *)
Theorem C40_export_after_prepare_refuted : exists (h h' : hnd Z) u e k, hnd_ok 0 h u /\
  csr_csc_optimize Zops isort junk junk h = Some (success, h', Some k) /\
  export_csr true true (Some h') = Some (success, Some e) /\ ex_base e <> c_b u /\ ex_nnz e <> c_nnz u.
Proof.
  exists demo_hnd. eexists. exists demo_user. eexists. eexists. split; [apply C13_case_hyps|]. split; [vm_compute; reflexivity|]. split; [vm_compute; reflexivity|].
  split; discriminate.
Qed.
Print Assumptions C40_export_after_prepare_refuted.
(** After hinted copies were made the exported arrays describe another matrix. *)
Theorem C40_export_hinted_refuted : exists (h h' : hnd G) u hs hs' e, hnd_ok (0, 0) h u /\
  matrix_transform Gops C12_re (fun k => zrep k 7) (fun k => zrep k (7, 7)) (Some h) hs = Some (success, Some h', hs') /\
  export_csr true true (Some h') = Some (success, Some e) /\
  csr_mat Gops (ex_base e) (ex_ptr e) (ex_ind e) (ex_val e) 0 1 <> csr_mat Gops (c_b u) (c_ptr u) (c_ind u) (c_val u) 0 1.
Proof.
  exists C12_h. eexists. exists C12_u, [mkHint hl fm_lower false; mkHint gh fm_lower false]. eexists. eexists. split.
  - split; [exact C12_user|]. exists []. split; [reflexivity|]. split; [discriminate|constructor].
  - split; [vm_compute; reflexivity|]. split; [vm_compute; reflexivity|]. vm_compute. discriminate.
Qed.
Print Assumptions C40_export_hinted_refuted.
(** A copy does not behave like the original: it has not been classified as sorted, so the
    ILU smoother that works on the original is refused on the copy. *)
Theorem C40_copy_ilu_refuted : exists (h h' : hnd Qc) u d x b x', hnd_ok (o0 Qops) h u /\ copy_handle (Some h) = Some (success, Some h') /\
  option_map (fun r => fst (fst (fst r))) (ilu_smoother Qops qz ifz op_none (Some h) None d true x b) = Some success /\
  ilu_smoother Qops qz ifz op_none (Some h') None d true x b = Some (unsorted_input, x', untouched, None).
Proof.
  exists (il_hnd (il_case 1 [2;1;4;5;3;6;8]%Q) fully_sorted). eexists. exists (il_case 1 [2;1;4;5;3;6;8]%Q), (Some (il_descr 1)), (Some (qv [0;0;0]%Q)), (Some (qv [3;12;14]%Q)).
  eexists. split; [split; [um|exists []; split; [reflexivity|split; [discriminate|constructor]]]|].
  split; [vm_compute; reflexivity|]. split; vm_compute; reflexivity.
Qed.
Print Assumptions C40_copy_ilu_refuted.
