(** C58: products on handles prepared for them by hints. *)
From Coq Require Import ZArith List Bool Lia Permutation.
From Verif Require Import Base BaseFacts Algebra Csr CheckModel CheckSpec Decide DoidModel DoidSpec MvModel MvSpec SortModel SortSpec CsrmvModel HandleModel HandleSpec
  ExpandModel ExpandSpec TransformProof CsrmmSpec CsrmmProof HintMvSpec HintMvProof HintMvMain SortProof SortInst Props_Mv Props_Expand.
Import ListNotations.
Open Scope Z_scope.

(** The outcome of a product on a handle with copies: the handle keeps the user's data
    and stays one of this kind; y is the specified product, or it is not written
    because no kernel was available or the library declines the request. *)
Definition hint_delivers {T} (O : ops T) (dt : dtype) (choice : Z -> option Z) (h : hnd T) (u : cmat T)
    (ty : mat_type) (op : operation) (M : Z -> Z -> T) (alpha beta : T) (x y : list T)
    (r : option (status * option (list T) * option (hnd T))) : Prop :=
  let rows := match op with op_none => H_m h | _ => H_n h end in
  let cols := match op with op_none => H_n h | _ => H_m h end in
  exists st yr h' u', r = Some (st, yr, Some h') /\
    hint_hnd O h' u' /\ same_data u u' /\
    H_m h' = H_m h /\ H_n h' = H_n h /\ H_nnz h' = H_nnz h /\ H_hints h' = H_hints h /\
    (st = success /\ (exists y', yr = Some y' /\ mv_spec O rows cols alpha beta (op_sem O op M) x y y') \/
     st = invalid_kid /\ yr = None /\ (exists k, choice k = None) \/
     st = not_implemented /\ yr = None /\ declined dt ty op (c_doid u) = true).

(** C58.  Any descriptor, whatever copies the handle holds.  Missing (refuted in C15,
    C16): general descriptors with another diagonal rule, triangular requests outside
    [hp_wide] and [hp_unit], rows that cannot be sorted when there is no copy. *)
Theorem C58_hinted_product_partial : forall T (O : ops T) srt fz ft sup dt choice nthreads team,
  env_ok O srt fz ft sup dt nthreads team ->
  forall h u d op alpha beta x y, hint_hnd O h u -> hint_pre O dt h u d op ->
  zlen x = match op with op_none => H_n h | _ => H_m h end ->
  zlen y = match op with op_none => H_m h | _ => H_n h end ->
  hint_delivers O dt choice h u (d_type d) op (described O (d_type d) (d_fill d) (d_diag d) (hnd_mat O u)) alpha beta x y
    (mv O srt fz ft sup dt choice nthreads team op (Some alpha) (Some h) (Some d) (Some x) (Some beta) (Some y)).
Proof.
  intros T O srt fz ft sup dt choice nt team [EL ES Ez Et Eu Em Er] h u d op alpha beta x y HH PRE Lx Ly.
  exact (hint_mv O EL srt fz ft ES Ez Et sup Eu dt choice nt team Em Er h u d op alpha beta x y HH PRE Lx Ly).
Qed.
Print Assumptions C58_hinted_product_partial.

(** C58.  General matrices. *)
Theorem C58_hinted_general : forall T (O : ops T) srt fz ft sup dt choice nthreads team,
  env_ok O srt fz ft sup dt nthreads team ->
  forall h u d op alpha beta x y, hint_hnd O h u -> d_type d = mt_general -> d_diag d = dg_non_unit -> d_base d = c_b u -> valid_op op = true ->
  zlen x = match op with op_none => H_n h | _ => H_m h end ->
  zlen y = match op with op_none => H_m h | _ => H_n h end ->
  hint_delivers O dt choice h u mt_general op (hnd_mat O u) alpha beta x y
    (mv O srt fz ft sup dt choice nthreads team op (Some alpha) (Some h) (Some d) (Some x) (Some beta) (Some y)).
Proof.
  intros T O srt fz ft sup dt choice nt team ENV h u d op alpha beta x y HH Hty Hdg Hb Hop Lx Ly.
  pose proof (C58_hinted_product_partial T O srt fz ft sup dt choice nt team ENV h u d op alpha beta x y HH) as H.
  rewrite Hty in H. apply H; auto. constructor; try rewrite Hty; auto; try congruence. intros [E|E]; congruence.
Qed.
Print Assumptions C58_hinted_general.

(** A hint for the request (descriptor, operation), as aoclsparse_set_mv_hint records it. *)
Definition hint_of {T} (O : ops T) (dt : dtype) (h : hnd T) (u : cmat T) (e : mhint) (d : descr) (op : operation) : Prop :=
  valid_op op = true /\ request_id dt d op = Some (mh_doid e) /\ mh_fill e = d_fill d /\
  (one_tri (d_type d) = true -> H_m h = H_n h) /\ (d_type d = mt_hermitian -> real_diag O (hnd_mat O u)).

Lemma hint_of_id : forall T (O : ops T) dt h u e d op, hint_of O dt h u e d op ->
  hint_ok e /\ mh_doid e <> gc /\ is_one_tri (mh_doid e) = one_tri (d_type d) /\ (is_herm_doid (mh_doid e) -> d_type d = mt_hermitian).
Proof.
  intros T O dt h u e d op (Vop & R & F & _). destruct e as [i f dn]. cbn in R, F |- *. subst f. destruct d as [ty fm dg bs]. unfold request_id in R. cbn in R |- *.
  destruct (is_cplx dt), op, ty, fm; try discriminate Vop; vm_compute in R; injection R as <-;
    (split; [split; [vm_compute; split; [discriminate|reflexivity]|vm_compute; intros; congruence]|]); (split; [discriminate|]); (split; [reflexivity|]);
    unfold is_herm_doid; intros H; try reflexivity; exfalso; lia.
Qed.

(** C58.  aoclsparse_optimize with any list of hints for products: it succeeds, the
    handle is one the other theorems of C58 speak of, and every new hint of a
    symmetric or Hermitian product has its copy. *)
Theorem C58_prepared : forall T (O : ops T), laws O -> forall re : T -> T, (forall v, ocj O v = v -> re v = v) ->
  forall (fz : Z -> list Z) (ft : Z -> list T), (forall k, 0 <= k -> zlen (fz k) = k) -> (forall k, 0 <= k -> zlen (ft k) = k) ->
  forall dt h u hs, hint_hnd O h u -> (forall e, In e hs -> exists d op, hint_of O dt h u e d op) ->
    exists h' hs', matrix_transform O re fz ft (Some h) hs = Some (success, Some h', hs') /\ hint_hnd O h' u /\
      H_m h' = H_m h /\ H_n h' = H_n h /\ H_nnz h' = H_nnz h /\ H_hints h' = H_hints h /\
      forall e d op, In e hs -> mh_done e = false -> hint_of O dt h u e d op -> one_tri (d_type d) = true ->
        exists c, In (Some c) (H_mats h') /\ request_id dt d op = Some (c_doid c).
Proof.
  intros T O L re Hre fz ft Hfz Hft dt h u hs (UM & rest & EM & HO & HF) HS.
  destruct (C12_hinted_copies T O L re Hre fz ft Hfz Hft h u rest hs UM EM) as (copies & hs' & E & R1 & _ & _ & R2).
  { intros e I. destruct (HS e I) as (d & op & H). destruct (hint_of_id _ _ _ _ _ _ _ _ H) as (A1 & A2 & A3 & A4). destruct H as (_ & _ & _ & H1 & H2).
    split; [exact A1|]. split; [intros X; apply H1; congruence|]. intros X. apply H2, A4, X. }
  exists (set_mats h (H_mats h ++ map Some copies)), hs'. split; [exact E|]. split.
  - split; [exact UM|]. exists (rest ++ map Some copies). cbn [set_mats H_mats H_m H_n]. rewrite EM. split; [reflexivity|]. split; [exact HO|].
    apply Forall_app. split; [exact HF|]. apply Forall_forall. intros o I. apply in_map_iff in I. destruct I as (c & <- & I). exists c. split; [reflexivity|]. right.
    destruct (R1 c I) as (e & Ie & K1 & K2 & K3 & K4). destruct (HS e Ie) as (d & op & H). destruct (hint_of_id _ _ _ _ _ _ _ _ H) as (A1 & A2 & A3 & A4). destruct H as (_ & _ & _ & H1 & H2).
    pose proof (cp_doid _ _ _ _ _ _ K2) as Dc. unfold hint_copy. rewrite Dc. split; [apply (copy_ok_state O L _ _ _ (mh_doid e)); auto; apply A1|]. split; [exact K3|]. split; [exact K1|].
    split; [exact A2|]. split; [intros X; apply H1; congruence|auto].
  - do 4 (split; [reflexivity|]). intros e d op Ie De H Ho. destruct (hint_of_id _ _ _ _ _ _ _ _ H) as (A1 & A2 & A3 & A4).
    destruct (R2 e Ie De) as (c & Ic & Dc); [unfold copied; rewrite A3, Ho; reflexivity|]. exists c. cbn [set_mats H_mats]. split; [exact Ic|]. rewrite Dc. apply H.
Qed.
Print Assumptions C58_prepared.

(** C58.  Hint a symmetric or Hermitian product, optimize, multiply with any diagonal
    rule: the result is the product, whatever order the user's rows are in. *)
Theorem C58_hint_then_product : forall T (O : ops T) re srt fz ft sup dt choice nthreads team,
  env_ok O srt fz ft sup dt nthreads team -> (forall v, ocj O v = v -> re v = v) ->
  forall h u hs, hint_hnd O h u -> (forall e, In e hs -> exists d op, hint_of O dt h u e d op) ->
  exists h' hs', matrix_transform O re fz ft (Some h) hs = Some (success, Some h', hs') /\
    forall e d0 d op alpha beta x y, In e hs -> mh_done e = false -> hint_of O dt h u e d0 op ->
      d_type d = d_type d0 -> d_fill d = d_fill d0 -> d_base d = c_b u ->
      d_type d = mt_symmetric \/ d_type d = mt_hermitian /\ is_cplx dt = true ->
      zlen x = H_n h -> zlen y = H_n h ->
      hint_delivers O dt choice h' u (d_type d) op (described O (d_type d) (d_fill d) (d_diag d) (hnd_mat O u)) alpha beta x y
        (mv O srt fz ft sup dt choice nthreads team op (Some alpha) (Some h') (Some d) (Some x) (Some beta) (Some y)).
Proof.
  intros T O re srt fz ft sup dt choice nt team ENV Hre h u hs HH HS.
  destruct (C58_prepared T O (ev_laws _ _ _ _ _ _ _ _ ENV) re Hre fz ft (ev_fz _ _ _ _ _ _ _ _ ENV) (ev_ft _ _ _ _ _ _ _ _ ENV) dt h u hs HH HS) as (h' & hs' & E & HH' & D1 & D2 & _ & _ & R).
  exists h', hs'. split; [exact E|]. intros e d0 d op alpha beta x y Ie De Ho Ety Efm Hb Hty Lx Ly.
  assert (SQ : H_m h = H_n h) by (apply Ho; rewrite <- Ety; destruct Hty as [-> |[-> _]]; reflexivity).
  apply C58_hinted_product_partial; auto.
  - constructor.
    + exact Hb.
    + apply Ho.
    + intros _. rewrite D1, D2. exact SQ.
    + intros Y. destruct Hty as [Z|[_ Z]]; [congruence|exact Z].
    + intros Y _. apply Ho. congruence.
    + intros Y. destruct Hty as [Z|[Z _]]; congruence.
    + intros _. right. destruct (R e d0 op Ie De Ho) as (c & Ic & Rc); [rewrite <- Ety; destruct Hty as [-> |[-> _]]; reflexivity|].
      exists c. split; [exact Ic|]. rewrite <- Rc. unfold request_id. rewrite Ety, Efm. reflexivity.
    + intros Y. destruct Hty as [Z|[Z _]]; congruence.
    + intros _ Y. destruct Hty as [Z|[Z _]]; congruence.
  - rewrite D1, D2, SQ. destruct op; exact Lx.
  - rewrite D1, D2, SQ. destruct op; exact Ly.
Qed.
Print Assumptions C58_hint_then_product.

(** C58.  Hints never change a result: two handles of the same data, with whatever
    copies, return the same vector for the same request whenever both succeed. *)
Theorem C58_hints_neutral : forall T (O : ops T) srt fz ft sup dt choice nthreads team,
  env_ok O srt fz ft sup dt nthreads team ->
  forall h1 u1 h2 u2 d op alpha beta x y y1 y2 h1' h2',
  hint_hnd O h1 u1 -> hint_hnd O h2 u2 -> same_data u1 u2 -> hint_pre O dt h1 u1 d op -> hint_pre O dt h2 u2 d op ->
  zlen x = match op with op_none => H_n h1 | _ => H_m h1 end ->
  zlen y = match op with op_none => H_m h1 | _ => H_n h1 end ->
  mv O srt fz ft sup dt choice nthreads team op (Some alpha) (Some h1) (Some d) (Some x) (Some beta) (Some y) = Some (success, Some y1, Some h1') ->
  mv O srt fz ft sup dt choice nthreads team op (Some alpha) (Some h2) (Some d) (Some x) (Some beta) (Some y) = Some (success, Some y2, Some h2') ->
  y1 = y2.
Proof.
  intros T O srt fz ft sup dt choice nt team ENV h1 u1 h2 u2 d op alpha beta x y y1 y2 h1' h2' H1 H2 SD P1 P2 Lx Ly E1 E2.
  assert (DIM : H_m h2 = H_m h1 /\ H_n h2 = H_n h1).
  { destruct H1 as ((_ & _ & _ & _ & A) & _), H2 as ((_ & _ & _ & _ & B) & _). destruct SD as (S1 & S2 & _ & S4 & _). rewrite S1, S2, S4 in B.
    destruct A as [(A1 & A2 & A3)|(A1 & A2 & A3)], B as [(B1 & B2 & B3)|(B1 & B2 & B3)]; rewrite A1 in B1; try discriminate B1; split; congruence. }
  destruct DIM as [D1 D2].
  assert (EM : forall i j, hnd_mat O u2 i j = hnd_mat O u1 i j).
  { intros. destruct SD as (_ & _ & _ & S4 & S5 & S6 & S7 & S8). unfold hnd_mat. rewrite S4, S5, S6, S7, S8. reflexivity. }
  destruct (C58_hinted_product_partial T O srt fz ft sup dt choice nt team ENV h1 u1 d op alpha beta x y H1 P1 Lx Ly) as (st & yr & ha & ua & F & _ & _ & _ & _ & _ & _ & R).
  rewrite E1 in F. injection F as <- <- <-. destruct R as [(_ & y' & Y & S1)|[(R & _)|(R & _)]]; try discriminate. injection Y as <-.
  destruct (C58_hinted_product_partial T O srt fz ft sup dt choice nt team ENV h2 u2 d op alpha beta x y H2 P2) as (st & yr & hb & ub & F & _ & _ & _ & _ & _ & _ & R).
  { rewrite D1, D2. exact Lx. } { rewrite D1, D2. exact Ly. }
  rewrite E2 in F. injection F as <- <- <-. destruct R as [(_ & y' & Y & S2)|[(R & _)|(R & _)]]; try discriminate. injection Y as <-.
  rewrite D1, D2 in S2. destruct S1 as [L1 S1], S2 as [L2 S2]. apply (nthZ_ext _ (o0 O)); [congruence|]. intros i Hi. rewrite S1, S2 by lia.
  f_equal. f_equal. apply sumz_ext. intros j _. f_equal.
  destruct SD as (_ & _ & _ & S4 & S5 & S6 & S7 & S8). unfold hnd_mat. rewrite S4, S5, S6, S7, S8. reflexivity.
Qed.
Print Assumptions C58_hints_neutral.

(** Concrete cases.  The Gaussian matrix of C12 with its Hermitian and transposed copies. *)
Definition junkg (z : Z) : list G := zrep z (7, 7).
Lemma C58_env : env_ok Gops isort junkz junkg all_isa dt_z 2 [1;0].
Proof.
  constructor.
  - exact Glaws.
  - exact isort_contract.
  - intros z Hz. unfold junkz. rewrite zlen_zrep; lia.
  - intros z Hz. unfold junkg. rewrite zlen_zrep; lia.
  - reflexivity.
  - right. apply perm_swap.
  - discriminate.
Qed.
Definition C58_hints := [mkHint hl fm_lower false; mkHint gh fm_lower false].
Example C58_case_hyps : hint_hnd Gops C12_h C12_u /\ forall e, In e C58_hints -> exists d op, hint_of Gops dt_z C12_h C12_u e d op.
Proof.
  split.
  - split; [exact C12_user|]. exists []. split; [reflexivity|]. split; [discriminate|constructor].
  - intros e [<-|[<-|[]]].
    + exists (mkDescr mt_hermitian fm_lower dg_non_unit 1), op_none. unfold hint_of. split; [reflexivity|]. split; [reflexivity|]. split; [reflexivity|]. split; [reflexivity|]. intros _.
      apply (C12_hints_ok (mkHint hl fm_lower false)); [left; reflexivity|]. unfold is_herm_doid. vm_compute. split; [discriminate|reflexivity].
    + exists (mkDescr mt_general fm_lower dg_non_unit 1), op_conjugate_transpose. unfold hint_of. do 3 (split; [reflexivity|]). split; discriminate.
Qed.
(** Hermitian products by the copy with its own, then a unit diagonal, then the
    conjugate transpose, then a symmetric product no copy was made for; each time
    the flags say which stored matrices are there and the diagonal of the first copy. *)
Definition C58_step (r : option (status * option (list G) * option (hnd G))) :=
  match r with
  | Some (st, y, Some h) => Some (st, y, map (fun o => match o with Some c => (c_doid c, c_opt c, c_mdiag c) | None => (99, false, dg_zero) end) (H_mats h))
  | _ => None end.
Definition C58_mv (h : option (hnd G)) ty dg op := mv Gops isort junkz junkg all_isa dt_z pick2 2 [1;0] op (Some (1,0)) h (Some (mkDescr ty fm_lower dg 1)) (Some [(1,0);(0,1);(2,0)]) (Some (1,0)) (Some [(1,1);(0,0);(3,0)]).
Definition C58_after (r : option (status * option (list G) * option (hnd G))) := match r with Some (_, _, h) => h | None => None end.
Definition C58_h := match matrix_transform Gops C12_re junkz junkg (Some C12_h) C58_hints with Some (_, h, _) => h | None => None end.
Example C58_case_products :
  C58_step (C58_mv C58_h mt_hermitian dg_non_unit op_none) = Some (success, Some [(15,-9);(10,1);(7,10)], [(gn, false, dg_non_unit); (hl, false, dg_non_unit); (gh, false, dg_non_unit)]) /\
  (let h := C58_after (C58_mv C58_h mt_hermitian dg_non_unit op_none) in
   C58_step (C58_mv h mt_hermitian dg_unit op_none) = Some (success, Some [(15,-9);(10,2);(9,10)], [(gn, false, dg_non_unit); (hl, false, dg_unit); (gh, false, dg_non_unit)]) /\
   let h := C58_after (C58_mv h mt_hermitian dg_unit op_none) in
   C58_step (C58_mv h mt_general dg_non_unit op_conjugate_transpose) = Some (success, Some [(15,-9);(8,-2);(12,9)], [(gn, false, dg_non_unit); (hl, false, dg_unit); (gh, false, dg_non_unit)]) /\
   C58_step (C58_mv h mt_symmetric dg_non_unit op_none) = Some (success, Some [(9,15);(10,5);(7,10)], [(gn, false, dg_non_unit); (hl, false, dg_unit); (gh, false, dg_non_unit); (gn, true, dg_non_unit)])).
Proof. vm_compute. repeat split. Qed.

(** Rows with a repeated column left of the diagonal after it cannot be sorted; with
    the copy the product is delivered all the same. *)
Definition C58_u2 : cmat Z := mkCmat 2 2 4 gn 0 [0;1;4] [0;0;1;0] [5;1;7;2] None None false dg_non_unit None.
Definition C58_h2 : hnd Z := mkHnd 2 2 4 [Some C58_u2] unsorted false false false [].
Definition C58_d2 := mkDescr mt_symmetric fm_lower dg_unit 0.
Example C58_case_unsorted : hint_hnd Zops C58_h2 C58_u2 /\ hint_of Zops dt_d C58_h2 C58_u2 (mkHint sl fm_lower false) C58_d2 op_none /\ ~ sortable C58_u2 /\
  match matrix_transform Zops (fun v => v) junkz junkz (Some C58_h2) [mkHint sl fm_lower false] with
  | Some (success, h, _) =>
      match mv Zops isort junkz junkz all_isa dt_d pick2 2 [1;0] op_none (Some 10) h (Some C58_d2) (Some [1;2]) (Some 1) (Some [4;4]) with
      | Some (st, y, _) => st = success /\ y = Some [74;54] | None => False end
  | _ => False end.
Proof.
  split; [|split; [|split]].
  - split; [|exists []; split; [reflexivity|split; [discriminate|constructor]]].
    split; [split; [apply csr_wfb_ok; reflexivity|split; [apply diag_uniqueb_ok; reflexivity|split; [reflexivity|left; reflexivity]]]|].
    split; [reflexivity|]. split; [reflexivity|]. split; [reflexivity|]. left. auto.
  - unfold hint_of. do 4 (split; [reflexivity|]). discriminate.
  - intros [S|S].
    + destruct (S 1 2 3) as [_ X]; [vm_compute; split; [discriminate|reflexivity]|vm_compute; split; [discriminate|reflexivity]|vm_compute; split; [discriminate|reflexivity]|lia|]. specialize (X eq_refl). apply X. reflexivity.
    + apply (S 1 1 3); [vm_compute; split; [discriminate|reflexivity]|vm_compute; split; [discriminate|reflexivity]|vm_compute; split; [discriminate|reflexivity]|lia|reflexivity].
  - vm_compute. auto.
Qed.
