From Coq Require Import ZArith List Bool Lia ZifyBool.
From Verif Require Import Base BaseFacts Algebra DoidModel Csr CsrFacts CheckModel MvModel MvSpec HandleModel HandleSpec HandleFacts ExportModel.
Import ListNotations.
Open Scope Z_scope.

Section P.
  Context {T : Type} (O : ops T) (L : laws O).

  Lemma found_one : forall want rest (u : cmat T),
    Forall (fun e => exists c, e = Some c /\ c_opt c = true /\ c_doid c = c_doid u) rest ->
    (want (c_doid u) = true -> exists c, last_or_opt want (Some u :: rest) None = Some c /\ In (Some c) (Some u :: rest)) /\
    (want (c_doid u) = false -> last_or_opt want (Some u :: rest) None = None).
  Proof.
    intros want rest u F. cbn [last_or_opt]. split; intros W; rewrite W.
    - destruct (c_opt u); [exists u; split; auto; now left|]. destruct rest as [|e rest]; [exists u; split; auto; now left|].
      inversion F as [|? ? (c & -> & O1 & D1) F']; subst. cbn [last_or_opt]. rewrite D1, W, O1. exists c. split; auto. right. now left.
    - clear -F W. induction rest as [|e rest IH]; [reflexivity|]. inversion F as [|? ? (c & -> & O1 & D1) F']; subst. cbn [last_or_opt]. rewrite D1, W. now apply IH.
  Qed.

  Lemma stored_one : forall h (u : cmat T) c, hnd_ok (o0 O) h u -> In (Some c) (H_mats h) ->
    arrays_ok c /\ c_m c = c_m u /\ c_n c = c_n u /\ c_doid c = c_doid u /\
    (c = u \/ same_entries (o0 O) u c) /\
    forall i j, 0 <= i < c_m u -> csr_mat O (c_b c) (c_ptr c) (c_ind c) (c_val c) i j = csr_mat O (c_b u) (c_ptr u) (c_ind u) (c_val u) i j.
  Proof.
    intros h u c (UM & rest & EM & _ & F) I. rewrite EM in I. destruct UM as (AOK & _). destruct I as [E|I]; [inversion E; subst; auto 10|].
    rewrite Forall_forall in F. destruct (F _ I) as (c' & E & _ & _ & AC & SE & _). inversion E; subst c'. pose proof SE as (E1 & E2 & E3 & _).
    split; auto. split; auto. split; auto. split; auto. split; auto. intros i j Hi. apply (same_entries_mat O L u c AOK AC SE); auto.
  Qed.

  Definition same_orient (want : bool) (u : cmat T) : Prop := (c_doid u =? gt) = want.

  Definition as_user (h : hnd T) (u : cmat T) : exported T := mkEx (c_b u) (H_m h) (H_n h) (c_nnz u) (c_ptr u) (c_ind u) (c_val u).
  Lemma wf_last : forall (c : cmat T), arrays_ok c -> rd (c_ptr c) (c_m c) = Some (c_b c + c_nnz c).
  Proof.
    intros c (W & _). destruct (wf_len _ _ _ _ _ _ W) as (L1 & L2). destruct (wf_ptr _ _ _ _ _ _ W) as (_ & W5 & _). pose proof (wf_m _ _ _ _ _ _ W).
    rewrite (rd_nthZ _ 0) by lia. now rewrite W5.
  Qed.

  Lemma export_ok : forall (csc : bool) h u, hnd_ok (o0 O) h u ->
    let ex := if csc then export_csc true true (Some h) else export_csr true true (Some h) in
    (same_orient csc u -> exists e, ex = Some (success, Some e) /\ ex_m e = H_m h /\ ex_n e = H_n h /\
       csr_wf (c_m u) (c_n u) (ex_nnz e) (ex_base e) (ex_ptr e) (ex_ind e) /\ zlen (ex_val e) = ex_nnz e /\ (ex_base e = 0 \/ ex_base e = 1) /\
       (forall i j, 0 <= i < c_m u -> csr_mat O (ex_base e) (ex_ptr e) (ex_ind e) (ex_val e) i j = csr_mat O (c_b u) (c_ptr u) (c_ind u) (c_val u) i j) /\
       (e = as_user h u \/
        forall i j, 0 <= i < c_m u -> ents (ex_base e) (ex_ptr e) (ex_ind e) (ex_val e) i j =
          match ents (c_b u) (c_ptr u) (c_ind u) (c_val u) i j with [] => if (i =? j) && (i <? c_n u) then [o0 O] else [] | l => l end) /\
       (c_opt u = true \/ H_mats h = [Some u] -> e = as_user h u)) /\
    (~ same_orient csc u -> ex = Some (invalid_value, None)).
  Proof.
    intros csc h u HOK ex. pose proof HOK as (UM & rest & EM & HO & F).
    assert (F' : Forall (fun e => exists c, e = Some c /\ c_opt c = true /\ c_doid c = c_doid u) rest).
    { eapply Forall_impl; [|exact F]. intros e (c & E & O1 & _ & _ & (_ & _ & E3 & _) & _). eauto. }
    set (want := if csc then fun d => d =? gt else fun d => negb (d =? gt)).
    assert (EX : ex = match last_or_opt want (Some u :: rest) None with
      | None => Some (invalid_value, None)
      | Some c => if csc then Some (success, Some (mkEx (c_b c) (H_m h) (H_n h) (c_nnz c) (c_ptr c) (c_ind c) (c_val c)))
                  else let* e := rd (c_ptr c) (H_m h) in Some (success, Some (mkEx (c_b c) (H_m h) (H_n h) (e - c_b c) (c_ptr c) (c_ind c) (c_val c))) end).
    { unfold ex, export_csc, export_csr, want. destruct csc; rewrite EM; reflexivity. }
    clearbody ex. assert (WO : same_orient csc u <-> want (c_doid u) = true).
    { unfold same_orient, want. destruct csc; destruct (c_doid u =? gt); cbn; intuition congruence. }
    destruct (found_one want rest u) as (F1 & F2); auto.
    split.
    - intros SO. destruct (F1 (proj1 WO SO)) as (c & EL & IC). rewrite <- EM in IC. destruct (stored_one h u c HOK IC) as (AC & E1 & E2 & E3 & CU & ME).
      set (e := mkEx (c_b c) (H_m h) (H_n h) (c_nnz c) (c_ptr c) (c_ind c) (c_val c)).
      assert (EE : ex = Some (success, Some e)).
      { rewrite EX, EL. destruct csc; [reflexivity|]. unfold same_orient in SO. destruct UM as (_ & _ & _ & _ & [(D & Dm & Dn)|(D & _)]); [|rewrite D in SO; discriminate].
        pose proof (wf_last c AC) as RL. rewrite E1, Dm in RL. rewrite RL. unfold e. replace (c_b c + c_nnz c - c_b c) with (c_nnz c) by lia. reflexivity. }
      exists e. split; [exact EE|]. split; [reflexivity|]. split; [reflexivity|]. destruct AC as (W & _ & LV & B). rewrite E1, E2 in W.
      split; [exact W|]. split; [exact LV|]. split; [exact B|]. split; [exact ME|]. split.
      + destruct CU as [->|(_ & _ & _ & SE)]; [left; reflexivity|right; exact SE].
      + intros Q. assert (c = u); [|subst c; reflexivity]. cbn [last_or_opt] in EL. rewrite (proj1 WO SO) in EL.
        destruct Q as [Q|Q]; [rewrite Q in EL; now inversion EL|]. rewrite EM in Q. inversion Q; subst rest. cbn [last_or_opt] in EL. destruct (c_opt u); now inversion EL.
    - intros NSO. assert (W : want (c_doid u) = false) by (destruct (want (c_doid u)); auto; exfalso; apply NSO; now apply WO). now rewrite EX, (F2 W).
  Qed.

  Lemma firstn_all_z : forall A (l : list A) k, zlen l = k -> firstn (Z.to_nat k) l = l.
  Proof. intros A l k E. apply firstn_all2. unfold zlen in E. lia. Qed.

  Lemma copy_handle_ok : forall h u, hnd_ok (o0 O) h u -> exists h' u', copy_handle (Some h) = Some (success, Some h') /\ hnd_ok (o0 O) h' u' /\ same_data u u' /\
    H_m h' = H_m h /\ H_n h' = H_n h /\ H_nnz h' = H_nnz h.
  Proof.
    intros h u (UM & rest & EM & _). pose proof UM as (AOK & EN & _ & _ & ED). pose proof AOK as (W & DU & LV & B).
    pose proof (wf_m _ _ _ _ _ _ W). pose proof (wf_n _ _ _ _ _ _ W). pose proof (wf_nnz _ _ _ _ _ _ W). destruct (wf_len _ _ _ _ _ _ W) as (L1 & L2).
    unfold copy_handle. rewrite EM.
    replace ((H_m h <? 0) || (H_n h <? 0) || (H_nnz h <? 0)) with false by lia. replace ((c_m u <? 0) || (c_nnz u <? 0)) with false by lia.
    replace ((zlen (c_ptr u) <? c_m u + 1) || (zlen (c_ind u) <? c_nnz u) || (zlen (c_val u) <? c_nnz u)) with false by lia.
    rewrite !firstn_all_z by auto. eexists. eexists. split; [reflexivity|]. split; [split|].
    2:{ exists []. split; [reflexivity|]. split; [discriminate|constructor]. }
    - unfold user_mat. cbn. split; [exact AOK|]. split; [exact EN|]. split; [reflexivity|]. split; [reflexivity|exact ED].
    - unfold same_data. cbn. auto 20.
  Qed.
End P.
