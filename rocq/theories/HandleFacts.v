(** Facts about stored matrices used wherever a handle's copies are interchangeable. *)
From Coq Require Import ZArith List Bool Lia ZifyBool Ring.
From Verif Require Import Base BaseFacts Algebra Csr CsrFacts CountSort Csr2CscProof MvModel HandleModel HandleSpec.
Import ListNotations.
Open Scope Z_scope.

Section P.
  Context {T : Type} (O : ops T) (L : laws O).
  Let rth := l_ring L.
  Add Ring Tring_hf : rth.

  Lemma csr_mat_out : forall m n nnz b ptr ind (val : list T) i j, csr_wf m n nnz b ptr ind -> (b = 0 \/ b = 1) ->
    ~ 0 <= i < m -> csr_mat O b ptr ind val i j = o0 O.
  Proof.
    intros m n nnz b ptr ind val i j W Hb Hi. destruct W as [Hm Hn Hz [L1 L2] (P0 & Pm & PM) _].
    unfold csr_mat, ents. rewrite flat_map_nil; [reflexivity|].
    intros k Hk. exfalso. apply in_zrange in Hk.
    assert (Ho : forall q, m < q -> zn ptr q = 0) by (intros q Hq; apply nth_overflow; unfold zlen in *; lia).
    assert (Hneg : forall q, q <= 0 -> zn ptr q = zn ptr 0) by (intros q Hq; unfold nthZ; f_equal; lia).
    destruct (Z.ltb_spec i 0).
    - rewrite (Hneg i), (Hneg (i + 1)) in Hk by lia. lia.
    - rewrite (Ho (i + 1)) in Hk by lia. destruct (Z.eq_dec i m); [subst; lia|]. rewrite Ho in Hk by lia. lia.
  Qed.

  Lemma same_entries_mat : forall u c : cmat T, arrays_ok u -> arrays_ok c -> same_entries (o0 O) u c ->
    forall i j, csr_mat O (c_b c) (c_ptr c) (c_ind c) (c_val c) i j = csr_mat O (c_b u) (c_ptr u) (c_ind u) (c_val u) i j.
  Proof.
    intros u c (Wu & _ & _ & Bu) (Wc & _ & _ & Bc) (Em & En & Ed & EE) i j.
    destruct (Z.leb_spec 0 i) as [H0|H0]; [destruct (Z.ltb_spec i (c_m u)) as [H1|H1]|].
    - unfold csr_mat. unfold centries in EE. rewrite (EE i j) by lia. destruct (ents _ _ _ (c_val u) i j); auto.
      destruct (_ && _); auto. cbn. ring.
    - transitivity (o0 O); [|symmetry]; eapply csr_mat_out; eauto; lia.
    - transitivity (o0 O); [|symmetry]; eapply csr_mat_out; eauto; lia.
  Qed.

  Lemma same_data_refl : forall u : cmat T, same_data u u.
  Proof. unfold same_data; tauto. Qed.

  Lemma zlen_ents : forall m n nnz b ptr ind (val : list T) i j, csr_wf m n nnz b ptr ind -> zlen val = nnz -> 0 <= i < m ->
    zlen (ents b ptr ind val i j) = sumz Zops (zn ptr i - b) (zn ptr (i + 1) - b) (fun k => if zn ind k =? j + b then 1 else 0).
  Proof.
    intros m n nnz b ptr ind val i j W Lv Hi. transitivity (suml Zops (fun _ => 1) (ents b ptr ind val i j)).
    - generalize (ents b ptr ind val i j) as l. induction l as [|v l IH]; [reflexivity|].
      cbn [suml fold_right]. change (fold_right _ (o0 Zops) l) with (suml Zops (fun _ : T => 1) l). rewrite <- IH. rewrite zlen_cons. cbn [oadd Zops]. lia.
    - unfold ents. rewrite (suml_flat_map Zops Zlaws). apply (sumz_ext Zops). intros k Hk.
      pose proof (in_row_range _ _ _ _ (wf_ptr _ _ _ _ _ _ W) i k Hi Hk) as Hr.
      destruct (_ =? _); [|reflexivity]. destruct (rd val k) eqn:E; [reflexivity|].
      exfalso. destruct val as [|v0 val']; [unfold zlen in Lv; cbn in Lv; lia|]. rewrite (rd_nthZ _ v0) in E by lia. discriminate.
  Qed.
End P.
