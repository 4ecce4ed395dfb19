(** Handles holding copies made for hinted products, as aoclsparse_?mv meets them. *)
From Coq Require Import ZArith List Bool.
From Verif Require Import Base Algebra DoidModel DoidSpec Csr MvModel MvSpec HandleModel HandleSpec CsrmvModel ExpandSpec CsrmmSpec.
Import ListNotations.
Open Scope Z_scope.

Section S.
  Context {T : Type} (O : ops T).

  (** An optimised copy of the user's matrix (made by an earlier product or solve). *)
  Definition opt_copy (u c : cmat T) : Prop :=
    c_opt c = true /\ opt_ready c /\ arrays_ok c /\ same_entries (o0 O) u c /\ c_mdiag c = dg_non_unit /\ c_dval c = None.

  (** A copy made by aoclsparse_optimize for a hinted product: it stores the matrix of
      the hinted operation ([copy_state]: up to its diagonal, which products with other
      diagonal rules overwrite).  No request carries the id of the conjugate. *)
  Definition hint_copy (m n : Z) (u c : cmat T) : Prop :=
    copy_state O m n (hnd_mat O u) c /\ c_opt c = false /\ copied (c_doid u) (c_doid c) = true /\ c_doid c <> gc /\
    (is_one_tri (c_doid c) = true -> m = n) /\ (is_one_tri (c_doid c) = false -> c_mdiag c = dg_non_unit).

  (** The user's matrix first, then optimised and hinted copies in any order. *)
  Definition hint_hnd (h : hnd T) (u : cmat T) : Prop :=
    user_mat h u /\ exists rest, H_mats h = Some u :: rest /\
      (c_opt u = true -> opt_ready u) /\
      Forall (fun e => exists c, e = Some c /\ (opt_copy u c \/ hint_copy (H_m h) (H_n h) u c)) rest.

  (** The id of a request: real types take a conjugate transpose as a transpose. *)
  Definition request_id (dt : dtype) (d : descr) (op : operation) : option Z :=
    get_doid (negb (is_cplx dt)) (d_type d) (d_fill d)
      (if is_cplx dt then op else match op with op_conjugate_transpose => op_transpose | o => o end).

  (** Requests whose result the library is able to deliver, as [mv_pre], except that
      the rows need not be sortable when a copy was made for the request. *)
  Record hint_pre (dt : dtype) (h : hnd T) (u : cmat T) (d : descr) (op : operation) : Prop := mk_hint_pre {
    hp_base : d_base d = c_b u;
    hp_op : valid_op op = true;
    hp_square : d_type d = mt_symmetric \/ d_type d = mt_hermitian -> H_m h = H_n h;
    hp_cplx : d_type d = mt_hermitian -> is_cplx dt = true;
    hp_herm : d_type d = mt_hermitian -> d_diag d = dg_non_unit -> real_diag O (hnd_mat O u);
    hp_general : d_type d = mt_general -> d_diag d = dg_non_unit;
    hp_sort : d_type d <> mt_general -> sortable u \/ exists c, In (Some c) (H_mats h) /\ request_id dt d op = Some (c_doid c);
    hp_wide : d_type d = mt_triangular -> d_diag d <> dg_non_unit -> c_m u <= c_n u;
    hp_unit : dt = dt_d -> d_type d = mt_triangular -> d_diag d = dg_unit ->
      (c_doid u = gn /\ d_fill d = fm_upper /\ op = op_none \/ c_doid u = gt /\ d_fill d = fm_lower /\ op <> op_none) ->
      forall i, 0 <= i < c_m u -> upper_count u i < 4 }.
End S.
