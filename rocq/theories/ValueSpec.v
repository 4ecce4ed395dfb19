(** What changing values has to mean, and the values a handle holds after a history. *)
From Coq Require Import ZArith List Bool.
From Verif Require Import Base Algebra Csr DoidModel DoidSpec MvModel MvSpec SortSpec CsrmvModel HandleModel HandleSpec TrsvSpec ValueModel.
Import ListNotations.
Open Scope Z_scope.

Section S.
  Context {T : Type} (O : ops T).

  (** Entry (i, j) of the matrix (0-based) is stored at position [k] of the user's arrays. *)
  Definition stored_at (u : cmat T) (i j k : Z) : Prop :=
    let r := if c_doid u =? gt then j else i in
    let c := if c_doid u =? gt then i else j in
    in_row (c_ptr u) (c_b u) r k /\ nthZ 0 (c_ind u) k - c_b u = c.
  Definition stored (u : cmat T) (i j : Z) : Prop := exists k, stored_at u i j k.
  (** the matrix with entry (i, j) replaced *)
  Definition set_entry (A : Z -> Z -> T) (i j : Z) (v : T) : Z -> Z -> T := fun i' j' => if (i' =? i) && (j' =? j) then v else A i' j'.

  (** Effect of a call on the user's values [l] ([u]: the arrays, of a [m] x [n] matrix):
      [vals_step u m n l c l']. *)
  Definition vals_step (m n : Z) (u : cmat T) (l : list T) (c : call T) (l' : list T) : Prop :=
    match c with
    | k_set i j v =>
        (0 <= i - c_b u < m /\ 0 <= j - c_b u < n /\ exists k, stored_at u (i - c_b u) (j - c_b u) k /\
           (forall k', stored_at u (i - c_b u) (j - c_b u) k' -> k <= k') /\ l' = upd l k v) \/
        ~ (0 <= i - c_b u < m /\ 0 <= j - c_b u < n /\ stored u (i - c_b u) (j - c_b u)) /\ l' = l
    | k_update v => zlen v = c_nnz u /\ l' = v \/ zlen v <> c_nnz u /\ l' = l
    | _ => l' = l
    end.

  (** Valid use of the vector operations on a handle of shape [h] whose user matrix is [u]. *)
  Definition valid_call (dt : dtype) (tsc : Z -> option Z) (w : Z) (h : hnd T) (u : cmat T) (c : call T) : Prop :=
    match c with
    | k_mv op alpha d x beta y => mv_pre O dt h u d op /\
        zlen x = match op with op_none => H_n h | _ => H_m h end /\ zlen y = match op with op_none => H_m h | _ => H_n h end
    | k_trsv op alpha d rhs incb x incx kid =>
        H_m h = H_n h /\ 0 < H_m h <= 2 ^ w - 1 /\ 0 < H_nnz h /\ d_base d = c_b u /\ valid_op op = true /\
        (d_type d = mt_triangular \/ d_type d = mt_symmetric) /\ d_diag d <> dg_zero /\ incx <= 2 ^ w - 1 /\ incb <= 2 ^ w - 1 /\
        holds (H_m h) incx x /\ holds (H_m h) incb rhs /\
        (d_diag d = dg_non_unit -> full_diag (c_m u) (c_n u) (c_b u) (c_ptr u) (c_ind u) -> forall i, 0 <= i < H_m h -> hnd_mat O u i i <> o0 O) /\
        (tsc kid = Some 0 \/ (if c_doid u =? gt then is_none op else negb (is_none op)) = false \/
         alpha <> o0 O /\ rows_distinct (c_m u) (c_b u) (c_ptr u) (c_ind u))
    | _ => True
    end.

  (** What the caller must observe when the user's matrix is [u]. *)
  Definition observes (dt : dtype) (mvc tsc : Z -> option Z) (w : Z) (h : hnd T) (u : cmat T) (c : call T) (o : status * option (list T)) : Prop :=
    let '(st, out) := o in
    match c with
    | k_set i j v => (st = success <-> 0 <= i - c_b u < H_m h /\ 0 <= j - c_b u < H_n h /\ stored u (i - c_b u) (j - c_b u))
    | k_update v => (st = success <-> zlen v = H_nnz h)
    | k_optimize => st = success
    | k_mv op alpha d x beta y =>
        st = success /\ (exists y', out = Some y' /\
          mv_spec O (match op with op_none => H_m h | _ => H_n h end) (match op with op_none => H_n h | _ => H_m h end) alpha beta
            (op_sem O op (described O (d_type d) (d_fill d) (d_diag d) (hnd_mat O u))) x y y') \/
        st = invalid_kid /\ out = None /\ (exists k, mvc k = None) \/
        st = not_implemented /\ out = None /\ declined dt (d_type d) op (c_doid u) = true
    | k_trsv op alpha d rhs incb x incx kid =>
        st = success /\ (exists x1, out = Some x1 /\ only_strided O (H_m h) incx x x1 /\
          solves O (H_m h) alpha (op_sem O op (described O mt_triangular (d_fill d) (d_diag d) (hnd_mat O u))) rhs incb x1 incx) \/
        st = invalid_value /\ out = None /\ d_diag d = dg_non_unit /\ ~ full_diag (c_m u) (c_n u) (c_b u) (c_ptr u) (c_ind u) \/
        st = invalid_kid /\ out = None /\ tsc kid = None \/
        st = invalid_size /\ out = None /\ (2 ^ w - 1 < (H_m h - 1) * incx \/ 2 ^ w - 1 < (H_m h - 1) * incb)
    end.

  (** A history [calls] on a handle of shape [h] with arrays [u] and current values [l]:
      every call is valid for the values it meets, [obs] are admissible
      observations for these values, [l'] the final values. *)
  Inductive served (dt : dtype) (mvc tsc : Z -> option Z) (w : Z) (h : hnd T) (u : cmat T) : list T -> list (call T) -> list (status * option (list T)) -> list T -> Prop :=
  | served_nil : forall l, served dt mvc tsc w h u l [] [] l
  | served_cons : forall l c l1 calls o obs l', vals_step (H_m h) (H_n h) u l c l1 -> observes dt mvc tsc w h (with_val u l) c o ->
      served dt mvc tsc w h u l1 calls obs l' -> served dt mvc tsc w h u l (c :: calls) (o :: obs) l'.

  Inductive valid_calls (dt : dtype) (tsc : Z -> option Z) (w : Z) (h : hnd T) (u : cmat T) : list T -> list (call T) -> Prop :=
  | valid_nil : forall l, valid_calls dt tsc w h u l []
  | valid_cons : forall l c calls, valid_call dt tsc w h (with_val u l) c ->
      (forall l1, vals_step (H_m h) (H_n h) u l c l1 -> valid_calls dt tsc w h u l1 calls) -> valid_calls dt tsc w h u l (c :: calls).

  Definition is_product (c : call T) : bool := match c with k_mv _ _ _ _ _ _ => true | _ => false end.
End S.
