(** What callers may expect of the memory of matrix handles (C40, C41). *)
From Coq Require Import ZArith List Bool.
From Verif Require Import Base MemModel.
Import ListNotations.
Open Scope Z_scope.

Section S.
  Context {T : Type}.

  (** operator new returns a non-null address that is not in use, or fails *)
  Definition allocator (pick : Z -> heap T -> option Z) : Prop :=
    forall t h p, pick t h = Some p -> p <> 0 /\ h p = None.

  (** The live blocks are exactly those in the list, each listed once; null is not one *)
  Definition live_is (s : mem T) (U : list (Z * blk T)) : Prop :=
    NoDup (map fst U) /\ hp s 0 = None /\ forall p b, hp s p = Some b <-> In (p, b) U.

  (** Two states of the program's own arrays: same places, same index arrays, value
      arrays of the same length *)
  Definition same_place (x y : Z * blk T) : Prop :=
    fst x = fst y /\ match snd x, snd y with
                     | B_ints l, B_ints l' => l = l'
                     | B_vals l, B_vals l' => zlen l = zlen l'
                     | b, b' => b = b'
                     end.
  Definition same_places : list (Z * blk T) -> list (Z * blk T) -> Prop := Forall2 same_place.

  (** What a handle holds: the sizes, the orientation and index base of the user's (first)
      matrix and the content of its three arrays *)
  Definition reads (s : mem T) (a : Z) : option (Z * Z * Z * (Z * Z * Z * Z * Z) * (list Z * list Z * list T)) :=
    match get_mat s a with
    | Some A =>
        match M_mats A with
        | q :: _ =>
            match get_csr s q with
            | Some c =>
                match get_ints s (o_ptr c), get_ints s (o_ind c), get_vals s (o_val c) with
                | Some pi, Some ii, Some vi =>
                    Some (M_m A, M_n A, M_nnz A, (o_m c, o_n c, o_nnz c, o_doid c, o_base c),
                      (firstn (Z.to_nat (o_m c + 1)) pi, firstn (Z.to_nat (o_nnz c)) ii, firstn (Z.to_nat (o_nnz c)) vi))
                | _, _, _ => None
                end
            | None => None
            end
        | [] => None
        end
    | None => None
    end.
  Definition nnz_of (s : mem T) (a : Z) : Z := match get_mat s a with Some A => M_nnz A | None => 0 end.

  (** A correct call: on a handle the program holds; matrices are created on own arrays
      that are long enough (what the creation functions require); a value update has a
      position inside or enough values.  The ILU preparation must not run out of memory
      (see [C41_ilu_memory_refuted]). *)
  Definition valid_call (pick : Z -> heap T -> option Z) (fuel : nat) (U : list (Z * blk T)) (c : mcall T) (s : mem T) (hs : list Z) : Prop :=
    match c with
    | m_create m n nnz csc base p i v _ =>
        0 <= m /\ 0 <= n /\ 0 <= nnz /\ exists pi ii vi,
          In (p, B_ints pi) U /\ (if csc then n else m) + 1 <= zlen pi /\
          In (i, B_ints ii) U /\ nnz <= zlen ii /\
          In (v, B_vals vi) U /\ nnz <= zlen vi
    | m_hint a _ | m_optimize a _ | m_hinted a _ _ | m_copy a _ => In a hs
    | m_ilu a _ => In a hs /\ forall s' st hs', do_mcall pick fuel c s hs = Some (s', st, hs') -> st <> memory_error
    | m_write a (w_at k _) => In a hs /\ 0 <= k < nnz_of s a
    | m_write a (w_all l) => In a hs /\ nnz_of s a <= zlen l
    | m_destroy a => a = 0 \/ In a hs
    end.
  Fixpoint valid_run (pick : Z -> heap T -> option Z) (fuel : nat) (U : list (Z * blk T)) (l : list (mcall T)) (s : mem T) (hs : list Z) : Prop :=
    match l with
    | [] => True
    | c :: l => valid_call pick fuel U c s hs /\
        forall s' st hs', do_mcall pick fuel c s hs = Some (s', st, hs') -> valid_run pick fuel U l s' hs'
    end.

  (** Calls that can change what another handle than [d] holds, or end [d] *)
  Definition spares (d : Z) (c : mcall T) : Prop :=
    match c with m_write a _ | m_destroy a => a <> d | _ => True end.
  Definition only_writes (d a : Z) (c : mcall T) : Prop :=
    match c with m_write x _ => x = d | m_destroy x => x <> a /\ x <> d | _ => True end.
  Definition no_write (c : mcall T) : Prop := match c with m_write _ _ => False | _ => True end.
End S.
