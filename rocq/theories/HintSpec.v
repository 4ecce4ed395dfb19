(** Which hint calls are legal, and what they ask for (C41). *)
From Coq Require Import ZArith List Bool.
From Verif Require Import Base DescrModel HintModel.
Import ListNotations.
Open Scope Z_scope.

(** The request of a call: action code, operation, descriptor, number of calls, kernel *)
Definition request (c : hint_call) : option (Z * Z * option mdescr * Z * Z) :=
  match c with
  | set_mv_hint t d n => Some (1, t, d, n, -1)
  | set_mv_hint_kid t d n k => Some (1, t, d, n, k)
  | set_sv_hint t d n => Some (2, t, d, n, -1)
  | set_mm_hint t d n => Some (3, t, d, n, -1)
  | set_2m_hint t d n => Some (4, t, d, n, -1)
  | set_lu_smoother_hint t d n => Some (5, t, d, n, -1)
  | set_sm_hint t d o n => Some (6 + o, t, d, n, -1)
  | set_dotmv_hint t d n => Some (8, t, d, n, -1)
  | set_symgs_hint t d n => Some (9, t, d, n, -1)
  | set_sorv_hint d ty n => Some (10 + ty, 111, d, n, -1)
  | set_memory_hint _ => None
  end.

(** A legal call: the handle holds a matrix, the descriptor is valid and has the index
    base of the matrix, the operation is one of the three, at least one call is
    expected (none is possible when a kernel is named), order / sweep / policy are
    defined values *)
Definition legal {M} (A : option (hhnd M)) (c : hint_call) : Prop :=
  exists h, A = Some h /\
  match request c with
  | Some (_, t, d, n, k) =>
      (exists d' b, d = Some d' /\ hh_base h = Some b /\ (b = 0 \/ b = 1) /\ md_base d' = b /\
         0 <= md_fill d' <= 1 /\ 0 <= md_diag d' <= 2 /\ 0 <= md_type d' <= 3) /\
      111 <= t <= 113 /\ (0 < n \/ n = 0 /\ k <> -1)
  | None => True
  end /\
  match c with
  | set_sm_hint _ _ o _ => 0 <= o <= 1
  | set_sorv_hint _ ty _ => 0 <= ty <= 2
  | set_memory_hint p => 0 <= p <= 1
  | _ => True
  end.

(** What the newest hint must say about an accepted call *)
Definition records (c : hint_call) (e : hint_rec) : Prop :=
  match request c with
  | Some (act, t, Some d, n, k) =>
      hr_act e = act /\ hr_trans e = t /\ hr_type e = md_type d /\ hr_fill e = md_fill d /\ hr_nop e = n /\ hr_kid e = k /\ hr_done e = false
  | _ => False
  end.
Definition is_memory_hint (c : hint_call) : bool := match c with set_memory_hint _ => true | _ => false end.
Definition accepted (st : status) : bool := match st with success => true | _ => false end.
(** The accepted hint calls of a sequence with their statuses, in order *)
Definition accepted_calls (l : list (hint_call * bool)) (sts : list status) : list hint_call :=
  map (fun x => fst (fst x)) (filter (fun x => accepted (snd x) && negb (is_memory_hint (fst (fst x)))) (combine l sts)).
