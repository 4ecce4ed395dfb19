(** What kernel selection and instruction-set preference should guarantee. *)
From Coq Require Import ZArith List Bool String.
From Verif Require Import Base BaseFacts DispatchModel.
Import ListNotations.
Open Scope Z_scope.

(** A table usable with a CPU description. *)
Definition table_ok (flags : list bool) (tbl : list tentry) : Prop :=
  zlen flags = isa_length /\ forall k, 0 <= k < zlen tbl ->
    0 <= k_flag (nthZ (mkEntry None 0 0) tbl k) < isa_length /\ 0 <= k_arch (nthZ (mkEntry None 0 0) tbl k) < 2 ^ 32.
Definition row (tbl : list tentry) (k : Z) : tentry := nthZ (mkEntry None 0 0) tbl k.
(** The CPU provides what the row asks for; the generic path always is available. *)
Definition runs (flags : list bool) (e : tentry) : Prop := k_flag e = isa_generic \/ nthZ false flags (k_flag e) = true.

(** A preference is either "no preference", generic, or a set the CPU has. *)
Definition hint_ok (flags : list bool) (h : Z) : Prop :=
  h = isa_unset \/ h = isa_generic \/ (h = isa_avx2 \/ h = isa_avx512f) /\ nthZ false flags h = true.

