(** C35, C36: kernel selection and instruction-set preference. *)
From Coq Require Import ZArith List Bool Lia String.
From Verif Require Import Base BaseFacts DispatchModel DispatchSpec DispatchProof.
Import ListNotations.
Open Scope Z_scope.

(** C35.  A requested kernel id gets exactly that row of the table section, if the
    section lies inside the table, the id inside the section and the CPU provides the
    row's instruction set; otherwise no kernel. *)
Theorem C35_requested_kernel : forall flags la hint updated tbl best0 kid lo hi,
  table_ok flags tbl -> 0 <= kid ->
  exists r, oracle flags la hint updated tbl best0 kid lo hi = Some r /\
    (0 <= lo /\ hi <= zlen tbl /\ kid < hi - lo /\ runs flags (row tbl (lo + kid)) -> r = k_kernel (row tbl (lo + kid))) /\
    (~ (0 <= lo /\ hi <= zlen tbl /\ kid < hi - lo /\ runs flags (row tbl (lo + kid))) -> r = None).
Proof. exact oracle_requested. Qed.
Print Assumptions C35_requested_kernel.

(** C35.  Automatic choice over a section holding a generic row: a kernel is chosen,
    the CPU provides its instruction set, it uses the hinted instruction set if any
    usable row does, and among rows of the same set one tuned to exactly this
    micro-architecture is not passed over for one not covering it. *)
Theorem C35_automatic_choice : forall flags la hint updated tbl kid lo hi,
  table_ok flags tbl -> kid < 0 -> 0 <= lo -> lo <= hi -> hi <= zlen tbl ->
  (exists g, lo <= g < hi /\ k_flag (row tbl g) = isa_generic) ->
  (forall k, lo <= k < hi -> runs flags (row tbl k) -> k_kernel (row tbl k) <> None) ->
  exists k, lo <= k < hi /\ runs flags (row tbl k) /\ k_kernel (row tbl k) <> None /\
    oracle flags la hint updated tbl None kid lo hi = Some (k_kernel (row tbl k)) /\
    ((exists q, lo <= q < hi /\ runs flags (row tbl q) /\ k_flag (row tbl q) = hint) -> k_flag (row tbl k) = hint) /\
    (forall q, lo <= q < hi -> runs flags (row tbl q) -> k_flag (row tbl q) = k_flag (row tbl k) ->
       k_arch (row tbl q) = la -> la <> 0 -> popcount la = 1 -> Z.land la (k_arch (row tbl k)) <> 0).
Proof. exact oracle_auto. Qed.
Print Assumptions C35_automatic_choice.

(** C35.  The tables of the CSR matrix-vector product, in both build types and
    whatever the CPU, hint and micro-architecture. *)
Theorem C35_csrmv_tables : forall flags la hint updated build kid,
  zlen flags = isa_length -> nthZ false flags isa_unset = false -> kid < 0 ->
  exists k, csrmv_choice flags la hint updated build kid = Some k /\ 0 <= k < 4 /\
    (1 <= k -> nthZ false flags isa_avx2 = true \/ k = 3) /\ (k = 3 -> nthZ false flags isa_avx512f = true /\ build = true).
Proof. exact csrmv_choice_auto. Qed.
Print Assumptions C35_csrmv_tables.

(** Concrete case: an AVX2-only CPU of micro-architecture bit 1. *)
Definition zen2 : list bool := map (fun k => k =? isa_avx2) (zrange 0 isa_length).
Example C35_case_hyps : table_ok zen2 (csrmv_table true) /\ nthZ false zen2 isa_unset = false /\
  (exists g, 0 <= g < 4 /\ k_flag (row (csrmv_table true) g) = isa_generic) /\
  (forall k, 0 <= k < 4 -> runs zen2 (row (csrmv_table true) k) -> k_kernel (row (csrmv_table true) k) <> None).
Proof.
  split; [apply csrmv_table_ok; reflexivity|]. split; [reflexivity|]. split.
  - exists 0. split; [lia|reflexivity].
  - intros k Hk _. assert (E : k = 0 \/ k = 1 \/ k = 2 \/ k = 3) by lia. destruct E as [->|[->|[->| ->]]]; discriminate.
Qed.
Example C35_case :
  oracle zen2 2 isa_unset false (csrmv_table true) None (-1) 0 4 = Some (Some 2) /\
  oracle zen2 2 isa_generic false (csrmv_table true) None (-1) 0 4 = Some (Some 0) /\
  oracle zen2 2 isa_avx512f false (csrmv_table true) None (-1) 0 4 = Some (Some 2) /\
  oracle zen2 2 isa_unset false (csrmv_table true) None 3 0 4 = Some None /\
  oracle zen2 2 isa_unset false (csrmv_table true) None 1 0 4 = Some (Some 1) /\
  oracle zen2 2 isa_unset false (csrmv_table true) None 4 0 4 = Some None.
Proof. repeat split; vm_compute; reflexivity. Qed.

(** C36.  aoclsparse_enable_instructions accepts (case-insensitively) exactly the
    documented names, keeps the previous preference on rejection, never records an
    instruction set the CPU lacks, and falls back AVX512 -> AVX2 -> GENERIC. *)
Theorem C36_enable_instructions : forall flags env h pref,
  let '(st, h') := enable_instructions flags env h pref in
  (st = success <-> In (upper pref) [""; "AVX512"; "AVX2"; "GENERIC"; "ENV"]%string) /\
  (st = success \/ st = invalid_value) /\
  (st <> success -> h' = h) /\
  (st = success -> old_hint h' = current_hint h /\ hint_ok flags (current_hint h') /\
     (upper pref = "AVX512"%string -> current_hint h' =
        if has flags isa_avx512f then isa_avx512f else if has flags isa_avx2 then isa_avx2 else isa_generic) /\
     (upper pref = "AVX2"%string -> current_hint h' = if has flags isa_avx2 then isa_avx2 else isa_generic) /\
     (upper pref = "GENERIC"%string -> current_hint h' = isa_generic) /\
     (upper pref = ""%string -> current_hint h' = isa_unset)).
Proof. exact enable_ok. Qed.
Print Assumptions C36_enable_instructions.

(** C36.  The preference taken from the environment at start-up, and after it any
    sequence of calls, is always one the CPU has. *)
Theorem C36_any_history : forall flags env0 (calls : list (option string * string)),
  hint_ok flags (current_hint (fold_left (fun h c => snd (enable_instructions flags (fst c) h (snd c))) calls
    (mkHint isa_unset (ctor_hint flags env0)))).
Proof. intros. apply enable_history. apply ctor_hint_ok. Qed.
Print Assumptions C36_any_history.

(** C36.  Number of threads: at least one, within OpenMP's maximum, its thread limit
    and a positive AOCLSPARSE_NUM_THREADS; one when nested parallelism is exhausted. *)
Theorem C36_thread_count : forall env procs mx lim lv cur, 1 <= procs -> 1 <= mx -> 1 <= lim ->
  let nt := get_num_threads env procs mx lim lv cur in
  1 <= nt /\ nt <= mx /\ nt <= lim /\ (forall e, env = Some e -> 1 <= e -> nt <= e) /\
  (forall e, env = Some e -> e <= 0 -> nt = 1) /\ (lv <= cur -> nt = 1).
Proof. exact threads_ok. Qed.
Print Assumptions C36_thread_count.

(** Finding: "ENV" is documented (include/aoclsparse_auxiliary.h) to re-read
    AOCL_ENABLE_INSTRUCTIONS.  It never looks at it: with the variable set to AVX2 on a
    CPU with AVX2 the preference ends unset, and an invalid value is accepted. *)
Theorem C36_env_reread_refuted :
  enable_instructions zen2 (Some "AVX2"%string) (mkHint isa_unset isa_generic) "ENV" = (success, mkHint isa_generic isa_unset) /\
  ctor_hint zen2 (Some "AVX2"%string) = isa_avx2 /\
  fst (enable_instructions zen2 (Some "NEON"%string) (mkHint isa_unset isa_generic) "ENV") = success.
Proof. repeat split; vm_compute; reflexivity. Qed.
Print Assumptions C36_env_reread_refuted.

Example C36_case :
  enable_instructions zen2 None (mkHint isa_unset isa_unset) "avx512" = (success, mkHint isa_unset isa_avx2) /\
  enable_instructions zen2 None (mkHint isa_unset isa_avx2) "sse" = (invalid_value, mkHint isa_unset isa_avx2) /\
  get_num_threads (Some 8) 16 4 64 1 0 = 4 /\ get_num_threads None 16 32 64 1 1 = 1.
Proof. repeat split; vm_compute; reflexivity. Qed.
