(** Kernel selection and runtime context: include/aoclsparse_cntx_dispatcher.hpp,
    include/aoclsparse_context.hpp, extra/aoclsparse_auxiliary.cpp 56-113. *)
From Coq Require Import ZArith List Bool String Ascii.
From Verif Require Import Base.
Import ListNotations.
Open Scope Z_scope.

(** context.hpp 44-60: context_isa_t *)
Definition isa_unset := 0. Definition isa_generic := 1. Definition isa_avx2 := 2. Definition isa_avx512f := 3.
Definition isa_length := 13.
(** context.hpp 64-76: archs, as unsigned 32-bit masks *)
Definition arch_all := 2 ^ 32 - 1.

(** cntx_dispatcher.hpp 46-52: Table<K>.  A kernel is an identifier, [None] the null
    pointer. *)
Record tentry := mkEntry { k_kernel : option Z; k_flag : Z; k_arch : Z }.

(** cntx_dispatcher.hpp 101-109: ORL(Table), by build type *)
Definition orl (avx512_build : bool) (e : tentry) : tentry :=
  if avx512_build then e else mkEntry None isa_unset 0.

(** context.hpp 303-311: supports(isa); [flags] is cpuflags[LENGTH] *)
Definition supports (flags : list bool) (isa : Z) : option bool :=
  if isa =? isa_generic then Some true else rd flags isa.

(** POPCOUNT of a 32-bit word *)
Definition popcount (w : Z) : Z :=
  fold_left (fun a k => if Z.testbit w k then a + 1 else a) (zrange 0 32) 0.

(** cntx_dispatcher.hpp 356-379: score of a supported table entry.  [~arch_bits & arch]
    is [Z.land (arch_all - arch_bits) arch] on 32-bit words. *)
Definition score (localarch hint : Z) (e : tentry) : Z :=
  let arch_bits := Z.land localarch (k_arch e) in
  let arch := negb (arch_bits =? 0) in
  let multi := if negb (Z.land (arch_all - arch_bits) (k_arch e) =? 0) then 1 else 0 in
  let multi := 32 - multi * (popcount (k_arch e) - 1) in
  let s := (if arch then multi else 1) * (if arch then 1 else 0) in
  s + 100 * (if hint =? k_flag e then 1 else 0).

(** cntx_dispatcher.hpp 302-395: Oracle.  [best0]: the cached kernel; [updated]:
    tl_isa_hint.is_isa_updated(); result: the kernel pointer.  Outer [None]: a table
    or flag access out of range. *)
Definition in_range (n lower upper : Z) : bool := (lower <=? n) && (n <=? upper).
Definition oracle (flags : list bool) (localarch hint : Z) (updated : bool) (tbl : list tentry)
    (best0 : option Z) (kid lo hi : Z) : option (option Z) :=
  let N := zlen tbl in
  if 0 <=? kid then
    if (hi - lo <=? kid) || (hi <=? lo) || negb (in_range lo 0 (N - 1)) || negb (in_range hi 0 N)
    then Some None
    else
      let* e := rd tbl (lo + kid) in
      let* s := supports flags (k_flag e) in
      if s then Some (k_kernel e) else Some None
  else if (match best0 with None => true | Some _ => false end) || updated then
    let* (_, best) := for_ lo hi (fun k st =>
      let '(maxscore, best) := st in
      let* e := rd tbl k in
      let* s := supports flags (k_flag e) in
      if s then
        let sc := score localarch hint e in
        if maxscore <=? sc then Some (sc, k_kernel e) else Some (maxscore, best)
      else Some (maxscore, best)) (0, best0) in
    Some best
  else Some best0.

(** The four-row tables of level2/aoclsparse_csrmv.hpp 138-143, 163-168, 190-195,
    336-341, 359-364, 394-399 (kernel = row number). *)
Definition csrmv_table (avx512_build : bool) : list tentry :=
  [mkEntry (Some 0) isa_generic arch_all; mkEntry (Some 1) isa_avx2 arch_all; mkEntry (Some 2) isa_avx2 arch_all;
   orl avx512_build (mkEntry (Some 3) isa_avx512f arch_all)].
(** Their use: Oracle<K>(tbl, kache, kid) with the never-assigned cache. *)
Definition csrmv_choice (flags : list bool) (localarch hint : Z) (updated avx512_build : bool) (kid : Z) : option Z :=
  match oracle flags localarch hint updated (csrmv_table avx512_build) None kid 0 4 with Some r => r | None => None end.

(** ** ISA preference *)
Definition toupper (c : ascii) : ascii :=
  let n := N_of_ascii c in if (97 <=? n)%N && (n <=? 122)%N then ascii_of_N (n - 32) else c.
Fixpoint upper (s : string) : string :=
  match s with EmptyString => EmptyString | String c s' => String (toupper c) (upper s') end.

(** context.hpp 386-431: isa_hint *)
Record isa_hint := mkHint { old_hint : Z; current_hint : Z }.
Definition set_isa_hint (h : isa_hint) (isa : Z) : isa_hint := mkHint (current_hint h) isa.
Definition is_isa_updated (h : isa_hint) : bool := negb (current_hint h =? old_hint h).

(** context.hpp 97-123: env_get_var<T> at T = std::string ... *)
Definition env_get_var_string (env : option string) (fallback : string) : string :=
  match env with Some s => s | None => fallback end.
(** ... and at T = const char*, the instantiation selected by the call
    env_get_var("AOCL_ENABLE_INSTRUCTIONS", "") in auxiliary.cpp 73: neither
    [if constexpr] branch applies and the fallback is returned (finding B29). *)
Definition env_get_var_cstr (env : option string) (fallback : string) : string := fallback.

(** cpuflags[f] for a flag in range: the template supports<isa>() (context.hpp 292-296) *)
Definition has (flags : list bool) (isa : Z) : bool := nthZ false flags isa.

(** auxiliary.cpp 56-113: aoclsparse_enable_instructions, non-null argument.  [env]:
    content of AOCL_ENABLE_INSTRUCTIONS. *)
Definition enable_instructions (flags : list bool) (env : option string) (h : isa_hint) (pref : string)
  : status * isa_hint :=
  if negb (String.eqb pref "") then
    let isa := upper pref in
    let isa := if String.eqb isa "ENV" then
                 let e := env_get_var_cstr env "" in if negb (String.eqb e "") then upper e else e
               else isa in
    if String.eqb isa "" then (success, set_isa_hint h isa_unset)
    else if String.eqb isa "AVX512" && has flags isa_avx512f then (success, set_isa_hint h isa_avx512f)
    else
      let next_isa := if String.eqb isa "AVX512" then "AVX2"%string else ""%string in
      if (String.eqb isa "AVX2" || String.eqb next_isa "AVX2") && has flags isa_avx2
      then (success, set_isa_hint h isa_avx2)
      else
        let next_isa := if String.eqb isa "AVX2" || String.eqb next_isa "AVX2" then "GENERIC"%string else next_isa in
        if String.eqb isa "GENERIC" || String.eqb next_isa "GENERIC"
        then (success, set_isa_hint h isa_generic)
        else (invalid_value, h)
  else (success, set_isa_hint h isa_unset).

(** context.hpp 190-218: the constructor's reading of AOCL_ENABLE_INSTRUCTIONS *)
Definition ctor_hint (flags : list bool) (env : option string) : Z :=
  let isa_env := env_get_var_string env "" in
  if negb (String.eqb isa_env "") then
    let isa_env := upper isa_env in
    let '(hint, next_isa) :=
      if String.eqb isa_env "AVX512" then
        if has flags isa_avx512f then (isa_avx512f, ""%string) else (isa_unset, "AVX2"%string)
      else (isa_unset, ""%string) in
    let '(hint, next_isa) :=
      if String.eqb isa_env "AVX2" || String.eqb next_isa "AVX2" then
        if has flags isa_avx2 then (isa_avx2, next_isa) else (hint, "GENERIC"%string)
      else (hint, next_isa) in
    if String.eqb isa_env "GENERIC" || String.eqb next_isa "GENERIC" then isa_generic else hint
  else isa_unset.

(** ** Threads *)
(** context.hpp 252-273 and 314-363, OpenMP build: [env]: strtol of
    AOCLSPARSE_NUM_THREADS if set; the omp_get_* values are inputs. *)
Definition get_thread_from_env (env : option Z) (num_procs : Z) : Z :=
  let nt := match env with Some n => n | None => num_procs end in
  if nt <=? 0 then 1 else nt.
Definition get_num_threads (env : option Z) (num_procs max_threads thread_limit max_levels level : Z) : Z :=
  let env_num_threads := get_thread_from_env env num_procs in
  let omp_min := if thread_limit <? max_threads then thread_limit else max_threads in
  let num_threads := if env_num_threads <? omp_min then env_num_threads else omp_min in
  if max_levels <=? level then 1 else num_threads.
