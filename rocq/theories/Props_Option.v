(** C38: options of the iterative solvers. *)
From Coq Require Import ZArith List Bool Ascii String Lia.
From Verif Require Import Base UtilModel RegModel RegSpec RegProof.
Import ListNotations.
Open Scope Z_scope.

(** Two spellings denote the same option exactly when they have the same words, ignoring
    case and the amount and position of blanks. *)
Theorem C38_names : forall a b, prepare a = prepare b <-> same_name a b.
Proof. exact prepare_same. Qed.
Print Assumptions C38_names.

Example C38_names_case : same_name (lit "  CG   Iteration	limit ") (lit "cg iteration LIMIT") /\ ~ same_name (lit "gm res") (lit "gmres").
Proof. split; [vm_compute; reflexivity|intros H; vm_compute in H; discriminate]. Qed.

(** Setting a known option to text that stands for an allowed value succeeds; every
    spelling of the name then denotes the new value and all other options keep theirs. *)
Theorem C38_set : forall (F : Type) lt le nan stod (g : registry F) n t k v v',
  reg_ok lt le nan g -> has g n k v -> reads stod k t v' -> allowed lt le nan k v' -> g_locked g = false ->
  exists g', parse_option lt le nan stod g (Some n) (Some t) = (returns success, g') /\ reg_ok lt le nan g' /\ g_locked g' = false /\
    (forall m, same_name m n -> has g' m k v') /\
    (forall m k1 v1, ~ same_name m n -> (has g' m k1 v1 <-> has g m k1 v1)).
Proof. exact @set_ok. Qed.
Print Assumptions C38_set.

(** Nothing else succeeds, and a call that does not succeed changes no option. *)
Theorem C38_set_only : forall (F : Type) lt le nan stod (g : registry F) n t o g',
  reg_ok lt le nan g -> parse_option lt le nan stod g n t = (o, g') ->
  (o = returns success -> exists n0 t0 k v v', n = Some n0 /\ t = Some t0 /\ g_locked g = false /\
     has g n0 k v /\ reads stod k t0 v' /\ allowed lt le nan k v') /\
  (o <> returns success -> g' = g).
Proof. exact @set_only. Qed.
Print Assumptions C38_set_only.

(** What the solvers read is the value the option holds. *)
Theorem C38_get : forall (F : Type) lt le nan (g : registry F) n k v, reg_ok lt le nan g -> has g n k v ->
  match v with
  | v_int z => get_int n g = Some z
  | v_real x => get_real n g = Some x
  | v_str s => get_str n g = Some s
  | v_bool b => get_bool n g = Some b
  end.
Proof. exact @get_ok. Qed.
Print Assumptions C38_get.

(** The registered options are well formed when the two default tolerances are allowed. *)
Lemma solver_options_ok : forall (F : Type) lt le nan (zero one tol2 tol : F),
  nan tol2 = false -> nan tol = false -> lt tol2 zero = false -> lt tol zero = false ->
  reg_ok lt le nan (solver_options zero one tol2 tol).
Proof.
  intros F lt le nan zero one tol2 tol N2 N L2 L. split.
  - intros n k v H. vm_compute in H.
    repeat (destruct H as [H | H]; [injection H as <- <- <-; split; [vm_compute; reflexivity|] |]); [..|contradiction];
      cbn; try (repeat split; trivial; lia); eexists; (first [left; reflexivity|right; left; reflexivity|
        right; right; left; reflexivity|right; right; right; left; reflexivity]).
  - vm_compute.
    repeat (constructor; [intros H; cbn [In] in H; repeat (destruct H as [H | H]; [discriminate H|]); exact H|]).
    constructor.
Qed.

(** In every state reached from a new solver handle by any sequence of option settings,
    new right-hand sides, RCI steps and complete solves, every option holds a value
    within its bounds; in particular iteration limits are at least one. *)
Theorem C38_in_range : forall (F : Type) lt le nan stod (zero one tol2 tol : F) l,
  nan tol2 = false -> nan tol = false -> lt tol2 zero = false -> lt tol zero = false ->
  reg_ok lt le nan (ss_reg (run lt le nan stod l (mkSess (solver_options zero one tol2 tol) false None))).
Proof. intros F lt le nan stod zero one tol2 tol l N2 N L2 L. apply run_ok. apply solver_options_ok; assumption. Qed.
Print Assumptions C38_in_range.

(** In every history an option holds the value of the last successful setting, *)
Theorem C38_history : forall (F : Type) lt le nan stod l1 l2 (s : session F) n t k v,
  reg_ok lt le nan (ss_reg s) ->
  let mid := run lt le nan stod l1 s in
  has (ss_reg mid) n k v -> fst (step lt le nan stod (ev_set (Some n) (Some t)) mid) = returns success ->
  quiet lt le nan stod l2 (snd (step lt le nan stod (ev_set (Some n) (Some t)) mid)) n ->
  exists v', reads stod k t v' /\ allowed lt le nan k v' /\
    has (ss_reg (run lt le nan stod (l1 ++ ev_set (Some n) (Some t) :: l2) s)) n k v'.
Proof. exact @run_last_set. Qed.
Print Assumptions C38_history.

(** and its initial value if there was none. *)
Theorem C38_default : forall (F : Type) lt le nan stod l (s : session F) m k v,
  reg_ok lt le nan (ss_reg s) -> quiet lt le nan stod l s m -> has (ss_reg s) m k v ->
  has (ss_reg (run lt le nan stod l s)) m k v.
Proof. exact @run_has. Qed.
Print Assumptions C38_default.

(** If no right-hand side is given while a solve is in progress, options are locked
    exactly while a solve is in progress. *)
Theorem C38_lock : forall (F : Type) lt le nan stod l (s : session F),
  reg_ok lt le nan (ss_reg s) -> orderly lt le nan stod l s -> lock_ok s -> lock_ok (run lt le nan stod l s).
Proof. exact @run_lock. Qed.
Print Assumptions C38_lock.

(** Concrete case: integers as reals *)
Definition z_options : registry Z := solver_options 0 1 2 1.
Definition z_set := parse_option Z.ltb Z.leb (fun _ => false) stoi.
Lemma z_options_ok : reg_ok Z.ltb Z.leb (fun _ => false) z_options.
Proof. apply solver_options_ok; reflexivity. Qed.

Example C38_set_case :
  has z_options (lit "CG  iteration Limit") (k_int 1 greaterequal 1 p_inf) (v_int 500) /\
  reads stoi (k_int 1 greaterequal 1 p_inf) (lit " 42") (v_int 42 : value Z) /\
  allowed Z.ltb Z.leb (fun _ => false) (k_int 1 greaterequal 1 p_inf) (v_int 42) /\
  g_locked z_options = false /\
  get_int (lit "cg iteration limit") (snd (z_set z_options (Some (lit "CG  iteration Limit")) (Some (lit " 42")))) = Some 42.
Proof.
  split; [exists (prepare (lit "cg iteration limit")); split; [vm_compute; reflexivity|left; vm_compute; reflexivity]|].
  split; [vm_compute; reflexivity|]. split; [cbn; lia|]. split; vm_compute; reflexivity.
Qed.

Example C38_refuse_case :
  fst (z_set z_options (Some (lit "cg iteration limit")) (Some (lit "0"))) = returns invalid_value /\
  fst (z_set z_options (Some (lit "cg limit")) (Some (lit "5"))) = returns invalid_value /\
  fst (z_set z_options (Some (lit "iterative method")) (Some (lit "Jacobi"))) = returns invalid_value.
Proof. repeat split; vm_compute; reflexivity. Qed.

Definition z_run := run Z.ltb Z.leb (fun _ => false) stoi.
Definition z_new : session Z := mkSess z_options false None.
Example C38_history_case :
  let mid := z_run [ev_input; ev_step false; ev_step true] z_new in
  fst (step Z.ltb Z.leb (fun _ => false) stoi (ev_set (Some (lit "cg abs tolerance")) (Some (lit "7"))) mid) = returns success /\
  get_real (lit "CG ABS tolerance") (ss_reg (z_run ([ev_input; ev_step false; ev_step true] ++ ev_set (Some (lit "cg abs tolerance")) (Some (lit "7")) :: [ev_solve]) z_new)) = Some 7 /\
  quiet Z.ltb Z.leb (fun _ => false) stoi [ev_solve] (snd (step Z.ltb Z.leb (fun _ => false) stoi (ev_set (Some (lit "cg abs tolerance")) (Some (lit "7"))) mid)) (lit "cg abs tolerance").
Proof.
  cbv zeta. split; [vm_compute; reflexivity|]. split; [vm_compute; reflexivity|].
  intros a e b n t E -> _. destruct a as [|x [|y a]]; discriminate.
Qed.

(** Text that is not a number, or is out of the range of int, does not give an error
    status for a numeric option: the conversion throws and nothing in the C function
    catches it. *)
Theorem C38_text_refuted :
  ~ forall (g : registry Z) n t, reg_ok Z.ltb Z.leb (fun _ => false) g ->
      exists s, fst (z_set g (Some n) (Some t)) = returns s.
Proof.
  intros H. destruct (H z_options (lit "cg iteration limit") (lit "many") z_options_ok) as (s & E).
  vm_compute in E. discriminate.
Qed.
Print Assumptions C38_text_refuted.

(** Text that only begins with a number is accepted: "1e3" sets an iteration limit of 1. *)
Theorem C38_trailing_text_refuted :
  exists t, t = lit "1e3" /\
    fst (z_set z_options (Some (lit "cg iteration limit")) (Some t)) = returns success /\
    get_int (lit "cg iteration limit") (snd (z_set z_options (Some (lit "cg iteration limit")) (Some t))) = Some 1.
Proof. exists (lit "1e3"). repeat split; vm_compute; reflexivity. Qed.
Print Assumptions C38_trailing_text_refuted.

(** A new right-hand side given while an RCI solve is in progress ends that solve but
    leaves the options locked: a valid setting is refused although nothing is solved. *)
Theorem C38_lock_refuted :
  ~ forall l (s : session Z), reg_ok Z.ltb Z.leb (fun _ => false) (ss_reg s) -> lock_ok s -> lock_ok (z_run l s).
Proof.
  intros H. specialize (H [ev_input; ev_step false; ev_input] z_new z_options_ok eq_refl). vm_compute in H. discriminate.
Qed.
Print Assumptions C38_lock_refuted.

(** A restart length set between two RCI solves for the same right-hand side reads back
    but the solver keeps the old one. *)
Theorem C38_restart_refuted :
  exists l, let s := z_run l z_new in
    get_int (lit "gmres restart iterations") (ss_reg s) = Some 5 /\ ss_restart s = Some 20 /\ ss_solving s = true.
Proof.
  exists [ev_set (Some (lit "iterative method")) (Some (lit "GMRES")); ev_input; ev_step true;
          ev_set (Some (lit "gmres restart iterations")) (Some (lit "5")); ev_step false].
  repeat split; vm_compute; reflexivity.
Qed.
Print Assumptions C38_restart_refuted.
