(** The option registry of the iterative solvers: include/aoclsparse_itsol_options.hpp
    (104-114 PrepareString, 164-326 OptionInt, 329-522 OptionReal, 524-594 OptionBool,
    597-741 OptionString, 744-1014 OptionRegistry), solvers/aoclsparse_itsol_list_options.hpp
    (register_options) and solvers/aoclsparse_itsol_functions.hpp 1622-1718
    (handle_parse_option), itsol_functions.cpp 62-93 (option_set).  Strings are lists of
    bytes; [::space::] and tolower are those of the C locale.  Real values, their
    comparisons and std::stod are parameters. *)
From Coq Require Import ZArith List Bool Ascii String.
From Verif Require Import Base UtilModel.
Import ListNotations.
Open Scope Z_scope.

Definition str := list ascii.
Definition lit (s : string) : str := list_ascii_of_string s.
Definition eqs (a b : str) : bool := if list_eq_dec ascii_dec a b then true else false.

(** isspace: 9-13 and 32; tolower *)
Definition is_space (c : ascii) : bool := let n := N_of_ascii c in (n =? 32)%N || ((9 <=? n)%N && (n <=? 13)%N).
Definition lower (c : ascii) : ascii := let n := N_of_ascii c in if ((65 <=? n)%N && (n <=? 90)%N)%bool then ascii_of_N (n + 32) else c.
Definition blank : ascii := " "%char.

(** options.hpp 104-114 *)
Fixpoint ltrim (s : str) : str := match s with c :: t => if is_space c then ltrim t else s | [] => [] end.
Definition rtrim (s : str) : str := rev (ltrim (rev s)).
Fixpoint squeeze (s : str) : str :=
  match s with
  | [] => []
  | c :: t => if is_space c then match t with d :: _ => if is_space d then squeeze t else blank :: squeeze t | [] => [blank] end
              else c :: squeeze t
  end.
Definition prepare (s : str) : str := map lower (squeeze (rtrim (ltrim s))).

Inductive lbound := m_inf | greaterthan | greaterequal.
Inductive ubound := p_inf | lessthan | lessequal.

(** std::stoi (strtol, base 10): blanks, one sign, digits up to the first other
    character; [None]: an exception is thrown
    (invalid_argument without digits, out_of_range beyond int) *)
Definition digit (c : ascii) : option Z :=
  let n := Z.of_N (N_of_ascii c) in if (48 <=? n) && (n <=? 57) then Some (n - 48) else None.
Fixpoint digits (acc : option Z) (s : str) : option Z :=
  match s with
  | c :: t => match digit c with Some v => digits (Some (match acc with Some a => 10 * a + v | None => v end)) t | None => acc end
  | [] => acc
  end.
Definition stoi (s : str) : option Z :=
  let s := ltrim s in
  let '(neg, s) := match s with
    | c :: t => if (c =? "-")%char then (true, t) else if (c =? "+")%char then (false, t) else (false, s)
    | [] => (false, []) end in
  match digits None s with
  | None => None
  | Some v => let v := if neg : bool then - v else v in if in_int 31 v then Some v else None
  end.

Section R.
  (** Real values: [lt], [le] the comparisons < and <=, [nan] std::isnan; [stod] the
      conversion of a string, [None] when it throws *)
  Context {F : Type} (lt le : F -> F -> bool) (nan : F -> bool) (stod : str -> option F).

  Record int_opt := mkI { i_name : str; i_val : Z; i_lo : Z; i_lb : lbound; i_hi : Z; i_ub : ubound; i_set : Z }.
  Record real_opt := mkR { r_name : str; r_val : F; r_lo : F; r_lb : lbound; r_hi : F; r_ub : ubound; r_set : Z }.
  Record bool_opt := mkB { b_name : str; b_val : bool; b_set : Z }.
  Record str_opt := mkS { s_name : str; s_val : str; s_labels : list (str * Z); s_set : Z }.
  Record registry := mkReg { g_int : list int_opt; g_real : list real_opt; g_bool : list bool_opt; g_str : list str_opt; g_locked : bool }.

  (** 283-303 *)
  Definition int_flag (v lo : Z) (lb : lbound) (hi : Z) (ub : ubound) : Z :=
    (match lb with greaterthan => if v <=? lo then 1 else 0 | greaterequal => if v <? lo then 2 else 0 | m_inf => 0 end) +
    (match ub with lessthan => if hi <=? v then 10 else 0 | lessequal => if hi <? v then 20 else 0 | p_inf => 0 end).
  (** 481-498; [value >= upper] is [upper <= value], [value > upper] is [upper < value] *)
  Definition real_flag (v lo : F) (lb : lbound) (hi : F) (ub : ubound) : Z :=
    (match lb with greaterthan => if le v lo then 1 else 0 | greaterequal => if lt v lo then 2 else 0 | m_inf => 0 end) +
    (match ub with lessthan => if le hi v then 10 else 0 | lessequal => if lt hi v then 20 else 0 | p_inf => 0 end).

  (** find_if, then the setter on the element found: outcome code and new vector.
      [set o] is [inl code] for an exception and [inr o'] otherwise *)
  Fixpoint set_first {O} (name : O -> str) (set : O -> Z + O) (p : str) (locked : bool) (l : list O) : Z * list O :=
    match l with
    | [] => (3, [])
    | o :: t =>
        if eqs (name o) p then
          if locked then (4, l)
          else match set o with inl c => (c, l) | inr o' => (0, o' :: t) end
        else let '(c, t') := set_first name set p locked t in (c, o :: t')
    end.
  Definition found {O} (name : O -> str) (p : str) (l : list O) : option O := find (fun o => eqs (name o) p) l.

  (** 309-319, 505-520, 588-593, 725-740 *)
  Definition set_int (v by_ : Z) (o : int_opt) : Z + int_opt :=
    if int_flag v (i_lo o) (i_lb o) (i_hi o) (i_ub o) =? 0 then inr (mkI (i_name o) v (i_lo o) (i_lb o) (i_hi o) (i_ub o) by_) else inl 1.
  Definition set_real (v : F) (by_ : Z) (o : real_opt) : Z + real_opt :=
    if nan v then inl 2
    else if real_flag v (r_lo o) (r_lb o) (r_hi o) (r_ub o) =? 0 then inr (mkR (r_name o) v (r_lo o) (r_lb o) (r_hi o) (r_ub o) by_) else inl 1.
  Definition set_bool (v : bool) (by_ : Z) (o : bool_opt) : Z + bool_opt := inr (mkB (b_name o) v by_).
  Definition set_str (v : str) (by_ : Z) (o : str_opt) : Z + str_opt :=
    let v := prepare v in
    if existsb (fun e => eqs (fst e) v) (s_labels o) then inr (mkS (s_name o) v (s_labels o) by_) else inl 2.

  (** 797-929: the four SetOption overloads *)
  Definition opt_set_int (n : str) (v by_ : Z) (g : registry) : Z * registry :=
    let '(c, l) := set_first i_name (set_int v by_) (prepare n) (g_locked g) (g_int g) in (c, mkReg l (g_real g) (g_bool g) (g_str g) (g_locked g)).
  Definition opt_set_real (n : str) (v : F) (by_ : Z) (g : registry) : Z * registry :=
    let '(c, l) := set_first r_name (set_real v by_) (prepare n) (g_locked g) (g_real g) in (c, mkReg (g_int g) l (g_bool g) (g_str g) (g_locked g)).
  Definition opt_set_bool (n : str) (v : bool) (by_ : Z) (g : registry) : Z * registry :=
    let '(c, l) := set_first b_name (set_bool v by_) (prepare n) (g_locked g) (g_bool g) in (c, mkReg (g_int g) (g_real g) l (g_str g) (g_locked g)).
  Definition opt_set_str (n : str) (v : str) (by_ : Z) (g : registry) : Z * registry :=
    let '(c, l) := set_first s_name (set_str v by_) (prepare n) (g_locked g) (g_str g) in (c, mkReg (g_int g) (g_real g) (g_bool g) l (g_locked g)).

  (** 931-1014: the getters; [None] is return code 3.  Key of a string option: labels.at *)
  Definition get_int (n : str) (g : registry) : option Z := option_map i_val (found i_name (prepare n) (g_int g)).
  Definition get_real (n : str) (g : registry) : option F := option_map r_val (found r_name (prepare n) (g_real g)).
  Definition get_bool (n : str) (g : registry) : option bool := option_map b_val (found b_name (prepare n) (g_bool g)).
  Definition get_str (n : str) (g : registry) : option str := option_map s_val (found s_name (prepare n) (g_str g)).
  Definition label_key (o : str_opt) : option Z := option_map snd (find (fun e => eqs (fst e) (s_val o)) (s_labels o)).

  (** Outcome of the public call: a status, or a C++ exception that leaves it *)
  Inductive outcome := returns (s : status) | throws.

  (** itsol_functions.hpp 1697-1717 *)
  Definition flag_status (c : Z) : status := if c =? 0 then success else if (1 <=? c) && (c <=? 4) then invalid_value else internal_error.

  (** itsol_functions.hpp 1622-1718; GetOption of a string option also looks its key up
      (labels.at throws when the value is no label) *)
  Definition parse_option (g : registry) (n v : option str) : outcome * registry :=
    match n, v with
    | Some n, Some v =>
        let fin r := let '(c, g') := r in (returns (flag_status c), g') in
        match get_int n g with
        | Some _ => match stoi v with Some i => fin (opt_set_int n i 1 g) | None => (throws, g) end
        | None =>
        match get_real n g with
        | Some _ => match stod v with Some r => fin (opt_set_real n r 1 g) | None => (throws, g) end
        | None =>
        match found s_name (prepare n) (g_str g) with
        | Some o => match label_key o with Some _ => fin (opt_set_str n v 1 g) | None => (throws, g) end
        | None =>
        match get_bool n g with
        | Some _ => match stoi v with Some i => fin (opt_set_bool n (negb (i =? 0)) 1 g) | None => (throws, g) end
        | None => (returns invalid_value, g)
        end end end end
    | _, _ => (returns invalid_pointer, g)
    end.

  (** 758-765 *)
  Definition set_lock (b : bool) (g : registry) : registry := mkReg (g_int g) (g_real g) (g_bool g) (g_str g) b.

  (** list_options.hpp: register_options; [zero], [one] and the two default tolerances
      are parameters.  The constructors prepare names, labels and defaults (std::map
      keeps the labels in order; only look-ups are used). *)
  Definition new_str (n : string) (ls : list (string * Z)) (d : string) : str_opt :=
    mkS (prepare (lit n)) (prepare (lit d)) (map (fun e => (prepare (lit (fst e)), snd e)) ls) 0.
  Definition solver_options (zero one tol2 tol : F) : registry :=
    let new_int n d := mkI (prepare (lit n)) d 1 greaterequal 1 p_inf 0 in
    let new_real n d := mkR (prepare (lit n)) d zero greaterequal one p_inf 0 in
    mkReg
      [new_int "cg iteration limit"%string 500; new_int "gmres iteration limit"%string 150; new_int "gmres restart iterations"%string 20]
      [new_real "cg rel tolerance"%string tol2; new_real "cg abs tolerance"%string tol; new_real "gmres rel tolerance"%string tol2; new_real "gmres abs tolerance"%string tol]
      []
      [new_str "iterative method" [("CG"%string, 1); ("PCG"%string, 1); ("GMRES"%string, 2); ("GM RES"%string, 2)] "CG";
       new_str "cg preconditioner" [("None"%string, 0); ("User"%string, 1); ("GS"%string, 3); ("SymGS"%string, 3); ("SGS"%string, 3)] "None";
       new_str "gmres preconditioner" [("None"%string, 0); ("User"%string, 1); ("ILU0"%string, 2)] "None"]
      false.

  (** The part of the solver handle that decides about the lock: itsol_data (solving,
      opts); [restart] is gmres->restart_iters when GMRES data are allocated *)
  Record session := mkSess { ss_reg : registry; ss_solving : bool; ss_restart : option Z }.

  Definition key_of (n : string) (g : registry) : option Z :=
    match found s_name (prepare (lit n)) (g_str g) with Some o => label_key o | None => None end.

  (** itsol_functions.hpp 333-378 solver_init as far as it reads options for GMRES
      (82-102: the restart length is read only when the data are allocated); allocation
      failures and size checks are not modelled *)
  Definition solver_init (s : session) : session :=
    match key_of "iterative method" (ss_reg s) with
    | Some 2 => match ss_restart s with
                | Some _ => s
                | None => mkSess (ss_reg s) (ss_solving s) (get_int (lit "gmres restart iterations") (ss_reg s))
                end
    | _ => s
    end.

  (** User calls: option_set; rci_input with valid arguments (296-334, with
      itsol_data_free 239-260); one call of rci_solve with valid arguments (485-556),
      [stops]: the solver asked to stop or failed; the forward solve (558-625), whose
      solver runs to completion inside the call *)
  Inductive event := ev_set (n v : option str) | ev_input | ev_step (stops : bool) | ev_solve.
  Definition step (e : event) (s : session) : outcome * session :=
    match e with
    | ev_set n v => let '(o, g) := parse_option (ss_reg s) n v in (o, mkSess g (ss_solving s) (ss_restart s))
    | ev_input => (returns success, mkSess (ss_reg s) false None)
    | ev_step stops =>
        let s := if ss_solving s then s
                 else let s := solver_init s in mkSess (set_lock true (ss_reg s)) true (ss_restart s) in
        (returns success, if stops then mkSess (set_lock false (ss_reg s)) false (ss_restart s) else s)
    | ev_solve =>
        let s := solver_init (mkSess (ss_reg s) false None) in
        (returns success, mkSess (set_lock false (ss_reg s)) false (ss_restart s))
    end.
  Definition run (l : list event) (s : session) : session := fold_left (fun s e => snd (step e s)) l s.
End R.
Arguments real_opt : clear implicits.
Arguments registry : clear implicits.
Arguments session : clear implicits.
