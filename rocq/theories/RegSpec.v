(** What an option of the iterative solvers means to a user: its name up to case and
    blanks, its type and bounds, and the value that was set last. *)
From Coq Require Import ZArith List Bool Ascii String Sorted.
From Verif Require Import Base RegModel.
Import ListNotations.
Open Scope Z_scope.

(** The words of a string: maximal runs of non-blank characters, in lower case *)
Fixpoint words (s : str) : list str :=
  match s with
  | [] => []
  | c :: t => if is_space c then words t
              else match t with
                   | d :: _ => if is_space d then [lower c] :: words t
                               else match words t with w :: ws => (lower c :: w) :: ws | [] => [[lower c]] end
                   | [] => [[lower c]]
                   end
  end.
Definition same_name (a b : str) : Prop := words a = words b.

Section R.
  Context {F : Type} (lt le : F -> F -> bool) (nan : F -> bool).

  (** The value of an option, whatever its type *)
  Inductive value := v_int (z : Z) | v_real (x : F) | v_str (s : str) | v_bool (b : bool).
  (** What is fixed about an option *)
  Inductive kind :=
  | k_int (lo : Z) (lb : lbound) (hi : Z) (ub : ubound)
  | k_real (lo : F) (lb : lbound) (hi : F) (ub : ubound)
  | k_str (labels : list (str * Z))
  | k_bool.

  Definition above (lo v : Z) (lb : lbound) : Prop := match lb with m_inf => True | greaterthan => lo < v | greaterequal => lo <= v end.
  Definition below (v hi : Z) (ub : ubound) : Prop := match ub with p_inf => True | lessthan => v < hi | lessequal => v <= hi end.
  (** For reals: not refused by the comparison named by the bound *)
  Definition aboveR (lo v : F) (lb : lbound) : Prop := match lb with m_inf => True | greaterthan => le v lo = false | greaterequal => lt v lo = false end.
  Definition belowR (v hi : F) (ub : ubound) : Prop := match ub with p_inf => True | lessthan => le hi v = false | lessequal => lt hi v = false end.

  Definition allowed (k : kind) (v : value) : Prop :=
    match k, v with
    | k_int lo lb hi ub, v_int z => above lo z lb /\ below z hi ub
    | k_real lo lb hi ub, v_real x => nan x = false /\ aboveR lo x lb /\ belowR x hi ub
    | k_str labels, v_str s => exists k, In (s, k) labels
    | k_bool, v_bool _ => True
    | _, _ => False
    end.

  (** All options of a registry in the order in which a name is looked up *)
  Definition options (g : registry F) : list (str * kind * value) :=
    map (fun o => (i_name o, k_int (i_lo o) (i_lb o) (i_hi o) (i_ub o), v_int (i_val o))) (g_int g) ++
    map (fun o => (r_name o, k_real (r_lo o) (r_lb o) (r_hi o) (r_ub o), v_real (r_val o))) (g_real g) ++
    map (fun o => (s_name o, k_str (s_labels o), v_str (s_val o))) (g_str g) ++
    map (fun o => (b_name o, k_bool, v_bool (b_val o))) (g_bool g).

  (** Names are distinct as the user sees them and every value is allowed *)
  Definition reg_ok (g : registry F) : Prop :=
    (forall n k v, In (n, k, v) (options g) -> prepare n = n /\ allowed k v) /\
    NoDup (map (fun o => words (fst (fst o))) (options g)).

  (** Name [n] denotes an option of kind [k] that holds [v] *)
  Definition has (g : registry F) (n : str) (k : kind) (v : value) : Prop :=
    exists n', same_name n n' /\ In (n', k, v) (options g).

  (** The value that text [t] stands for in an option of kind [k] *)
  Definition reads (stod : str -> option F) (k : kind) (t : str) (v : value) : Prop :=
    match k, v with
    | k_int _ _ _ _, v_int z => stoi t = Some z
    | k_real _ _ _ _, v_real x => stod t = Some x
    | k_str _, v_str s => s = prepare t
    | k_bool, v_bool b => exists z, stoi t = Some z /\ b = negb (z =? 0)
    | _, _ => False
    end.

  (** Histories of calls on one solver handle *)
  Context (stod : str -> option F).
  (** [quiet l s m]: no event of [l] run from [s] sets option [m] successfully *)
  Definition quiet (l : list event) (s : session F) (m : str) : Prop :=
    forall a e b n t, l = a ++ e :: b -> e = ev_set (Some n) (Some t) -> same_name n m -> fst (step lt le nan stod e (run lt le nan stod a s)) <> returns success.


  (** Options are locked exactly while a solve is in progress *)
  Definition lock_ok (s : session F) : Prop := g_locked (ss_reg s) = ss_solving s.

  (** No new right-hand side while a solve is in progress *)
  Definition orderly (l : list event) (s : session F) : Prop :=
    forall a b, l = a ++ ev_input :: b -> ss_solving (run lt le nan stod a s) = false.

End R.
Arguments value : clear implicits.
Arguments kind : clear implicits.
