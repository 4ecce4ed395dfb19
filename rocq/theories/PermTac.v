(** A decision procedure for permutations of concatenated lists. *)
From Coq Require Import List Permutation Arith Bool.
Import ListNotations.

Inductive lexp := LA (n : nat) | LApp (a b : lexp) | LNil.
Fixpoint lflat (e : lexp) : list nat := match e with LA n => [n] | LApp a b => lflat a ++ lflat b | LNil => [] end.
Fixpoint rem1 (n : nat) (l : list nat) : option (list nat) :=
  match l with [] => None | m :: l => if Nat.eqb m n then Some l else match rem1 n l with Some r => Some (m :: r) | None => None end end.
Fixpoint permb (l r : list nat) : bool :=
  match l with
  | [] => match r with [] => true | _ => false end
  | n :: l => match rem1 n r with Some r => permb l r | None => false end
  end.
Section D.
  Context {A : Type} (env : list (list A)).
  Fixpoint lden (e : lexp) : list A := match e with LA n => nth n env [] | LApp a b => lden a ++ lden b | LNil => [] end.
  Definition fden (l : list nat) : list A := flat_map (fun n => nth n env []) l.
  Lemma lden_flat : forall e, lden e = fden (lflat e).
  Proof. induction e; cbn; [now rewrite app_nil_r| |reflexivity]. unfold fden. rewrite flat_map_app. now rewrite IHe1, IHe2. Qed.
  Lemma rem1_ok : forall n l r, rem1 n l = Some r -> Permutation (n :: r) l.
  Proof.
    induction l as [|m l IH]; intros r; cbn; [discriminate|]. destruct (Nat.eqb_spec m n).
    - intros E. inversion E; subst. reflexivity.
    - destruct (rem1 n l) as [r'|] eqn:E'; [|discriminate]. intros E. inversion E; subst. rewrite perm_swap. constructor. now apply IH.
  Qed.
  Lemma permb_ok : forall l r, permb l r = true -> Permutation l r.
  Proof.
    induction l as [|n l IH]; intros r; cbn; [destruct r; [constructor|discriminate]|].
    destruct (rem1 n r) as [r'|] eqn:E; [|discriminate]. intros H. apply rem1_ok in E. rewrite <- E. constructor. now apply IH.
  Qed.
  Lemma lperm : forall a b, permb (lflat a) (lflat b) = true -> Permutation (lden a) (lden b).
  Proof. intros a b H. rewrite !lden_flat. unfold fden. apply Permutation_flat_map. now apply permb_ok. Qed.
End D.

Ltac lookup_env x env :=
  match env with
  | x :: _ => constr:(0)
  | _ :: ?e => let n := lookup_env x e in constr:(S n)
  end.
Ltac in_env x env := match env with x :: _ => constr:(true) | _ :: ?e => in_env x e | _ => constr:(false) end.
Ltac add_env x env := match in_env x env with true => env | false => constr:(x :: env) end.
Ltac collect l env :=
  match l with
  | ?a ++ ?b => let e := collect a env in collect b e
  | [] => env
  | [?x] => add_env ([x]) env
  | ?x :: ?r => let e := add_env ([x]) env in collect r e
  | _ => add_env l env
  end.
Ltac reify l env :=
  match l with
  | ?a ++ ?b => let x := reify a env in let y := reify b env in constr:(LApp x y)
  | [] => constr:(LNil)
  | [?x] => let n := lookup_env ([x]) env in constr:(LA n)
  | ?x :: ?r => let n := lookup_env ([x]) env in let y := reify r env in constr:(LApp (LA n) y)
  | _ => let n := lookup_env l env in constr:(LA n)
  end.
Ltac perm_solve :=
  match goal with
  | |- @Permutation ?A ?l ?r =>
      let env := collect l (@nil (list A)) in
      let env := collect r env in
      let a := reify l env in
      let b := reify r env in
      change (Permutation (lden env a) (lden env b)); apply lperm; reflexivity
  end.

Example perm_solve_test : forall (x y : nat) (l m : list nat), Permutation (x :: l ++ [] ++ y :: m) (m ++ [y] ++ l ++ [x]).
Proof. intros. perm_solve. Qed.
