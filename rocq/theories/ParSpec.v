(** What it means for a parallel loop not to depend on how its iterations are given to the
    threads and how the threads interleave. *)
From Coq Require Import ZArith List Permutation.
From Verif Require Import Base ParModel.
Import ListNotations.
Open Scope Z_scope.

Definition finished {T} (ths : nat -> act T) : Prop := forall t, ths t = a_end.
(** No two threads are about to access the same element (so no data race, whatever the
    two accesses are). *)
Definition no_race {T} (ths : nat -> act T) : Prop :=
  forall t u k, t <> u -> next_at (ths t) = Some k -> next_at (ths u) = Some k -> False.

(** The loop "for i = lo .. hi-1" with body [body], started on [y], delivers [y1]:
    however its iterations are distributed over the threads, in whatever order each thread
    runs its own, and whatever the interleaving of the accesses, nothing undefined
    happens, there is no race, the team can always finish, and once it has, y is [y1]. *)
Definition any_schedule {T} (body : Z -> act T) (lo hi : Z) (y y1 : list T) : Prop :=
  forall owners sched, Permutation (concat owners) (zrange lo hi) ->
    exists ths y', exec sched (team_of owners body, y) = Some (ths, y') /\
      (finished ths -> y' = y1) /\ no_race ths /\
      exists more ths2 y2, exec more (ths, y') = Some (ths2, y2) /\ finished ths2.
