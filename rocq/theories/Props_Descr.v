(** C39: matrix descriptors. *)
From Coq Require Import ZArith List Bool Lia.
From Verif Require Import Base DescrModel DescrSpec DescrProof.
Import ListNotations.
Open Scope Z_scope.

(** One setter call with an arbitrary integer: accepted exactly for defined values;
    rejected calls change nothing; accepted ones change that field of that descriptor
    and nothing else. *)
Theorem C39_setters : forall f d v s,
  let '(st, s') := exec (Cset f d v) s in
  (d = None -> st = invalid_pointer) /\
  (d <> None -> (st = success <-> defined f v) /\ (st = success \/ st = invalid_value)) /\
  (st <> success -> s' = s) /\
  (st = success -> get f s' d = v /\ forall f' d', f' <> f \/ d' <> d -> get f' s' d' = get f' s d').
Proof. exact setter_ok. Qed.
Print Assumptions C39_setters.

(** Any history of setter and copy calls over any number of descriptors: the getters
    return the last accepted value. *)
Theorem C39_history : forall f h p w, shows f p h w <-> get f (after h) (Some p) = w.
Proof. exact history_ok. Qed.
Print Assumptions C39_history.

(** Getters always return a defined value; for a null descriptor the default. *)
Theorem C39_getters_defined : forall f h d, defined f (get f (after h) d) /\ get f (after h) None = 0.
Proof. intros f h d. split; [apply history_defined|destruct f; reflexivity]. Qed.
Print Assumptions C39_getters_defined.

Example C39_case : let h := [Ccopy (Some 2%nat) (Some 1%nat); Cset Ftype (Some 1%nat) 7; Cset Ftype (Some 1%nat) 3; Cset Fbase (Some 2%nat) 1] in
  get Ftype (after h) (Some 2%nat) = 3 /\ get Fbase (after h) (Some 2%nat) = 0 /\ shows Ftype 2 h 3.
Proof.
  repeat split. apply S_copy. apply S_rejected; [cbn; lia|]. apply S_set. cbn; auto.
Qed.
