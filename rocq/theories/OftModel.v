(** On-the-fly transposition of compressed rows: level3/aoclsparse_sypr.hpp 110-241
    (class oftrans). *)
From Coq Require Import ZArith List Bool.
From Verif Require Import Base.
Import ListNotations.
Open Scope Z_scope.

(** sypr.hpp 122-153: the changing members irstart, col_head, row_next *)
Record oft := mkOft { f_start : list Z; f_head : list Z; f_next : list Z }.

Section F.
  (** The constant members: irend, e_offset, icol, base.  A pointer into an array is the
      rest of that array. *)
  Variables (irend : list Z) (e_off : Z) (icol : list Z) (base : Z).

  (** sypr.hpp 162-208: init.  Null pointers are tested by all callers; allocation
      failure is not modelled. *)
  Definition oft_init (m n : Z) (irstart : list Z) (s_off : Z) : option oft :=
    for_ 0 m (fun i o =>
      let* s := rd irstart i in
      let idx := s - s_off in
      let* st := wr (f_start o) i idx in
      let* e := rd irend i in
      if idx <? e - e_off then
        let* c := rd icol idx in
        let j := c - base in
        let* h := rd (f_head o) j in
        let* nx := wr (f_next o) i h in
        let* hd := wr (f_head o) j i in
        Some (mkOft st hd nx)
      else Some (mkOft st (f_head o) (f_next o)))
      (mkOft (zrep m 0) (zrep n (-1)) (zrep m (-1))).

  (** sypr.hpp 224-240: rnext *)
  Definition rnext (o : oft) (row : Z) : option (Z * oft) :=
    let* next := rd (f_next o) row in
    let* s := rd (f_start o) row in
    let idx := s + 1 in
    let* st := wr (f_start o) row idx in
    let* e := rd irend row in
    if idx <? e - e_off then
      let* c := rd icol idx in
      let j := c - base in
      let* h := rd (f_head o) j in
      let* nx := wr (f_next o) row h in
      let* hd := wr (f_head o) j row in
      Some (next, mkOft st hd nx)
    else Some (next, mkOft st (f_head o) (f_next o)).

  Context {S : Type}.
  (** The loop [row = rfirst(i); while(row >= 0) { idx = ridx(row); body; row = rnext(row); }]
      of every user of the class.  [fuel]: bound on the number of rounds; running out of
      it is [None] (a loop that does not end in time), so a result means it ended. *)
  Fixpoint oft_while (fuel : nat) (body : Z -> Z -> S -> option S) (row : Z) (o : oft) (s : S) : option (oft * S) :=
    if row <? 0 then Some (o, s)
    else match fuel with
    | Datatypes.O => None
    | Datatypes.S fuel =>
        let* idx := rd (f_start o) row in
        let* s := body row idx s in
        let* (next, o) := rnext o row in
        oft_while fuel body next o s
    end.
  Definition oft_column (m : Z) (body : Z -> Z -> S -> option S) (i : Z) (os : oft * S) : option (oft * S) :=
    let '(o, s) := os in
    let* h := rd (f_head o) i in
    oft_while (Datatypes.S (Z.to_nat m)) body h o s.
End F.
