(** "omp parallel for" loops of the product kernels, at the granularity of single
    accesses to the shared vector y.  The matrix arrays and x are only read, and the
    variables listed in private(...) or declared in the loop body belong to the thread,
    so an iteration is a program over y alone.  A vector load or store is one access per
    lane. *)
From Coq Require Import ZArith List Bool Arith.
From Verif Require Import Base Algebra Vec DoidModel MvModel FmtMvModel Br4Model.
Import ListNotations.
Open Scope Z_scope.

(** An iteration: read y[k] and go on with the value, write y[k], stop, or undefined
    behaviour (an access outside another array). *)
Inductive act (T : Type) :=
| a_end
| a_rd (k : Z) (f : T -> act T)
| a_wr (k : Z) (v : T) (next : act T)
| a_bad.
Arguments a_end {T}. Arguments a_rd {T}. Arguments a_wr {T}. Arguments a_bad {T}.

Section P.
  Context {T : Type}.

  (** Executed alone *)
  Fixpoint run (p : act T) (y : list T) : option (list T) :=
    match p with
    | a_end => Some y
    | a_rd k f => match rd y k with Some v => run (f v) y | None => None end
    | a_wr k v n => match wr y k v with Some y' => run n y' | None => None end
    | a_bad => None
    end.

  Fixpoint a_seq (p q : act T) : act T :=
    match p with
    | a_end => q
    | a_rd k f => a_rd k (fun v => a_seq (f v) q)
    | a_wr k v n => a_wr k v (a_seq n q)
    | a_bad => a_bad
    end.
  (** The iterations of [rows] one after the other: what one thread is given *)
  Fixpoint a_all (rows : list Z) (body : Z -> act T) : act T :=
    match rows with [] => a_end | i :: r => a_seq (body i) (a_all r body) end.
  (** Vector load, lane by lane *)
  Fixpoint a_load (lanes : list Z) (p : Z) (k : list T -> act T) : act T :=
    match lanes with [] => k [] | t :: l => a_rd (p + t) (fun v => a_load l p (fun r => k (v :: r))) end.
  (** Vector store, lane by lane; mirrors FmtMvModel.vstore *)
  Definition a_store (w : Z) (v : list T) (p : Z) : act T :=
    a_all (zrange 0 w) (fun l => match rd v l with Some e => a_wr (p + l) e a_end | None => a_bad end).

  (** ** The team: thread [t] runs [ths t]; the shared vector is [y].  A step of a thread
      that has finished does nothing. *)
  Definition step (t : nat) (st : (nat -> act T) * list T) : option ((nat -> act T) * list T) :=
    let '(ths, y) := st in
    let set p := fun u => if Nat.eqb u t then p else ths u in
    match ths t with
    | a_end => Some (ths, y)
    | a_rd k f => match rd y k with Some v => Some (set (f v), y) | None => None end
    | a_wr k v n => match wr y k v with Some y' => Some (set n, y') | None => None end
    | a_bad => None
    end.
  Fixpoint exec (sched : list nat) (st : (nat -> act T) * list T) : option ((nat -> act T) * list T) :=
    match sched with
    | [] => Some st
    | t :: s => match step t st with Some st' => exec s st' | None => None end
    end.
  (** [owners]: the iterations given to each thread, in the order it runs them *)
  Definition team_of (owners : list (list Z)) (body : Z -> act T) : nat -> act T :=
    fun t => a_all (nth t owners []) body.
  (** Which element of y the thread accesses next *)
  Definition next_at (p : act T) : option Z :=
    match p with a_rd k _ => Some k | a_wr k _ _ => Some k | _ => None end.
End P.

(** ** The loop bodies *)
Section K.
  Context {T : Type} (O : ops T).
  Local Notation zero := (o0 O).
  Local Notation one := (o1 O).
  Local Infix "+!" := (oadd O) (at level 50, left associativity).
  Local Infix "*!" := (omul O) (at level 40, left associativity).
  Local Notation "a ==! b" := (oeqb O a b) (at level 70).

  Definition a_of (r : option T) (k : T -> act T) : act T := match r with Some v => k v | None => a_bad end.

  (** csrmv_kr.hpp 494-506: "alpha * A * x", "(beta * y) + ..." *)
  Definition fin_act (alpha beta : T) (i : Z) (result : T) : act T :=
    let result := if negb (alpha ==! one) then alpha *! result else result in
    if negb (beta ==! zero) then a_rd i (fun yi => a_wr i (result +! beta *! yi) a_end) else a_wr i result a_end.

  (** csrmv_kr.hpp 486-507 *)
  Definition gn_act (b : Z) (alpha : T) (val : list T) (col row : list Z) (x : list T) (beta : T) (i : Z) : act T :=
    a_of (let* s := rd row i in let* e := rd row (i + 1) in dot_row O b s e val col x zero) (fin_act alpha beta i).

  (** csrmv_kr.hpp 757-828, 972-1038, csrmv_avx512.cpp 58-133 *)
  Definition vec_act (k : Z) (hsum : list T -> T) (b : Z) (alpha : T) (val : list T) (col row : list Z) (x : list T) (beta : T) (i : Z) : act T :=
    a_of (let* e := rd row (i + 1) in let* s := rd row i in vec_row O k hsum b s e val col x zero) (fin_act alpha beta i).

  (** csrmv_kr.hpp 875-944 *)
  Definition ptr_act (d : descr) (alpha : T) (val : list T) (col crstart : list Z) (eoff : Z) (crend : list Z) (x : list T) (beta : T) (i : Z) : act T :=
    let b := d_base d in
    let '(start_offset, end_offset) := tri_offsets d in
    let diag_first := negb (start_offset =? 0) && is_unit d in
    let diag_last := negb (end_offset =? 0) && is_unit d in
    a_of (let* cs := rd crstart i in
          let* ce := rd crend (i + eoff) in
          let* r0 := (if diag_first then let* xi := rd x (i + b - b) in Some (zero +! xi) else Some zero) in
          let* r1 := vec_row O 4 (hsum4 O) b (cs + start_offset) (ce + end_offset) val col x r0 in
          if diag_last then let* xi := rd x (i + b - b) in Some (r1 +! xi) else Some r1)
      (fun r2 => let result := alpha *! r2 in
        if negb (beta ==! zero) then a_rd i (fun yi => a_wr i (result +! beta *! yi) a_end) else a_wr i result a_end).

  (** csrmv_kt.cpp 56-88 *)
  Definition kt_act (tsz b : Z) (alpha : T) (val : list T) (col row : list Z) (x : list T) (beta : T) (i : Z) : act T :=
    a_of (let* e := rd row (i + 1) in
          let* s := rd row i in
          let k_rem := (e - s) mod tsz in
          let* vb := vec_loop O tsz b s (e - k_rem) val col x (zrep tsz zero) in
          dot_row O b (e - k_rem) e val col x (hsum_kt O vb))
      (fun r => let result := r *! alpha in
        if beta ==! zero then a_wr i result a_end
        else a_rd i (fun yi => if beta ==! one then a_wr i (yi +! result) a_end else a_wr i (yi *! beta +! result) a_end)).

  (** ellmv.hpp 54-84 *)
  Definition ell_act (alpha : T) (val : list T) (col : list Z) (wd b : Z) (x : list T) (beta : T) (i : Z) : act T :=
    a_of (forb 0 wd (fun p r => ell_step O b val col x (i * wd + p) r) zero) (fin_act alpha beta i).

  (** ellmv.hpp 110-205, ellmv_avx512.cpp 39-137 *)
  Definition ell_vec_act (k : Z) (hsum : list T -> T) (alpha : T) (val : list T) (col : list Z) (wd b : Z) (x : list T) (beta : T) (i : Z) : act T :=
    a_of (ell_vec_row O k hsum b wd val col x i) (fin_act alpha beta i).

  (** ellmv.hpp 339-357, 423-442, 646-665 *)
  Definition ellt_act (alpha : T) (m : Z) (val : list T) (col : list Z) (wd b : Z) (x : list T) (beta : T) (j : Z) : act T :=
    a_of (ellt_dot O b m wd val col x j) (fin_act alpha beta j).

  (** The tail of the blocks of [k] rows: ellmv.hpp 402-412, csrmv_kr.hpp 1113-1126 *)
  Definition block_act (k : Z) (alpha beta : T) (joff : Z) (res : option (list T)) : act T :=
    match res with
    | None => a_bad
    | Some res =>
        let res := if negb (alpha ==! one) then map (fun r => alpha *! r) res else res in
        if negb (beta ==! zero) then a_load (zrange 0 k) joff (fun vy => a_store k (map2 (fun v r => beta *! v +! r) vy res) joff)
        else a_store k res joff
    end.

  (** ellmv.hpp 390-412, 612-636, ellmv_avx512.cpp 165-196 *)
  Definition ellt_block_act (k : Z) (alpha : T) (m : Z) (val : list T) (col : list Z) (wd b : Z) (x : list T) (beta : T) (j : Z) : act T :=
    block_act k alpha beta (j * k) (for_ 0 wd (fun i res =>
        let off := j * k + i * m in
        let* vv := vload k val off in
        let* vx := vgather k b col x (off + b) in
        Some (map2 (fun p s => p +! s) (map2 (fun a c => a *! c) vv vx) res)) (zrep k zero)).

  (** ellmv.hpp 686-757: the rows left to CSR in the hybrid storage *)
  Definition hyb_act (k : Z) (hsum : list T -> T) (alpha : T) (cval : list T) (cptr cind rmap : list Z) (b : Z) (x : list T) (beta : T) (i : Z) : act T :=
    match rd rmap i with
    | None => a_bad
    | Some r => a_of (let* s := rd cptr r in let* e := rd cptr (r + 1) in vec_row O k hsum b s e cval cind x zero) (fin_act alpha beta r)
    end.

  (** csrmv_kr.hpp 1090-1126 *)
  Definition br4_act (alpha : T) (b : Z) (bp ind4 : list Z) (val4 x : list T) (beta : T) (i : Z) : act T :=
    block_act 4 alpha beta (i * 4) (
      let* r := rd bp (i * 4) in
      let* r1 := rd bp (i * 4 + 1) in
      for_ 0 (r1 - r) (fun j res =>
        let off := r - b + j * 4 in
        let* vvals := vload 4 val4 off in
        let* vx := vgather 4 b ind4 x (off + b) in
        Some (map2 (fun p s => p +! s) (map2 (fun a c => a *! c) vvals vx) res)) (zrep 4 zero)).

  (** csrmv_kr.hpp 1135-1160 *)
  Definition br4_tail_act (alpha : T) (b : Z) (bp ind4 : list Z) (val4 x : list T) (beta : T) (k : Z) : act T :=
    a_of (let* s := rd bp k in
          let* e := rd bp (k + 1) in
          for_ (s - b) (e - b) (fun j r =>
            let* v := rd val4 j in
            let* c := rd ind4 j in
            let* xv := rd x (c - b) in
            Some (r +! v *! xv)) zero) (fin_act alpha beta k).

  (** csrmv_kt.cpp 126-136: y = 0 or y = beta y before the transposed product *)
  Definition scale_act (beta : T) (i : Z) : act T :=
    if beta ==! zero then a_wr i zero a_end else a_rd i (fun v => a_wr i (beta *! v) a_end).
End K.
