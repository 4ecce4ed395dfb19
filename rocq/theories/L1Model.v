(** Level-1 kernels: library/src/level1.  A pointer argument is an [option]al array,
    [None] the null pointer; vector registers are lists of lanes. *)
From Coq Require Import ZArith List Bool.
From Verif Require Import Base Algebra Vec DispatchModel.
Import ListNotations.
Open Scope Z_scope.

(** What the dispatcher knows: CPU flags, micro-architecture, hint, hint changed, and
    the type of the build. *)
Record cpu := mkCpu { u_flags : list bool; u_arch : Z; u_hint : Z; u_upd : bool; u_512 : bool }.
Definition isa_avx512vl := 5.

(** The four-row tables of axpyi.hpp 85-90, sctr.hpp 96-101, roti.hpp 90-95,
    dot.hpp 106-111, dense_dot.hpp 66-71 have the shape of [csrmv_table]. *)
Definition pick4 (c : cpu) (kid : Z) : option Z :=
  csrmv_choice (u_flags c) (u_arch c) (u_hint c) (u_upd c) (u_512 c) kid.
(** gthr.hpp 122-127 *)
Definition gthr_table (avx512_build : bool) : list tentry :=
  [mkEntry (Some 0) isa_generic arch_all; mkEntry (Some 1) isa_avx2 arch_all;
   orl avx512_build (mkEntry (Some 2) isa_avx512vl arch_all); orl avx512_build (mkEntry (Some 3) isa_avx512f arch_all)].
Definition pick_gthr (c : cpu) (kid : Z) : option Z :=
  match oracle (u_flags c) (u_arch c) (u_hint c) (u_upd c) (gthr_table (u_512 c)) None kid 0 4 with Some r => r | None => None end.

Section L1.
  Context {T : Type} (O : ops T).
  Local Notation zero := (o0 O).
  Local Infix "+!" := (oadd O) (at level 50, left associativity).
  Local Infix "*!" := (omul O) (at level 40, left associativity).
  Local Infix "-!" := (osub O) (at level 50, left associativity).

  (** Lanes per register for the element type: 256-bit and 512-bit registers. *)
  Variables (w256 w512 : Z).

  (** kt_set_p: indirect load; kt_scatter_p: indirect store, lane by lane;
      kt_storeu_p: consecutive store. *)
  Definition vgather (y : list T) (ks : list Z) : option (list T) := mapM (rd y) ks.
  Definition vscatter (w : Z) (v : list T) (y : list T) (ks : list Z) : option (list T) :=
    for_ 0 w (fun l y => let* k := rd ks l in let* e := rd v l in wr y k e) y.
  Definition vstore (w : Z) (v : list T) (x : list T) (p : Z) : option (list T) :=
    for_ 0 w (fun l x => let* e := rd v l in wr x (p + l) e) x.

  (** ** axpyi *)
  (** axpyi.hpp 36-52 *)
  Definition axpyi_ref (nnz : Z) (a : T) (x : list T) (indx : list Z) (y : list T) : option (status * list T) :=
    match forc 0 nnz (fun i y =>
        let* k := rd indx i in
        if k <? 0 then Some (Ret (invalid_index_value, y)) else
        let* xi := rd x i in
        let* yk := rd y k in
        let* y' := wr y k (a *! xi +! yk) in Some (Go y')) y with
    | Some (inl y) => Some (success, y)
    | Some (inr r) => Some r
    | None => None
    end.
  (** axpyi_kt.cpp 28-57.  The vector loop runs while i + tsz - 1 < nnz, that is
      nnz / tsz times. *)
  Definition axpyi_kt (w : Z) (nnz : Z) (a : T) (x : list T) (indx : list Z) (y : list T) : option (status * list T) :=
    let* y := for_ 0 (nnz / w) (fun t y =>
      let* xv := vload w x (t * w) in
      let* ks := vload w indx (t * w) in
      let* yv := vgather y ks in
      vscatter w (map2 (fun p q => a *! p +! q) xv yv) y ks) y in
    let* y := for_ (nnz / w * w) nnz (fun i y =>
      let* k := rd indx i in
      let* xi := rd x i in
      let* yk := rd y k in
      wr y k (a *! xi +! yk)) y in
    Some (success, y).
  (** axpyi.hpp 57-103 *)
  Definition axpyi (c : cpu) (nnz : Z) (a : T) (x : option (list T)) (indx : option (list Z)) (y : option (list T)) (kid : Z)
    : option (status * option (list T)) :=
    match x, indx, y with
    | Some xl, Some il, Some yl =>
        if nnz =? 0 then Some (success, y)
        else if nnz <? 0 then Some (invalid_size, y)
        else match pick4 c kid with
        | None => Some (invalid_kid, y)
        | Some k =>
            let* (st, yl) := if k =? 0 then axpyi_ref nnz a xl il yl
                             else if k <=? 2 then axpyi_kt w256 nnz a xl il yl else axpyi_kt w512 nnz a xl il yl in
            Some (st, Some yl)
        end
    | _, _, _ => Some (invalid_pointer, y)
    end.

  (** ** roti *)
  (** roti.hpp 36-54 *)
  Definition roti_ref (nnz : Z) (x : list T) (indx : list Z) (y : list T) (c s : T) : option (status * (list T * list T)) :=
    match forc 0 nnz (fun i st => let '(x, y) := st in
        let* k := rd indx i in
        if k <? 0 then Some (Ret (invalid_index_value, (x, y))) else
        let* temp := rd x i in
        let* yk := rd y k in
        let* x' := wr x i (c *! temp +! s *! yk) in
        let* yk := rd y k in
        let* y' := wr y k (c *! yk -! s *! temp) in Some (Go (x', y'))) (x, y) with
    | Some (inl r) => Some (success, r)
    | Some (inr r) => Some r
    | None => None
    end.
  (** roti_kt.cpp 33-86 *)
  Definition roti_kt (w : Z) (nnz : Z) (x : list T) (indx : list Z) (y : list T) (c s : T) : option (status * (list T * list T)) :=
    let vc := nnz / w in
    let rem := nnz mod w in
    let* (x, y) := for_ 0 vc (fun i st => let '(x, y) := st in
      let* xv := vload w x (i * w) in
      let* ks := vload w indx (i * w) in
      let* yv := vgather y ks in
      let t0 := map (fun p => c *! p) xv in
      let t1 := map (fun p => s *! p) xv in
      let t0 := map2 (fun q r => s *! q +! r) yv t0 in
      let t1 := map2 (fun q r => c *! q -! r) yv t1 in
      let* x := vstore w t0 x (i * w) in
      let* y := vscatter w t1 y ks in Some (x, y)) (x, y) in
    let* r := for_ (nnz - rem) nnz (fun i st => let '(x, y) := st in
      let* k := rd indx i in
      let* temp := rd x i in
      let* yk := rd y k in
      let* x' := wr x i (c *! temp +! s *! yk) in
      let* yk := rd y k in
      let* y' := wr y k (c *! yk -! s *! temp) in Some (x', y')) (x, y) in
    Some (success, r).
  (** roti.hpp 59-107 *)
  Definition roti (cx : cpu) (nnz : Z) (x : option (list T)) (indx : option (list Z)) (y : option (list T)) (c s : T) (kid : Z)
    : option (status * (option (list T) * option (list T))) :=
    match x, indx, y with
    | Some xl, Some il, Some yl =>
        if nnz =? 0 then Some (success, (x, y))
        else if nnz <? 0 then Some (invalid_size, (x, y))
        else match pick4 cx kid with
        | None => Some (invalid_kid, (x, y))
        | Some k =>
            let* (st, r) := if k =? 0 then roti_ref nnz xl il yl c s
                             else if k <=? 2 then roti_kt w256 nnz xl il yl c s else roti_kt w512 nnz xl il yl c s in
            Some (st, (Some (fst r), Some (snd r)))
        end
    | _, _, _ => Some (invalid_pointer, (x, y))
    end.

  (** ** Index argument: an array of indices or a stride (l1_kt.hpp: Index::type) *)
  Inductive index := Indexed (l : list Z) | Strided (s : Z).
  (** Lane addresses of vector [t]: xi + t*tsz, or xstride[l] = l*xi from base (t*xi)*tsz. *)
  Definition lane_addr (w : Z) (xi : index) (t : Z) : option (list Z) :=
    match xi with
    | Indexed l => vload w l (t * w)
    | Strided s => Some (map (fun l => (t * s) * w + l * s) (zrange 0 w))
    end.
  Definition addr (xi : index) (i : Z) : option Z :=
    match xi with Indexed l => rd l i | Strided s => Some (s * i) end.

  (** ** sctr *)
  (** sctr.hpp 34-55: only an index array is checked *)
  Definition sctr_ref (nnz : Z) (x : list T) (xi : index) (y : list T) : option (status * list T) :=
    match forc 0 nnz (fun i y =>
        let* k := addr xi i in
        if (match xi with Indexed _ => true | Strided _ => false end) && (k <? 0) then Some (Ret (invalid_index_value, y)) else
        let* e := rd x i in
        let* y' := wr y k e in Some (Go y')) y with
    | Some (inl y) => Some (success, y)
    | Some (inr r) => Some r
    | None => None
    end.
  (** sctr_kt.cpp 34-86 *)
  Definition sctr_kt (w : Z) (nnz : Z) (x : list T) (xi : index) (y : list T) : option (status * list T) :=
    let count := nnz / w in
    let rem := nnz mod w in
    let* y := for_ 0 count (fun i y =>
      let* xv := vload w x (i * w) in
      let* ks := lane_addr w xi i in
      vscatter w xv y ks) y in
    let* y := for_ (nnz - rem) nnz (fun i y =>
      let* k := addr xi i in
      let* e := rd x i in wr y k e) y in
    Some (success, y).
  (** sctr.hpp 60-118; a null index array is [None] *)
  Definition sctr (c : cpu) (nnz : Z) (x : option (list T)) (xi : option index) (y : option (list T)) (kid : Z)
    : option (status * option (list T)) :=
    match x, y with
    | Some xl, Some yl =>
        if nnz =? 0 then Some (success, y)
        else if nnz <? 0 then Some (invalid_size, y)
        else match xi with
        | None => Some (invalid_pointer, y)
        | Some xi =>
          if (match xi with Strided s => s <=? 0 | Indexed _ => false end) then Some (invalid_size, y) else
          match pick4 c kid with
          | None => Some (invalid_kid, y)
          | Some k =>
            let* (st, yl) := if k =? 0 then sctr_ref nnz xl xi yl
                             else if k <=? 2 then sctr_kt w256 nnz xl xi yl else sctr_kt w512 nnz xl xi yl in
            Some (st, Some yl)
          end
        end
    | _, _ => Some (invalid_pointer, y)
    end.

  (** ** gthr: [zap] is OP == gatherz (offered with an index array only) *)
  (** gthr.hpp 34-67 *)
  Definition gthr_ref (zap : bool) (nnz : Z) (y x : list T) (xi : index) : option (status * (list T * list T)) :=
    match forc 0 nnz (fun i st => let '(y, x) := st in
        let* k := addr xi i in
        if (match xi with Indexed _ => true | Strided _ => false end) && (k <? 0) then Some (Ret (invalid_index_value, (y, x))) else
        let* e := rd y k in
        let* x' := wr x i e in
        let* y' := if zap then wr y k zero else Some y in Some (Go (y', x'))) (y, x) with
    | Some (inl r) => Some (success, r)
    | Some (inr r) => Some r
    | None => None
    end.
  (** gthr_kt.cpp 29-90: the strided vector loop never zeroes *)
  Definition gthr_kt (w : Z) (zap : bool) (nnz : Z) (y x : list T) (xi : index) : option (status * (list T * list T)) :=
    let count := nnz / w in
    let rem := nnz mod w in
    let* (y, x) := for_ 0 count (fun i st => let '(y, x) := st in
      let* ks := lane_addr w xi i in
      let* yv := vgather y ks in
      let* x := vstore w yv x (i * w) in
      let* y := if (match xi with Indexed _ => true | Strided _ => false end) && zap
                then vscatter w (map (fun _ => zero) (zrange 0 w)) y ks else Some y in
      Some (y, x)) (y, x) in
    let* r := for_ (nnz - rem) nnz (fun i st => let '(y, x) := st in
      let* k := addr xi i in
      let* e := rd y k in
      let* x' := wr x i e in
      let* y' := if zap then wr y k zero else Some y in Some (y', x')) (y, x) in
    Some (success, r).
  (** gthr.hpp 74-141 *)
  Definition gthr (c : cpu) (zap : bool) (nnz : Z) (y x : option (list T)) (xi : option index) (kid : Z)
    : option (status * (option (list T) * option (list T))) :=
    if nnz <? 0 then Some (invalid_size, (y, x))
    else if nnz =? 0 then Some (success, (y, x))
    else match y, x with
    | Some yl, Some xl =>
        match xi with
        | None => Some (invalid_pointer, (y, x))
        | Some xi =>
          if (match xi with Strided s => s <? 0 | Indexed _ => false end) then Some (invalid_size, (y, x)) else
          match pick_gthr c kid with
          | None => Some (invalid_kid, (y, x))
          | Some k =>
            let* (st, r) := if k =? 0 then gthr_ref zap nnz yl xl xi
                            else if k <=? 2 then gthr_kt w256 zap nnz yl xl xi else gthr_kt w512 zap nnz yl xl xi in
            Some (st, (Some (fst r), Some (snd r)))
          end
        end
    | _, _ => Some (invalid_pointer, (y, x))
    end.

  (** ** Dot products.  [cnj]: the conjugating variant; [ocj] is the identity for real
      types, so the real and the complex paths coincide. *)
  (** kt_hsum_p; the order in which lanes are added is simplified *)
  Definition hsum (v : list T) : T := suml O (fun a => a) v.
  (** dot.hpp 33-64 *)
  Definition dotp_ref (nnz : Z) (x : list T) (indx : list Z) (y : list T) (cnj : bool) : option (status * T) :=
    let* d := for_ 0 nnz (fun i d =>
      let* xi := rd x i in
      let* k := rd indx i in
      let* yk := rd y k in
      Some (d +! (if cnj then ocj O xi else xi) *! yk)) zero in
    Some (success, d).
  (** dot_kt.cpp 31-101 *)
  Definition dotp_kt (w : Z) (nnz : Z) (x : list T) (indx : list Z) (y : list T) (cnj : bool) : option (status * T) :=
    let count := nnz / w in
    let rem := nnz mod w in
    let* acc := for_ 0 count (fun i acc =>
      let* xv := vload w x (i * w) in
      let xv := if cnj then map (ocj O) xv else xv in
      let* ks := vload w indx (i * w) in
      let* yv := vgather y ks in
      Some (map2 (oadd O) (map2 (omul O) xv yv) acc)) (map (fun _ => zero) (zrange 0 w)) in
    let* d := for_ (nnz - rem) nnz (fun i d =>
      let* xi := rd x i in
      let* k := rd indx i in
      let* yk := rd y k in
      Some (d +! (if cnj then ocj O xi else xi) *! yk)) (hsum acc) in
    Some (success, d).
  (** dot.hpp 67-124; [dot]: whether the result pointer is non-null; the result is the
      new content of *dot, [None] if it was not written *)
  Definition dotp (c : cpu) (nnz : Z) (x : option (list T)) (indx : option (list Z)) (y : option (list T)) (dot : bool)
      (cnj : bool) (kid : Z) : option (status * option T) :=
    if negb dot then Some (invalid_pointer, None)
    else if nnz <=? 0 then Some (invalid_size, Some zero)
    else match x, indx, y with
    | Some xl, Some il, Some yl =>
        match pick4 c kid with
        | None => Some (invalid_kid, None)
        | Some k =>
            let* (st, d) := if k =? 0 then dotp_ref nnz xl il yl cnj
                            else if k <=? 2 then dotp_kt w256 nnz xl il yl cnj else dotp_kt w512 nnz xl il yl cnj in
            Some (st, Some d)
        end
    | _, _, _ => Some (invalid_pointer, None)
    end.

  (** dense_dot.hpp 36-51 and dense_dot_kt.cpp 30-67: conj(x) . y *)
  Definition dense_dot_ref (size : Z) (x y : list T) : option (status * T) :=
    let* d := for_ 0 size (fun i d =>
      let* xi := rd x i in
      let* yi := rd y i in Some (d +! ocj O xi *! yi)) zero in
    Some (success, d).
  Definition dense_dot_kt (w : Z) (size : Z) (x y : list T) : option (status * T) :=
    let vc := size / w in
    let rem := size mod w in
    let* acc := for_ 0 vc (fun i acc =>
      let* xv := vload w x (i * w) in
      let xv := map (ocj O) xv in
      let* yv := vload w y (i * w) in
      Some (map2 (oadd O) (map2 (omul O) xv yv) acc)) (map (fun _ => zero) (zrange 0 w)) in
    let* d := for_ (size - rem) size (fun i d =>
      let* xi := rd x i in
      let* yi := rd y i in Some (d +! ocj O xi *! yi)) (hsum acc) in
    Some (success, d).
  (** dense_dot.hpp 53-92 *)
  Definition dense_dot (c : cpu) (size : Z) (x y : list T) (kid : Z) : option (status * option T) :=
    match pick4 c kid with
    | None => Some (invalid_kid, None)
    | Some k =>
        let* (st, d) := if k =? 0 then dense_dot_ref size x y
                        else if k <=? 2 then dense_dot_kt w256 size x y else dense_dot_kt w512 size x y in
        Some (st, Some d)
    end.
End L1.
Arguments index : clear implicits.
