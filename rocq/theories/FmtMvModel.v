(** Products with matrices in ELL, transposed ELL, hybrid ELL and DIA storage. *)
From Coq Require Import ZArith List Bool.
From Verif Require Import Base Algebra Vec DoidModel MvModel.
Import ListNotations.
Open Scope Z_scope.

(** A loop left only by running out or by [break]. *)
Definition forb {S} (lo hi : Z) (f : Z -> S -> option (ctl S unit)) (s : S) : option S :=
  match forc lo hi f s with Some (inl s') => Some s' | _ => None end.

Section K.
  Context {T : Type} (O : ops T).
  Local Notation zero := (o0 O).
  Local Notation one := (o1 O).
  Local Infix "+!" := (oadd O) (at level 50, left associativity).
  Local Infix "*!" := (omul O) (at level 40, left associativity).
  Local Notation "a ==! b" := (oeqb O a b) (at level 70).

  (** kt_storeu_p / _mm256_storeu_pd: consecutive store of [w] lanes. *)
  Definition vstore (w : Z) (v : list T) (y : list T) (p : Z) : option (list T) :=
    for_ 0 w (fun l y => let* e := rd v l in wr y (p + l) e) y.

  (** ** ELL (level2/aoclsparse_ellmv.hpp, aoclsparse_ellmv_avx512.cpp).
      The parallel row loops are run in order. *)

  (** ellmv.hpp 52-72: one slot, stopping at padding; also 179-191 with a running
      position. *)
  Definition ell_step (b : Z) (val : list T) (col : list Z) (x : list T) (idx : Z) (r : T) : option (ctl T unit) :=
    let* c := rd col idx in
    if 0 <=? c - b then
      let* v := rd val idx in
      let* xv := rd x (c - b) in
      Some (Go (r +! v *! xv))
    else Some (Brk r).

  (** ellmv.hpp 34-87: aoclsparse_ellmv_ref *)
  Definition ellmv_ref (alpha : T) (m : Z) (val : list T) (col : list Z) (wd b : Z) (x : list T) (beta : T) (y : list T)
      : option (list T) :=
    for_ 0 m (fun i y =>
      let* r := forb 0 wd (fun p r => ell_step b val col x (i * wd + p) r) zero in
      finish_row O alpha beta y i r) y.

  (** ellmv.hpp 110-205 (k = 4, hsum4) and ellmv_avx512.cpp 39-137 (k = 8, hsum8d): one
      row.  [q] is the common offset of pell_val and pell_col_ind; in the remainder
      loop it is q + p, because both pointers move once per non-breaking iteration. *)
  Definition ell_vec_row (k : Z) (hsum : list T -> T) (b wd : Z) (val : list T) (col : list Z) (x : list T) (i : Z) : option T :=
    let k_iter := Z.quot wd k in
    let* (q, vy, k_rem) := forb 0 k_iter (fun p st =>
        let '(q, vy, k_rem) := st in
        let* c := rd col (q + (k - 1)) in
        if 0 <=? c - b then
          let* va := vload k val q in
          let* vx := vgather k b col x (q + b) in
          Some (Go (q + k, map2 (fun p s => p +! s) (map2 (fun a c => a *! c) va vx) vy, k_rem))
        else Some (Brk (q, vy, k))) (i * wd, zrep k zero, Z.rem wd k) in
    let r := if negb (k_iter =? 0) then hsum vy else zero in
    forb 0 k_rem (fun p r => ell_step b val col x (q + p) r) r.

  Definition ellmv_vec (k : Z) (hsum : list T -> T) (alpha : T) (m : Z) (val : list T) (col : list Z) (wd b : Z)
      (x : list T) (beta : T) (y : list T) : option (list T) :=
    for_ 0 m (fun i y =>
      let* r := ell_vec_row k hsum b wd val col x i in
      finish_row O alpha beta y i r) y.

  (** ellmv.hpp 338-345, 417-424: row [j] of the transposed layout *)
  Definition ellt_dot (b m wd : Z) (val : list T) (col : list Z) (x : list T) (j : Z) : option T :=
    for_ 0 wd (fun i r =>
      let* v := rd val (i * m + j) in
      let* c := rd col (i * m + j) in
      let* xv := rd x (c - b) in
      Some (r +! v *! xv)) zero.

  (** ellmv.hpp 317-360: aoclsparse_elltmv_ref (rows lo .. m-1) *)
  Definition elltmv_rows (lo : Z) (alpha : T) (m : Z) (val : list T) (col : list Z) (wd b : Z) (x : list T) (beta : T) (y : list T)
      : option (list T) :=
    for_ lo m (fun j y =>
      let* r := ellt_dot b m wd val col x j in
      finish_row O alpha beta y j r) y.

  (** ellmv.hpp 388-412, ellmv_avx512.cpp 165-196: one block of [k] rows *)
  Definition ellt_block (k : Z) (alpha : T) (m : Z) (val : list T) (col : list Z) (wd b : Z) (x : list T) (beta : T) (j : Z) (y : list T)
      : option (list T) :=
    let joff := j * k in
    let* res := for_ 0 wd (fun i res =>
        let off := joff + i * m in
        let* vv := vload k val off in
        let* vx := vgather k b col x (off + b) in
        Some (map2 (fun p s => p +! s) (map2 (fun a c => a *! c) vv vx) res)) (zrep k zero) in
    let res := if negb (alpha ==! one) then map (fun r => alpha *! r) res else res in
    let* res := (if negb (beta ==! zero) then
                   let* vy := vload k y joff in Some (map2 (fun v r => beta *! v +! r) vy res)
                 else Some res) in
    vstore k res y joff.

  (** ellmv.hpp 362-445 (k = 4), ellmv_avx512.cpp 143-222 (k = 8) *)
  Definition elltmv_vec (k : Z) (alpha : T) (m : Z) (val : list T) (col : list Z) (wd b : Z) (x : list T) (beta : T) (y : list T)
      : option (list T) :=
    let* y := for_ 0 (Z.quot m k) (ellt_block k alpha m val col wd b x beta) y in
    elltmv_rows (Z.quot m k * k) alpha m val col wd b x beta y.

  (** ellmv.hpp 554-761 (k = 4, hsum4), ellmv_avx512.cpp 224-end (k = 8, hsum8d) *)
  Definition ellthyb (k : Z) (hsum : list T -> T) (alpha : T) (m : Z) (val : list T) (col : list Z) (wd ell_m : Z)
      (cval : list T) (cptr cind rmap : list Z) (b : Z) (x : list T) (beta : T) (y : list T) : option (list T) :=
    if ell_m =? m then elltmv_vec k alpha m val col wd b x beta y
    else
      let* tmp := (if negb (beta ==! zero) then
                     mapM (fun i => let* r := rd rmap i in rd y r) (zrange 0 (m - ell_m))
                   else Some []) in
      let* y := elltmv_vec k alpha m val col wd b x beta y in
      let* y := (if negb (beta ==! zero) then
                   for_ 0 (m - ell_m) (fun i y => let* r := rd rmap i in let* t := rd tmp i in wr y r t) y
                 else Some y) in
      for_ 0 (m - ell_m) (fun i y =>
        let* r := rd rmap i in
        let* s := rd cptr r in
        let* e := rd cptr (r + 1) in
        let* result := vec_row O k hsum b s e cval cind x zero in
        finish_row O alpha beta y r result) y.

  (** Element type and whether the CPU context reports AVX512F *)
  Variables (is_double avx512 : bool).

  (** ellmv.hpp 211-310 and 447-546 (checks 225-281 and 461-517): the two entry points
      differ only in the kernel.  alpha and beta are dereferenced unchecked. *)
  Definition ell_entry (kernel : T -> T -> list T -> list Z -> Z -> list T -> list T -> option (list T))
      (op : operation) (alpha : option T) (m n : Z) (val : option (list T)) (col : option (list Z)) (wd : Z)
      (d : option descr) (x : option (list T)) (beta : option T) (y : option (list T)) : option (status * option (list T)) :=
    match d with
    | None => Some (invalid_pointer, None)
    | Some d =>
      if negb ((d_base d =? 0) || (d_base d =? 1)) then Some (invalid_value, None)
      else if match d_type d with mt_general => false | _ => true end then Some (not_implemented, None)
      else if match op with op_none => false | _ => true end then Some (not_implemented, None)
      else if (m <? 0) || (n <? 0) || (wd <? 0) then Some (invalid_size, None)
      else if ((m =? 0) || (n =? 0)) && negb (wd =? 0) then Some (invalid_size, None)
      else if (m =? 0) || (n =? 0) || (wd =? 0) then Some (success, y)
      else match val, col, x, y with
        | Some val, Some col, Some x, Some y =>
          let* a := alpha in
          let* be := beta in
          let* y := kernel a be val col (d_base d) x y in
          Some (success, Some y)
        | _, _, _, _ => Some (invalid_pointer, None)
        end
    end.

  Definition ellmv (op : operation) (alpha : option T) (m n : Z) (val : option (list T)) (col : option (list Z)) (wd : Z)
      (d : option descr) (x : option (list T)) (beta : option T) (y : option (list T)) : option (status * option (list T)) :=
    ell_entry (fun a be val col b x y =>
      if is_double then
        if avx512 then ellmv_vec 8 (hsum8d O) a m val col wd b x be y
        else ellmv_vec 4 (hsum4 O) a m val col wd b x be y
      else ellmv_ref a m val col wd b x be y) op alpha m n val col wd d x beta y.

  Definition elltmv (op : operation) (alpha : option T) (m n : Z) (val : option (list T)) (col : option (list Z)) (wd : Z)
      (d : option descr) (x : option (list T)) (beta : option T) (y : option (list T)) : option (status * option (list T)) :=
    ell_entry (fun a be val col b x y =>
      if is_double then elltmv_vec (if avx512 then 8 else 4) a m val col wd b x be y
      else elltmv_rows 0 a m val col wd b x be y) op alpha m n val col wd d x beta y.

  (** ellmv.hpp 763-833: aoclsparse_ellthybmv_t; no argument is checked, [trans] and the
      matrix type are ignored. *)
  Definition ellthybmv (alpha : T) (m : Z) (val : list T) (col : list Z) (wd ell_m : Z) (cval : list T) (cptr cind rmap : list Z)
      (d : descr) (x : list T) (beta : T) (y : list T) : option (status * option (list T)) :=
    if is_double then
      let* y := (if avx512 then ellthyb 8 (hsum8d O) alpha m val col wd ell_m cval cptr cind rmap (d_base d) x beta y
                 else ellthyb 4 (hsum4 O) alpha m val col wd ell_m cval cptr cind rmap (d_base d) x beta y) in
      Some (success, Some y)
    else Some (not_implemented, None).

  (** ** DIA (level2/aoclsparse_diamv.hpp, aoclsparse_diamv_kt.cpp) *)

  (** diamv.hpp 35-75: diamv_ref *)
  Definition diamv_ref (alpha : T) (m n : Z) (dv : list T) (off : list Z) (nd : Z) (x : list T) (beta : T) (y : list T)
      : option (list T) :=
    let* y := beta_scale O beta m y in
    for_ 0 nd (fun i y =>
      let* o := rd off i in
      let istart := Z.max 0 (- o) in
      let jstart := Z.max 0 o in
      for_ 0 (Z.min (m - istart) (n - jstart)) (fun j y =>
        let* v := rd dv (istart + i * m + j) in
        let* xv := rd x (j + jstart) in
        acc O y (istart + j) (alpha *! v *! xv)) y) y.

  (** diamv_kt.cpp 72-86: scalar_row *)
  Definition dia_scalar_row (alpha : T) (m n : Z) (dv : list T) (off : list Z) (nd : Z) (x : list T) (beta : T) (row : Z) (y : list T)
      : option (list T) :=
    let* sum := for_ 0 nd (fun j s =>
        let* o := rd off j in
        let c := row + o in
        if (0 <=? c) && (c <? n) then
          let* v := rd dv (j * m + row) in
          let* xv := rd x c in
          Some (s +! v *! xv)
        else Some s) zero in
    let result := alpha *! sum in
    let* yi := rd y row in
    wr y row (if beta ==! zero then result else if beta ==! one then yi +! result else yi *! beta +! result).

  (** diamv_kt.cpp 91-117: [k] rows at once *)
  Definition dia_row_block (k : Z) (alpha : T) (m : Z) (dv : list T) (off : list Z) (nd : Z) (x : list T) (beta : T) (i : Z) (y : list T)
      : option (list T) :=
    let* s := for_ 0 nd (fun j s =>
        let* o := rd off j in
        let* vv := vload k dv (j * m + i) in
        let* vx := vload k x (i + o) in
        Some (map2 (fun p s => p +! s) (map2 (fun a c => a *! c) vv vx) s)) (zrep k zero) in
    let r := map (fun v => v *! alpha) s in
    let* vy := vload k y i in
    vstore k (if beta ==! zero then r else if beta ==! one then map2 (fun a c => a +! c) vy r
              else map2 (fun a c => a *! beta +! c) vy r) y i.

  (** diamv_kt.cpp 36-123: diamv_rowmaj_kt_impl.  The while loop makes
      (row_end - row_begin) / tsz trips when that is not negative. *)
  Definition diamv_rowmaj (k : Z) (alpha : T) (m n : Z) (dv : list T) (off : list Z) (nd row_begin row_end : Z) (x : list T) (beta : T) (y : list T)
      : option (list T) :=
    let* y := for_ 0 (Z.min row_begin m) (dia_scalar_row alpha m n dv off nd x beta) y in
    let trips := if row_begin <=? row_end then (row_end - row_begin) / k else 0 in
    let* y := for_ 0 trips (fun t y => dia_row_block k alpha m dv off nd x beta (row_begin + t * k) y) y in
    for_ (row_begin + trips * k) m (dia_scalar_row alpha m n dv off nd x beta) y.

  (** diamv_kt.cpp 143-168: beta prologue, [k] elements at a time *)
  Definition beta_scale_vec (k : Z) (beta : T) (m : Z) (y : list T) : option (list T) :=
    if beta ==! zero then
      let* y := for_ 0 (m / k) (fun t y => vstore k (zrep k zero) y (t * k)) y in
      for_ (m / k * k) m (fun i y => wr y i zero) y
    else if negb (beta ==! one) then
      let* y := for_ 0 (m / k) (fun t y => let* vy := vload k y (t * k) in vstore k (map (fun v => v *! beta) vy) y (t * k)) y in
      for_ (m / k * k) m (fun i y => let* v := rd y i in wr y i (v *! beta)) y
    else Some y.

  (** diamv_kt.cpp 125-202: diamv_diagmaj_kt_impl *)
  Definition diamv_diagmaj (k : Z) (alpha : T) (m n : Z) (dv : list T) (off : list Z) (nd : Z) (x : list T) (beta : T) (y : list T)
      : option (list T) :=
    let* y := beta_scale_vec k beta m y in
    for_ 0 nd (fun d y =>
      let* o := rd off d in
      let istart := Z.max 0 (- o) in
      let jstart := Z.max 0 o in
      let num := Z.min (m - istart) (n - jstart) in
      if num <=? 0 then Some y
      else
        let* y := for_ 0 (num / k) (fun t y =>
            let j := t * k in
            let* vv := vload k dv (istart + d * m + j) in
            let* vx := vload k x (jstart + j) in
            let* vy := vload k y (istart + j) in
            vstore k (map2 (fun p s => p +! s) (map2 (fun a c => a *! c) (map (fun v => v *! alpha) vv) vx) vy) y (istart + j)) y in
        for_ (num / k * k) num (fun j y =>
          let* v := rd dv (istart + d * m + j) in
          let* xv := rd x (jstart + j) in
          acc O y (istart + j) (alpha *! v *! xv)) y) y.

  (** diamv.hpp 97-140: diamv_compute_kernel_heuristic *)
  Definition dia_heuristic (m n : Z) (off : list Z) (nd : Z) : option (bool * Z * Z) :=
    if nd =? 0 then Some (false, 0, m)
    else
      let* o0 := rd off 0 in
      let* (mn, mx) := for_ 1 nd (fun j st =>
          let '(mn, mx) := st in
          let* o := rd off j in Some (Z.min mn o, Z.max mx o)) (o0, o0) in
      let row_begin := Z.max 0 (- mn) in
      let row_end := Z.min m (Z.max 0 (n - mx)) in
      let interior := if row_begin <? row_end then row_end - row_begin else 0 in
      let pct := if 0 <? m then Z.quot (100 * (m - interior)) m else 0 in
      Some ((8 <? pct) || (25 <? nd) || (m <? 10000) || (300000 <? n), row_begin, row_end).

  (** Lanes of a 256-bit and a 512-bit register; [choice] is the table row the oracle
      picks for the requested kernel id (property C35): 0 reference, 1 and 2 256-bit,
      3 512-bit. *)
  Variables (w256 w512 : Z) (choice : Z -> option Z).

  (** diamv.hpp 142-270: aoclsparse_diamv_t; [mode] and [kid] are -1 for the public
      entry points. *)
  Definition diamv (op : operation) (alpha : option T) (m n : Z) (dv : option (list T)) (off : option (list Z)) (nd : Z)
      (d : option descr) (x : option (list T)) (beta : option T) (y : option (list T)) (mode kid : Z)
      : option (status * option (list T)) :=
    match alpha, beta, dv, off, x, y, d with
    | Some alpha, Some beta, Some dv, Some off, Some x, Some y, Some d =>
      if negb ((d_base d =? 0) || (d_base d =? 1)) then Some (invalid_value, None)
      else if match d_type d with mt_general => false | _ => true end then Some (not_implemented, None)
      else if match op with op_none => false | _ => true end then Some (not_implemented, None)
      else if (m <? 0) || (n <? 0) || (nd <? 0) then Some (invalid_size, None)
      else if (m =? 0) || (n =? 0) then Some (success, Some y)
      else
        let* (h, row_begin, row_end) := dia_heuristic m n off nd in
        let diagmaj := if mode =? 1 then false else if mode =? 2 then true else h in
        let okid := if mode =? 0 then 0 else kid in
        match choice okid with
        | None => Some (invalid_kid, None)
        | Some c =>
          let* y := (if c =? 0 then diamv_ref alpha m n dv off nd x beta y
                     else
                       let k := if c =? 3 then w512 else w256 in
                       if diagmaj then diamv_diagmaj k alpha m n dv off nd x beta y
                       else diamv_rowmaj k alpha m n dv off nd row_begin row_end x beta y) in
          Some (success, Some y)
        end
    | _, _, _, _, _, _, _ => Some (invalid_pointer, None)
    end.
End K.
