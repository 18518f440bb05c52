(** src/multilinear: the four multilinear interpolators and their function-style
    interfaces. *)
From Verif Require Import Base Ops ModelCore.
Open Scope string_scope.
Open Scope Z_scope.

(** Data of an interpolator on a regular grid (struct fields).
    src/multilinear/regular.rs:200-212 MultilinearRegular,
    src/multilinear/regular_recursive.rs:163-178 MultilinearRegularRecursive (its
    arrays have length MAXDIMS and only the first ndims entries are used; here
    they have length ndims), src/nearest/regular.rs NearestRegular,
    src/multicubic/regular.rs and regular_recursive.rs (plus the flag, see
    ModelCubic.v). *)
Record regular (F : Type) := mkRegular {
  r_dims : list Z; r_starts : list F; r_steps : list F; r_vals : list F }.
Arguments mkRegular {F}. Arguments r_dims {F}. Arguments r_starts {F}.
Arguments r_steps {F}. Arguments r_vals {F}.

(** Data of an interpolator on a rectilinear grid (struct fields).
    src/multilinear/rectilinear.rs:153-162 and siblings. *)
Record rectilinear (F : Type) := mkRect {
  g_grids : list (list F); g_dims : list Z; g_vals : list F }.
Arguments mkRect {F}. Arguments g_grids {F}. Arguments g_dims {F}. Arguments g_vals {F}.

Definition msg_dim := "Dimension mismatch".
Definition msg_mono := "All grids must be monotonically increasing".
Definition msg_repr := "Unrepresentable coordinate value".
Definition msg_max8 := "Dimension exceeds maximum (8). Use interpolator struct directly for higher dimensions.".

Section Linear.
Context {F : Type} (o : Ops F) (c : cfg).

(** `y0 + t * dy`, or `t.mul_add(dy, y0)` with feature fma.
    src/multilinear/regular.rs:378-385, 396-402; regular_recursive.rs:377-384;
    rectilinear.rs:315-321, 339-344; rectilinear_recursive.rs:325-331.
    [vs] is the array `[T; 2]` of the two values, y0 = vs[0], dy = vs[1] - y0 (a list
    of another length cannot arise from that type). *)
Definition lin_node (t : F) (vs : list F) : outcome F :=
  match vs with
  | [y0; y1] =>
      let dy := fsub o y1 y0 in
      Ok (if use_fma c then fmuladd o t dy y0 else fadd o y0 (fmul o t dy))
  | _ => Panic
  end.

(** OFFSET of vertex i on axis k: `(i & (1 << k)) >> k`.
    src/multilinear/regular.rs:362, src/multilinear/rectilinear.rs:294. *)
Definition offset2 (i k : nat) : Z :=
  Z.of_N (N.shiftr (N.land (N.of_nat i) (N.shiftl 1 (N.of_nat k))) (N.of_nat k)).

(** ** Regular grids *)

(** get_loc: src/multilinear/regular.rs:414-425, regular_recursive.rs:333-344,
    src/nearest/regular.rs:305-316 (same text). *)
Definition reg_get_loc (s : regular F) (v : F) (dim : nat) : outcome Z :=
  do start <- aget (r_starts s) dim ;
  do step <- aget (r_steps s) dim ;
  let floc := ffloor o (fdiv o (fsub o v start) step) in
  do iloc <- ok_or (to_isize o floc) msg_repr ;
  do n <- aget (r_dims s) dim ;
  Ok (clip_loc 2 n iloc).

(** index_zero_loc and dts of axis i. src/multilinear/regular.rs:330-339 (with
    [fma] = the feature), regular_recursive.rs:309-314 (never fused),
    src/nearest/regular.rs:269-277. *)
Definition reg_dt (fma : bool) (s : regular F) (xi : F) (i : nat) (origin : Z) : outcome F :=
  do origin_f <- ok_or (of_usize o origin) msg_repr ;
  do start <- aget (r_starts s) i ;
  do step <- aget (r_steps s) i ;
  let zero_loc := if fma then fmuladd o step origin_f start
                  else fadd o start (fmul o step origin_f) in
  Ok (fdiv o (fsub o xi zero_loc) step).

(** src/multilinear/regular.rs:225-259 MultilinearRegular::new. The compile-time
    assertion 0 < N < 7 is not part of the run-time function. *)
Definition mlr_new (dims : list Z) (starts steps vals : list F) : outcome (regular F) :=
  do nvals <- product c dims ;
  if negb (zlen vals =? nvals) then Err msg_dim
  else if existsb (fun x => x <? 2) dims then Err "All grids must have at least two entries"
  else if negb (forallb (fun x => flt o (fzero o) x) steps) then Err msg_mono
  else Ok (mkRegular dims starts steps vals).

(** src/multilinear/regular.rs:296-404 MultilinearRegular::interp_one. *)
Definition mlr_interp_one (s : regular F) (x : list F) : outcome F :=
  let n := length (r_dims s) in
  do (dimprod, axes) <- flat_setup c (r_dims s) (fun i =>
       do xi <- aget x i ;
       do origin <- reg_get_loc s xi i ;
       do dt <- reg_dt (use_fma c) s xi i origin ;
       Ok (origin, dt)) ;
  let origin := map fst axes in
  let dts := map snd axes in
  flat_eval 2 n (fzero o)
    (flat_leaf c offset2 origin dimprod (r_vals s))
    (fun ind ys => do t <- aget dts ind ; lin_node t ys).

(** src/multilinear/regular.rs:268-283 MultilinearRegular::interp. *)
Definition mlr_interp (s : regular F) := interp_batch (length (r_dims s)) (mlr_interp_one s).

(** src/multilinear/regular_recursive.rs:191-233 MultilinearRegularRecursive::new;
    the slice copies into arrays of length MAXDIMS panic when ndims > MAXDIMS. *)
Definition mlrr_new (maxdims : nat) (dims : list Z) (starts steps vals : list F)
  : outcome (regular F) :=
  let ndims := length dims in
  do nvals <- product c dims ;
  if negb ((length starts =? ndims)%nat && (length steps =? ndims)%nat
           && (zlen vals =? nvals) && (0 <? ndims)%nat) then Err msg_dim
  else if existsb (fun x => x <? 2) dims then Err "All grids must have at least two entries"
  else if negb (forallb (fun x => flt o (fzero o) x) steps) then Err msg_mono
  else if (maxdims <? ndims)%nat then Panic
  else Ok (mkRegular dims starts steps vals).

(** src/multilinear/regular_recursive.rs:274-323 interp_one. *)
Definition mlrr_interp_one (maxdims : nat) (s : regular F) (x : list F) : outcome F :=
  let ndims := length (r_dims s) in
  if negb ((length x =? ndims)%nat && (ndims <=? maxdims)%nat) then Err msg_dim
  else
  do dimprod <- rec_dimprod c (r_dims s) ;
  do origin <- mapM (fun i => do xi <- aget x i ; reg_get_loc s xi i) (seq 0 ndims) ;
  do dts <- mapM (fun i => do xi <- aget x i ;
                           do oi <- aget origin i ;
                           reg_dt false s xi i oi) (seq 0 ndims) ;
  do (v, _) <- populate c 2 origin dimprod (r_vals s)
                 (fun ind ys => do t <- aget dts ind ; lin_node t ys) ndims origin ;
  Ok v.

(** src/multilinear/regular_recursive.rs:242-262 interp. *)
Definition mlrr_interp (maxdims : nat) (s : regular F) :=
  interp_batch (length (r_dims s)) (mlrr_interp_one maxdims s).

(** src/multilinear/regular.rs:51-117 interpn. The arms 1..6 are the same text
    for N = 1..6, the arms 7 and 8 for MAXDIMS = 7, 8. *)
Definition mlr_interpn (dims : list Z) (starts steps vals : list F)
  (obs : list (list F)) (out : list F) : outcome unit * list F :=
  let ndims := length dims in
  if negb (length starts =? ndims)%nat || negb (length steps =? ndims)%nat
     || negb (length obs =? ndims)%nat then (Err msg_dim, out)
  else if (1 <=? ndims)%nat && (ndims <=? 6)%nat then
    and_then (do d <- try_into_unwrap ndims dims ;
              do st <- try_into_unwrap ndims starts ;
              do sp <- try_into_unwrap ndims steps ;
              mlr_new d st sp vals) out
      (fun s => and_then (try_into_unwrap ndims obs) out (fun ob => mlr_interp s ob out))
  else if (7 <=? ndims)%nat && (ndims <=? 8)%nat then
    and_then (mlrr_new ndims dims starts steps vals) out
      (fun s => mlrr_interp ndims s obs out)
  else (Err msg_max8, out).

(** src/multilinear/regular_recursive.rs:45-80 interpn (recursive for 1..8). *)
Definition mlrr_interpn (dims : list Z) (starts steps vals : list F)
  (obs : list (list F)) (out : list F) : outcome unit * list F :=
  let ndims := length dims in
  if (1 <=? ndims)%nat && (ndims <=? 8)%nat then
    and_then (mlrr_new ndims dims starts steps vals) out
      (fun s => mlrr_interp ndims s obs out)
  else (Err msg_max8, out).

(** `vec![T::zero(); obs[0].len()]`: `obs[0]` panics on an empty list.
    src/multilinear/regular.rs:131 and all other interpn_alloc. *)
Definition alloc_zeros (obs : list (list F)) : outcome (list F) :=
  do o0 <- aget obs 0 ; Ok (repeat (fzero o) (length o0)).

(** src/multilinear/regular.rs:124-134 interpn_alloc. *)
Definition mlr_interpn_alloc dims starts steps vals obs : outcome (list F) :=
  do out <- alloc_zeros obs ; alloc_result (mlr_interpn dims starts steps vals obs out).

(** src/multilinear/regular_recursive.rs:87-97 interpn_alloc. *)
Definition mlrr_interpn_alloc dims starts steps vals obs : outcome (list F) :=
  do out <- alloc_zeros obs ; alloc_result (mlrr_interpn dims starts steps vals obs out).

(** `(x - lo) <= -atol || (x - hi) >= atol` for some x.
    src/multilinear/regular.rs:168-170, rectilinear.rs:124-126. *)
Definition violates (lo hi atol : F) (xs : list F) : bool :=
  existsb (fun x => fle o (fsub o x lo) (fneg o atol) || fle o atol (fsub o x hi)) xs.

(** src/multilinear/regular.rs:145-182 check_bounds (same text in
    regular_recursive.rs:108-145). *)
Definition mlr_check_bounds (dims : list Z) (starts steps : list F)
  (obs : list (list F)) (atol : F) (out : list bool) : outcome unit * list bool :=
  let n := length dims in
  if negb ((length obs =? n)%nat && (length out =? n)%nat) then (Err msg_dim, out)
  else batch_loop (fun i =>
         do first <- aget starts i ;
         do d <- aget dims i ;
         do d1 <- usize_sub c d 1 ;
         match of_usize o d1 with
         | Some last_elem =>
             do step <- aget steps i ;
             let last := fadd o first (fmul o step last_elem) in
             do xs <- aget obs i ;
             Ok (violates (fmin o first last) (fmax o first last) atol xs)
         | None => Ok true
         end) (seq 0 n) out.

(** ** Rectilinear grids *)

(** get_loc: src/multilinear/rectilinear.rs:353-370,
    rectilinear_recursive.rs:272-289, src/nearest/rectilinear.rs:248-265 (same text). *)
Definition rect_get_loc (s : rectilinear F) (v : F) (dim : nat) : outcome Z :=
  do grid <- aget (g_grids s) dim ;
  do pp <- partition_point (fun x => flt o x v) grid ;
  do iloc <- isize_sub c (as_isize pp) 1 ;
  do n <- aget (g_dims s) dim ;
  Ok (clip_loc 2 n iloc).

(** Normalised coordinate in the cell with lower corner [origin].
    src/multilinear/rectilinear.rs:310-313, 334-337. *)
Definition rect_dt (s : rectilinear F) (xi : F) (i : nat) (origin : Z) : outcome F :=
  do grid <- aget (g_grids s) i ;
  do x0 <- idx grid origin ;
  do o1 <- usize_add c origin 1 ;
  do x1 <- idx grid o1 ;
  let step := fsub o x1 x0 in
  Ok (fdiv o (fsub o xi x0) step).

(** The same through a slice: src/multilinear/rectilinear_recursive.rs:322-324. *)
Definition rect_dt_slice (s : rectilinear F) (xi : F) (i : nat) (origin : Z) : outcome F :=
  do grid <- aget (g_grids s) i ;
  do o2 <- usize_add c origin 2 ;
  do cell <- slice grid origin o2 ;
  do c1 <- aget cell 1 ;
  do c0 <- aget cell 0 ;
  let step := fsub o c1 c0 in
  do c0' <- aget cell 0 ;
  Ok (fdiv o (fsub o xi c0') step).

(** `g[1] > g[0]` *)
Definition mono_maybe (g : list F) : outcome bool :=
  do g1 <- aget g 1 ; do g0 <- aget g 0 ; Ok (flt o g0 g1).

(** src/multilinear/rectilinear.rs:175-201 MultilinearRectilinear::new. *)
Definition mlc_new (grids : list (list F)) (vals : list F) : outcome (rectilinear F) :=
  let dims := map zlen grids in
  do nvals <- product c dims ;
  if negb (zlen vals =? nvals) then Err msg_dim
  else if existsb (fun x => x <? 2) dims then Err "All grids must have at least 2 entries"
  else do mono <- allM mono_maybe grids ;
       if negb mono then Err msg_mono
       else Ok (mkRect grids dims vals).

(** src/multilinear/rectilinear.rs:244-346 MultilinearRectilinear::interp_one. *)
Definition mlc_interp_one (s : rectilinear F) (x : list F) : outcome F :=
  let n := length (g_dims s) in
  do (dimprod, origin) <- flat_setup c (g_dims s) (fun i =>
       do xi <- aget x i ; rect_get_loc s xi i) ;
  flat_eval 2 n (fzero o)
    (flat_leaf c offset2 origin dimprod (g_vals s))
    (fun ind ys => do oi <- aget origin ind ;
                   do xi <- aget x ind ;
                   do t <- rect_dt s xi ind oi ;
                   lin_node t ys).

(** src/multilinear/rectilinear.rs:210-231 interp. *)
Definition mlc_interp (s : rectilinear F) := interp_batch (length (g_dims s)) (mlc_interp_one s).

(** src/multilinear/rectilinear_recursive.rs:160-181 new. Writing dims[i] for
    i >= MAXDIMS panics before any check. *)
Definition mlcr_new (maxdims : nat) (grids : list (list F)) (vals : list F)
  : outcome (rectilinear F) :=
  let ndims := length grids in
  if (maxdims <? ndims)%nat then Panic
  else
  let dims := map zlen grids in
  do nvals <- product c dims ;
  if negb ((zlen vals =? nvals) && (0 <? ndims)%nat && (ndims <=? maxdims)%nat) then Err msg_dim
  else if existsb (fun x => x <? 2) dims then Err "All grids must have at least 2 entries"
  else do mono <- allM mono_maybe grids ;
       if negb mono then Err msg_mono
       else Ok (mkRect grids dims vals).

(** src/multilinear/rectilinear_recursive.rs:224-265 interp_one. *)
Definition mlcr_interp_one (maxdims : nat) (s : rectilinear F) (x : list F) : outcome F :=
  let ndims := length (g_grids s) in
  if negb ((length x =? ndims)%nat && (ndims <=? maxdims)%nat) then Err msg_dim
  else
  do dimprod <- rec_dimprod c (g_dims s) ;
  do origin <- mapM (fun i => do xi <- aget x i ; rect_get_loc s xi i) (seq 0 ndims) ;
  do (v, _) <- populate c 2 origin dimprod (g_vals s)
                 (fun ind ys => do oi <- aget origin ind ;
                                do xi <- aget x ind ;
                                do t <- rect_dt_slice s xi ind oi ;
                                lin_node t ys) ndims origin ;
  Ok v.

(** src/multilinear/rectilinear_recursive.rs:190-212 interp. *)
Definition mlcr_interp (maxdims : nat) (s : rectilinear F) :=
  interp_batch (length (g_grids s)) (mlcr_interp_one maxdims s).

(** src/multilinear/rectilinear.rs:49-83 interpn. *)
Definition mlc_interpn (grids : list (list F)) (vals : list F)
  (obs : list (list F)) (out : list F) : outcome unit * list F :=
  let ndims := length grids in
  if negb (length obs =? ndims)%nat then (Err msg_dim, out)
  else if (1 <=? ndims)%nat && (ndims <=? 6)%nat then
    and_then (do g <- try_into_unwrap ndims grids ; mlc_new g vals) out
      (fun s => and_then (try_into_unwrap ndims obs) out (fun ob => mlc_interp s ob out))
  else if (7 <=? ndims)%nat && (ndims <=? 8)%nat then
    and_then (mlcr_new ndims grids vals) out (fun s => mlcr_interp ndims s obs out)
  else (Err msg_max8, out).

(** src/multilinear/rectilinear_recursive.rs:43-68 interpn. *)
Definition mlcr_interpn (grids : list (list F)) (vals : list F)
  (obs : list (list F)) (out : list F) : outcome unit * list F :=
  let ndims := length grids in
  if (1 <=? ndims)%nat && (ndims <=? 8)%nat then
    and_then (mlcr_new ndims grids vals) out (fun s => mlcr_interp ndims s obs out)
  else (Err msg_max8, out).

(** src/multilinear/rectilinear.rs:90-98 interpn_alloc. *)
Definition mlc_interpn_alloc grids vals obs : outcome (list F) :=
  do out <- alloc_zeros obs ; alloc_result (mlc_interpn grids vals obs out).

(** src/multilinear/rectilinear_recursive.rs:75-83 interpn_alloc. *)
Definition mlcr_interpn_alloc grids vals obs : outcome (list F) :=
  do out <- alloc_zeros obs ; alloc_result (mlcr_interpn grids vals obs out).

(** src/multilinear/rectilinear.rs:109-134 check_bounds (same text in
    rectilinear_recursive.rs:94-119). *)
Definition mlc_check_bounds (grids : list (list F)) (obs : list (list F)) (atol : F)
  (out : list bool) : outcome unit * list bool :=
  let ndims := length grids in
  if negb ((length obs =? ndims)%nat && (length out =? ndims)%nat
           && forallb (fun g => negb (length g =? 0)%nat) grids) then (Err msg_dim, out)
  else batch_loop (fun i =>
         do g <- aget grids i ;
         do lo <- aget g 0 ;
         match nth_error (rev g) 0 with   (* grids[i].last() *)
         | Some hi => do xs <- aget obs i ; Ok (violates lo hi atol xs)
         | None => Err msg_dim
         end) (seq 0 ndims) out.

End Linear.
