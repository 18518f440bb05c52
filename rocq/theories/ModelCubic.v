(** src/multicubic: the four multicubic interpolators. *)
From Verif Require Import Base Ops ModelCore ModelLinear.
Open Scope string_scope.
Open Scope Z_scope.

(** src/multicubic/mod.rs:59-66. *)
Inductive saturation := SatNone | InsideLow | OutsideLow | InsideHigh | OutsideHigh.

Section Cubic.
Context {F : Type} (o : Ops F) (c : cfg).

Declare Scope f_scope.
Notation "a + b" := (fadd o a b) : f_scope.
Notation "a - b" := (fsub o a b) : f_scope.
Notation "a * b" := (fmul o a b) : f_scope.
Notation "a / b" := (fdiv o a b) : f_scope.
Notation "- a" := (fneg o a) : f_scope.
Delimit Scope f_scope with f.

(** src/multicubic/mod.rs:72-91. *)
Definition hermite (t y0 dy k0 k1 : F) : F :=
  (let a := k0 - dy in
   let b := - k1 + dy in
   let c1 := dy + a in
   let c2 := b - (a + a) in
   let c3 := a - b in
   if use_fma c
   then fmuladd o (fmuladd o (fmuladd o c3 t c2) t c1) t y0
   else y0 + t * (c1 + t * (c2 + t * c3)))%f.

(** src/multicubic/mod.rs:103-117. *)
Definition centered_diff (y0 y1 y2 h01 h12 : F) : F :=
  (let a := h01 / (h01 + h12) in
   let b := (y2 - y1) / h12 in
   let c0 := h12 / (h12 + h01) in
   let d := (y1 - y0) / h01 in
   if use_fma c then fmuladd o a b (c0 * d) else a * b + c0 * d)%f.

(** `two * dy - k0`, or `two.mul_add(dy, -k0)`; [fma] says which text is compiled. *)
Definition natural_k1 (fma : bool) (dy k0 : F) : F :=
  (let two := fone o + fone o in
   if fma then fmuladd o two dy (- k0) else two * dy - k0)%f.

(** `y1 + k1 * (t - one)`, or `k1.mul_add(t - one, y1)`. *)
Definition linear_ext (fma : bool) (y1 k1 t : F) : F :=
  (if fma then fmuladd o k1 (t - fone o) y1 else y1 + k1 * (t - fone o))%f.

(** interp_inner on a regular grid: src/multicubic/regular.rs:474-623 (with
    [fma_outlow] = the feature) and src/multicubic/regular_recursive.rs:470-610
    (where k1 of OutsideLow is never fused, [fma_outlow] = false; otherwise the
    same text). [vs] is the array `[T; 4]`. *)
Definition reg_inner (fma_outlow lin : bool) (sat : saturation) (t : F) (vs : list F)
  : outcome F :=
  match vs with
  | [v0; v1; v2; v3] =>
      Ok (let one := fone o in
          let two := (one + one)%f in
          match sat with
          | SatNone =>
              let y0 := v1 in
              let dy := (v2 - v1)%f in
              let k0 := ((v2 - v0) / two)%f in
              let k1 := ((v3 - v1) / two)%f in
              hermite t y0 dy k0 k1
          | InsideLow =>
              let t := (- t)%f in
              let y0 := v1 in
              let dy := (v0 - v1)%f in
              let k0 := ((- (v2 - v0)) / two)%f in
              let k1 := natural_k1 (use_fma c) dy k0 in
              hermite t y0 dy k0 k1
          | OutsideLow =>
              let t := (- t)%f in
              let y0 := v1 in
              let y1 := v0 in
              let dy := (v0 - v1)%f in
              let k0 := ((- (v2 - v0)) / two)%f in
              let k1 := natural_k1 fma_outlow dy k0 in
              if lin then linear_ext (use_fma c) y1 k1 t else hermite t y0 dy k0 k1
          | InsideHigh =>
              let t := (t - one)%f in
              let y0 := v2 in
              let dy := (v3 - v2)%f in
              let k0 := ((v3 - v1) / two)%f in
              let k1 := natural_k1 (use_fma c) dy k0 in
              hermite t y0 dy k0 k1
          | OutsideHigh =>
              let t := (t - one)%f in
              let y0 := v2 in
              let y1 := v3 in
              let dy := (v3 - v2)%f in
              let k0 := ((v3 - v1) / two)%f in
              let k1 := natural_k1 (use_fma c) dy k0 in
              if lin then linear_ext (use_fma c) y1 k1 t else hermite t y0 dy k0 k1
          end)
  | _ => Panic
  end.

(** interp_inner on a rectilinear grid: src/multicubic/rectilinear.rs:413-545
    (never fuses k1 or the linearised branch, [fma] = false) and
    src/multicubic/rectilinear_recursive.rs:385-539 (fuses k1 of the Inside
    branches and the linearised branches, [fma] = the feature; k1 of the Outside
    branches is never fused). *)
Definition rect_inner (fma lin : bool) (sat : saturation) (x : F) (cell vs : list F)
  : outcome F :=
  match cell, vs with
  | [g0; g1; g2; g3], [v0; v1; v2; v3] =>
      Ok (let one := fone o in
          match sat with
          | SatNone =>
              let y0 := v1 in
              let dy := (v2 - v1)%f in
              let h01 := (g1 - g0)%f in
              let h12 := (g2 - g1)%f in
              let h23 := (g3 - g2)%f in
              let k0 := centered_diff v0 v1 v2 (h01 / h12)%f one in
              let k1 := centered_diff v1 v2 v3 one (h23 / h12)%f in
              let t := ((x - g1) / h12)%f in
              hermite t y0 dy k0 k1
          | InsideLow =>
              let y0 := v1 in
              let dy := (v0 - v1)%f in
              let h01 := (g1 - g0)%f in
              let h12 := (g2 - g1)%f in
              let k0 := (- centered_diff v0 v1 v2 one (h12 / h01))%f in
              let k1 := natural_k1 fma dy k0 in
              let t := ((- (x - g1)) / h01)%f in
              hermite t y0 dy k0 k1
          | OutsideLow =>
              let y0 := v1 in
              let y1 := v0 in
              let dy := (v0 - v1)%f in
              let h01 := (g1 - g0)%f in
              let h12 := (g2 - g1)%f in
              let k0 := (- centered_diff v0 v1 v2 one (h12 / h01))%f in
              let k1 := natural_k1 false dy k0 in
              let t := ((- (x - g1)) / h01)%f in
              if lin then linear_ext fma y1 k1 t else hermite t y0 dy k0 k1
          | InsideHigh =>
              let y0 := v2 in
              let dy := (v3 - v2)%f in
              let h12 := (g2 - g1)%f in
              let h23 := (g3 - g2)%f in
              let k0 := centered_diff v1 v2 v3 (h12 / h23)%f one in
              let k1 := natural_k1 fma dy k0 in
              let t := ((x - g2) / h23)%f in
              hermite t y0 dy k0 k1
          | OutsideHigh =>
              let y0 := v2 in
              let y1 := v3 in
              let dy := (v3 - v2)%f in
              let h12 := (g2 - g1)%f in
              let h23 := (g3 - g2)%f in
              let k0 := centered_diff v1 v2 v3 (h12 / h23)%f one in
              let k1 := natural_k1 false dy k0 in
              let t := ((x - g2) / h23)%f in
              if lin then linear_ext fma y1 k1 t else hermite t y0 dy k0 k1
          end)
  | _, _ => Panic
  end.

(** OFFSET of vertex i on axis k: `(i & (3 << (2*k))) >> (2*k)`.
    src/multicubic/regular.rs:383, src/multicubic/rectilinear.rs:313. *)
Definition offset4 (i k : nat) : Z :=
  let k2 := (2 * N.of_nat k)%N in
  Z.of_N (N.shiftr (N.land (N.of_nat i) (N.shiftl 3 k2)) k2).

(** ** Regular grids.  The struct has the fields of [regular] plus the flag. *)
Record cubic_regular := mkCR { cr_base : regular F; cr_lin : bool }.
Record cubic_rect := mkCC { cc_base : rectilinear F; cc_lin : bool }.

(** get_loc: src/multicubic/regular.rs:432-469, regular_recursive.rs:386-423 (same text). *)
Definition creg_get_loc (s : regular F) (v : F) (dim : nat) : outcome (Z * saturation) :=
  do start <- aget (r_starts s) dim ;
  do step <- aget (r_steps s) dim ;
  let floc := ffloor o (fdiv o (fsub o v start) step) in
  do i0 <- ok_or (to_isize o floc) msg_repr ;
  do iloc <- isize_sub c i0 1 ;
  do d <- aget (r_dims s) dim ;
  let n := as_isize d in
  let loc := clip_loc 4 d iloc in
  if iloc <? -1 then Ok (loc, OutsideLow)
  else if iloc =? -1 then Ok (loc, InsideLow)
  else do n3 <- isize_sub c n 3 ;
       if n3 <? iloc then Ok (loc, OutsideHigh)
       else if iloc =? n3 then Ok (loc, InsideHigh)
       else Ok (loc, SatNone).

(** dts of axis i, relative to index 1 of the footprint.
    src/multicubic/regular.rs:353-360, regular_recursive.rs:360-366. *)
Definition creg_dt (s : regular F) (xi : F) (i : nat) (origin : Z) : outcome F :=
  do start <- aget (r_starts s) i ;
  do step <- aget (r_steps s) i ;
  do o1 <- usize_add c origin 1 ;
  do o1f <- ok_or (of_usize o o1) msg_repr ;
  let one_loc := fadd o start (fmul o step o1f) in
  Ok (fdiv o (fsub o xi one_loc) step).

(** src/multicubic/regular.rs:239-288 MulticubicRegular::new. The tests on
    starts.len(), steps.len() and N > 0 are vacuous for `[T; N]`. *)
Definition mcr_new (dims : list Z) (starts steps vals : list F) (lin : bool)
  : outcome cubic_regular :=
  do nvals <- product c dims ;
  if negb ((length starts =? length dims)%nat && (length steps =? length dims)%nat
           && (zlen vals =? nvals) && (0 <? length dims)%nat) then Err msg_dim
  else if existsb (fun x => x <? 4) dims then Err "All grids must have at least four entries"
  else if negb (forallb (fun x => flt o (fzero o) x) steps) then Err msg_mono
  else Ok (mkCR (mkRegular dims starts steps vals) lin).

(** src/multicubic/regular.rs:325-422 MulticubicRegular::interp_one. *)
Definition mcr_interp_one (cs : cubic_regular) (x : list F) : outcome F :=
  let s := cr_base cs in
  let n := length (r_dims s) in
  do (dimprod, axes) <- flat_setup c (r_dims s) (fun i =>
       do xi <- aget x i ;
       do (origin, sat) <- creg_get_loc s xi i ;
       do dt <- creg_dt s xi i origin ;
       Ok (origin, sat, dt)) ;
  let origin := map (fun a => fst (fst a)) axes in
  let sats := map (fun a => snd (fst a)) axes in
  let dts := map snd axes in
  flat_eval 4 n (fzero o)
    (flat_leaf c offset4 origin dimprod (r_vals s))
    (fun ind ys => do t <- aget dts ind ;
                   do sat <- aget sats ind ;
                   reg_inner (use_fma c) (cr_lin cs) sat t ys).

(** src/multicubic/regular.rs:297-313 interp. *)
Definition mcr_interp (s : cubic_regular) :=
  interp_batch (length (r_dims (cr_base s))) (mcr_interp_one s).

(** src/multicubic/regular_recursive.rs:236-281 new. *)
Definition mcrr_new (maxdims : nat) (dims : list Z) (starts steps vals : list F) (lin : bool)
  : outcome cubic_regular :=
  let ndims := length dims in
  do nvals <- product c dims ;
  if negb ((length starts =? ndims)%nat && (length steps =? ndims)%nat
           && (zlen vals =? nvals) && (0 <? ndims)%nat) then Err msg_dim
  else if existsb (fun x => x <? 4) dims then Err "All grids must have at least four entries"
  else if negb (forallb (fun x => flt o (fzero o) x) steps) then Err msg_mono
  else if (maxdims <? ndims)%nat then Panic
  else Ok (mkCR (mkRegular dims starts steps vals) lin).

(** src/multicubic/regular_recursive.rs:322-376 interp_one. *)
Definition mcrr_interp_one (maxdims : nat) (cs : cubic_regular) (x : list F) : outcome F :=
  let s := cr_base cs in
  let ndims := length (r_dims s) in
  if negb ((length x =? ndims)%nat && (ndims <=? maxdims)%nat) then Err msg_dim
  else
  do dimprod <- rec_dimprod c (r_dims s) ;
  do locs <- mapM (fun i => do xi <- aget x i ; creg_get_loc s xi i) (seq 0 ndims) ;
  let origin := map fst locs in
  let sats := map snd locs in
  do dts <- mapM (fun i => do xi <- aget x i ;
                           do oi <- aget origin i ;
                           creg_dt s xi i oi) (seq 0 ndims) ;
  do (v, _) <- populate c 4 origin dimprod (r_vals s)
                 (fun ind ys => do t <- aget dts ind ;
                                do sat <- aget sats ind ;
                                reg_inner false (cr_lin cs) sat t ys) ndims origin ;
  Ok v.

(** src/multicubic/regular_recursive.rs:290-310 interp. *)
Definition mcrr_interp (maxdims : nat) (s : cubic_regular) :=
  interp_batch (length (r_dims (cr_base s))) (mcrr_interp_one maxdims s).

(** src/multicubic/regular.rs:52-136 interpn. There is no length check before the
    `try_into().unwrap()`s of the arms 1..4. *)
Definition mcr_interpn (dims : list Z) (starts steps vals : list F) (lin : bool)
  (obs : list (list F)) (out : list F) : outcome unit * list F :=
  let ndims := length dims in
  if (1 <=? ndims)%nat && (ndims <=? 4)%nat then
    and_then (do d <- try_into_unwrap ndims dims ;
              do st <- try_into_unwrap ndims starts ;
              do sp <- try_into_unwrap ndims steps ;
              mcr_new d st sp vals lin) out
      (fun s => and_then (try_into_unwrap ndims obs) out (fun ob => mcr_interp s ob out))
  else if (5 <=? ndims)%nat && (ndims <=? 8)%nat then
    and_then (mcrr_new ndims dims starts steps vals lin) out
      (fun s => mcrr_interp ndims s obs out)
  else (Err msg_max8, out).

(** src/multicubic/regular_recursive.rs:47-131 interpn. *)
Definition mcrr_interpn (dims : list Z) (starts steps vals : list F) (lin : bool)
  (obs : list (list F)) (out : list F) : outcome unit * list F :=
  let ndims := length dims in
  if (1 <=? ndims)%nat && (ndims <=? 8)%nat then
    and_then (mcrr_new ndims dims starts steps vals lin) out
      (fun s => mcrr_interp ndims s obs out)
  else (Err msg_max8, out).

(** src/multicubic/regular.rs:143-162 interpn_alloc. *)
Definition mcr_interpn_alloc dims starts steps vals lin obs : outcome (list F) :=
  do out <- alloc_zeros o obs ; alloc_result (mcr_interpn dims starts steps vals lin obs out).

(** src/multicubic/regular_recursive.rs:138-157 interpn_alloc. *)
Definition mcrr_interpn_alloc dims starts steps vals lin obs : outcome (list F) :=
  do out <- alloc_zeros o obs ; alloc_result (mcrr_interpn dims starts steps vals lin obs out).

(** ** Rectilinear grids *)

(** get_loc: src/multicubic/rectilinear.rs:366-408, rectilinear_recursive.rs:294-336
    (same text). *)
Definition crect_get_loc (s : rectilinear F) (v : F) (dim : nat) : outcome (Z * saturation) :=
  do grid <- aget (g_grids s) dim ;
  do pp <- partition_point (fun x => flt o x v) grid ;
  do iloc <- isize_sub c (as_isize pp) 2 ;
  do d <- aget (g_dims s) dim ;
  let n := as_isize d in
  let loc := clip_loc 4 d iloc in
  if iloc =? -2 then Ok (loc, OutsideLow)
  else if iloc =? -1 then Ok (loc, InsideLow)
  else do n2 <- isize_sub c n 2 ;
       if iloc =? n2 then Ok (loc, OutsideHigh)
       else do n3 <- isize_sub c n 3 ;
            if iloc =? n3 then Ok (loc, InsideHigh)
            else Ok (loc, SatNone).

(** Combination on axis [ind]: slice the grid cell, then interp_inner.
    src/multicubic/rectilinear.rs:329-336, 347-354 ([fma] = false),
    src/multicubic/rectilinear_recursive.rs:370-377. *)
Definition crect_node (fma lin : bool) (s : rectilinear F) (x : list F) (origin : list Z)
  (sats : list saturation) (ind : nat) (ys : list F) : outcome F :=
  do grid <- aget (g_grids s) ind ;
  do oi <- aget origin ind ;
  do o4 <- usize_add c oi 4 ;
  do cell <- slice grid oi o4 ;
  do xi <- aget x ind ;
  do sat <- aget sats ind ;
  rect_inner fma lin sat xi cell ys.

(** src/multicubic/rectilinear.rs:193-228 MulticubicRectilinear::new. *)
Definition mcc_new (grids : list (list F)) (vals : list F) (lin : bool) : outcome cubic_rect :=
  let dims := map zlen grids in
  do nvals <- product c dims ;
  if negb (zlen vals =? nvals) then Err msg_dim
  else if existsb (fun x => x <? 4) dims then Err "All grids must have at least 4 entries"
  else do mono <- allM (mono_maybe o) grids ;
       if negb mono then Err msg_mono
       else Ok (mkCC (mkRect grids dims vals) lin).

(** src/multicubic/rectilinear.rs:265-356 MulticubicRectilinear::interp_one. *)
Definition mcc_interp_one (cs : cubic_rect) (x : list F) : outcome F :=
  let s := cc_base cs in
  let n := length (g_dims s) in
  do (dimprod, axes) <- flat_setup c (g_dims s) (fun i =>
       do xi <- aget x i ; crect_get_loc s xi i) ;
  let origin := map fst axes in
  let sats := map snd axes in
  flat_eval 4 n (fzero o)
    (flat_leaf c offset4 origin dimprod (g_vals s))
    (crect_node false (cc_lin cs) s x origin sats).

(** src/multicubic/rectilinear.rs:237-253 interp. *)
Definition mcc_interp (s : cubic_rect) :=
  interp_batch (length (g_dims (cc_base s))) (mcc_interp_one s).

(** src/multicubic/rectilinear_recursive.rs:169-199 new. *)
Definition mccr_new (maxdims : nat) (grids : list (list F)) (vals : list F) (lin : bool)
  : outcome cubic_rect :=
  let ndims := length grids in
  if (maxdims <? ndims)%nat then Panic
  else
  let dims := map zlen grids in
  do nvals <- product c dims ;
  if negb ((zlen vals =? nvals) && (0 <? ndims)%nat && (ndims <=? maxdims)%nat) then Err msg_dim
  else if existsb (fun x => x <? 4) dims then Err "All grids must have at least 4 entries"
  else do mono <- allM (mono_maybe o) grids ;
       if negb mono then Err msg_mono
       else Ok (mkCC (mkRect grids dims vals) lin).

(** src/multicubic/rectilinear_recursive.rs:242-284 interp_one. *)
Definition mccr_interp_one (maxdims : nat) (cs : cubic_rect) (x : list F) : outcome F :=
  let s := cc_base cs in
  let ndims := length (g_grids s) in
  if negb ((length x =? ndims)%nat && (ndims <=? maxdims)%nat) then Err msg_dim
  else
  do dimprod <- rec_dimprod c (g_dims s) ;
  do locs <- mapM (fun i => do xi <- aget x i ; crect_get_loc s xi i) (seq 0 ndims) ;
  let origin := map fst locs in
  let sats := map snd locs in
  do (v, _) <- populate c 4 origin dimprod (g_vals s)
                 (crect_node (use_fma c) (cc_lin cs) s x origin sats) ndims origin ;
  Ok v.

(** src/multicubic/rectilinear_recursive.rs:208-230 interp. *)
Definition mccr_interp (maxdims : nat) (s : cubic_rect) :=
  interp_batch (length (g_grids (cc_base s))) (mccr_interp_one maxdims s).

(** src/multicubic/rectilinear.rs:54-104 interpn. *)
Definition mcc_interpn (grids : list (list F)) (vals : list F) (lin : bool)
  (obs : list (list F)) (out : list F) : outcome unit * list F :=
  let ndims := length grids in
  if (1 <=? ndims)%nat && (ndims <=? 4)%nat then
    and_then (do g <- try_into_unwrap ndims grids ; mcc_new g vals lin) out
      (fun s => and_then (try_into_unwrap ndims obs) out (fun ob => mcc_interp s ob out))
  else if (5 <=? ndims)%nat && (ndims <=? 8)%nat then
    and_then (mccr_new ndims grids vals lin) out (fun s => mccr_interp ndims s obs out)
  else (Err msg_max8, out).

(** src/multicubic/rectilinear_recursive.rs:46-80 interpn. *)
Definition mccr_interpn (grids : list (list F)) (vals : list F) (lin : bool)
  (obs : list (list F)) (out : list F) : outcome unit * list F :=
  let ndims := length grids in
  if (1 <=? ndims)%nat && (ndims <=? 8)%nat then
    and_then (mccr_new ndims grids vals lin) out (fun s => mccr_interp ndims s obs out)
  else (Err msg_max8, out).

(** src/multicubic/rectilinear.rs:111-120 interpn_alloc. *)
Definition mcc_interpn_alloc grids vals lin obs : outcome (list F) :=
  do out <- alloc_zeros o obs ; alloc_result (mcc_interpn grids vals lin obs out).

(** src/multicubic/rectilinear_recursive.rs:87-96 interpn_alloc. *)
Definition mccr_interpn_alloc grids vals lin obs : outcome (list F) :=
  do out <- alloc_zeros o obs ; alloc_result (mccr_interpn grids vals lin obs out).

End Cubic.
