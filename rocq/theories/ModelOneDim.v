(** src/one_dim: one-dimensional grids and interpolators. *)
From Verif Require Import Base Ops ModelCore.
Open Scope string_scope.
Open Scope Z_scope.

(** src/one_dim/mod.rs:12-16. *)
Inductive extrap := Inside | ExtrapLow | ExtrapHigh.

Definition msg_len := "Length mismatch".
Definition msg_num := "Unrepresentable number".

Section OneDim.
Context {F : Type} (o : Ops F) (c : cfg).

(** src/one_dim/mod.rs:19-25. *)
Record grid_sample := mkSample { sx0 : F; sy0 : F; sx1 : F; sy1 : F; sextrap : extrap }.

(** src/one_dim/mod.rs:78-83. *)
Record regular1 := mkR1 { r1_start : F; r1_stop : F; r1_step : F; r1_vals : list F }.

(** src/one_dim/mod.rs:86-95 RegularGrid1D::new: no check besides conversion. *)
Definition r1_new (start step : F) (vals : list F) : outcome regular1 :=
  do m <- usize_sub c (zlen vals) 1 ;
  do mf <- ok_or (of_usize o m) msg_num ;
  Ok (mkR1 start (fadd o start (fmul o step mf)) step vals).

(** src/one_dim/mod.rs:99-116 RegularGrid1D::index. *)
Definition r1_index (g : regular1) (loc : F) : outcome (Z * extrap) :=
  let ex := if flt o (r1_stop g) loc then ExtrapHigh
            else if flt o loc (r1_start g) then ExtrapLow else Inside in
  let fi := ffloor o (fdiv o (fsub o loc (r1_start g)) (r1_step g)) in
  do i <- ok_or (to_isize o fi) msg_num ;
  do m <- usize_sub c (zlen (r1_vals g)) 2 ;
  Ok (as_usize (Z.min (Z.max i 0) (as_isize m)), ex).

(** src/one_dim/mod.rs:121-137 RegularGrid1D::at. *)
Definition r1_at (g : regular1) (loc : F) : outcome grid_sample :=
  do (i, ex) <- r1_index g loc ;
  do fi <- ok_or (of_usize o i) msg_num ;
  let x0 := fadd o (r1_start g) (fmul o (r1_step g) fi) in
  let x1 := fadd o x0 (r1_step g) in
  do y0 <- idx (r1_vals g) i ;
  do i1 <- usize_add c i 1 ;
  do y1 <- idx (r1_vals g) i1 ;
  Ok (mkSample x0 y0 x1 y1 ex).

(** src/one_dim/mod.rs:142-145. *)
Record rect1 := mkC1 { c1_grid : list F; c1_vals : list F }.

(** src/one_dim/mod.rs:148-154 RectilinearGrid1D::new. *)
Definition c1_new (grid vals : list F) : outcome rect1 :=
  if negb (length grid =? length vals)%nat || (length grid <? 2)%nat
  then Err msg_len else Ok (mkC1 grid vals).

(** src/one_dim/mod.rs:157-168 RectilinearGrid1D::index. *)
Definition c1_index (g : rect1) (loc : F) : outcome (Z * extrap) :=
  do pp <- partition_point (fun v => flt o v loc) (c1_grid g) ;
  do i0 <- isize_sub c (as_isize pp) 1 ;
  do m <- usize_sub c (zlen (c1_grid g)) 2 ;
  let i := Z.min (as_usize (Z.max i0 0)) m in
  do g0 <- idx (c1_grid g) 0 ;
  if flt o loc g0 then Ok (i, ExtrapLow)
  else do m1 <- usize_sub c (zlen (c1_grid g)) 1 ;
       do gl <- idx (c1_grid g) m1 ;
       if flt o gl loc then Ok (i, ExtrapHigh) else Ok (i, Inside).

(** src/one_dim/mod.rs:173-186 RectilinearGrid1D::at. *)
Definition c1_at (g : rect1) (loc : F) : outcome grid_sample :=
  do (i, ex) <- c1_index g loc ;
  do x0 <- idx (c1_grid g) i ;
  do i1 <- usize_add c i 1 ;
  do x1 <- idx (c1_grid g) i1 ;
  do y0 <- idx (c1_vals g) i ;
  do y1 <- idx (c1_vals g) i1 ;
  Ok (mkSample x0 y0 x1 y1 ex).

(** The interpolators are generic in the grid; [at_] is the grid's `at`. *)

(** `y0 + slope * dx`: src/one_dim/linear.rs:28-34, 69-77. *)
Definition line_through (g : grid_sample) (loc : F) : F :=
  let slope := fdiv o (fsub o (sy1 g) (sy0 g)) (fsub o (sx1 g) (sx0 g)) in
  let dx := fsub o loc (sx0 g) in
  if use_fma c then fmuladd o slope dx (sy0 g) else fadd o (sy0 g) (fmul o slope dx).

(** src/one_dim/linear.rs:25-37 Linear1D::eval_one. *)
Definition linear1 (at_ : F -> outcome grid_sample) (loc : F) : outcome F :=
  do g <- at_ loc ; Ok (line_through g loc).

(** src/one_dim/linear.rs:59-85 LinearHoldLast1D::eval_one. *)
Definition hold_last1 (at_ : F -> outcome grid_sample) (loc : F) : outcome F :=
  do g <- at_ loc ;
  Ok (match sextrap g with
      | Inside => line_through g loc
      | ExtrapLow => sy0 g
      | ExtrapHigh => sy1 g
      end).

(** src/one_dim/hold.rs:24-39 Left1D::eval_one. *)
Definition left1 (at_ : F -> outcome grid_sample) (loc : F) : outcome F :=
  do g <- at_ loc ;
  Ok (match sextrap g with ExtrapHigh => sy1 g | _ => sy0 g end).

(** src/one_dim/hold.rs:59-74 Right1D::eval_one. *)
Definition right1 (at_ : F -> outcome grid_sample) (loc : F) : outcome F :=
  do g <- at_ loc ;
  Ok (match sextrap g with ExtrapLow => sy0 g | _ => sy1 g end).

(** src/one_dim/hold.rs:95-107 Nearest1D::eval_one. *)
Definition nearest1 (at_ : F -> outcome grid_sample) (loc : F) : outcome F :=
  do g <- at_ loc ;
  let dx0 := fabs o (fsub o loc (sx0 g)) in
  let dx1 := fabs o (fsub o loc (sx1 g)) in
  Ok (if fle o dx0 dx1 then sy0 g else sy1 g).

(** src/one_dim/mod.rs:51-61 Interp1D::eval. *)
Definition eval1 (one : F -> outcome F) (locs out : list F) : outcome unit * list F :=
  if negb (length locs =? length out)%nat then (Err msg_len, out)
  else batch_loop (fun i => do l <- aget locs i ; one l) (seq 0 (length locs)) out.

(** src/one_dim/mod.rs:69-73 Interp1D::eval_alloc. *)
Definition eval1_alloc (one : F -> outcome F) (locs : list F) : outcome (list F) :=
  alloc_result (eval1 one locs (repeat (fzero o) (length locs))).

End OneDim.
Arguments grid_sample : clear implicits.
Arguments regular1 : clear implicits.
Arguments rect1 : clear implicits.
