(** The interpolators of the crate in exact arithmetic, as objects the theorems quantify
    over: an interpolator built by an accepting constructor, on the grid [axes], with the
    value array [vals], together with its evaluation function [eval]. Evaluation on a
    regular grid returns an error when the cell number of the point is no isize; [dom] is
    the set of points where that does not happen (everything, for rectilinear grids). *)
From Coq Require Import Reals.
From Verif Require Import Base Ops RInst ModelLinear ModelNearest ModelCubic Spec SpecReal.
Open Scope R_scope.

Definition everywhere (x : list R) : Prop := True.

(** The four multilinear interpolators. *)
Inductive multilinear (c : cfg) (vals : list R) :
  list axis -> (list R -> Prop) -> (list R -> outcome R) -> Prop :=
| multilinear_regular dims starts steps s :
    reg_input c dims starts steps vals ->
    mlr_new ROps c dims starts steps vals = Ok s ->
    multilinear c vals (reg_axes dims starts steps) (cell_fits isize_min starts steps)
      (mlr_interp_one ROps c s)
| multilinear_regular_recursive maxdims dims starts steps s :
    reg_input c dims starts steps vals ->
    mlrr_new ROps c maxdims dims starts steps vals = Ok s ->
    multilinear c vals (reg_axes dims starts steps) (cell_fits isize_min starts steps)
      (mlrr_interp_one ROps c maxdims s)
| multilinear_rectilinear grids s :
    rect_input c grids vals -> Forall strictly_increasing grids ->
    mlc_new ROps c grids vals = Ok s ->
    multilinear c vals (rect_axes grids) everywhere (mlc_interp_one ROps c s)
| multilinear_rectilinear_recursive maxdims grids s :
    rect_input c grids vals -> Forall strictly_increasing grids ->
    mlcr_new ROps c maxdims grids vals = Ok s ->
    multilinear c vals (rect_axes grids) everywhere (mlcr_interp_one ROps c maxdims s).

(** The four multicubic interpolators; [lin] is the flag linearize_extrapolation. The
    cell number -2^63 is excluded: the code subtracts one from it. *)
Inductive multicubic (c : cfg) (lin : bool) (vals : list R) :
  list axis -> (list R -> Prop) -> (list R -> outcome R) -> Prop :=
| multicubic_regular dims starts steps s :
    reg_input c dims starts steps vals ->
    mcr_new ROps c dims starts steps vals lin = Ok s ->
    multicubic c lin vals (reg_axes dims starts steps) (cell_fits (isize_min + 1) starts steps)
      (mcr_interp_one ROps c s)
| multicubic_regular_recursive maxdims dims starts steps s :
    reg_input c dims starts steps vals ->
    mcrr_new ROps c maxdims dims starts steps vals lin = Ok s ->
    multicubic c lin vals (reg_axes dims starts steps) (cell_fits (isize_min + 1) starts steps)
      (mcrr_interp_one ROps c maxdims s)
| multicubic_rectilinear grids s :
    rect_input c grids vals -> Forall strictly_increasing grids ->
    mcc_new ROps c grids vals lin = Ok s ->
    multicubic c lin vals (rect_axes grids) everywhere (mcc_interp_one ROps c s)
| multicubic_rectilinear_recursive maxdims grids s :
    rect_input c grids vals -> Forall strictly_increasing grids ->
    mccr_new ROps c maxdims grids vals lin = Ok s ->
    multicubic c lin vals (rect_axes grids) everywhere (mccr_interp_one ROps c maxdims s).

(** The two nearest-neighbour interpolators. *)
Inductive nearest_nd (c : cfg) (vals : list R) :
  list axis -> (list R -> Prop) -> (list R -> outcome R) -> Prop :=
| nearest_regular dims starts steps s :
    reg_input c dims starts steps vals ->
    nr_new ROps c dims starts steps vals = Ok s ->
    nearest_nd c vals (reg_axes dims starts steps) (cell_fits isize_min starts steps)
      (nr_interp_one ROps c s)
| nearest_rectilinear grids s :
    rect_input c grids vals -> Forall strictly_increasing grids ->
    nc_new ROps c grids vals = Ok s ->
    nearest_nd c vals (rect_axes grids) everywhere (nc_interp_one ROps c s).
