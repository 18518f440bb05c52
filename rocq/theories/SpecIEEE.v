(** Multilinear evaluators over IEEE floats, as objects the theorems quantify over, and small
    specifications used in their statements. *)
From Coq Require Import Reals.
From Flocq Require Import Core.Core IEEE754.BinarySingleNaN.
From Verif Require Import Base Ops FInst ModelCore ModelLinear ModelCubic Spec SpecOrder.
Open Scope Z_scope.

Section B.
Context {prec emax : Z} (Hp : Prec_gt_0 prec) (He : Prec_lt_emax prec emax).
Notation fl := (binary_float prec emax).
Notation o := (BOps Hp He).

(** Evaluation at one point by an accepted interpolator on a rectilinear grid: the flattened
    and the recursive implementation. *)
Inductive float_rectilinear (c : cfg) (grids : list (list fl)) (vals : list fl) :
  (list fl -> outcome fl) -> Prop :=
| float_rectilinear_flat s :
    rect_input c grids vals -> mlc_new o c grids vals = Ok s ->
    float_rectilinear c grids vals (mlc_interp_one o c s)
| float_rectilinear_recursive maxdims s :
    rect_input c grids vals -> mlcr_new o c maxdims grids vals = Ok s ->
    float_rectilinear c grids vals (mlcr_interp_one o c maxdims s).

(** The same for regular grids. *)
Inductive float_regular (c : cfg) (dims : list Z) (starts steps vals : list fl) :
  (list fl -> outcome fl) -> Prop :=
| float_regular_flat s :
    reg_input c dims starts steps vals -> mlr_new o c dims starts steps vals = Ok s ->
    float_regular c dims starts steps vals (mlr_interp_one o c s)
| float_regular_recursive maxdims s :
    reg_input c dims starts steps vals -> mlrr_new o c maxdims dims starts steps vals = Ok s ->
    float_regular c dims starts steps vals (mlrr_interp_one o c maxdims s).

(** A stored float has the real value [r]. *)
Definition is_real (v : fl) (r : R) : Prop := is_finite v = true /\ B2R v = r.

(** The position of [x] in its cell, computed in floating point, is finite. *)
Definition rect_position_finite (g : list fl) (x : fl) : Prop :=
  forall i a b, bracketing_cell o x g i ->
  nth_error g (Z.to_nat i) = Some a -> nth_error g (Z.to_nat (i + 1)) = Some b ->
  is_finite (fdiv o (fsub o x a) (fsub o b a)) = true.

(** Coordinate of node [i] of a regular axis as the code computes it, fused or not. *)
Definition reg_node (fma : bool) (start step : fl) (i : Z) : option fl :=
  option_map (fun n => if fma then fmuladd o step n start else fadd o start (fmul o step n))
             (of_usize o i).

Definition reg_position_finite (start step : fl) (d : Z) (x : fl) : Prop :=
  forall q fma a, to_isize o (ffloor o (fdiv o (fsub o x start) step)) = Some q ->
  reg_node fma start step (Z.min (Z.max q 0) (d - 2)) = Some a ->
  is_finite (fdiv o (fsub o x a) step) = true.

(** Coordinates whose differences cannot overflow. *)
Definition moderate (v : fl) : Prop :=
  is_finite v = true /\ (Rabs (B2R v) <= bpow radix2 (emax - 2))%R.

(** The five cases of the cubic method along an axis, from below the grid to above it. *)
Definition sat_rank (s : saturation) : Z :=
  match s with OutsideLow => 0 | InsideLow => 1 | SatNone => 2 | InsideHigh => 3 | OutsideHigh => 4 end.

(** [x] lies between the first and the last point of the grid. *)
Definition inside_grid (g : list fl) (x : fl) : Prop :=
  is_finite x = true /\
  (forall a, hd_error g = Some a -> fle o a x = true) /\
  (forall b, hd_error (rev g) = Some b -> fle o x b = true).

(** Subtracting any two of the values is exact. *)
Definition exact_differences (vals : list fl) : Prop :=
  forall v w, In v vals -> In w vals -> is_real (fsub o v w) (B2R v - B2R w).

(** The coordinates of a regular axis, and their distances from its start, are floats. *)
Definition exact_axis (start step : fl) (d : Z) : Prop :=
  forall i, 0 <= i < d -> exists p q : fl,
  B2R p = (B2R step * IZR i)%R /\ B2R q = (B2R start + B2R step * IZR i)%R.
End B.
