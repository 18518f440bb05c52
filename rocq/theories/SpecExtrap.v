(** Points outside the grid: a small specification, independent of the model's code. *)
From Coq Require Import Reals.
From Verif Require Import Base Spec SpecReal SpecApprox.
Open Scope R_scope.

(** How far x lies outside the axis, counted in widths of the outermost cell; 0 inside. *)
Definition overshoot (a : axis) (x : R) : R :=
  Rmax 0 (Rmax ((coord a 0 - x) / spacing a 0)
               ((x - coord a (npts a - 1)) / spacing a (npts a - 2))).

(** The overshoot of the point x along axis k. *)
Definition outside_by (axes : list axis) (x : list R) (k : nat) : R :=
  overshoot (nth k axes no_axis) (nth k x 0).

(** g 0 * g 1 * ... * g (n-1) *)
Definition prod_upto (n : nat) (g : nat -> R) : R := fold_right Rmult 1 (map g (seq 0 n)).

(** y is in the smallest box that contains the grid and the point x. *)
Definition in_reach (axes : list axis) (x y : list R) : Prop :=
  length y = length axes /\
  forall k a, nth_error axes k = Some a ->
    Rmin (coord a 0) (nth k x 0) <= nth k y 0 <= Rmax (coord a (npts a - 1)) (nth k x 0).

(** In that box, the second partial derivative of f along axis k exists and is bounded by M. *)
Definition second_derivative_reaching (axes : list axis) (x : list R) (f : list R -> R) (k : nat) (M : R) : Prop :=
  exists D1 D2 : list R -> R, forall y, in_reach axes x y ->
    partial_derivative f k y (D1 y) /\ partial_derivative D1 k y (D2 y) /\ Rabs (D2 y) <= M.

(** The same for the third partial derivative. *)
Definition third_derivative_reaching (axes : list axis) (x : list R) (f : list R -> R) (k : nat) (M : R) : Prop :=
  exists D1 D2 D3 : list R -> R, forall y, in_reach axes x y ->
    partial_derivative f k y (D1 y) /\ partial_derivative D1 k y (D2 y) /\
    partial_derivative D2 k y (D3 y) /\ Rabs (D3 y) <= M.

(** Factor by which the cubic interpolators may magnify values along one axis, [d] cell widths
    outside the grid; [lin] is the flag linearize_extrapolation. *)
Definition cubic_reach_gain (lin : bool) (rho d : R) : R :=
  cubic_gain rho + (2 + 2 * rho) * d + (if lin then 0 else 2 * rho * d ^ 2).

(** The part of the error along one axis that comes from the distance to the grid: [d] cell
    widths outside, in units of (bound on the second derivative) * (largest spacing)^2 for the
    linear interpolators, of (bound on the third derivative) * (largest spacing)^3 for the cubic. *)
Definition linear_miss (d : R) : R := 1 / 8 + d * (1 + d) / 2.
Definition cubic_miss (d : R) : R := 7 / 48 + d / 3 + d ^ 2 / 2 + d ^ 3 / 6.
