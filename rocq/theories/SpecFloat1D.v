(** Small specifications used in the statements about the one-dimensional interpolators in
    floating point. *)
From Coq Require Import Reals List ZArith.
From Flocq Require Import Core.Core IEEE754.BinarySingleNaN.
From Verif Require Import Base SpecReal Spec1D SpecError.
Unset Implicit Arguments.
Open Scope R_scope.

(** The slope of the data in every cell is at most [S], the width of every cell at most [W]. *)
Definition slopes_within (S : R) (a : axis) (vals : list R) : Prop :=
  forall i, (0 <= i <= npts a - 2)%Z ->
  Rabs (val_at vals (i + 1) - val_at vals i) <= S * (coord a (i + 1) - coord a i).
Definition widths_within (W : R) (a : axis) : Prop :=
  forall i, (0 <= i <= npts a - 2)%Z -> coord a (i + 1) - coord a i <= W.

(** [x] is inside the grid, or outside it by at most [rho]. *)
Definition near_axis (rho : R) (a : axis) (x : R) : Prop :=
  coord a 0 - rho <= x <= coord a (npts a - 1) + rho.

(** Node [i] is the last one at or below [x], the first one at or above [x], up to a distance [e]. *)
Definition left_node_up_to (e : R) (a : axis) (x : R) (i : Z) : Prop :=
  (0 <= i < npts a)%Z /\ coord a i <= x + e /\ (i = (npts a - 1)%Z \/ x - e <= coord a (i + 1)).
Definition right_node_up_to (e : R) (a : axis) (x : R) (i : Z) : Prop :=
  (0 <= i < npts a)%Z /\ x - e <= coord a i /\ (i = 0%Z \/ coord a (i - 1) <= x + e).

Section B.
Variables prec emax : Z.

(** Error bound on a rectilinear grid: values of size [A], slopes [S], cells of width [W], a point
    at most [rho] outside the grid. *)
Definition line_error (A S W rho : R) : R :=
  roundoff prec * (13 * A + 7 * (S * rho)) + 2 * underflow prec emax * (1 + W + rho).
(** Error bound on a regular grid of step [w] whose coordinates are at most [kappa] steps from zero. *)
Definition regular_line_error (kappa A w : R) : R :=
  64 * (roundoff prec * kappa) * A + 3 * underflow prec emax * (1 + w).
End B.
