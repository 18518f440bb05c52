(** Size of rounding errors outside the grid, used in the statements about extrapolation in
    floating point. *)
From Coq Require Import Reals List ZArith.
From Flocq Require Import Core.Core IEEE754.BinarySingleNaN.
From Verif Require Import SpecReal SpecError SpecExtrap.
Unset Implicit Arguments.
Open Scope R_scope.

(** Factor by which the values may grow on the way from the grid to the point x: along each
    axis 1, plus 2 for each cell width that x lies outside the axis. *)
Definition reach_factor (axes : list axis) (x : list R) : R :=
  prod_upto (length axes) (fun k => 1 + 2 * outside_by axes x k).

Section B.
Variables prec emax : Z.
Notation fl := (binary_float prec emax).

(** The growth, and values of size [A] grown that much, stay below 1/16 of the overflow threshold. *)
Definition reach_fits (axes : list axis) (x : list R) (A : R) : Prop :=
  reach_factor axes x <= bpow radix2 (emax - 4) /\ reach_factor axes x * A <= bpow radix2 (emax - 4).

(** The point is at most [kappa] steps away from zero on every axis. *)
Definition point_within (kappa : R) (steps x : list fl) : Prop :=
  forall k h v, nth_error steps k = Some h -> nth_error x k = Some v ->
    is_finite v = true /\ Rabs (B2R v) <= kappa * B2R h.

(** Error bound for [n] axes and values of size [A], at a point where the growth is 1. *)
Definition rectilinear_reach_error (n : nat) (A : R) : R :=
  INR n * (18 * roundoff prec * A + 3 * underflow prec emax).
End B.
