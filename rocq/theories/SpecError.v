(** Size of rounding errors, used in the statements about floating-point accuracy. *)
From Coq Require Import Reals List ZArith.
From Flocq Require Import Core.Core IEEE754.BinarySingleNaN.
From Verif Require Import SpecReal.
Import ListNotations.
Unset Implicit Arguments.
Open Scope R_scope.

Section B.
Variables prec emax : Z.
Notation fl := (binary_float prec emax).

(** Unit roundoff (2^-53 for f64) and half of the smallest positive float (2^-1075 for f64). *)
Definition roundoff : R := bpow radix2 (- prec).
Definition underflow : R := / 2 * bpow radix2 (3 - emax - prec).

(** All values are finite and at most [A] in size; [A] is at most 1/16 of the overflow threshold. *)
Definition bounded_values (A : R) (vals : list fl) : Prop :=
  0 <= A <= bpow radix2 (emax - 4) /\
  Forall (fun v => is_finite v = true /\ Rabs (B2R v) <= A) vals.

(** A regular axis is finite and its coordinates are at most [kappa] steps away from zero, far
    from overflow. *)
Definition axis_within (kappa : R) (start step : fl) (d : Z) : Prop :=
  is_finite start = true /\ is_finite step = true /\
  Rabs (B2R start) <= kappa * B2R step /\
  Rabs (B2R start + B2R step * IZR (d - 1)) <= kappa * B2R step /\
  kappa * B2R step <= bpow radix2 (emax - 3).
Definition axes_within (kappa : R) (starts steps : list fl) (dims : list Z) : Prop :=
  forall k start step d, nth_error starts k = Some start -> nth_error steps k = Some step ->
  nth_error dims k = Some d -> axis_within kappa start step d.

(** Error bounds for [n] axes and values of size [A]. *)
Definition rectilinear_error (n : nat) (A : R) : R := INR n * (16 * roundoff * A + 3 * underflow).
Definition regular_error (n : nat) (kappa A : R) : R := INR n * (64 * (roundoff * kappa) * A + 3 * underflow).
End B.

(** Node [i] of an axis is as near to [x] as any other node: up to a factor, up to a distance. *)
Definition nearest_up_to_factor (f : R) (a : axis) (x : R) (i : Z) : Prop :=
  (0 <= i < npts a)%Z /\
  forall j, (0 <= j < npts a)%Z -> Rabs (x - coord a i) <= f * Rabs (x - coord a j).
Definition nearest_up_to (e : R) (a : axis) (x : R) (i : Z) : Prop :=
  (0 <= i < npts a)%Z /\
  forall j, (0 <= j < npts a)%Z -> Rabs (x - coord a i) <= Rabs (x - coord a j) + e.
