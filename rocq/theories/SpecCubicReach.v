(** Size of rounding errors of the multicubic interpolators outside the grid. *)
From Coq Require Import Reals List ZArith.
From Flocq Require Import Core.Core IEEE754.BinarySingleNaN.
From Verif Require Import SpecError SpecReal SpecExtrap.
Unset Implicit Arguments.
Open Scope R_scope.

(** The point x is at most [d] cell widths outside the grid along every axis. *)
Definition outside_at_most (axes : list axis) (x : list R) (d : R) : Prop :=
  0 <= d /\ forall k, (k < length axes)%nat -> outside_by axes x k <= d.

(** Growth of rounding errors along one axis, [d] cell widths outside the grid: like the distance
    to the far end of the outermost cell when the extrapolation is linearised, like its cube
    otherwise. *)
Definition cubic_stretch (lin : bool) (d : R) : R := (1 + d) ^ (if lin then 1 else 3).

(** Extrapolation error along one axis, [d] cell widths outside a grid with spacing at most [h],
    for a function with third derivative at most [M] and, where the extrapolation is linearised,
    second derivative at most [N]. *)
Definition cubic_reach_miss (lin : bool) (M N h d : R) : R :=
  if lin then M * h ^ 3 * (7 / 48 + d / 3) + N * h ^ 2 * (d ^ 2 / 2) else M * h ^ 3 * cubic_miss d.

Section B.
Variables prec emax : Z.
Notation fl := (binary_float prec emax).

(** Error after [n] axes, each of which magnifies values by at most [gain] and adds a relative
    error of at most [gamma] times [stretch], for values of size [A]. *)
Definition cubic_reach_error (gain gamma stretch : R) (n : nat) (A : R) : R :=
  INR n * (gain + gamma * stretch) ^ (n - 1) * (stretch * (gamma * A + 16000 * underflow prec emax)).

(** Finite values of size at most [A], so small that the extrapolation cannot overflow. *)
Definition cubic_reach_values (scale gain gamma stretch : R) (n : nat) (A : R) (vals : list fl) : Prop :=
  0 <= A /\ (gain + gamma * stretch) ^ n * (scale * stretch * (A + 1)) <= bpow radix2 (emax - 8) /\
  Forall (fun v => is_finite v = true /\ Rabs (B2R v) <= A) vals.
End B.
