(** Grids that the Python package takes for regular ones, used in the statements about the
    accuracy of its interpn function. *)
From Coq Require Import Reals List ZArith.
From Flocq Require Import Core.Core IEEE754.BinarySingleNaN.
From Verif Require Import Base Ops FInst SpecReal SpecError.
Unset Implicit Arguments.
Open Scope R_scope.

Section B.
Variables prec emax : Z.
Context (Hp : Prec_gt_0 prec) (He : Prec_lt_emax prec emax).
Notation fl := (binary_float prec emax).
Notation o := (BOps Hp He).

(** The computed difference of the first two points of a grid. *)
Definition first_step (g : list fl) : fl := fsub o (nth 1 g (fzero o)) (nth 0 g (fzero o)).

(** All points of the grid are finite and at most [kappa] (computed) steps away from zero, and
    that distance is far from overflow. *)
Definition grid_within (kappa : R) (g : list fl) : Prop :=
  is_finite (first_step g) = true /\ kappa * B2R (first_step g) <= bpow radix2 (emax - 4) /\
  Forall (fun v => is_finite v = true /\ Rabs (B2R v) <= kappa * B2R (first_step g)) g.

(** Error bound for [n] axes and values of size [A]. *)
Definition detected_error (n : nat) (kappa A : R) : R :=
  INR n * (75 * (roundoff prec * kappa) * A + 4 * underflow prec emax).
End B.
