(** linspace over IEEE floats: the error bound of its points, and the grids it makes whose points
    are further apart than the rounding errors. *)
From Coq Require Import Reals ZArith.
From Flocq Require Import Core.Core IEEE754.BinarySingleNaN.
From Verif Require Import Base Ops FInst ModelUtils SpecError.
Open Scope R_scope.
Unset Implicit Arguments.

(** 8 roundoffs of the larger end plus 2 n underflow units. *)
Definition linspace_error {prec emax} (a b : binary_float prec emax) (n : nat) : R :=
  8 * roundoff prec * Rmax (Rabs (B2R a)) (Rabs (B2R b)) + 2 * INR n * underflow prec emax.

(** [g] is the result of linspace on moderate ends, with a spacing of more than two error bounds. *)
Definition linspaced {prec emax} (Hp : Prec_gt_0 prec) (He : Prec_lt_emax prec emax) (c : cfg)
  (g : list (binary_float prec emax)) : Prop :=
  exists (a b : binary_float prec emax) n,
    (2 <= n)%nat /\ (Z.of_nat n < two64)%Z /\ (Z.of_nat n <= 2 ^ prec)%Z /\
    is_finite a = true /\ is_finite b = true /\
    Rabs (B2R a) <= bpow radix2 (emax - 5) /\ Rabs (B2R b) <= bpow radix2 (emax - 5) /\
    2 * linspace_error a b n < (B2R b - B2R a) / INR (n - 1) /\
    linspace (BOps Hp He) c a b n = Ok g.
