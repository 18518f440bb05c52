(** Multicubic evaluators over IEEE floats and the size of their rounding errors. *)
From Coq Require Import Reals List ZArith.
From Flocq Require Import Core.Core IEEE754.BinarySingleNaN.
From Verif Require Import Base Ops FInst ModelCore ModelLinear ModelCubic Spec SpecOrder SpecIEEE SpecError SpecReal SpecApprox.
Import ListNotations.
Unset Implicit Arguments.
Open Scope R_scope.

Section B.
Context {prec emax : Z} (Hp : Prec_gt_0 prec) (He : Prec_lt_emax prec emax).
Notation fl := (binary_float prec emax).
Notation o := (BOps Hp He).

(** Evaluation at one point by an accepted multicubic interpolator: the flattened and the
    recursive implementation; [lin] is the flag linearize_extrapolation. *)
Inductive float_cubic_regular (c : cfg) (lin : bool) (dims : list Z) (starts steps vals : list fl) :
  (list fl -> outcome fl) -> Prop :=
| float_cubic_regular_flat s :
    reg_input c dims starts steps vals -> mcr_new o c dims starts steps vals lin = Ok s ->
    float_cubic_regular c lin dims starts steps vals (mcr_interp_one o c s)
| float_cubic_regular_recursive maxdims s :
    reg_input c dims starts steps vals -> mcrr_new o c maxdims dims starts steps vals lin = Ok s ->
    float_cubic_regular c lin dims starts steps vals (mcrr_interp_one o c maxdims s).

Inductive float_cubic_rectilinear (c : cfg) (lin : bool) (grids : list (list fl)) (vals : list fl) :
  (list fl -> outcome fl) -> Prop :=
| float_cubic_rectilinear_flat s :
    rect_input c grids vals -> mcc_new o c grids vals lin = Ok s ->
    float_cubic_rectilinear c lin grids vals (mcc_interp_one o c s)
| float_cubic_rectilinear_recursive maxdims s :
    rect_input c grids vals -> mccr_new o c maxdims grids vals lin = Ok s ->
    float_cubic_rectilinear c lin grids vals (mccr_interp_one o c maxdims s).
End B.

Section E.
Variables prec emax : Z.
Notation fl := (binary_float prec emax).

(** Error after [n] axes, each of which magnifies values by at most [gain] and adds a relative
    error of at most [gamma], for values of size [A]. *)
Definition cubic_error (gain gamma : R) (n : nat) (A : R) : R :=
  INR n * (gain + gamma) ^ (n - 1) * (gamma * A + 16000 * underflow prec emax).

(** Finite values of size at most [A], so small that the interpolation, in which slopes are at
    most about [scale] times as large as values, cannot overflow. *)
Definition cubic_values (scale gain gamma : R) (n : nat) (A : R) (vals : list fl) : Prop :=
  0 <= A /\ (gain + gamma) ^ n * (scale * (A + 1)) <= bpow radix2 (emax - 8) /\
  Forall (fun v => is_finite v = true /\ Rabs (B2R v) <= A) vals.

(** Relative error per axis: regular grids at most [kappa] steps away from zero, rectilinear grids
    whose neighbouring spacings differ at most by the factor [rho]. *)
Definition regular_gamma (kappa : R) : R := 1272 * (roundoff prec * kappa).
Definition rectilinear_gamma (rho : R) : R := 8400 * (roundoff prec * rho).
End E.
