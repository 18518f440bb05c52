(** The five one-dimensional interpolators as one family, and when the cell number of an
    observation on a regular grid can be represented. *)
From Coq Require Import Reals ZArith List.
From Flocq Require Import Core.Core IEEE754.BinarySingleNaN.
From Verif Require Import Base Ops FInst ModelOneDim.
Unset Implicit Arguments.

(** [eval] is the evaluation at one point of Linear1D, LinearHoldLast1D, Left1D, Right1D or
    Nearest1D on the grid whose method `at` is [at_]. *)
Inductive method_1d {F} (o : Ops F) (c : cfg) (at_ : F -> outcome (grid_sample F)) : (F -> outcome F) -> Prop :=
| m1_linear : method_1d o c at_ (linear1 o c at_)
| m1_hold : method_1d o c at_ (hold_last1 o c at_)
| m1_left : method_1d o c at_ (left1 at_)
| m1_right : method_1d o c at_ (right1 at_)
| m1_nearest : method_1d o c at_ (nearest1 o at_).

(** The number of steps from [start] to [x], as computed, is a number that fits in isize. *)
Definition steps_fit {prec emax} (Hp : Prec_gt_0 prec) (He : Prec_lt_emax prec emax)
  (start step x : binary_float prec emax) : Prop :=
  let q := Bdiv mode_NE (Bminus mode_NE x start) step in
  is_finite q = true /\ (- IZR (2 ^ 63) <= B2R q < IZR (2 ^ 63))%R.
