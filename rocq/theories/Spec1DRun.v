(** Evaluations of the one-dimensional linear interpolators inside the grid, by any implementation
    and in any number format, as objects the theorems quantify over. *)
From Coq Require Import Reals List ZArith Bool.
From Flocq Require Import Core.Core IEEE754.BinarySingleNaN.
From Verif Require Import Base Ops RInst FInst ModelCore ModelOneDim Spec SpecOrder SpecIEEE SpecError SpecReal Spec1D SpecFloat1D SpecAgree.
Import ListNotations.
Unset Implicit Arguments.
Open Scope R_scope.

(** LinearHoldLast1D or Linear1D. *)
Definition line1 {F} (hold : bool) (o : Ops F) (c : cfg) (at_ : F -> outcome (grid_sample F)) (x : F) : outcome F :=
  if hold then hold_last1 o c at_ x else linear1 o c at_ x.

(** [line_run a vals x e r]: a one-dimensional linear interpolator holding the values [vals] on the
    grid points of [a] is evaluated at [x] inside the grid and gives [r]. The grid may be regular or
    rectilinear, the arithmetic exact or any IEEE format, with or without fused multiply-add; the
    conditions are those of C68, and [e] is the error bound stated there. *)
Inductive line_run : axis -> list R -> R -> R -> option R -> Prop :=
| line_run_exact hold c vals a dom at_ x :
    grid1 c vals a dom at_ -> coord a 0 <= x <= coord a (npts a - 1) ->
    line_run a vals x 0 (exact_of (line1 hold ROps c at_ x))
| line_run_rectilinear hold prec emax (Hp : Prec_gt_0 prec) (He : Prec_lt_emax prec emax)
    c (grid vals : list (binary_float prec emax)) g x A S W :
    64 * roundoff prec <= 1 -> (zlen vals <= isize_max)%Z -> increasing_grid (BOps Hp He) grid -> Forall moderate grid ->
    is_finite x = true -> c1_new grid vals = Ok g ->
    coord (list_axis (map B2R grid)) 0 <= B2R x <= coord (list_axis (map B2R grid)) (npts (list_axis (map B2R grid)) - 1) ->
    bounded_values prec emax A vals -> slopes_within S (list_axis (map B2R grid)) (map B2R vals) ->
    widths_within W (list_axis (map B2R grid)) -> S <= bpow radix2 (emax - 2) ->
    line_run (list_axis (map B2R grid)) (map B2R vals) (B2R x) (line_error prec emax A S W 0)
      (number_of (line1 hold (BOps Hp He) c (c1_at (BOps Hp He) c g) x))
| line_run_regular hold prec emax (Hp : Prec_gt_0 prec) (He : Prec_lt_emax prec emax)
    c (start h x : binary_float prec emax) vals g kappa A S :
    (2 <= zlen vals <= isize_max)%Z -> 0 < B2R h -> axis_within prec emax kappa start h (zlen vals) -> is_finite x = true ->
    B2R start + B2R h * 0 <= B2R x <= B2R start + B2R h * IZR (zlen vals - 1) -> r1_new (BOps Hp He) c start h vals = Ok g ->
    bounded_values prec emax A vals ->
    slopes_within S (mkAxis (zlen vals) (fun i => B2R start + B2R h * IZR i)) (map B2R vals) -> S <= bpow radix2 (emax - 3) ->
    504 * (roundoff prec * kappa) <= 1 -> (prec <= 64)%Z ->
    line_run (mkAxis (zlen vals) (fun i => B2R start + B2R h * IZR i)) (map B2R vals) (B2R x)
      (regular_line_error prec emax kappa A (B2R h)) (number_of (line1 hold (BOps Hp He) c (r1_at (BOps Hp He) c g) x)).
