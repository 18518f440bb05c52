(** Evaluations of LinearHoldLast1D at any point, inside or outside the grid, by any implementation and
    in any number format, as objects the theorems quantify over. *)
From Coq Require Import Reals List ZArith Bool.
From Flocq Require Import Core.Core IEEE754.BinarySingleNaN.
From Verif Require Import Base Ops RInst FInst ModelCore ModelOneDim Spec SpecOrder SpecIEEE SpecError SpecReal Spec1D SpecFloat1D SpecExtrap SpecAgree Spec1DRun.
Import ListNotations.
Unset Implicit Arguments.
Open Scope R_scope.

(** [hold_reach a vals x e r]: LinearHoldLast1D holding the values [vals] on the grid points of [a] is
    evaluated at [x] and gives [r], or Linear1D is, inside the grid. The conditions are those of C68,
    and [e] is the error bound stated there; outside a rectilinear grid there is no error. *)
Inductive hold_reach : axis -> list R -> R -> R -> option R -> Prop :=
| hold_reach_inside a vals x e r : line_run a vals x e r -> hold_reach a vals x e r
| hold_reach_exact c vals a (dom : R -> Prop) at_ x :
    grid1 c vals a dom at_ -> dom x -> hold_reach a vals x 0 (exact_of (hold_last1 ROps c at_ x))
| hold_reach_rectilinear prec emax (Hp : Prec_gt_0 prec) (He : Prec_lt_emax prec emax)
    c (grid vals : list (binary_float prec emax)) g x :
    let a := list_axis (map B2R grid) in
    (zlen vals <= isize_max)%Z -> increasing_grid (BOps Hp He) grid -> Forall moderate grid ->
    is_finite x = true -> c1_new grid vals = Ok g -> Forall (fun v => is_finite v = true) vals ->
    B2R x < coord a 0 \/ coord a (npts a - 1) < B2R x ->
    hold_reach a (map B2R vals) (B2R x) 0 (number_of (hold_last1 (BOps Hp He) c (c1_at (BOps Hp He) c g) x))
| hold_reach_regular prec emax (Hp : Prec_gt_0 prec) (He : Prec_lt_emax prec emax)
    c (start h x : binary_float prec emax) vals g kappa A S :
    let a := mkAxis (zlen vals) (fun i => B2R start + B2R h * IZR i) in
    (2 <= zlen vals <= isize_max)%Z -> 0 < B2R h -> axis_within prec emax kappa start h (zlen vals) -> is_finite x = true ->
    Rabs (B2R x) <= kappa * B2R h -> B2R x < coord a 0 \/ coord a (npts a - 1) < B2R x -> r1_new (BOps Hp He) c start h vals = Ok g ->
    bounded_values prec emax A vals -> slopes_within S a (map B2R vals) -> S <= bpow radix2 (emax - 3) ->
    (1 + 2 * overshoot a (B2R x)) * A <= bpow radix2 (emax - 4) ->
    504 * (roundoff prec * kappa) <= 1 -> (prec <= 64)%Z ->
    hold_reach a (map B2R vals) (B2R x) (regular_line_error prec emax kappa A (B2R h))
      (number_of (hold_last1 (BOps Hp He) c (r1_at (BOps Hp He) c g) x)).
