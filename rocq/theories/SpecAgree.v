(** Evaluations of the same grid data by different implementations and in different number
    formats, as objects the theorems quantify over. *)
From Coq Require Import Reals List ZArith.
From Flocq Require Import Core.Core IEEE754.BinarySingleNaN.
From Verif Require Import Base Ops RInst FInst ModelCore ModelLinear ModelCubic Spec SpecOrder SpecIEEE SpecError SpecReal.
From Verif Require Import Interpolators SpecApprox SpecCubicError SpecExtrap SpecReach SpecCubicReach.
Import ListNotations.
Unset Implicit Arguments.
Open Scope R_scope.

(** The number a caller gets: none if evaluation fails or the result is infinite or NaN. *)
Definition number_of {prec emax} (r : outcome (binary_float prec emax)) : option R :=
  match r with Ok y => if is_finite y then Some (B2R y) else None | _ => None end.
Definition exact_of (r : outcome R) : option R := match r with Ok y => Some y | _ => None end.

(** [linear_run axes vals x e r]: some multilinear interpolator of the library, holding the values
    [vals] on the grid [axes], is evaluated at the point [x] and gives [r]. The grid may be
    rectilinear or regular, the implementation flattened or recursive, with or without fused
    multiply-add, and the arithmetic exact or any IEEE format; the conditions are those of C45
    and, for points that may be outside the grid, of C62. [e] is the error bound stated there. *)
Inductive linear_run : list axis -> list R -> list R -> R -> option R -> Prop :=
| linear_run_exact c vals axes (dom : list R -> Prop) eval x :
    multilinear c vals axes dom eval -> length x = length axes -> dom x ->
    linear_run axes vals x 0 (exact_of (eval x))
| linear_run_rectilinear prec emax (Hp : Prec_gt_0 prec) (He : Prec_lt_emax prec emax)
    c (grids : list (list (binary_float prec emax))) vals eval x A :
    float_rectilinear Hp He c grids vals eval ->
    Forall (increasing_grid (BOps Hp He)) grids -> Forall (Forall moderate) grids ->
    Forall (fun v => is_finite v = true) x ->
    SpecReal.inside_grid (rect_axes (map (map B2R) grids)) (map B2R x) ->
    bounded_values prec emax A vals -> 126 * INR (length grids) * roundoff prec <= 1 ->
    linear_run (rect_axes (map (map B2R) grids)) (map B2R vals) (map B2R x)
      (rectilinear_error prec emax (length grids) A) (number_of (eval x))
| linear_run_regular prec emax (Hp : Prec_gt_0 prec) (He : Prec_lt_emax prec emax)
    c dims (starts steps vals : list (binary_float prec emax)) eval x A kappa :
    float_regular Hp He c dims starts steps vals eval ->
    Forall (fun v => is_finite v = true) x -> axes_within prec emax kappa starts steps dims ->
    SpecReal.inside_grid (reg_axes dims (map B2R starts) (map B2R steps)) (map B2R x) ->
    bounded_values prec emax A vals -> 504 * INR (length dims) * (roundoff prec * kappa) <= 1 -> (prec <= 64)%Z ->
    linear_run (reg_axes dims (map B2R starts) (map B2R steps)) (map B2R vals) (map B2R x)
      (regular_error prec emax (length dims) kappa A) (number_of (eval x))
| linear_run_rectilinear_any prec emax (Hp : Prec_gt_0 prec) (He : Prec_lt_emax prec emax)
    c (grids : list (list (binary_float prec emax))) vals eval x A :
    float_rectilinear Hp He c grids vals eval ->
    Forall (increasing_grid (BOps Hp He)) grids -> Forall (Forall moderate) grids ->
    Forall moderate x -> length x = length grids ->
    bounded_values prec emax A vals -> reach_fits emax (rect_axes (map (map B2R) grids)) (map B2R x) A ->
    144 * INR (length grids) * roundoff prec <= 1 ->
    linear_run (rect_axes (map (map B2R) grids)) (map B2R vals) (map B2R x)
      (reach_factor (rect_axes (map (map B2R) grids)) (map B2R x) * rectilinear_reach_error prec emax (length grids) A)
      (number_of (eval x))
| linear_run_regular_any prec emax (Hp : Prec_gt_0 prec) (He : Prec_lt_emax prec emax)
    c dims (starts steps vals : list (binary_float prec emax)) eval x A kappa :
    float_regular Hp He c dims starts steps vals eval ->
    axes_within prec emax kappa starts steps dims -> length x = length dims -> point_within prec emax kappa steps x ->
    bounded_values prec emax A vals ->
    reach_fits emax (reg_axes dims (map B2R starts) (map B2R steps)) (map B2R x) A ->
    504 * INR (length dims) * (roundoff prec * kappa) <= 1 -> (prec <= 64)%Z ->
    linear_run (reg_axes dims (map B2R starts) (map B2R steps)) (map B2R vals) (map B2R x)
      (reach_factor (reg_axes dims (map B2R starts) (map B2R steps)) (map B2R x) * regular_error prec emax (length dims) kappa A)
      (number_of (eval x)).

(** The same for the multicubic interpolators; the conditions and bounds are those of C58 and, for
    points that may be outside the grid, of C75. *)
Inductive cubic_run (lin : bool) : list axis -> list R -> list R -> R -> option R -> Prop :=
| cubic_run_exact c vals axes (dom : list R -> Prop) eval x :
    multicubic c lin vals axes dom eval -> length x = length axes -> dom x ->
    cubic_run lin axes vals x 0 (exact_of (eval x))
| cubic_run_rectilinear prec emax (Hp : Prec_gt_0 prec) (He : Prec_lt_emax prec emax)
    c (grids : list (list (binary_float prec emax))) vals eval x A rho :
    float_cubic_rectilinear Hp He c lin grids vals eval ->
    Forall (increasing_grid (BOps Hp He)) grids -> Forall (Forall moderate) grids ->
    Forall (fun v => is_finite v = true) x ->
    SpecReal.inside_grid (rect_axes (map (map B2R) grids)) (map B2R x) ->
    1 <= rho -> Forall (fun a => spacing_ratio_at_most a rho) (rect_axes (map (map B2R) grids)) ->
    cubic_values prec emax rho (cubic_gain rho) (rectilinear_gamma prec rho) (length grids) A vals ->
    14000 * INR (length grids) * (roundoff prec * rho) <= 1 ->
    cubic_run lin (rect_axes (map (map B2R) grids)) (map B2R vals) (map B2R x)
      (cubic_error prec emax (cubic_gain rho) (rectilinear_gamma prec rho) (length grids) A) (number_of (eval x))
| cubic_run_regular prec emax (Hp : Prec_gt_0 prec) (He : Prec_lt_emax prec emax)
    c dims (starts steps vals : list (binary_float prec emax)) eval x A kappa :
    float_cubic_regular Hp He c lin dims starts steps vals eval ->
    Forall (fun v => is_finite v = true) x -> axes_within prec emax kappa starts steps dims ->
    SpecReal.inside_grid (reg_axes dims (map B2R starts) (map B2R steps)) (map B2R x) ->
    cubic_values prec emax 1 (5 / 4) (regular_gamma prec kappa) (length dims) A vals ->
    2000 * INR (length dims) * (roundoff prec * kappa) <= 1 -> (prec <= 64)%Z ->
    cubic_run lin (reg_axes dims (map B2R starts) (map B2R steps)) (map B2R vals) (map B2R x)
      (cubic_error prec emax (5 / 4) (regular_gamma prec kappa) (length dims) A) (number_of (eval x))
| cubic_run_rectilinear_any prec emax (Hp : Prec_gt_0 prec) (He : Prec_lt_emax prec emax)
    c (grids : list (list (binary_float prec emax))) vals eval x A rho D :
    float_cubic_rectilinear Hp He c lin grids vals eval ->
    Forall (increasing_grid (BOps Hp He)) grids -> Forall (Forall moderate) grids ->
    Forall moderate x -> length x = length grids ->
    outside_at_most (rect_axes (map (map B2R) grids)) (map B2R x) D ->
    1 <= rho -> Forall (fun a => spacing_ratio_at_most a rho) (rect_axes (map (map B2R) grids)) ->
    cubic_reach_values prec emax rho (cubic_reach_gain lin rho D) (rectilinear_gamma prec rho) (cubic_stretch lin D) (length grids) A vals ->
    14000 * INR (length grids) * (roundoff prec * rho) <= 1 ->
    cubic_run lin (rect_axes (map (map B2R) grids)) (map B2R vals) (map B2R x)
      (cubic_reach_error prec emax (cubic_reach_gain lin rho D) (rectilinear_gamma prec rho) (cubic_stretch lin D) (length grids) A)
      (number_of (eval x))
| cubic_run_regular_any prec emax (Hp : Prec_gt_0 prec) (He : Prec_lt_emax prec emax)
    c dims (starts steps vals : list (binary_float prec emax)) eval x A kappa D :
    float_cubic_regular Hp He c lin dims starts steps vals eval ->
    axes_within prec emax kappa starts steps dims -> length x = length dims -> point_within prec emax kappa steps x ->
    outside_at_most (reg_axes dims (map B2R starts) (map B2R steps)) (map B2R x) D ->
    cubic_reach_values prec emax 1 (cubic_reach_gain lin 1 D) (regular_gamma prec kappa) (cubic_stretch lin D) (length dims) A vals ->
    2000 * INR (length dims) * (roundoff prec * kappa) <= 1 -> (prec <= 64)%Z ->
    cubic_run lin (reg_axes dims (map B2R starts) (map B2R steps)) (map B2R vals) (map B2R x)
      (cubic_reach_error prec emax (cubic_reach_gain lin 1 D) (regular_gamma prec kappa) (cubic_stretch lin D) (length dims) A)
      (number_of (eval x)).
