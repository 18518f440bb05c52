(** One dimension, floating point: any two evaluations of the same data (C73), monotonicity and
    steepness of the computed results (C74), changed grids, values and points (C78). *)
From Coq Require Import Reals Lra Lia ZArith List Bool.
From Flocq Require Import Core.Core IEEE754.BinarySingleNaN.
From Verif Require Import Base Ops RInst FInst ModelCore ModelOneDim Spec SpecOrder SpecIEEE SpecError SpecReal SpecApprox SpecMoved.
From Verif Require Import Spec1D Spec1DShape SpecFloat1D SpecAgree Spec1DRun OneDimRun.
From Verif Require Import ExampleData ExampleReal PropertiesFloat PropertiesOneDim PropertiesError PropertiesFloat1D.
Import ListNotations.
Unset Implicit Arguments.
Open Scope R_scope.

(** * C73: two evaluations at the same point inside the same grid, in any two number formats, differ
    by at most their rounding errors and the difference of the values. *)
Theorem C73_one_dim :
  forall a a' vals vals' x e e' r r' dv,
  line_run a vals x e r -> line_run a' vals' x e' r' -> same_axis a a' -> values_within dv vals vals' ->
  exists y y', r = Some y /\ r' = Some y' /\ Rabs (y - y') <= e + e' + dv.
Proof. exact line_runs_agree. Qed.

(** * C74: up to the rounding errors the computed result rises between two points at least m and at
    most M times their distance, when all slopes of the data lie between m and M. *)
Theorem C74_one_dim :
  forall a vals x x' e e' r r' m M,
  line_run a vals x e r -> line_run a vals x' e' r' -> slopes_between a vals m M -> x <= x' ->
  exists y y', r = Some y /\ r' = Some y' /\ m * (x' - x) - (e + e') <= y' - y <= M * (x' - x) + (e + e').
Proof. exact line_runs_monotone. Qed.

(** * C78: grid points, values and point may all differ. *)
Theorem C78_one_dim_float :
  forall a a' vals vals' x x' e e' r r' d dv L,
  line_run a vals x e r -> line_run a' vals' x' e' r' -> nodes_within d a a' -> values_within dv vals vals' ->
  slopes_between a vals (- L) L ->
  exists y y', r = Some y /\ r' = Some y' /\ Rabs (y - y') <= e + e' + (dv + L * (Rabs (x - x') + d)).
Proof. exact line_runs_close. Qed.

(** Linear1D in binary64 on the nodes 0, 1/2, 2 with the squares as values. *)
Definition q_axis : axis := list_axis (map B2R q_grid).
Lemma q_run hold x : is_finite x = true -> coord q_axis 0 <= B2R x <= coord q_axis (npts q_axis - 1) ->
  line_run q_axis (map B2R q_vals) (B2R x) (line_error 53 1024 4 (5 / 2) (3 / 2) 0)
    (number_of (line1 hold F64Ops plain (c1_at F64Ops plain q_g) x)).
Proof.
  intros F Hx. apply (line_run_rectilinear hold 53 1024 Hp64 He64 plain q_grid q_vals q_g x 4 (5 / 2) (3 / 2)).
  - assert (U := roundoff_64). lra.
  - vm_compute. discriminate.
  - exact q_inc.
  - exact q_mod.
  - exact F.
  - reflexivity.
  - exact Hx.
  - exact q_bounded.
  - exact q_slopes.
  - exact q_widths.
  - apply big_bound; [lia|lra].
Qed.
Lemma q_small : line_error 53 1024 4 (5 / 2) (3 / 2) 0 <= / 100000000000.
Proof. unfold line_error. assert (Q := tiny_err 52 5 ltac:(lra) ltac:(lra)). lra. Qed.
Definition qx_vals : list R := [0; 1 / 4; 4].
Definition qx_grid : list R := [0; 1 / 2; 2].
Definition qm_grid : list R := [0; 51 / 100; 2].
Lemma qx_ok (grid : list R) : length grid = 3%nat -> strictly_increasing grid ->
  grid1 rplain qx_vals (list_axis grid) (fun _ => True) (c1_at ROps rplain (mkC1 grid qx_vals)).
Proof.
  intros L S. apply (@grid1_rectilinear rplain qx_vals grid (mkC1 grid qx_vals)); [vm_compute; discriminate|exact S|].
  unfold c1_new. rewrite L. reflexivity.
Qed.
Lemma q_axis_real : q_axis = list_axis qx_grid.
Proof. unfold q_axis. rewrite q_grid_real. reflexivity. Qed.
Lemma q_vals_same : values_within 0 (map B2R q_vals) qx_vals.
Proof.
  rewrite q_vals_real. unfold qx_vals.
  repeat (apply Forall2_cons; [rewrite Rminus_diag_eq, Rabs_R0 by reflexivity; lra|]). apply Forall2_nil.
Qed.
Lemma q_slopes2 : slopes_between q_axis (map B2R q_vals) (1 / 2) (5 / 2).
Proof.
  rewrite q_axis_real, q_vals_real. intros i Hi. change (0 <= i <= 1)%Z in Hi.
  assert (i = 0 \/ i = 1)%Z as [-> | ->] by lia; unfold val_at; simpl; lra.
Qed.
Example C73_one_dim_ex : exists y y', number_of (linear1 F64Ops plain (c1_at F64Ops plain q_g) (f64_lit 3 (-2))) = Some y /\
  hold_last1 ROps rplain (c1_at ROps rplain (mkC1 qx_grid qx_vals)) (3 / 4) = Ok y' /\ Rabs (y - y') <= / 100000000000.
Proof.
  assert (R := q_run false (f64_lit 3 (-2)) eq_refl q_inside). rewrite q_in in R.
  assert (R' := line_run_exact true rplain qx_vals (list_axis qx_grid) _ _ (3 / 4) (qx_ok qx_grid eq_refl ltac:(unfold qx_grid; sorted_ok)) ltac:(simpl; lra)).
  destruct (C73_one_dim _ _ _ _ _ _ _ _ _ 0 R R') as (y & y' & E & E' & B).
  - rewrite q_axis_real. split; auto.
  - exact q_vals_same.
  - exists y, y'. split; [exact E|]. split.
    + simpl line1 in E'. destruct (hold_last1 _ _ _ _); try discriminate E'. injection E' as <-. reflexivity.
    + assert (Q := q_small). lra.
Qed.
(** From 1/2 to 3/4 the data rises at least 1/8. *)
Example C74_one_dim_ex : exists y y', number_of (linear1 F64Ops plain (c1_at F64Ops plain q_g) (f64_lit 1 (-1))) = Some y /\
  number_of (linear1 F64Ops plain (c1_at F64Ops plain q_g) (f64_lit 3 (-2))) = Some y' /\ 1 / 10 <= y' - y <= 7 / 10.
Proof.
  assert (R := q_run false (f64_lit 1 (-1)) eq_refl ltac:(rewrite q_axis_real, half_real; simpl; lra)).
  assert (R' := q_run false (f64_lit 3 (-2)) eq_refl q_inside). rewrite half_real in R. rewrite q_in in R'.
  destruct (C74_one_dim _ _ _ _ _ _ _ _ _ _ R R' q_slopes2 ltac:(lra)) as (y & y' & E & E' & B).
  exists y, y'. split; [exact E|]. split; [exact E'|]. assert (Q := q_small). lra.
Qed.
(** The middle node moved by 1/100. *)
Example C78_one_dim_float_ex : exists y y', number_of (linear1 F64Ops plain (c1_at F64Ops plain q_g) (f64_lit 3 (-2))) = Some y /\
  linear1 ROps rplain (c1_at ROps rplain (mkC1 qm_grid qx_vals)) (3 / 4) = Ok y' /\ Rabs (y - y') <= 26 / 1000.
Proof.
  assert (R := q_run false (f64_lit 3 (-2)) eq_refl q_inside). rewrite q_in in R.
  assert (R' := line_run_exact false rplain qx_vals (list_axis qm_grid) _ _ (3 / 4) (qx_ok qm_grid eq_refl ltac:(unfold qm_grid; sorted_ok)) ltac:(simpl; lra)).
  destruct (C78_one_dim_float _ _ _ _ _ _ _ _ _ _ (1 / 100) 0 (5 / 2) R R') as (y & y' & E & E' & B).
  - rewrite q_axis_real. split; [reflexivity|]. intros i Hi. change (0 <= i < 3)%Z in Hi.
    assert (i = 0 \/ i = 1 \/ i = 2)%Z as [-> |[-> | ->]] by lia; simpl; apply Rabs_le; lra.
  - exact q_vals_same.
  - intros i Hi. assert (Q := q_slopes2 i Hi). assert (P : 0 <= coord q_axis (i + 1) - coord q_axis i) by lra. lra.
  - exists y, y'. split; [exact E|]. split.
    + simpl line1 in E'. destruct (linear1 _ _ _ _); try discriminate E'. injection E' as <-. reflexivity.
    + assert (Q := q_small). replace (3 / 4 - 3 / 4) with 0 in B by lra. rewrite Rabs_R0 in B. lra.
Qed.

Print Assumptions C73_one_dim.
Print Assumptions C74_one_dim.
Print Assumptions C78_one_dim_float.
