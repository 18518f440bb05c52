(** LinearHoldLast1D in floating point, inside or outside the grid: any two evaluations of the same data
    (C73), monotonicity and steepness of the computed results (C74), changed grids, values and points
    (C78). *)
From Coq Require Import Reals Lra Lia ZArith List Bool.
From Flocq Require Import Core.Core IEEE754.BinarySingleNaN.
From Verif Require Import Base Ops RInst FInst ModelCore ModelOneDim Spec SpecOrder SpecIEEE SpecError SpecReal SpecApprox SpecExtrap SpecMoved.
From Verif Require Import Spec1D Spec1DShape SpecFloat1D SpecAgree Spec1DRun Spec1DHold OneDimHold.
From Verif Require Import ExampleData ExampleReal PropertiesFloat PropertiesOneDim PropertiesError PropertiesFloat1D PropertiesFloat1DOut Properties1DRun.
Import ListNotations.
Unset Implicit Arguments.
Open Scope R_scope.

(** * C73: two evaluations at the same point, in any two number formats, differ by at most their
    rounding errors and the difference of the values. *)
Theorem C73_hold_last_anywhere :
  forall a a' vals vals' x e e' r r' dv,
  hold_reach a vals x e r -> hold_reach a' vals' x e' r' -> same_axis a a' -> values_within dv vals vals' ->
  exists y y', r = Some y /\ r' = Some y' /\ Rabs (y - y') <= e + e' + dv.
Proof. exact hold_reach_agree. Qed.

(** * C74: up to the rounding errors the computed result rises between two points at least m and at
    most M times the distance they have inside the grid, when all slopes of the data lie between m and
    M. *)
Theorem C74_hold_last_anywhere :
  forall a vals x x' e e' r r' m M,
  hold_reach a vals x e r -> hold_reach a vals x' e' r' -> slopes_between a vals m M -> x <= x' ->
  exists y y', r = Some y /\ r' = Some y' /\
    m * (clamp a x' - clamp a x) - (e + e') <= y' - y <= M * (clamp a x' - clamp a x) + (e + e').
Proof. exact hold_reach_slopes. Qed.

(** * C78: grid points, values and point may all differ. *)
Theorem C78_hold_last_float :
  forall a a' vals vals' x x' e e' r r' d dv L,
  hold_reach a vals x e r -> hold_reach a' vals' x' e' r' -> nodes_within d a a' -> values_within dv vals vals' ->
  slopes_between a vals (- L) L ->
  exists y y', r = Some y /\ r' = Some y' /\ Rabs (y - y') <= e + e' + (dv + L * (Rmax (Rabs (x - x')) d + d)).
Proof. exact hold_reach_close. Qed.

(** LinearHoldLast1D in binary64 on the nodes 0, 1/2, 2 with the squares as values, above the grid. *)
Lemma q_hold_above : hold_reach q_axis (map B2R q_vals) 3 0
  (number_of (hold_last1 F64Ops plain (c1_at F64Ops plain q_g) (z64 3))).
Proof.
  rewrite <- q_out. apply (hold_reach_rectilinear 53 1024 Hp64 He64 plain q_grid q_vals q_g (z64 3)).
  - vm_compute. discriminate.
  - exact q_inc.
  - exact q_mod.
  - reflexivity.
  - reflexivity.
  - unfold q_vals. repeat (apply Forall_cons; [reflexivity|]). apply Forall_nil.
  - right. rewrite q_grid_real, q_out. simpl. lra.
Qed.
(** The same in binary64 on the nodes 0, 1/2, 1, one step above the grid. *)
Lemma q_hold_regular g : r1_new F64Ops plain (z64 0) (f64_lit 1 (-1)) q_rvals = Ok g ->
  hold_reach q_ra (map B2R q_rvals) (B2R q_above) (regular_line_error 53 1024 4 1 (B2R (f64_lit 1 (-1))))
    (number_of (hold_last1 F64Ops plain (r1_at F64Ops plain g) q_above)).
Proof.
  intros Hg.
  exact (hold_reach_regular 53 1024 Hp64 He64 plain (z64 0) (f64_lit 1 (-1)) q_above q_rvals g 4 1 (3 / 2)
    ltac:(vm_compute; split; discriminate) ltac:(rewrite half_real; lra) q_within4 eq_refl
    ltac:(rewrite half_real, q_above_real, Rabs_pos_eq; lra)
    ltac:(right; change (coord q_ra (3 - 1) < B2R q_above); rewrite q_ra_real, q_above_real; simpl; lra)
    Hg q_rbounded q_rslopes ltac:(apply big_bound; [lia|lra])
    ltac:(change ((1 + 2 * overshoot q_ra (B2R q_above)) * 1 <= bpow radix2 (1024 - 4)); rewrite q_over; apply big_bound; [lia|lra])
    ltac:(assert (U := roundoff_64); lra) ltac:(lia)).
Qed.
Example C73_hold_last_anywhere_ex : exists g g' y y', r1_new F64Ops plain (z64 0) (f64_lit 1 (-1)) q_rvals = Ok g /\
  number_of (hold_last1 F64Ops plain (r1_at F64Ops plain g) q_above) = Some y /\
  hold_last1 ROps rplain (r1_at ROps rplain g') (3 / 2) = Ok y' /\ Rabs (y - y') <= / 100000000000.
Proof.
  destruct q_rexact_above as (g' & dom & H1 & Dx). destruct q_rnew as (g & Hg).
  destruct (C73_hold_last_anywhere _ _ _ _ _ _ _ _ _ 0 (q_hold_regular g Hg) (hold_reach_exact _ _ _ _ _ _ H1 Dx)) as (y & y' & E & E' & B).
  { split; auto. }
  { rewrite q_rvals_real. repeat (apply Forall2_cons; [rewrite Rminus_diag_eq, Rabs_R0 by reflexivity; lra|]). apply Forall2_nil. }
  exists g, g', y, y'. split; [exact Hg|]. split; [exact E|]. rewrite q_above_real in E'. split.
  - destruct (hold_last1 ROps rplain _ _); try discriminate E'. injection E' as <-. reflexivity.
  - unfold regular_line_error in B. rewrite half_real in B. assert (Q := tiny_err 256 4.5 ltac:(lra) ltac:(lra)). lra.
Qed.
(** From 3/4 to 3 the point moves 5/4 inside the grid, where the slope of the data is 5/2. *)
Example C74_hold_last_anywhere_ex : exists y y', number_of (hold_last1 F64Ops plain (c1_at F64Ops plain q_g) (f64_lit 3 (-2))) = Some y /\
  number_of (hold_last1 F64Ops plain (c1_at F64Ops plain q_g) (z64 3)) = Some y' /\ 62 / 100 <= y' - y <= 313 / 100.
Proof.
  assert (R := q_run true (f64_lit 3 (-2)) eq_refl q_inside). rewrite q_in in R.
  destruct (C74_hold_last_anywhere _ _ _ _ _ _ _ _ _ _ (hold_reach_inside _ _ _ _ _ R) q_hold_above q_slopes2 ltac:(lra)) as (y & y' & E & E' & B).
  exists y, y'. split; [exact E|]. split; [exact E'|]. assert (Q := q_small).
  assert (K1 : clamp q_axis 3 = 2).
  { rewrite q_axis_real. unfold clamp. simpl. rewrite Rmax_left by lra. apply Rmin_right. lra. }
  assert (K2 : clamp q_axis (3 / 4) = 3 / 4).
  { rewrite q_axis_real. unfold clamp. simpl. rewrite Rmax_left by lra. apply Rmin_left. lra. }
  rewrite K1, K2 in B. lra.
Qed.
(** The middle node moved by 1/100. *)
Example C78_hold_last_float_ex : exists y y', number_of (hold_last1 F64Ops plain (c1_at F64Ops plain q_g) (z64 3)) = Some y /\
  hold_last1 ROps rplain (c1_at ROps rplain (mkC1 qm_grid qx_vals)) 3 = Ok y' /\ Rabs (y - y') <= 5 / 100.
Proof.
  assert (R' := hold_reach_exact rplain qx_vals (list_axis qm_grid) _ _ 3 (qx_ok qm_grid eq_refl ltac:(unfold qm_grid; sorted_ok)) I).
  destruct (C78_hold_last_float _ _ _ _ _ _ _ _ _ _ (1 / 100) 0 (5 / 2) q_hold_above R') as (y & y' & E & E' & B).
  - rewrite q_axis_real. split; [reflexivity|]. intros i Hi. change (0 <= i < 3)%Z in Hi.
    assert (i = 0 \/ i = 1 \/ i = 2)%Z as [-> |[-> | ->]] by lia; simpl; apply Rabs_le; lra.
  - exact q_vals_same.
  - intros i Hi. assert (Q := q_slopes2 i Hi). assert (P : 0 <= coord q_axis (i + 1) - coord q_axis i) by lra. lra.
  - exists y, y'. split; [exact E|]. split.
    + destruct (hold_last1 ROps rplain _ _); try discriminate E'. injection E' as <-. reflexivity.
    + replace (3 - 3) with 0 in B by lra. rewrite Rabs_R0, Rmax_right in B by lra. lra.
Qed.

Print Assumptions C73_hold_last_anywhere.
Print Assumptions C74_hold_last_anywhere.
Print Assumptions C78_hold_last_float.
