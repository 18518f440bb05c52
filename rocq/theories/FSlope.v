(** In floating point the cubic interpolant is at most a stated factor steeper than its data, up to rounding. *)
From Coq Require Import Reals Lra PeanoNat Bool ZifyBool ZifyNat.
From Verif Require Import Base Ops Spec SpecReal RTensor R1D RChar REval RProofs.
From Verif Require Import SpecApprox Approx1D Approx Shape SpecSlope CubicSlope SpecAgree AgreeProofs.
Unset Implicit Arguments.
Open Scope R_scope.

Theorem C101_proof_float_axis lin axes axes' vals x k t e e' r r' rho L :
  cubic_run lin axes vals x e r -> cubic_run lin axes' vals (upd x k t) e' r' -> same_grid axes axes' ->
  (k < length axes)%nat -> inside_except axes k x ->
  (lin = true \/ SpecReal.inside_grid axes x /\ SpecReal.inside_grid axes (upd x k t)) ->
  (forall a, In a axes -> spacing_ratio_at_most a rho) -> data_slope_at_most axes vals k L ->
  exists y y', r = Some y /\ r' = Some y' /\
    Rabs (y' - y) <= cubic_slope_gain rho * cubic_gain rho ^ (length axes - 1) * L * Rabs (t - nth k x 0) + (e + e').
Proof.
  intros H H' S Hk Hx Hin Hr Hd. destruct (cub_values _ _ _ _ _ _ _ _ _ _ S _ H H') as (G & Lx & Lx' & Lv & y & y' & E & E' & R & R').
  exists y, y'. split; [exact E|]. split; [exact E'|].
  assert (Ek := nth_error_nth' axes no_axis Hk).
  assert (M := cub_slope_val lin rho axes x k _ t (entry 0 (map npts axes) vals) L G Hr Hx Ek).
  assert (I : (coord (nth k axes no_axis) 0 <= nth k x 0 <= coord (nth k axes no_axis) (npts (nth k axes no_axis) - 1)
     /\ coord (nth k axes no_axis) 0 <= t <= coord (nth k axes no_axis) (npts (nth k axes no_axis) - 1)) \/ lin = true).
  { destruct Hin as [Hin|(I1 & I2)]; [auto|left]. split; [apply (proj2 I1 k); auto|].
    assert (Q := proj2 I2 k _ Ek). rewrite nth_upd_same in Q by lia. exact Q. }
  specialize (M I Hd).
  replace (cubic_slope_gain rho * cubic_gain rho ^ (length axes - 1) * L)
    with (cubic_slope_gain rho * (cubic_gain rho ^ (length axes - 1) * L)) by ring.
  apply Rabs_le_inv in R, R', M. apply Rabs_le. lra.
Qed.

Theorem C101_proof_float_points lin axes axes' vals vals' x x' e e' r r' rho d L :
  cubic_run lin axes vals x e r -> cubic_run lin axes' vals' x' e' r' -> same_grid axes axes' ->
  SpecReal.inside_grid axes x -> SpecReal.inside_grid axes x' ->
  (forall a, In a axes -> spacing_ratio_at_most a rho) -> values_within d vals vals' ->
  (forall k, (k < length axes)%nat -> data_slope_at_most axes vals k (L k)) ->
  exists y y', r = Some y /\ r' = Some y' /\
    Rabs (y - y') <= e + e' + (cubic_gain rho ^ length axes * d + cubic_slope_gain rho * cubic_gain rho ^ (length axes - 1)
      * sum_upto (length axes) (fun k => L k * Rabs (nth k x 0 - nth k x' 0))).
Proof.
  intros H H' S Hx Hx' Hr Hd HL. destruct (cub_values _ _ _ _ _ _ _ _ _ _ S _ H H') as (G & Lx & Lx' & Lv & y & y' & E & E' & R & R').
  exists y, y'. split; [exact E|]. split; [exact E'|]. apply (apart _ _ _ _ _ _ _ R R').
  assert (P := cub_points_val lin rho axes vals x x' L G Hr Hx Hx' HL).
  assert (Q : Rabs (tenL (ops1 (cub1 lin) axes x') (entry 0 (map npts axes) vals) - tenL (ops1 (cub1 lin) axes x') (entry 0 (map npts axes) vals'))
    <= cubic_gain rho ^ length axes * d).
  { rewrite (tenL_minus _ _ _ _ (good_cub lin x' Lx' G)). apply tenL_norm; [apply cub_ops_norm; auto|].
    intros idx Hi. apply within_entry; auto. }
  apply Rabs_le_inv in P, Q. apply Rabs_le. lra.
Qed.
