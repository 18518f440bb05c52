(** In floating point a small change of the grid, the values and the point changes the result little. *)
From Coq Require Import Reals Lra PeanoNat Bool ZifyBool ZifyNat.
From Verif Require Import Base Ops Spec SpecReal RTensor R1D RChar REval RProofs.
From Verif Require Import SpecApprox Approx1D Approx Shape SpecSlope SpecMoved Moved CubicMoved SpecAgree AgreeProofs.
Unset Implicit Arguments.
Open Scope R_scope.

Theorem C78_proof_float_linear axes axes' vals vals' x x' e e' r r' d dv L :
  linear_run axes vals x e r -> linear_run axes' vals' x' e' r' -> moved_grid d axes axes' ->
  SpecReal.inside_grid axes x -> SpecReal.inside_grid axes' x' -> values_within dv vals vals' ->
  (forall k, (k < length axes)%nat -> data_slope_at_most axes vals k (L k)) ->
  exists y y', r = Some y /\ r' = Some y' /\
    Rabs (y - y') <= e + e' + (dv + sum_upto (length axes) (fun k => L k * (Rabs (nth k x 0 - nth k x' 0) + d k))).
Proof.
  intros H H' HM Hx Hx' Hv HL. destruct (linear_run_value _ _ _ _ _ H) as (G & Lx & Lv & y & E & R).
  destruct (linear_run_value _ _ _ _ _ H') as (G' & Lx' & Lv' & y' & E' & R').
  exists y, y'. split; [exact E|]. split; [exact E'|]. apply (apart _ _ _ _ _ _ _ R R').
  assert (N := moved_npts d axes axes' HM). rewrite N in *.
  assert (P := lin_moved_val axes G axes' x x' (entry 0 (map npts axes) vals) d L G' HM Hx Hx' (fun k idx Hk => HL k Hk idx)).
  assert (Q : Rabs (tenL (ops1 lin1 axes' x') (entry 0 (map npts axes) vals) - tenL (ops1 lin1 axes' x') (entry 0 (map npts axes) vals')) <= dv).
  { rewrite (tenL_minus _ _ _ _ (good_lin x' Lx' G')).
    eapply Rle_trans; [apply (tenL_norm axes' _ 1 _ dv)|].
    - apply lin_ops_norm; auto.
    - rewrite N. intros idx Hi. apply within_entry; auto.
    - rewrite pow1. lra. }
  apply Rabs_le_inv in P, Q. apply Rabs_le. lra.
Qed.

Theorem C78_proof_float_cubic lin axes axes' vals vals' x x' e e' r r' d dv L rho :
  cubic_run lin axes vals x e r -> cubic_run lin axes' vals' x' e' r' -> moved_grid d axes axes' ->
  SpecReal.inside_grid axes x -> SpecReal.inside_grid axes' x' -> values_within dv vals vals' ->
  (forall a, In a axes -> spacing_ratio_at_most a rho) -> (forall a, In a axes' -> spacing_ratio_at_most a rho) ->
  (forall k, (k < length axes)%nat -> data_slope_at_most axes vals k (L k)) ->
  exists y y', r = Some y /\ r' = Some y' /\
    Rabs (y - y') <= e + e' + (cubic_gain rho ^ length axes * dv + cubic_gain rho ^ (length axes - 1) * sum_upto (length axes)
      (fun k => L k * (cubic_slope_gain rho * Rabs (nth k x 0 - nth k x' 0) + cubic_move_gain rho * d k))).
Proof.
  intros H H' HM Hx Hx' Hv Hr Hr' HL. destruct (cubic_run_value _ _ _ _ _ _ H) as (G & Lx & Lv & y & E & R).
  destruct (cubic_run_value _ _ _ _ _ _ H') as (G' & Lx' & Lv' & y' & E' & R').
  exists y, y'. split; [exact E|]. split; [exact E'|]. apply (apart _ _ _ _ _ _ _ R R').
  assert (N := moved_npts d axes axes' HM). rewrite N in *.
  assert (P := cub_moved_val lin rho axes G axes' x x' (entry 0 (map npts axes) vals) d L G' Hr Hr' HM Hx Hx' (fun k idx Hk => HL k Hk idx)).
  assert (Q : Rabs (tenL (ops1 (cub1 lin) axes' x') (entry 0 (map npts axes) vals) - tenL (ops1 (cub1 lin) axes' x') (entry 0 (map npts axes) vals'))
    <= cubic_gain rho ^ length axes * dv).
  { rewrite (tenL_minus _ _ _ _ (good_cub lin x' Lx' G')). rewrite (proj1 HM). apply tenL_norm; [apply cub_ops_norm; auto|].
    rewrite N. intros idx Hi. apply within_entry; auto. }
  apply Rabs_le_inv in P, Q. apply Rabs_le. lra.
Qed.
