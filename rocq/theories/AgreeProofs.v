(** Agreement between implementations and number formats, monotonicity and slopes up to rounding. *)
From Coq Require Import Reals Lra Lia List Bool ZifyBool ZifyNat PeanoNat.
From Flocq Require Import Core.Core IEEE754.BinarySingleNaN.
From Verif Require Import Base Ops FInst ModelCore ModelLinear ModelCubic Spec SpecOrder SpecIEEE SpecError.
From Verif Require Import CoreLemmas MethodLemmas MethodChar GenLemmas FLemmas FProofs FProofs2 FError FError2.
From Verif Require Import RInst SpecReal RTensor R1D RChar Interpolators REval RProofs SpecApprox Approx1D Approx Shape FApprox.
From Verif Require Import SpecExtrap SpecReach Extrap1D Extrap FExtrap FExtrap2 SpecCubicError FCubicRect FCubicReg FCubicApprox SpecCubicReach FCubicExtrap3 SpecAgree.
Import ListNotations.
Unset Implicit Arguments.
Open Scope list_scope.
Open Scope R_scope.

Definition has_value (op : axis -> R -> (Z -> R) -> R) (FP : Z) (axes : list axis) (vals x : list R) (e : R) (r : option R) : Prop :=
  Forall (good_axis FP) axes /\ length x = length axes /\ zlen vals = zprod (map npts axes) /\
  exists y, r = Some y /\ Rabs (y - tenL (ops1 op axes x) (entry 0 (map npts axes) vals)) <= e.

Lemma zlen_map A B (f : A -> B) l : zlen (map f l) = zlen l.
Proof. unfold zlen. rewrite map_length. reflexivity. Qed.
Lemma rect_vals prec emax (Hp : Prec_gt_0 prec) (He : Prec_lt_emax prec emax) FP (grids : list (list (binary_float prec emax))) vals :
  rect_wf FP (mkRect grids (map zlen grids) vals) ->
  zlen (map (@B2R prec emax) vals) = zprod (map npts (rect_axes (map (map B2R) grids))).
Proof.
  intros W. assert (E : zlen vals = zprod (map zlen grids)) by apply W.
  rewrite zlen_map, E. f_equal. unfold rect_axes. rewrite !map_map. apply map_ext. intros g. simpl. rewrite zlen_map. reflexivity.
Qed.
Lemma reg_vals prec emax FP dims (starts steps vals : list (binary_float prec emax)) :
  reg_wf FP (mkRegular dims starts steps vals) ->
  zlen (map (@B2R prec emax) vals) = zprod (map npts (reg_axes dims (map B2R starts) (map B2R steps))).
Proof.
  intros W. assert (E : zlen vals = zprod dims) by apply W. destruct W as (_ & W1 & W2 & _). cbn [r_dims r_starts r_steps r_vals] in *.
  rewrite reg_axes_npts by (rewrite map_length; auto). rewrite zlen_map, E. reflexivity.
Qed.

Lemma number_of_fin prec emax (r : outcome (binary_float prec emax)) y : r = Ok y -> is_finite y = true -> number_of r = Some (B2R y).
Proof. intros -> F. unfold number_of. rewrite F. reflexivity. Qed.

Lemma linear_run_value axes vals x e r : linear_run axes vals x e r -> has_value lin1 2 axes vals x e r.
Proof.
  intros H. destruct H as [c vals axes dom eval x H Lx Dx
    |prec emax Hp He c grids vals eval x A Hf Hi Hm Fx Hx Hv HN
    |prec emax Hp He c dims starts steps vals eval x A kappa Hf Fx Ha Hx Hv HN Hpr
    |prec emax Hp He c grids vals eval x A Hf Hi Hm Mx Lx Hv HP HN
    |prec emax Hp He c dims starts steps vals eval x A kappa Hf Ha Lx Hx Hv HP HN Hpr].
  - destruct (multilinear_value H) as (G & L & E). split; [exact G|]. split; [exact Lx|]. split; [exact L|].
    rewrite (E x Lx Dx). eexists. split; [reflexivity|]. rewrite Rminus_diag_eq, Rabs_R0 by reflexivity. lra.
  - destruct (rect_err prec emax Hp He c grids vals eval x A Hf Hi Hm Fx Hx Hv HN) as (G & y & E & F & R).
    split; [exact G|]. split; [exact (proj1 Hx)|]. split.
    + apply (rect_vals prec emax Hp He 2). apply (float_rectilinear_inv _ _ Hp He _ _ _ _ Hf).
    + exists (B2R y). split; [apply number_of_fin; auto|exact R].
  - destruct (reg_err prec emax Hp He c dims starts steps vals eval x A kappa Hf Fx Ha Hx Hv HN Hpr) as (G & y & E & F & R).
    split; [exact G|]. split; [exact (proj1 Hx)|]. split.
    + apply (reg_vals prec emax 2). apply (float_regular_inv _ _ Hp He _ _ _ _ _ _ Hf).
    + exists (B2R y). split; [apply number_of_fin; auto|exact R].
  - destruct (rect_any prec emax Hp He c grids vals eval x A Hf Hi Hm Mx Lx Hv HP HN) as (G & y & E & F & R).
    split; [exact G|]. split; [exact (rect_xr prec emax grids x Lx)|]. split.
    + apply (rect_vals prec emax Hp He 2). apply (float_rectilinear_inv _ _ Hp He _ _ _ _ Hf).
    + exists (B2R y). split; [apply number_of_fin; auto|exact R].
  - destruct (reg_any prec emax Hp He c dims starts steps vals eval x A kappa Hf Ha Lx Hx Hv HP HN Hpr) as (G & y & E & F & R).
    split; [exact G|]. split; [exact (reg_xr prec emax Hp He c dims starts steps vals eval x Hf Lx)|]. split.
    + apply (reg_vals prec emax 2). apply (float_regular_inv _ _ Hp He _ _ _ _ _ _ Hf).
    + exists (B2R y). split; [apply number_of_fin; auto|exact R].
Qed.

Lemma cubic_run_value lin axes vals x e r : cubic_run lin axes vals x e r -> has_value (cub1 lin) 4 axes vals x e r.
Proof.
  intros H. destruct H as [c vals axes dom eval x H Lx Dx
    |prec emax Hp He c grids vals eval x A rho Hf Hi Hm Fx Hx H1 Hr Hv HN
    |prec emax Hp He c dims starts steps vals eval x A kappa Hf Fx Ha Hx Hv HN Hpr
    |prec emax Hp He c grids vals eval x A rho D Hf Hi Hm Mx Lx HD H1 Hr Hv HN
    |prec emax Hp He c dims starts steps vals eval x A kappa D Hf Ha Lx Hx HD Hv HN Hpr].
  - destruct (multicubic_value H) as (G & L & E). split; [exact G|]. split; [exact Lx|]. split; [exact L|].
    rewrite (E x Lx Dx). eexists. split; [reflexivity|]. rewrite Rminus_diag_eq, Rabs_R0 by reflexivity. lra.
  - destruct (crect_err prec emax Hp He c lin grids vals eval x A rho Hf Hi Hm Fx Hx H1 Hr Hv HN) as (G & y & E & F & R).
    split; [exact G|]. split; [exact (proj1 Hx)|]. split.
    + apply (rect_vals prec emax Hp He 4). apply (float_cubic_rectilinear_inv _ _ Hp He _ _ _ _ _ Hf).
    + exists (B2R y). split; [apply number_of_fin; auto|exact R].
  - destruct (creg_err prec emax Hp He c lin dims starts steps vals eval x A kappa Hf Fx Ha Hx Hv HN Hpr) as (G & y & E & F & R).
    split; [exact G|]. split; [exact (proj1 Hx)|]. split.
    + apply (reg_vals prec emax 4). apply (float_cubic_regular_inv _ _ Hp He _ _ _ _ _ _ _ Hf).
    + exists (B2R y). split; [apply number_of_fin; auto|exact R].
  - destruct (crect_any prec emax Hp He c lin grids vals eval x A rho D Hf Hi Hm Mx Lx HD H1 Hr Hv HN) as (G & y & E & F & R).
    split; [exact G|]. split; [exact (crect_xr prec emax grids x Lx)|]. split.
    + apply (rect_vals prec emax Hp He 4). apply (float_cubic_rectilinear_inv _ _ Hp He _ _ _ _ _ Hf).
    + exists (B2R y). split; [apply number_of_fin; auto|exact R].
  - destruct (creg_any prec emax Hp He c lin dims starts steps vals eval x A kappa D Hf Ha Lx Hx HD Hv HN Hpr) as (G & y & E & F & R).
    split; [exact G|]. split; [exact (creg_xr prec emax Hp He c lin dims starts steps vals eval x Hf Lx)|]. split.
    + apply (reg_vals prec emax 4). apply (float_cubic_regular_inv _ _ Hp He _ _ _ _ _ _ _ Hf).
    + exists (B2R y). split; [apply number_of_fin; auto|exact R].
Qed.

(** The same grid in another description. *)
Lemma lin_value_same axes axes' vals x e r : same_grid axes axes' -> Forall (good_axis 2) axes ->
  has_value lin1 2 axes' vals x e r -> has_value lin1 2 axes vals x e r.
Proof.
  intros S G (G' & L & Z' & y & E & R). assert (N := same_grid_npts S). assert (Lx : length x = length axes) by (rewrite (@Forall2_len _ _ _ _ _ S); auto).
  split; [exact G|]. split; [exact Lx|]. split; [rewrite N; exact Z'|]. exists y. split; [exact E|].
  rewrite <- N in R.
  rewrite (@tenL_ops_eq _ _ _ _ _ _ _ (same_grid_good lin1 same_lin1 G G' S) Lx (good_lin x Lx G)). exact R.
Qed.
Lemma cub_value_same lin axes axes' vals x e r : same_grid axes axes' -> Forall (good_axis 4) axes ->
  has_value (cub1 lin) 4 axes' vals x e r -> has_value (cub1 lin) 4 axes vals x e r.
Proof.
  intros S G (G' & L & Z' & y & E & R). assert (N := same_grid_npts S). assert (Lx : length x = length axes) by (rewrite (@Forall2_len _ _ _ _ _ S); auto).
  split; [exact G|]. split; [exact Lx|]. split; [rewrite N; exact Z'|]. exists y. split; [exact E|].
  rewrite <- N in R.
  rewrite (@tenL_ops_eq _ _ _ _ _ _ _ (same_grid_good (cub1 lin) (@same_cub1 lin) G G' S) Lx (good_cub lin x Lx G)). exact R.
Qed.

Lemma apart y y' v v' e e' d : Rabs (y - v) <= e -> Rabs (y' - v') <= e' -> Rabs (v - v') <= d -> Rabs (y - y') <= e + e' + d.
Proof. intros H H' Hd. apply Rabs_le_inv in H, H', Hd. apply Rabs_le. lra. Qed.

Section Two.
Variables (axes axes' : list axis) (vals vals' x x' : list R) (e e' : R) (r r' : option R).
Hypothesis Hs : same_grid axes axes'.

Section Lin.
Hypothesis H : linear_run axes vals x e r.
Hypothesis H' : linear_run axes' vals' x' e' r'.

Lemma lin_values : Forall (good_axis 2) axes /\ length x = length axes /\ length x' = length axes /\
  zlen vals = zprod (map npts axes) /\ exists y y', r = Some y /\ r' = Some y' /\
  Rabs (y - tenL (ops1 lin1 axes x) (entry 0 (map npts axes) vals)) <= e /\
  Rabs (y' - tenL (ops1 lin1 axes x') (entry 0 (map npts axes) vals')) <= e'.
Proof using All.
  assert (V := linear_run_value _ _ _ _ _ H). assert (G := proj1 V).
  assert (V' := lin_value_same _ _ _ _ _ _ Hs G (linear_run_value _ _ _ _ _ H')).
  destruct V as (_ & Lx & Lv & y & E & R). destruct V' as (_ & Lx' & _ & y' & E' & R'). eauto 12.
Qed.
End Lin.

Section Cub.
Variable lin : bool.
Hypothesis H : cubic_run lin axes vals x e r.
Hypothesis H' : cubic_run lin axes' vals' x' e' r'.

Lemma cub_values : Forall (good_axis 4) axes /\ length x = length axes /\ length x' = length axes /\
  zlen vals = zprod (map npts axes) /\ exists y y', r = Some y /\ r' = Some y' /\
  Rabs (y - tenL (ops1 (cub1 lin) axes x) (entry 0 (map npts axes) vals)) <= e /\
  Rabs (y' - tenL (ops1 (cub1 lin) axes x') (entry 0 (map npts axes) vals')) <= e'.
Proof using All.
  assert (V := cubic_run_value _ _ _ _ _ _ H). assert (G := proj1 V).
  assert (V' := cub_value_same _ _ _ _ _ _ _ Hs G (cubic_run_value _ _ _ _ _ _ H')).
  destruct V as (_ & Lx & Lv & y & E & R). destruct V' as (_ & Lx' & _ & y' & E' & R'). eauto 12.
Qed.
End Cub.
End Two.

Lemma lin_points_val axes vals x y L : Forall (good_axis 2) axes -> SpecReal.inside_grid axes x -> SpecReal.inside_grid axes y ->
  (forall k, (k < length axes)%nat -> data_slope_at_most axes vals k (L k)) ->
  Rabs (tenL (ops1 lin1 axes x) (entry 0 (map npts axes) vals) - tenL (ops1 lin1 axes y) (entry 0 (map npts axes) vals))
    <= sum_upto (length axes) (fun k => L k * Rabs (nth k x 0 - nth k y 0)).
Proof.
  intros G Hx Hy Hd.
  apply (slopes_sum axes (fun z => tenL (ops1 lin1 axes z) (entry 0 (map npts axes) vals)) L); auto.
  intros k Hk z t Hz Hz'. assert (Ek := nth_error_nth' axes no_axis Hk).
  apply (lin_slope_val axes z k _ t _ (L k) G (inside_inside_except _ _ _ Hz) Ek). exact (Hd k Hk).
Qed.

Theorem C73_proof_linear axes axes' vals vals' x e e' r r' d :
  linear_run axes vals x e r -> linear_run axes' vals' x e' r' -> same_grid axes axes' ->
  values_within d vals vals' ->
  exists y y', r = Some y /\ r' = Some y' /\ Rabs (y - y') <= e + e' + reach_factor axes x * d.
Proof.
  intros H H' S Hd. destruct (lin_values _ _ _ _ _ _ _ _ _ _ S H H') as (G & Lx & _ & Lv & y & y' & E & E' & R & R').
  exists y, y'. split; [exact E|]. split; [exact E'|]. apply (apart _ _ _ _ _ _ _ R R').
  rewrite (tenL_minus _ _ _ _ (good_lin x Lx G)).
  apply (tenL_norm_any axes); [apply ops1_shape; auto| |intros idx Hi; apply within_entry; auto].
  intros k a L0 Hk HkL. rewrite (ops1_nth_error _ _ _ _ _ _ Lx Hk HkL). clear L0 HkL.
  rewrite (outside_nth _ _ _ _ Hk). assert (Gk := good_nth _ G Hk).
  intros v B HB. apply lin1_norm_any; auto; apply Gk.
Qed.

Theorem C73_proof_linear_inside axes axes' vals vals' x x' e e' r r' d L :
  linear_run axes vals x e r -> linear_run axes' vals' x' e' r' -> same_grid axes axes' ->
  SpecReal.inside_grid axes x -> SpecReal.inside_grid axes x' ->
  values_within d vals vals' -> (forall k, (k < length axes)%nat -> data_slope_at_most axes vals k (L k)) ->
  exists y y', r = Some y /\ r' = Some y' /\
  Rabs (y - y') <= e + e' + (d + sum_upto (length axes) (fun k => L k * Rabs (nth k x 0 - nth k x' 0))).
Proof.
  intros H H' S Hx Hx' Hd HL. destruct (lin_values _ _ _ _ _ _ _ _ _ _ S H H') as (G & Lx & Lx' & Lv & y & y' & E & E' & R & R').
  exists y, y'. split; [exact E|]. split; [exact E'|]. apply (apart _ _ _ _ _ _ _ R R').
  assert (P := lin_points_val axes vals x x' L G Hx Hx' HL).
  assert (Q : Rabs (tenL (ops1 lin1 axes x') (entry 0 (map npts axes) vals) - tenL (ops1 lin1 axes x') (entry 0 (map npts axes) vals')) <= d).
  { rewrite (tenL_minus _ _ _ _ (good_lin x' Lx' G)).
    eapply Rle_trans; [apply (tenL_norm axes _ 1 _ d)|].
    - apply lin_ops_norm; auto.
    - intros idx Hi. apply within_entry; auto.
    - rewrite pow1. lra. }
  apply Rabs_le_inv in P, Q. apply Rabs_le. lra.
Qed.

Theorem C73_proof_cubic lin axes axes' vals vals' x e e' r r' d rho :
  cubic_run lin axes vals x e r -> cubic_run lin axes' vals' x e' r' -> same_grid axes axes' ->
  values_within d vals vals' -> (forall a, In a axes -> spacing_ratio_at_most a rho) ->
  exists y y', r = Some y /\ r' = Some y' /\
  Rabs (y - y') <= e + e' + prod_upto (length axes) (fun k => cubic_reach_gain lin rho (outside_by axes x k)) * d.
Proof.
  intros H H' S Hd Hr. destruct (cub_values _ _ _ _ _ _ _ _ _ _ S _ H H') as (G & Lx & _ & Lv & y & y' & E & E' & R & R').
  exists y, y'. split; [exact E|]. split; [exact E'|]. apply (apart _ _ _ _ _ _ _ R R').
  rewrite (tenL_minus _ _ _ _ (good_cub lin x Lx G)).
  apply (tenL_norm_any axes); [apply ops1_shape; auto| |intros idx Hi; apply within_entry; auto].
  intros k a L0 Hk HkL. rewrite (ops1_nth_error _ _ _ _ _ _ Lx Hk HkL). clear L0 HkL.
  rewrite (outside_nth _ _ _ _ Hk). assert (Gk := good_nth _ G Hk).
  intros v B HB. apply cub1_norm_any; auto; try apply Gk. apply Hr. eapply nth_error_In; eauto.
Qed.

(** Monotone data, and slopes. *)
Theorem C74_proof_monotone axes axes' vals x k t e e' r r' :
  linear_run axes vals x e r -> linear_run axes' vals (upd x k t) e' r' -> same_grid axes axes' ->
  (k < length axes)%nat -> inside_except axes k x -> data_nondecreasing (map npts axes) vals k -> nth k x 0 <= t ->
  exists y y', r = Some y /\ r' = Some y' /\ y <= y' + (e + e').
Proof.
  intros H H' S Hk Hx Hd Ht. destruct (lin_values _ _ _ _ _ _ _ _ _ _ S H H') as (G & Lx & Lx' & Lv & y & y' & E & E' & R & R').
  exists y, y'. split; [exact E|]. split; [exact E'|].
  assert (Ek := nth_error_nth' axes no_axis Hk). set (a := nth k axes no_axis) in *.
  assert (M : tenL (ops1 lin1 axes x) (entry 0 (map npts axes) vals) <= tenL (ops1 lin1 axes (upd x k t)) (entry 0 (map npts axes) vals)).
  { rewrite (lin_along axes x k a t _ G Lx Ek).
    rewrite <- (upd_self x k) at 1 by lia. rewrite (lin_along axes x k a _ _ G Lx Ek).
    apply lin1_mono; auto; [apply (good_nth _ G Ek)|]. apply (slice_nondec axes x k a G Hx Ek). exact Hd. }
  apply Rabs_le_inv in R, R'. lra.
Qed.
Theorem C74_proof_slope axes axes' vals x k t e e' r r' L :
  linear_run axes vals x e r -> linear_run axes' vals (upd x k t) e' r' -> same_grid axes axes' ->
  (k < length axes)%nat -> inside_except axes k x -> data_slope_at_most axes vals k L ->
  exists y y', r = Some y /\ r' = Some y' /\ Rabs (y' - y) <= L * Rabs (t - nth k x 0) + (e + e').
Proof.
  intros H H' S Hk Hx Hd. destruct (lin_values _ _ _ _ _ _ _ _ _ _ S H H') as (G & Lx & Lx' & Lv & y & y' & E & E' & R & R').
  exists y, y'. split; [exact E|]. split; [exact E'|].
  assert (Ek := nth_error_nth' axes no_axis Hk).
  assert (M := lin_slope_val axes x k _ t _ L G Hx Ek Hd).
  apply Rabs_le_inv in R, R', M. apply Rabs_le. lra.
Qed.
