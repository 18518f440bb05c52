(** Theorems about extrapolation in exact arithmetic: how far errors in the data, and the error
    against a smooth function, can grow with the distance from the grid. *)
From Coq Require Import Reals Lra PeanoNat Bool.
From Verif Require Import Base Ops RInst ModelLinear ModelNearest ModelCubic Spec SpecReal Interpolators.
From Verif Require Import RPoly RTensor R1D RChar REval RProofs ExampleReal PropertiesExact SpecApprox Approx1D Approx Shape.
From Verif Require Import PropertiesApprox SpecExtrap Extrap1D Extrap.
Unset Implicit Arguments.
Open Scope R_scope.

(** * C60: errors in the data, anywhere *)

(** Two multilinear interpolators on the same grid, whose values differ by at most e, at any
    point the interpolators accept: each axis contributes the factor 1 + 2 d, where d is the
    distance of the point from the grid along the axis in widths of the outermost cell. *)
Theorem C60_multilinear :
  forall c c' u v axes dom dom' ev ev' e x,
  multilinear c u axes dom ev -> multilinear c' v axes dom' ev' -> values_within e u v ->
  length x = length axes -> dom x -> dom' x ->
  exists r r', ev x = Ok r /\ ev' x = Ok r' /\
    Rabs (r - r') <= prod_upto (length axes) (fun k => 1 + 2 * outside_by axes x k) * e.
Proof. exact lin_stable_any. Qed.
(** Multicubic: the factor grows linearly with the distance if extrapolation is linearised, and
    quadratically if not. *)
Theorem C60_multicubic :
  forall c c' lin u v axes dom dom' ev ev' e x rho,
  multicubic c lin u axes dom ev -> multicubic c' lin v axes dom' ev' -> values_within e u v ->
  length x = length axes -> dom x -> dom' x -> (forall a, In a axes -> spacing_ratio_at_most a rho) ->
  exists r r', ev x = Ok r /\ ev' x = Ok r' /\
    Rabs (r - r') <= prod_upto (length axes) (fun k => cubic_reach_gain lin rho (outside_by axes x k)) * e.
Proof. exact cubic_stable_any. Qed.
(** How large a result can be, anywhere. *)
Theorem C60_multilinear_range :
  forall c vals axes dom eval x E, multilinear c vals axes dom eval -> length x = length axes -> dom x ->
  Forall (fun v => Rabs v <= E) vals ->
  exists r, eval x = Ok r /\ Rabs r <= prod_upto (length axes) (fun k => 1 + 2 * outside_by axes x k) * E.
Proof. exact lin_range_any. Qed.
Theorem C60_multicubic_range :
  forall c lin vals axes dom eval x E rho, multicubic c lin vals axes dom eval -> length x = length axes -> dom x ->
  Forall (fun v => Rabs v <= E) vals -> (forall a, In a axes -> spacing_ratio_at_most a rho) ->
  exists r, eval x = Ok r /\
    Rabs r <= prod_upto (length axes) (fun k => cubic_reach_gain lin rho (outside_by axes x k)) * E.
Proof. exact cubic_range_any. Qed.
(** Inside the grid the distance is 0. *)
Theorem C60_inside :
  forall a x, increasing_axis a -> (2 <= npts a)%Z -> coord a 0 <= x <= coord a (npts a - 1) -> overshoot a x = 0.
Proof. exact overshoot_inside. Qed.

Ltac overshoots := unfold outside_by, overshoot, spacing; simpl; unfold Rmax; repeat destruct Rle_dec; lra.
Lemma rl_outside : outside_by rl_axes [4; 2] 0 = 2 /\ outside_by rl_axes [4; 2] 1 = 0.
Proof. split; overshoots. Qed.

(** The bound is attained: the values of the two interpolators differ by 1, and two cell widths
    outside the grid the results 15 and 10 differ by 1 + 2 * 2. *)
Definition tilt_vals : list R := [1; 9; 3; 11; 4; 12].
Definition tilt_eval := mlr_interp_one ROps rplain (mkRegular rl_dims rl_starts rl_steps tilt_vals).
Lemma tilt_ok : multilinear rplain tilt_vals rl_axes (cell_fits isize_min rl_starts rl_steps) tilt_eval.
Proof.
  apply multilinear_regular; [rreg_ok|]. lazy -[Rltb IZR Rplus Rmult Rinv Ropp tilt_vals]. rltb. reflexivity.
Qed.
Lemma tilt_near : values_within 1 bowl_vals tilt_vals.
Proof. unfold tilt_vals, bowl_vals. repeat (apply Forall2_cons; [apply Rabs_le; lra|]). apply Forall2_nil. Qed.
Lemma far_cells : in_cells rl_axes [4; 2] [1%Z; 0%Z].
Proof. split; auto. split; auto. each_axis; split; simpl; try lia; split; auto; right; lra. Qed.
Lemma bowl_far : bowl_eval [4; 2] = Ok 15.
Proof.
  rewrite (C01_multilinear _ _ _ _ _ [4; 2] [1%Z; 0%Z] bowl_ok far_cells); [|fits].
  f_equal. unfold corner_sum, entry. simpl. unfold local_coord. simpl. lra.
Qed.
Example C60_multilinear_ex :
  (exists r r', bowl_eval [4; 2] = Ok r /\ tilt_eval [4; 2] = Ok r' /\ Rabs (r - r') <= 5)
  /\ bowl_eval [4; 2] = Ok 15 /\ tilt_eval [4; 2] = Ok 10
  /\ (exists r, bowl_eval [4; 2] = Ok r /\ Rabs r <= 65).
Proof.
  destruct rl_outside as (O0 & O1). split; [|split; [|split]].
  - destruct (C60_multilinear _ _ _ _ _ _ _ _ _ 1 [4; 2] bowl_ok tilt_ok tilt_near eq_refl) as (r & r' & Er & Er' & Hr); [fits|fits|].
    exists r, r'. split; auto. split; auto. eapply Rle_trans; [exact Hr|]. unfold prod_upto. simpl. rewrite O0, O1. lra.
  - exact bowl_far.
  - rewrite (C01_multilinear _ _ _ _ _ [4; 2] [1%Z; 0%Z] tilt_ok far_cells); [|fits].
    f_equal. unfold corner_sum, entry. simpl. unfold local_coord. simpl. lra.
  - destruct (C60_multilinear_range _ _ _ _ _ [4; 2] 13 bowl_ok eq_refl) as (r & Er & Hr); [fits| |].
    + repeat (apply Forall_cons; [apply Rabs_le; lra|]). apply Forall_nil.
    + exists r. split; auto. eapply Rle_trans; [exact Hr|]. unfold prod_upto. simpl. rewrite O0, O1. lra.
Qed.

Lemma rcu_outside : outside_by (rect_axes rcu_grids) [5; 9] 0 = 1 /\ outside_by (rect_axes rcu_grids) [5; 9] 1 = 1.
Proof. split; overshoots. Qed.
Example C60_multicubic_ex :
  (exists r r', wave_eval true [5; 9] = Ok r /\ rcu_eval true [5; 9] = Ok r' /\ Rabs (r - r') <= (126 / 10) ^ 2 * 300)
  /\ (exists r r', wave_eval false [5; 9] = Ok r /\ rcu_eval false [5; 9] = Ok r' /\ Rabs (r - r') <= (206 / 10) ^ 2 * 300)
  /\ (exists r, wave_eval true [5; 9] = Ok r /\ Rabs r <= (126 / 10) ^ 2 * 113).
Proof.
  destruct rcu_outside as (O0 & O1).
  assert (N : values_within 300 wave_vals rc_vals).
  { unfold wave_vals, rc_vals. simpl. repeat (apply Forall2_cons; [apply Rabs_le; lra|]). apply Forall2_nil. }
  split; [|split].
  - destruct (C60_multicubic _ _ _ _ _ _ _ _ _ _ 300 [5; 9] 4 (wave_ok true) (rcu_ok true) N eq_refl I I rcu_ratio_ok) as (r & r' & Er & Er' & Hr).
    exists r, r'. split; auto. split; auto. eapply Rle_trans; [exact Hr|].
    change (length (rect_axes rcu_grids)) with 2%nat. unfold prod_upto. cbn [seq map fold_right]. rewrite O0, O1. unfold cubic_reach_gain, cubic_gain. lra.
  - destruct (C60_multicubic _ _ _ _ _ _ _ _ _ _ 300 [5; 9] 4 (wave_ok false) (rcu_ok false) N eq_refl I I rcu_ratio_ok) as (r & r' & Er & Er' & Hr).
    exists r, r'. split; auto. split; auto. eapply Rle_trans; [exact Hr|].
    change (length (rect_axes rcu_grids)) with 2%nat. unfold prod_upto. cbn [seq map fold_right]. rewrite O0, O1. unfold cubic_reach_gain, cubic_gain. lra.
  - destruct (C60_multicubic_range _ _ _ _ _ _ [5; 9] 113 4 (wave_ok true) eq_refl I) as (r & Er & Hr).
    + unfold wave_vals. simpl. repeat (apply Forall_cons; [apply Rabs_le; lra|]). apply Forall_nil.
    + apply rcu_ratio_ok.
    + exists r. split; auto. eapply Rle_trans; [exact Hr|].
      change (length (rect_axes rcu_grids)) with 2%nat. unfold prod_upto. cbn [seq map fold_right]. rewrite O0, O1. unfold cubic_reach_gain, cubic_gain. lra.
Qed.
Print Assumptions C60_multilinear.
Print Assumptions C60_multicubic.
Print Assumptions C60_multilinear_range.
Print Assumptions C60_multicubic_range.
Print Assumptions C60_inside.

(** * C61: the error of extrapolating a smooth function *)

(** Values sampled from f; the derivative bounds hold in the smallest box around the grid and
    the point, h k bounds the spacing of axis k. *)
Theorem C61_multilinear :
  forall c vals axes dom eval f x M h, multilinear c vals axes dom eval -> samples axes vals f ->
  length x = length axes -> dom x ->
  (forall k, (k < length axes)%nat -> second_derivative_reaching axes x f k (M k)) ->
  (forall k a, nth_error axes k = Some a -> spacing_at_most a (h k)) ->
  exists r, eval x = Ok r /\ Rabs (r - f x) <= sum_upto (length axes) (fun k =>
    prod_upto k (fun j => 1 + 2 * outside_by axes x j) * (M k * h k ^ 2 * linear_miss (outside_by axes x k))).
Proof. exact lin_approx_any. Qed.
(** Multicubic, extrapolating with the cubic of the outermost cell. *)
Theorem C61_multicubic :
  forall c vals axes dom eval f x M h rho, multicubic c false vals axes dom eval -> samples axes vals f ->
  length x = length axes -> dom x ->
  (forall k, (k < length axes)%nat -> third_derivative_reaching axes x f k (M k)) ->
  (forall k a, nth_error axes k = Some a -> spacing_at_most a (h k)) ->
  (forall a, In a axes -> spacing_ratio_at_most a rho) ->
  exists r, eval x = Ok r /\ Rabs (r - f x) <= sum_upto (length axes) (fun k =>
    prod_upto k (fun j => cubic_reach_gain false rho (outside_by axes x j))
      * (M k * h k ^ 3 * cubic_miss (outside_by axes x k))).
Proof. exact cubic_approx_any. Qed.
(** Multicubic with linearised extrapolation: also the second derivative N counts. *)
Theorem C61_multicubic_linearised :
  forall c vals axes dom eval f x M N h rho, multicubic c true vals axes dom eval -> samples axes vals f ->
  length x = length axes -> dom x ->
  (forall k, (k < length axes)%nat -> third_derivative_reaching axes x f k (M k)) ->
  (forall k, (k < length axes)%nat -> second_derivative_reaching axes x f k (N k)) ->
  (forall k a, nth_error axes k = Some a -> spacing_at_most a (h k)) ->
  (forall a, In a axes -> spacing_ratio_at_most a rho) ->
  exists r, eval x = Ok r /\ Rabs (r - f x) <= sum_upto (length axes) (fun k =>
    prod_upto k (fun j => cubic_reach_gain true rho (outside_by axes x j))
      * (M k * h k ^ 3 * (7 / 48 + outside_by axes x k / 3) + N k * h k ^ 2 * (outside_by axes x k ^ 2 / 2))).
Proof. exact cubic_approx_any_lin. Qed.

Lemma bowl_curved_far x k : length x = 2%nat -> (k < 2)%nat -> second_derivative_reaching rl_axes x bowl k 2.
Proof.
  intros _ Hk. exists (fun x => 2 * nth k x 0), (fun _ => 2). intros y (Ly & _).
  destruct y as [|u [|v [|]]]; try discriminate.
  destruct k as [|[|k]]; [| |lia]; unfold partial_derivative, bowl; simpl.
  - split; [apply (poly_derivable _ (v ^ 2) 0 1 0); [intros; simpl; ring|ring]|].
    split; [apply (poly_derivable _ 0 2 0 0); [intros; simpl; ring|ring]|rewrite Rabs_right; lra].
  - split; [apply (poly_derivable _ (u ^ 2) 0 1 0); [intros; simpl; ring|ring]|].
    split; [apply (poly_derivable _ 0 2 0 0); [intros; simpl; ring|ring]|rewrite Rabs_right; lra].
Qed.
(** x^2 + y^2 is 20 at (4, 2), the interpolant 15. *)
Example C61_multilinear_ex :
  (exists r, bowl_eval [4; 2] = Ok r /\ Rabs (r - bowl [4; 2]) <= 45 / 4)
  /\ bowl_eval [4; 2] = Ok 15 /\ bowl [4; 2] = 20.
Proof.
  destruct rl_outside as (O0 & O1). split; [|split].
  - destruct (C61_multilinear _ _ _ _ _ bowl [4; 2] (fun _ => 2) (fun k => nth k rl_steps 0) bowl_ok bowl_samples eq_refl)
      as (r & Er & Hr).
    + fits.
    + intros k Hk. apply bowl_curved_far; auto.
    + apply rl_spacing.
    + exists r. split; auto. eapply Rle_trans; [exact Hr|]. unfold sum_upto, prod_upto. simpl. rewrite O0, O1.
      unfold linear_miss. lra.
  - exact bowl_far.
  - unfold bowl. simpl. lra.
Qed.

Lemma wave_third_far x k : (k < 2)%nat -> third_derivative_reaching (rect_axes rcu_grids) x wave k (wave_bound k).
Proof.
  intros Hk.
  exists (fun x => match k with O => 3 * nth 0 x 0 ^ 2 | _ => 2 * nth 1 x 0 end),
    (fun x => match k with O => 6 * nth 0 x 0 | _ => 2 end), (fun _ => wave_bound k). intros y (Ly & _).
  destruct y as [|u [|v [|]]]; try discriminate.
  destruct k as [|[|k]]; [| |lia]; unfold partial_derivative, wave, wave_bound; simpl.
  - split; [apply (poly_derivable _ (v ^ 2) 0 0 1); [intros; simpl; ring|ring]|].
    split; [apply (poly_derivable _ 0 0 3 0); [intros; simpl; ring|ring]|].
    split; [apply (poly_derivable _ 0 6 0 0); [intros; simpl; ring|ring]|rewrite Rabs_right; lra].
  - split; [apply (poly_derivable _ (u ^ 3) 0 1 0); [intros; simpl; ring|ring]|].
    split; [apply (poly_derivable _ 0 2 0 0); [intros; simpl; ring|ring]|].
    split; [apply (poly_derivable _ 2 0 0 0); [intros; simpl; ring|ring]|rewrite Rabs_R0; lra].
Qed.
Definition wave_bend (k : nat) : R := match k with O => 30 | _ => 2 end.
Lemma wave_second_far k : (k < 2)%nat -> second_derivative_reaching (rect_axes rcu_grids) [5; 9] wave k (wave_bend k).
Proof.
  intros Hk.
  exists (fun x => match k with O => 3 * nth 0 x 0 ^ 2 | _ => 2 * nth 1 x 0 end),
    (fun x => match k with O => 6 * nth 0 x 0 | _ => 2 end). intros y (Ly & Hy).
  destruct y as [|u [|v [|]]]; try discriminate. assert (Y := Hy 0%nat _ eq_refl). simpl in Y. clear Hy.
  assert (U : 0 <= u <= 5).
  { revert Y. unfold Rmin, Rmax. repeat destruct Rle_dec; lra. }
  destruct k as [|[|k]]; [| |lia]; unfold partial_derivative, wave, wave_bend; simpl.
  - split; [apply (poly_derivable _ (v ^ 2) 0 0 1); [intros; simpl; ring|ring]|].
    split; [apply (poly_derivable _ 0 0 3 0); [intros; simpl; ring|ring]|]. apply Rabs_le. lra.
  - split; [apply (poly_derivable _ (u ^ 3) 0 1 0); [intros; simpl; ring|ring]|].
    split; [apply (poly_derivable _ 0 2 0 0); [intros; simpl; ring|ring]|]. apply Rabs_le. lra.
Qed.
Example C61_multicubic_ex :
  (exists r, wave_eval false [5; 9] = Ok r /\ Rabs (r - wave [5; 9]) <= 55)
  /\ (exists r, wave_eval true [5; 9] = Ok r /\ Rabs (r - wave [5; 9]) <= 285).
Proof.
  destruct rcu_outside as (O0 & O1). split.
  - destruct (C61_multicubic _ _ _ _ _ wave [5; 9] wave_bound rcu_spacing 4 (wave_ok false) wave_samples eq_refl I
      (wave_third_far _) rcu_spacing_ok rcu_ratio_ok) as (r & Er & Hr).
    exists r. split; auto. eapply Rle_trans; [exact Hr|]. change (length (rect_axes rcu_grids)) with 2%nat. unfold sum_upto, prod_upto, Rsum.
    cbn [seq map fold_right]. rewrite O0, O1. unfold wave_bound, wave_bend, rcu_spacing.
    unfold cubic_miss. simpl. lra.
  - destruct (C61_multicubic_linearised _ _ _ _ _ wave [5; 9] wave_bound wave_bend rcu_spacing 4 (wave_ok true) wave_samples eq_refl I
      (wave_third_far _) wave_second_far rcu_spacing_ok rcu_ratio_ok) as (r & Er & Hr).
    exists r. split; auto. eapply Rle_trans; [exact Hr|]. change (length (rect_axes rcu_grids)) with 2%nat. unfold sum_upto, prod_upto, Rsum.
    cbn [seq map fold_right]. rewrite O0, O1. unfold wave_bound, wave_bend, rcu_spacing.
    unfold cubic_reach_gain, cubic_gain. lra.
Qed.
Print Assumptions C61_multilinear.
Print Assumptions C61_multicubic.
Print Assumptions C61_multicubic_linearised.
