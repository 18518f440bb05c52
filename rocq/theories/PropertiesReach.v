(** Multilinear extrapolation in floating point: distance from the exact result (C62) and from a
    smooth function (C63), at points that may be outside the grid. *)
From Coq Require Import Reals Lra PeanoNat Bool Lia List.
From Flocq Require Import Core.Core IEEE754.BinarySingleNaN.
From Verif Require Import Base Ops RInst FInst ModelCore ModelLinear Spec SpecOrder SpecIEEE SpecError SpecReal Interpolators SpecApprox.
From Verif Require Import SpecExtrap SpecReach GenLemmas FLemmas FProofs FProofs2 FError2 FApprox Extrap FExtrap FExtrap2 RChar ExampleData ExampleReal.
From Verif Require Import PropertiesExact PropertiesFloat PropertiesError PropertiesApprox PropertiesAccuracy.
Import ListNotations.
Open Scope R_scope.
Unset Implicit Arguments.

(** * C62: at any point, inside the grid or outside, the computed result differs from the
    multilinear formula evaluated in exact arithmetic on the same data by at most a small multiple
    of the unit roundoff times the largest value, times the factor by which the formula itself may
    magnify the values there. *)
Theorem C62_rectilinear :
  forall prec emax (Hp : Prec_gt_0 prec) (He : Prec_lt_emax prec emax), let o := BOps Hp He in
  forall c (grids : list (list (binary_float prec emax))) vals eval x A, let axes := rect_axes (map (map B2R) grids) in
  float_rectilinear Hp He c grids vals eval ->
  Forall (increasing_grid o) grids -> Forall (Forall moderate) grids ->
  Forall moderate x -> length x = length grids ->
  bounded_values prec emax A vals -> reach_fits emax axes (map B2R x) A -> 144 * INR (length grids) * roundoff prec <= 1 ->
  forall os, in_cells axes (map B2R x) os ->
  exists y, eval x = Ok y /\ is_finite y = true /\
  Rabs (B2R y - corner_sum (entry 0 (map npts axes) (map B2R vals)) os (local_coords axes (map B2R x) os))
    <= reach_factor axes (map B2R x) * rectilinear_reach_error prec emax (length grids) A.
Proof. intros prec emax Hp He o. exact (C62_proof_rectilinear prec emax Hp He). Qed.
(** On a regular grid both the grid and the point are at most [kappa] steps away from zero. *)
Theorem C62_regular :
  forall prec emax (Hp : Prec_gt_0 prec) (He : Prec_lt_emax prec emax),
  forall c dims (starts steps vals : list (binary_float prec emax)) eval x A kappa,
  let axes := reg_axes dims (map B2R starts) (map B2R steps) in
  float_regular Hp He c dims starts steps vals eval ->
  axes_within prec emax kappa starts steps dims -> length x = length dims -> point_within prec emax kappa steps x ->
  bounded_values prec emax A vals -> reach_fits emax axes (map B2R x) A ->
  504 * INR (length dims) * (roundoff prec * kappa) <= 1 -> (prec <= 64)%Z ->
  forall os, in_cells axes (map B2R x) os ->
  exists y, eval x = Ok y /\ is_finite y = true /\
  Rabs (B2R y - corner_sum (entry 0 (map npts axes) (map B2R vals)) os (local_coords axes (map B2R x) os))
    <= reach_factor axes (map B2R x) * regular_error prec emax (length dims) kappa A.
Proof. exact C62_proof_regular. Qed.
(** The same distance from the result of the same library code run in exact arithmetic. *)
Theorem C62_rectilinear_exact :
  forall prec emax (Hp : Prec_gt_0 prec) (He : Prec_lt_emax prec emax), let o := BOps Hp He in
  forall c (grids : list (list (binary_float prec emax))) vals eval x A, let axes := rect_axes (map (map B2R) grids) in
  float_rectilinear Hp He c grids vals eval ->
  Forall (increasing_grid o) grids -> Forall (Forall moderate) grids ->
  Forall moderate x -> length x = length grids ->
  bounded_values prec emax A vals -> reach_fits emax axes (map B2R x) A -> 144 * INR (length grids) * roundoff prec <= 1 ->
  forall c' dom eval', multilinear c' (map B2R vals) axes dom eval' -> dom (map B2R x) ->
  exists y r, eval x = Ok y /\ is_finite y = true /\ eval' (map B2R x) = Ok r /\
  Rabs (B2R y - r) <= reach_factor axes (map B2R x) * rectilinear_reach_error prec emax (length grids) A.
Proof. intros prec emax Hp He o. exact (C62_proof_rectilinear_exact prec emax Hp He). Qed.
Theorem C62_regular_exact :
  forall prec emax (Hp : Prec_gt_0 prec) (He : Prec_lt_emax prec emax),
  forall c dims (starts steps vals : list (binary_float prec emax)) eval x A kappa,
  let axes := reg_axes dims (map B2R starts) (map B2R steps) in
  float_regular Hp He c dims starts steps vals eval ->
  axes_within prec emax kappa starts steps dims -> length x = length dims -> point_within prec emax kappa steps x ->
  bounded_values prec emax A vals -> reach_fits emax axes (map B2R x) A ->
  504 * INR (length dims) * (roundoff prec * kappa) <= 1 -> (prec <= 64)%Z ->
  forall c' dom eval', multilinear c' (map B2R vals) axes dom eval' -> dom (map B2R x) ->
  exists y r, eval x = Ok y /\ is_finite y = true /\ eval' (map B2R x) = Ok r /\
  Rabs (B2R y - r) <= reach_factor axes (map B2R x) * regular_error prec emax (length dims) kappa A.
Proof. exact C62_proof_regular_exact. Qed.

(** f64: the point (3, 2) is 2/3 of a cell width outside the uneven grid and 4 outside the even one. *)
Definition far_x : list f64 := [z64 3; z64 2].
Lemma far_x_real : map B2R far_x = [3; 2].
Proof. unfold far_x. cbn [map]. repeat (apply f_equal2); try reflexivity; real_lit. Qed.
Lemma far_moderate : Forall (@moderate 53 1024) far_x.
Proof.
  unfold far_x. repeat (apply Forall_cons; [split; [reflexivity|]|]); [| |apply Forall_nil];
    (apply Rle_trans with (bpow radix2 4); [apply Rabs_le; real_lit|apply bpow_le; lia]).
Qed.
Ltac overs := unfold outside_by, overshoot, spacing; simpl; unfold Rmax; repeat destruct Rle_dec; lra.
Lemma far_rect_outside : outside_by (rect_axes (map (map B2R) lin_grids)) (map B2R far_x) 0 = 2 / 3 /\
  outside_by (rect_axes (map (map B2R) lin_grids)) (map B2R far_x) 1 = 0.
Proof. rewrite lin_grids_real, far_x_real. split; overs. Qed.
Lemma far_reg_outside : outside_by (reg_axes lin_dims (map B2R lin_starts) (map B2R lin_steps)) (map B2R far_x) 0 = 4 /\
  outside_by (reg_axes lin_dims (map B2R lin_starts) (map B2R lin_steps)) (map B2R far_x) 1 = 0.
Proof. rewrite lin_starts_real, lin_steps_real, far_x_real. split; overs. Qed.
Lemma far_rect_factor : reach_factor (rect_axes (map (map B2R) lin_grids)) (map B2R far_x) = 7 / 3.
Proof.
  destruct far_rect_outside as (O0 & O1). unfold reach_factor. change (length (rect_axes (map (map B2R) lin_grids))) with 2%nat.
  unfold prod_upto. cbn [seq map fold_right]. rewrite O0, O1. lra.
Qed.
Lemma far_reg_factor : reach_factor (reg_axes lin_dims (map B2R lin_starts) (map B2R lin_steps)) (map B2R far_x) = 9.
Proof.
  destruct far_reg_outside as (O0 & O1). unfold reach_factor. change (length (reg_axes lin_dims (map B2R lin_starts) (map B2R lin_steps))) with 2%nat.
  unfold prod_upto. cbn [seq map fold_right]. rewrite O0, O1. lra.
Qed.
Lemma fits_small axes x A : 0 <= A <= 13 -> 0 <= reach_factor axes x <= 9 -> reach_fits 1024 axes x A.
Proof.
  intros HA HF. assert (Q : 128 <= bpow radix2 (1024 - 4)) by (apply Rle_trans with (bpow radix2 7); [simpl; lra|apply bpow_le; lia]).
  split; [lra|]. apply Rle_trans with (9 * 13); [apply Rmult_le_compat; lra|lra].
Qed.
Lemma far_rect_fits A : 0 <= A <= 13 -> reach_fits 1024 (rect_axes (map (map B2R) lin_grids)) (map B2R far_x) A.
Proof. intros HA. apply fits_small; auto. rewrite far_rect_factor. lra. Qed.
Lemma far_reg_fits A : 0 <= A <= 13 -> reach_fits 1024 (reg_axes lin_dims (map B2R lin_starts) (map B2R lin_steps)) (map B2R far_x) A.
Proof. intros HA. apply fits_small; auto. rewrite far_reg_factor. lra. Qed.
Lemma far_rect_cells : in_cells (rect_axes (map (map B2R) lin_grids)) (map B2R far_x) [1%Z; 0%Z].
Proof.
  rewrite lin_grids_real, far_x_real. split; [reflexivity|]. split; [reflexivity|].
  each_axis2; (split; [simpl; lia|split; [right; simpl; lra|left; reflexivity]]).
Qed.
Lemma far_reg_cells : in_cells (reg_axes lin_dims (map B2R lin_starts) (map B2R lin_steps)) (map B2R far_x) [1%Z; 0%Z].
Proof.
  rewrite lin_starts_real, lin_steps_real, far_x_real. split; [reflexivity|]. split; [reflexivity|].
  each_axis2; (split; [simpl; lia|split; [right; simpl; lra|left; reflexivity]]).
Qed.
Lemma lin_within_6 : axes_within 53 1024 6 lin_starts lin_steps lin_dims.
Proof.
  intros k s h d Es Eh Ed. destruct k as [|[|k]]; [| |destruct k; discriminate];
    injection Es as <-; injection Eh as <-; injection Ed as <-;
    (split; [reflexivity|]; split; [reflexivity|]; split; [apply Rabs_le; real_lit|]; split; [apply Rabs_le; real_lit|]).
  - apply Rle_trans with (bpow radix2 4); [real_lit|]. apply bpow_le. lia.
  - apply Rle_trans with (bpow radix2 4); [real_lit|]. apply bpow_le. lia.
Qed.
Lemma far_within : point_within 53 1024 6 lin_steps far_x.
Proof.
  intros k h v Eh Ev. destruct k as [|[|k]]; [| |destruct k; discriminate];
    injection Eh as <-; injection Ev as <-; (split; [reflexivity|apply Rabs_le; real_lit]).
Qed.
Lemma far_small a b : 0 <= a <= 200000 -> 0 <= b <= 1000 -> a * roundoff 53 + b * underflow 53 1024 <= / 10000000000.
Proof.
  intros Ha Hb. assert (U := roundoff_64).
  assert (W : underflow 53 1024 <= / 2 * roundoff 53).
  { unfold underflow, roundoff. apply Rmult_le_compat_l; [lra|]. apply bpow_le. lia. }
  assert (0 <= roundoff 53) by (apply bpow_ge_0).
  assert (0 <= underflow 53 1024) by (unfold underflow; assert (P := bpow_ge_0 radix2 (3 - 1024 - 53)); lra).
  assert (a * roundoff 53 <= 200000 * roundoff 53) by (apply Rmult_le_compat_r; lra).
  assert (b * underflow 53 1024 <= 1000 * underflow 53 1024) by (apply Rmult_le_compat_r; lra). lra.
Qed.
(** Exactly 503/48 and 551/16. *)
Example C62_ex :
  (exists y, mlc_interp_one F64Ops plain lin_g far_x = Ok y /\ is_finite y = true /\ Rabs (B2R y - 503 / 48) <= / 10000000000) /\
  (exists y, mlr_interp_one F64Ops plain lin_s far_x = Ok y /\ is_finite y = true /\ Rabs (B2R y - 551 / 16) <= / 10000000000).
Proof.
  assert (U := roundoff_64). split.
  - destruct (C62_rectilinear _ _ Hp64 He64 plain lin_grids lin_vals _ far_x 11 lin_frect lin_inc lin_mod far_moderate eq_refl lin_bounded
      (far_rect_fits 11 ltac:(lra)) ltac:(simpl; lra) _ far_rect_cells) as (y & E & F & B).
    exists y. split; [exact E|]. split; [exact F|]. rewrite far_rect_factor in B.
    rewrite lin_grids_real, far_x_real, lin_vals_real in B.
    replace (corner_sum _ _ _) with (503 / 48) in B by (unfold corner_sum, Rsum, local_coord, entry; simpl; unfold local_coord; simpl; field).
    eapply Rle_trans; [exact B|]. unfold rectilinear_reach_error. simpl length. simpl INR.
    assert (Q := far_small 924 14 ltac:(lra) ltac:(lra)). lra.
  - destruct (C62_regular _ _ Hp64 He64 plain lin_dims lin_starts lin_steps lin_vals _ far_x 11 6 lin_freg lin_within_6 eq_refl far_within lin_bounded
      (far_reg_fits 11 ltac:(lra)) ltac:(simpl; lra) ltac:(lia) _ far_reg_cells) as (y & E & F & B).
    exists y. split; [exact E|]. split; [exact F|]. rewrite far_reg_factor in B.
    rewrite lin_starts_real, lin_steps_real, far_x_real, lin_vals_real in B.
    replace (corner_sum _ _ _) with (551 / 16) in B by (unfold corner_sum, Rsum, local_coord, entry; simpl; unfold local_coord; simpl; field).
    eapply Rle_trans; [exact B|]. unfold regular_error. simpl length. simpl INR.
    assert (Q := far_small 76032 54 ltac:(lra) ltac:(lra)). lra.
Qed.
Lemma lin_exact_reg_far : exists s dom, multilinear plain (map B2R lin_vals) (reg_axes lin_dims (map B2R lin_starts) (map B2R lin_steps)) dom (mlr_interp_one ROps plain s) /\ dom [3; 2].
Proof.
  rewrite lin_starts_real, lin_steps_real, lin_vals_real. do 2 eexists. split.
  - apply multilinear_regular.
    + rreg_ok.
    + lazy -[Rltb IZR Rplus Rmult Rinv Ropp Rdiv]. rltb. reflexivity.
  - fits.
Qed.
Example C62_exact_ex :
  (exists s y r, mlc_interp_one F64Ops plain lin_g far_x = Ok y /\ is_finite y = true /\
     mlc_interp_one ROps plain s (map B2R far_x) = Ok r /\ Rabs (B2R y - r) <= / 10000000000) /\
  (exists s y r, mlr_interp_one F64Ops plain lin_s far_x = Ok y /\ is_finite y = true /\
     mlr_interp_one ROps plain s (map B2R far_x) = Ok r /\ Rabs (B2R y - r) <= / 10000000000).
Proof.
  assert (U := roundoff_64). split.
  - destruct lin_exact_rect as (s & Hs).
    destruct (C62_rectilinear_exact _ _ Hp64 He64 plain lin_grids lin_vals _ far_x 11 lin_frect lin_inc lin_mod far_moderate eq_refl lin_bounded
      (far_rect_fits 11 ltac:(lra)) ltac:(simpl; lra) _ _ _ Hs I) as (y & r & E & F & E' & B).
    exists s, y, r. split; [exact E|]. split; [exact F|]. split; [exact E'|]. rewrite far_rect_factor in B.
    eapply Rle_trans; [exact B|]. unfold rectilinear_reach_error. simpl length. simpl INR.
    assert (Q := far_small 924 14 ltac:(lra) ltac:(lra)). lra.
  - destruct lin_exact_reg_far as (s & dom & Hs & Dx). rewrite <- far_x_real in Dx.
    destruct (C62_regular_exact _ _ Hp64 He64 plain lin_dims lin_starts lin_steps lin_vals _ far_x 11 6 lin_freg lin_within_6 eq_refl far_within lin_bounded
      (far_reg_fits 11 ltac:(lra)) ltac:(simpl; lra) ltac:(lia) _ _ _ Hs Dx) as (y & r & E & F & E' & B).
    exists s, y, r. split; [exact E|]. split; [exact F|]. split; [exact E'|]. rewrite far_reg_factor in B.
    eapply Rle_trans; [exact B|]. unfold regular_error. simpl length. simpl INR.
    assert (Q := far_small 76032 54 ltac:(lra) ltac:(lra)). lra.
Qed.
Print Assumptions C62_rectilinear.
Print Assumptions C62_regular.
Print Assumptions C62_rectilinear_exact.
Print Assumptions C62_regular_exact.

(** * C63: at any point, the result computed in floating point from samples of a function that are
    accurate to [e] differs from the function by at most the rounding error of C62, plus [e] times
    the same factor, plus the extrapolation error of C61. *)
Theorem C63_rectilinear :
  forall prec emax (Hp : Prec_gt_0 prec) (He : Prec_lt_emax prec emax), let o := BOps Hp He in
  forall c (grids : list (list (binary_float prec emax))) vals eval x A,
  let axes := rect_axes (map (map B2R) grids) in let xr := map B2R x in
  float_rectilinear Hp He c grids vals eval ->
  Forall (increasing_grid o) grids -> Forall (Forall moderate) grids ->
  Forall moderate x -> length x = length grids ->
  bounded_values prec emax A vals -> reach_fits emax axes xr A -> 144 * INR (length grids) * roundoff prec <= 1 ->
  forall f e M h, samples_within e axes (map B2R vals) f ->
  (forall k, (k < length axes)%nat -> second_derivative_reaching axes xr f k (M k)) ->
  (forall k a, nth_error axes k = Some a -> spacing_at_most a (h k)) ->
  exists y, eval x = Ok y /\ is_finite y = true /\
  Rabs (B2R y - f xr) <= reach_factor axes xr * rectilinear_reach_error prec emax (length grids) A + reach_factor axes xr * e
    + sum_upto (length axes) (fun k =>
        prod_upto k (fun j => 1 + 2 * outside_by axes xr j) * (M k * h k ^ 2 * linear_miss (outside_by axes xr k))).
Proof. intros prec emax Hp He o. exact (C63_proof_rectilinear prec emax Hp He). Qed.
Theorem C63_regular :
  forall prec emax (Hp : Prec_gt_0 prec) (He : Prec_lt_emax prec emax),
  forall c dims (starts steps vals : list (binary_float prec emax)) eval x A kappa,
  let axes := reg_axes dims (map B2R starts) (map B2R steps) in let xr := map B2R x in
  float_regular Hp He c dims starts steps vals eval ->
  axes_within prec emax kappa starts steps dims -> length x = length dims -> point_within prec emax kappa steps x ->
  bounded_values prec emax A vals -> reach_fits emax axes xr A ->
  504 * INR (length dims) * (roundoff prec * kappa) <= 1 -> (prec <= 64)%Z ->
  forall f e M, samples_within e axes (map B2R vals) f ->
  (forall k, (k < length axes)%nat -> second_derivative_reaching axes xr f k (M k)) ->
  exists y, eval x = Ok y /\ is_finite y = true /\
  Rabs (B2R y - f xr) <= reach_factor axes xr * regular_error prec emax (length dims) kappa A + reach_factor axes xr * e
    + sum_upto (length axes) (fun k =>
        prod_upto k (fun j => 1 + 2 * outside_by axes xr j)
          * (M k * B2R (nth k steps (B754_zero false)) ^ 2 * linear_miss (outside_by axes xr k))).
Proof. exact C63_proof_regular. Qed.

Lemma bowl_reaching axes x k : length axes = 2%nat -> (k < 2)%nat -> second_derivative_reaching axes x bowl k 2.
Proof.
  intros La Hk. exists (fun x => 2 * nth k x 0), (fun _ => 2). intros y (Ly & _). rewrite La in Ly.
  destruct y as [|u [|v [|]]]; try discriminate.
  destruct k as [|[|k]]; [| |lia]; unfold partial_derivative, bowl; simpl.
  - split; [apply (poly_derivable _ (v ^ 2) 0 1 0); [intros; simpl; ring|ring]|].
    split; [apply (poly_derivable _ 0 2 0 0); [intros; simpl; ring|ring]|rewrite Rabs_right; lra].
  - split; [apply (poly_derivable _ (u ^ 2) 0 1 0); [intros; simpl; ring|ring]|].
    split; [apply (poly_derivable _ 0 2 0 0); [intros; simpl; ring|ring]|rewrite Rabs_right; lra].
Qed.
(** x^2 + y^2 = 13 at (3, 2). *)
Example C63_ex :
  (exists y, mlc_interp_one F64Ops plain bowl_g far_x = Ok y /\ is_finite y = true /\ Rabs (B2R y - 13) <= 7) /\
  (exists y, mlr_interp_one F64Ops plain bowl_s far_x = Ok y /\ is_finite y = true /\ Rabs (B2R y - 13) <= 15).
Proof.
  assert (U := roundoff_64). assert (F : bowl (map B2R far_x) = 13) by (rewrite far_x_real; unfold bowl; simpl; field).
  split.
  - destruct far_rect_outside as (O0 & O1).
    destruct (C63_rectilinear _ _ Hp64 He64 plain lin_grids bowl_rect _ far_x 13 bowl_frect lin_inc lin_mod far_moderate eq_refl
      (bowl_bounded _ (or_introl eq_refl)) (far_rect_fits 13 ltac:(lra)) ltac:(simpl; lra) bowl (1 / 4) (fun _ => 2)
      (fun k => match k with O => 3 / 2 | _ => 2 end) bowl_rect_samples) as (y & E & Fy & B).
    + intros k Hk. apply bowl_reaching; auto.
    + rewrite lin_grids_real. intros k a Hk. destruct k as [|[|k]]; [| |destruct k; discriminate]; injection Hk as <-;
        intros j Hj; unfold spacing, list_axis, zlen in *; simpl in *.
      * assert (Ej : (j = 0 \/ j = 1)%Z) by lia. destruct Ej as [-> | ->]; simpl; lra.
      * assert (Ej : (j = 0)%Z) by lia. rewrite Ej. simpl. lra.
    + exists y. split; [exact E|]. split; [exact Fy|]. rewrite F, far_rect_factor in B. eapply Rle_trans; [exact B|].
      change (length (rect_axes (map (map B2R) lin_grids))) with 2%nat. unfold rectilinear_reach_error, sum_upto, prod_upto.
      change (length lin_grids) with 2%nat. cbn [seq map fold_right Rsum INR]. rewrite O0, O1. unfold Rsum, linear_miss.
      cbn [fold_right]. assert (Q := far_small 1092 14 ltac:(lra) ltac:(lra)). simpl INR. lra.
  - destruct far_reg_outside as (O0 & O1).
    destruct (C63_regular _ _ Hp64 He64 plain lin_dims lin_starts lin_steps bowl_reg _ far_x 13 6 bowl_freg lin_within_6 eq_refl far_within
      (bowl_bounded _ (or_intror eq_refl)) (far_reg_fits 13 ltac:(lra)) ltac:(simpl; lra) ltac:(lia) bowl 0 (fun _ => 2) bowl_reg_samples) as (y & E & Fy & B).
    + intros k Hk. apply bowl_reaching; auto.
    + exists y. split; [exact E|]. split; [exact Fy|]. rewrite F, far_reg_factor in B. eapply Rle_trans; [exact B|].
      change (length (reg_axes lin_dims (map B2R lin_starts) (map B2R lin_steps))) with 2%nat. unfold regular_error, sum_upto, prod_upto.
      assert (S0 : B2R (nth 0 lin_steps (B754_zero false)) = 1 / 2) by (cbn [nth lin_steps]; real_lit).
      assert (S1 : B2R (nth 1 lin_steps (B754_zero false)) = 2) by (cbn [nth lin_steps]; real_lit).
      change (length lin_dims) with 2%nat. cbn [seq map fold_right Rsum INR]. rewrite O0, O1.
      match goal with |- context [2 * ?t ^ 2 * linear_miss 4] => replace t with (1 / 2) by (symmetry; exact S0) end.
      match goal with |- context [2 * ?t ^ 2 * linear_miss 0] => replace t with 2 by (symmetry; exact S1) end. unfold Rsum, linear_miss.
      cbn [fold_right]. assert (Q := far_small 89856 54 ltac:(lra) ltac:(lra)). simpl INR. lra.
Qed.
Print Assumptions C63_rectilinear.
Print Assumptions C63_regular.
