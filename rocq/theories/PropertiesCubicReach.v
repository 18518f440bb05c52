(** Multicubic extrapolation in floating point: distance from the exact result (C75) and from a
    smooth function (C76), at points that may be outside the grid. *)
From Coq Require Import Reals Lra PeanoNat Bool Lia List.
From Flocq Require Import Core.Core IEEE754.BinarySingleNaN.
From Verif Require Import Base Ops RInst FInst ModelCore ModelLinear ModelCubic Spec SpecOrder SpecIEEE SpecError SpecReal Interpolators SpecApprox.
From Verif Require Import SpecExtrap SpecReach SpecCubicError SpecCubicReach GenLemmas FLemmas FProofs FProofs2 FError2 FCubicExtrap3 RChar ExampleData ExampleReal.
From Verif Require Import PropertiesExact PropertiesFloat PropertiesError PropertiesApprox PropertiesExtrap PropertiesCubicError.
Import ListNotations.
Open Scope R_scope.
Unset Implicit Arguments.

(** * C75: at any point at most [D] cell widths outside the grid, the result computed in floating
    point differs from the result of the same library code run in exact arithmetic on the same
    data by at most [cubic_reach_error]: a multiple of the unit roundoff times the largest value,
    growing like 1 + D when the extrapolation is linearised and like its cube otherwise. *)
Theorem C75_rectilinear :
  forall prec emax (Hp : Prec_gt_0 prec) (He : Prec_lt_emax prec emax), let o := BOps Hp He in
  forall c lin (grids : list (list (binary_float prec emax))) vals eval x A rho D,
  let axes := rect_axes (map (map B2R) grids) in
  let gain := cubic_reach_gain lin rho D in let stretch := cubic_stretch lin D in
  float_cubic_rectilinear Hp He c lin grids vals eval ->
  Forall (increasing_grid o) grids -> Forall (Forall moderate) grids ->
  Forall moderate x -> length x = length grids -> outside_at_most axes (map B2R x) D ->
  1 <= rho -> Forall (fun a => spacing_ratio_at_most a rho) axes ->
  cubic_reach_values prec emax rho gain (rectilinear_gamma prec rho) stretch (length grids) A vals ->
  14000 * INR (length grids) * (roundoff prec * rho) <= 1 ->
  forall c' dom eval', multicubic c' lin (map B2R vals) axes dom eval' -> dom (map B2R x) ->
  exists y r, eval x = Ok y /\ is_finite y = true /\ eval' (map B2R x) = Ok r /\
  Rabs (B2R y - r) <= cubic_reach_error prec emax gain (rectilinear_gamma prec rho) stretch (length grids) A.
Proof. intros prec emax Hp He o. exact (C75_proof_rectilinear prec emax Hp He). Qed.
(** On a regular grid both the grid and the point are at most [kappa] steps away from zero. *)
Theorem C75_regular :
  forall prec emax (Hp : Prec_gt_0 prec) (He : Prec_lt_emax prec emax),
  forall c lin dims (starts steps vals : list (binary_float prec emax)) eval x A kappa D,
  let axes := reg_axes dims (map B2R starts) (map B2R steps) in
  let gain := cubic_reach_gain lin 1 D in let stretch := cubic_stretch lin D in
  float_cubic_regular Hp He c lin dims starts steps vals eval ->
  axes_within prec emax kappa starts steps dims -> length x = length dims -> point_within prec emax kappa steps x ->
  outside_at_most axes (map B2R x) D ->
  cubic_reach_values prec emax 1 gain (regular_gamma prec kappa) stretch (length dims) A vals ->
  2000 * INR (length dims) * (roundoff prec * kappa) <= 1 -> (prec <= 64)%Z ->
  forall c' dom eval', multicubic c' lin (map B2R vals) axes dom eval' -> dom (map B2R x) ->
  exists y r, eval x = Ok y /\ is_finite y = true /\ eval' (map B2R x) = Ok r /\
  Rabs (B2R y - r) <= cubic_reach_error prec emax gain (regular_gamma prec kappa) stretch (length dims) A.
Proof. exact C75_proof_regular. Qed.

(** * C76: at any point at most [D] cell widths outside the grid, the result computed in floating
    point from samples of a function that are accurate to [e] differs from the function by at most
    the rounding error of C75, plus [e] times the factor by which the formula itself may magnify
    the values, plus the extrapolation error of C61. *)
Theorem C76_rectilinear :
  forall prec emax (Hp : Prec_gt_0 prec) (He : Prec_lt_emax prec emax), let o := BOps Hp He in
  forall c lin (grids : list (list (binary_float prec emax))) vals eval x A rho D,
  let axes := rect_axes (map (map B2R) grids) in let xr := map B2R x in
  let gain := cubic_reach_gain lin rho D in let stretch := cubic_stretch lin D in
  float_cubic_rectilinear Hp He c lin grids vals eval ->
  Forall (increasing_grid o) grids -> Forall (Forall moderate) grids ->
  Forall moderate x -> length x = length grids -> outside_at_most axes xr D ->
  1 <= rho -> Forall (fun a => spacing_ratio_at_most a rho) axes ->
  cubic_reach_values prec emax rho gain (rectilinear_gamma prec rho) stretch (length grids) A vals ->
  14000 * INR (length grids) * (roundoff prec * rho) <= 1 ->
  forall f e M N h, samples_within e axes (map B2R vals) f ->
  (forall k, (k < length axes)%nat -> third_derivative_reaching axes xr f k (M k)) ->
  (lin = true -> forall k, (k < length axes)%nat -> second_derivative_reaching axes xr f k (N k)) ->
  (forall k a, nth_error axes k = Some a -> spacing_at_most a (h k)) ->
  exists y, eval x = Ok y /\ is_finite y = true /\
  Rabs (B2R y - f xr) <= cubic_reach_error prec emax gain (rectilinear_gamma prec rho) stretch (length grids) A
    + prod_upto (length axes) (fun k => cubic_reach_gain lin rho (outside_by axes xr k)) * e
    + sum_upto (length axes) (fun k => prod_upto k (fun j => cubic_reach_gain lin rho (outside_by axes xr j))
        * cubic_reach_miss lin (M k) (N k) (h k) (outside_by axes xr k)).
Proof. intros prec emax Hp He o. exact (C76_proof_rectilinear prec emax Hp He). Qed.
Theorem C76_regular :
  forall prec emax (Hp : Prec_gt_0 prec) (He : Prec_lt_emax prec emax),
  forall c lin dims (starts steps vals : list (binary_float prec emax)) eval x A kappa D,
  let axes := reg_axes dims (map B2R starts) (map B2R steps) in let xr := map B2R x in
  let gain := cubic_reach_gain lin 1 D in let stretch := cubic_stretch lin D in
  float_cubic_regular Hp He c lin dims starts steps vals eval ->
  axes_within prec emax kappa starts steps dims -> length x = length dims -> point_within prec emax kappa steps x ->
  outside_at_most axes xr D ->
  cubic_reach_values prec emax 1 gain (regular_gamma prec kappa) stretch (length dims) A vals ->
  2000 * INR (length dims) * (roundoff prec * kappa) <= 1 -> (prec <= 64)%Z ->
  forall f e M N, samples_within e axes (map B2R vals) f ->
  (forall k, (k < length axes)%nat -> third_derivative_reaching axes xr f k (M k)) ->
  (lin = true -> forall k, (k < length axes)%nat -> second_derivative_reaching axes xr f k (N k)) ->
  exists y, eval x = Ok y /\ is_finite y = true /\
  Rabs (B2R y - f xr) <= cubic_reach_error prec emax gain (regular_gamma prec kappa) stretch (length dims) A
    + prod_upto (length axes) (fun k => cubic_reach_gain lin 1 (outside_by axes xr k)) * e
    + sum_upto (length axes) (fun k => prod_upto k (fun j => cubic_reach_gain lin 1 (outside_by axes xr j))
        * cubic_reach_miss lin (M k) (N k) (B2R (nth k steps (B754_zero false))) (outside_by axes xr k)).
Proof. exact C76_proof_regular. Qed.

(** f64, x^3 + y^2 on the grids of C58: the point (5, 9) is one cell width outside the uneven grid
    along both axes; it is 2 cell widths outside the even grid along the first, 1 along the second. *)
Definition out_x : list f64 := [z64 5; z64 9].
Lemma out_x_real : map B2R out_x = [5; 9].
Proof. unfold out_x. cbn [map]. repeat (apply f_equal2); try reflexivity; real_lit. Qed.
Lemma out_moderate : Forall (@moderate 53 1024) out_x.
Proof.
  unfold out_x. repeat (apply Forall_cons; [split; [reflexivity|]|]); [| |apply Forall_nil];
    (apply Rle_trans with (bpow radix2 4); [apply Rabs_le; real_lit|apply bpow_le; lia]).
Qed.
Lemma out_rect_outside : outside_at_most (rect_axes (map (map B2R) wg_grids)) (map B2R out_x) 1.
Proof.
  rewrite wg_grids_real, out_x_real. destruct rcu_outside as (O0 & O1). split; [lra|]. intros [|[|k]] Hk; [lra|lra|]. simpl in Hk. lia.
Qed.
Lemma ws_outside : outside_by rc_axes [5; 9] 0 = 2 /\ outside_by rc_axes [5; 9] 1 = 1.
Proof. split; unfold outside_by, overshoot, spacing; simpl; unfold Rmax; repeat destruct Rle_dec; lra. Qed.
Lemma out_reg_outside : outside_at_most (reg_axes ws_dims (map B2R ws_starts) (map B2R ws_steps)) (map B2R out_x) 2.
Proof.
  rewrite ws_starts_real, ws_steps_real, out_x_real. change (reg_axes ws_dims rc_starts rc_steps) with rc_axes.
  destruct ws_outside as (O0 & O1). split; [lra|]. intros [|[|k]] Hk; [lra|lra|]. change (length rc_axes) with 2%nat in Hk. lia.
Qed.
Lemma ws_within_5 : axes_within 53 1024 5 ws_starts ws_steps ws_dims.
Proof.
  intros k s h d Es Eh Ed. destruct k as [|[|k]]; [| |destruct k; discriminate];
    injection Es as <-; injection Eh as <-; injection Ed as <-;
    (split; [reflexivity|]; split; [reflexivity|]; split; [apply Rabs_le; real_lit|]; split; [apply Rabs_le; real_lit|]).
  - apply Rle_trans with (bpow radix2 4); [real_lit|]. apply bpow_le. lia.
  - apply Rle_trans with (bpow radix2 4); [real_lit|]. apply bpow_le. lia.
Qed.
Lemma out_within : point_within 53 1024 5 ws_steps out_x.
Proof.
  intros k h v Eh Ev. destruct k as [|[|k]]; [| |destruct k; discriminate];
    injection Eh as <-; injection Ev as <-; (split; [reflexivity|apply Rabs_le; real_lit]).
Qed.
Lemma out_gain lin : 1 <= cubic_reach_gain lin 4 1 <= 206 / 10 /\ 1 <= cubic_stretch lin 1 <= 8 /\
  1 <= cubic_reach_gain lin 1 2 <= 18 /\ 1 <= cubic_stretch lin 2 <= 27.
Proof. unfold cubic_reach_gain, cubic_gain, cubic_stretch. destruct lin; simpl; lra. Qed.
Lemma out_gamma : 0 <= rectilinear_gamma 53 4 <= 4 * / 1000000000000 /\ 0 <= regular_gamma 53 5 <= / 1000000000000.
Proof.
  assert (U := roundoff_64). assert (0 <= roundoff 53) by apply bpow_ge_0. unfold rectilinear_gamma, regular_gamma. lra.
Qed.
Lemma out_bounded scale gain gamma stretch vals : 1 <= scale <= 4 -> 1 <= gain <= 21 -> 0 <= gamma <= / 100 -> 1 <= stretch <= 27 ->
  Forall (fun v : f64 => is_finite v = true /\ Rabs (B2R v) <= 113) vals ->
  cubic_reach_values 53 1024 scale gain gamma stretch 2 113 vals.
Proof.
  intros Hs Hg Hga Ht HF. split; [lra|]. split; [|exact HF].
  apply Rle_trans with (bpow radix2 24); [|apply bpow_le; lia].
  assert (gs : 0 <= gamma * stretch <= 1) by (split; [apply Rmult_le_pos; lra|apply Rle_trans with (/ 100 * 27); [apply Rmult_le_compat; lra|lra]]).
  assert (ss : 0 <= scale * stretch <= 108) by (split; [apply Rmult_le_pos; lra|apply Rle_trans with (4 * 27); [apply Rmult_le_compat; lra|lra]]).
  apply Rle_trans with (22 ^ 2 * (108 * 114)); [|simpl; lra].
  apply Rmult_le_compat; [apply pow_le; lra|apply Rmult_le_pos; lra|apply pow_incr; lra|apply Rmult_le_compat; lra].
Qed.
Lemma out_rect_values lin : cubic_reach_values 53 1024 4 (cubic_reach_gain lin 4 1) (rectilinear_gamma 53 4) (cubic_stretch lin 1) 2 113 wg_vals.
Proof. destruct (out_gain lin) as (G1 & S1 & _), out_gamma as (Ga & _). apply out_bounded; try lra. apply wg_bounded. Qed.
Lemma out_reg_values lin : cubic_reach_values 53 1024 1 (cubic_reach_gain lin 1 2) (regular_gamma 53 5) (cubic_stretch lin 2) 2 113 ws_vals.
Proof. destruct (out_gain lin) as (_ & _ & G1 & S1), out_gamma as (_ & Ga). apply out_bounded; try lra. apply ws_bounded. Qed.
Lemma out_error gain gamma stretch G S H : 1 <= gain <= G -> 1 <= stretch <= S -> 0 <= gamma <= H -> H <= / 1000000 -> S <= 27 ->
  2 * (G + 1) * (S * (H * 113 + / 1000000000000)) <= / 1000000 ->
  cubic_reach_error 53 1024 gain gamma stretch 2 113 <= / 1000000.
Proof.
  intros Hg Hs Hga H1 S1 HB. eapply Rle_trans; [|exact HB].
  assert (W : underflow 53 1024 <= / 16000 * / 1000000000000).
  { apply Rle_trans with (bpow radix2 (-60)); [|simpl; lra]. unfold underflow.
    assert (bpow radix2 (3 - 1024 - 53) <= bpow radix2 (-60)) by (apply bpow_le; lia).
    assert (0 <= bpow radix2 (3 - 1024 - 53)) by apply bpow_ge_0. lra. }
  assert (W0 : 0 <= underflow 53 1024) by (unfold underflow; assert (P := bpow_ge_0 radix2 (3 - 1024 - 53)); lra).
  unfold cubic_reach_error. replace (INR 2) with 2 by (simpl; lra). replace (2 - 1)%nat with 1%nat by lia. rewrite pow_1.
  assert (gs : 0 <= gamma * stretch <= 1) by (split; [apply Rmult_le_pos; lra|apply Rle_trans with (/ 1000000 * 27); [apply Rmult_le_compat; lra|lra]]).
  apply Rmult_le_compat; [lra|apply Rmult_le_pos; lra|lra|]. apply Rmult_le_compat; lra.
Qed.
Lemma out_rect_err lin : cubic_reach_error 53 1024 (cubic_reach_gain lin 4 1) (rectilinear_gamma 53 4) (cubic_stretch lin 1) 2 113 <= / 1000000.
Proof.
  destruct (out_gain lin) as (G1 & S1 & _), out_gamma as (Ga & _).
  apply (out_error _ _ _ (206 / 10) 8 (4 * / 1000000000000)); lra.
Qed.
Lemma out_reg_err lin : cubic_reach_error 53 1024 (cubic_reach_gain lin 1 2) (regular_gamma 53 5) (cubic_stretch lin 2) 2 113 <= / 1000000.
Proof.
  destruct (out_gain lin) as (_ & _ & G1 & S1), out_gamma as (_ & Ga).
  apply (out_error _ _ _ 18 27 (/ 1000000000000)); lra.
Qed.
Example C75_ex lin :
  (exists y r, mcc_interp_one F64Ops plain (wg lin) out_x = Ok y /\ is_finite y = true /\
     wave_eval lin [5; 9] = Ok r /\ Rabs (B2R y - r) <= / 1000000) /\
  (exists y r, mcr_interp_one F64Ops plain (ws lin) out_x = Ok y /\ is_finite y = true /\
     ws_reval lin [5; 9] = Ok r /\ Rabs (B2R y - r) <= / 1000000).
Proof.
  assert (U := roundoff_64). split.
  - destruct (C75_rectilinear _ _ Hp64 He64 plain lin wg_grids wg_vals _ out_x 113 4 1 (wg_float lin) wg_inc wg_mod out_moderate eq_refl
      out_rect_outside ltac:(lra) wg_ratio (out_rect_values lin) ltac:(simpl; lra) rplain everywhere (wave_eval lin)) as (y & r & E & F & E' & B).
    { rewrite wg_grids_real, wg_vals_real. apply wave_ok. }
    { exact I. }
    rewrite out_x_real in E'. exists y, r. split; [exact E|]. split; [exact F|]. split; [exact E'|].
    eapply Rle_trans; [exact B|]. apply out_rect_err.
  - destruct (C75_regular _ _ Hp64 He64 plain lin ws_dims ws_starts ws_steps ws_vals _ out_x 113 5 2 (ws_float lin) ws_within_5 eq_refl out_within
      out_reg_outside (out_reg_values lin) ltac:(simpl; lra) ltac:(lia) rplain (cell_fits (isize_min + 1) rc_starts rc_steps) (ws_reval lin))
      as (y & r & E & F & E' & B).
    { rewrite ws_starts_real, ws_steps_real, ws_vals_real. apply ws_exact. }
    { rewrite out_x_real. fits. }
    rewrite out_x_real in E'. exists y, r. split; [exact E|]. split; [exact F|]. split; [exact E'|].
    eapply Rle_trans; [exact B|]. apply out_reg_err.
Qed.
Lemma wave_third_out x k : (k < 2)%nat -> third_derivative_reaching rc_axes x wave k (wave_bound k).
Proof.
  intros Hk.
  exists (fun x => match k with O => 3 * nth 0 x 0 ^ 2 | _ => 2 * nth 1 x 0 end),
    (fun x => match k with O => 6 * nth 0 x 0 | _ => 2 end), (fun _ => wave_bound k). intros y (Ly & _).
  destruct y as [|u [|v [|]]]; try discriminate.
  destruct k as [|[|k]]; [| |lia]; unfold partial_derivative, wave, wave_bound; simpl.
  - split; [apply (poly_derivable _ (v ^ 2) 0 0 1); [intros; simpl; ring|ring]|].
    split; [apply (poly_derivable _ 0 0 3 0); [intros; simpl; ring|ring]|].
    split; [apply (poly_derivable _ 0 6 0 0); [intros; simpl; ring|ring]|rewrite Rabs_right; lra].
  - split; [apply (poly_derivable _ (u ^ 3) 0 1 0); [intros; simpl; ring|ring]|].
    split; [apply (poly_derivable _ 0 2 0 0); [intros; simpl; ring|ring]|].
    split; [apply (poly_derivable _ 2 0 0 0); [intros; simpl; ring|ring]|rewrite Rabs_R0; lra].
Qed.
Lemma wave_second_out k : (k < 2)%nat -> second_derivative_reaching rc_axes [5; 9] wave k (wave_bend k).
Proof.
  intros Hk.
  exists (fun x => match k with O => 3 * nth 0 x 0 ^ 2 | _ => 2 * nth 1 x 0 end),
    (fun x => match k with O => 6 * nth 0 x 0 | _ => 2 end). intros y (Ly & Hy).
  destruct y as [|u [|v [|]]]; try discriminate. assert (Y := Hy 0%nat _ eq_refl). simpl in Y. clear Hy.
  assert (U : 0 <= u <= 5).
  { revert Y. unfold Rmin, Rmax. repeat destruct Rle_dec; lra. }
  destruct k as [|[|k]]; [| |lia]; unfold partial_derivative, wave, wave_bend; simpl.
  - split; [apply (poly_derivable _ (v ^ 2) 0 0 1); [intros; simpl; ring|ring]|].
    split; [apply (poly_derivable _ 0 0 3 0); [intros; simpl; ring|ring]|]. apply Rabs_le. lra.
  - split; [apply (poly_derivable _ (u ^ 3) 0 1 0); [intros; simpl; ring|ring]|].
    split; [apply (poly_derivable _ 0 2 0 0); [intros; simpl; ring|ring]|]. apply Rabs_le. lra.
Qed.
(** x^3 + y^2 = 206 at (5, 9). *)
Example C76_ex lin :
  (exists y, mcc_interp_one F64Ops plain (wg lin) out_x = Ok y /\ is_finite y = true /\
     Rabs (B2R y - 206) <= (if lin then 286 else 56)) /\
  (exists y, mcr_interp_one F64Ops plain (ws lin) out_x = Ok y /\ is_finite y = true /\
     Rabs (B2R y - 206) <= (if lin then 102 else 25)).
Proof.
  assert (U := roundoff_64). assert (F : wave (map B2R out_x) = 206) by (rewrite out_x_real; unfold wave; simpl; lra).
  split.
  - destruct (C76_rectilinear _ _ Hp64 He64 plain lin wg_grids wg_vals _ out_x 113 4 1 (wg_float lin) wg_inc wg_mod out_moderate eq_refl
      out_rect_outside ltac:(lra) wg_ratio (out_rect_values lin) ltac:(simpl; lra) wave 0 wave_bound wave_bend rcu_spacing) as (y & E & Fy & B).
    + rewrite wg_grids_real, wg_vals_real. intros idx Hi. rewrite (wave_samples _ Hi). apply Rabs_le. lra.
    + rewrite wg_grids_real. apply wave_third_far.
    + intros _. rewrite wg_grids_real, out_x_real. apply wave_second_far.
    + rewrite wg_grids_real. apply rcu_spacing_ok.
    + exists y. split; [exact E|]. split; [exact Fy|]. rewrite F in B. eapply Rle_trans; [exact B|].
      assert (Q := out_rect_err lin). rewrite wg_grids_real, out_x_real. destruct rcu_outside as (O0 & O1).
      change (length wg_grids) with 2%nat. change (length (rect_axes rcu_grids)) with 2%nat.
      eapply Rle_trans; [apply Rplus_le_compat_r, Rplus_le_compat_r; exact Q|].
      unfold sum_upto, prod_upto, Rsum. cbn [seq map fold_right]. rewrite O0, O1.
      unfold cubic_reach_miss, wave_bound, wave_bend, rcu_spacing, cubic_reach_gain, cubic_gain, cubic_miss. destruct lin; lra.
  - destruct (C76_regular _ _ Hp64 He64 plain lin ws_dims ws_starts ws_steps ws_vals _ out_x 113 5 2 (ws_float lin) ws_within_5 eq_refl out_within
      out_reg_outside (out_reg_values lin) ltac:(simpl; lra) ltac:(lia) wave 0 wave_bound wave_bend) as (y & E & Fy & B).
    + rewrite ws_starts_real, ws_steps_real, ws_vals_real. apply ws_samples.
    + rewrite ws_starts_real, ws_steps_real. apply wave_third_out.
    + intros _. rewrite ws_starts_real, ws_steps_real, out_x_real. apply wave_second_out.
    + exists y. split; [exact E|]. split; [exact Fy|]. rewrite F in B. eapply Rle_trans; [exact B|].
      assert (Q := out_reg_err lin). rewrite ws_starts_real, ws_steps_real, out_x_real. destruct ws_outside as (O0 & O1).
      change (reg_axes ws_dims rc_starts rc_steps) with rc_axes.
      change (length ws_dims) with 2%nat. change (length rc_axes) with 2%nat.
      eapply Rle_trans; [apply Rplus_le_compat_r, Rplus_le_compat_r; exact Q|].
      assert (S0 : B2R (nth 0 ws_steps (B754_zero false)) = 1) by (cbn [nth ws_steps]; real_lit).
      assert (S1 : B2R (nth 1 ws_steps (B754_zero false)) = 2) by (cbn [nth ws_steps]; real_lit).
      unfold sum_upto, prod_upto, Rsum. cbn [seq map fold_right]. rewrite O0, O1.
      match goal with |- context [cubic_reach_miss lin _ _ ?t 2] => replace t with 1 by (symmetry; exact S0) end.
      match goal with |- context [cubic_reach_miss lin _ _ ?t 1] => replace t with 2 by (symmetry; exact S1) end.
      unfold cubic_reach_miss, wave_bound, wave_bend, cubic_reach_gain, cubic_gain, cubic_miss. destruct lin; lra.
Qed.
Print Assumptions C75_rectilinear.
Print Assumptions C75_regular.
Print Assumptions C76_rectilinear.
Print Assumptions C76_regular.
