(** Accuracy of floating-point multicubic interpolation: distance from the exact result (C58) and
    from a smooth function (C59). *)
From Coq Require Import Reals Lra PeanoNat Bool Lia List.
From Flocq Require Import Core.Core IEEE754.BinarySingleNaN.
From Verif Require Import Base Ops RInst FInst ModelCore ModelLinear ModelCubic Spec SpecOrder SpecIEEE SpecError SpecReal Interpolators SpecApprox SpecCubicError.
From Verif Require Import GenLemmas FLemmas FProofs FProofs2 FError2 FCubicApprox RChar ExampleData ExampleReal.
From Verif Require Import PropertiesFloat PropertiesError PropertiesApprox.
Import ListNotations.
Open Scope R_scope.
Unset Implicit Arguments.

(** * C58: inside the grid, the result computed in floating point differs from the result of the
    same library code run in exact arithmetic on the same data by at most [cubic_error]: a
    multiple of the unit roundoff times the largest value. [rho] bounds the ratio of
    neighbouring spacings. *)
Theorem C58_rectilinear :
  forall prec emax (Hp : Prec_gt_0 prec) (He : Prec_lt_emax prec emax), let o := BOps Hp He in
  forall c lin (grids : list (list (binary_float prec emax))) vals eval x A rho,
  let axes := rect_axes (map (map B2R) grids) in
  float_cubic_rectilinear Hp He c lin grids vals eval ->
  Forall (increasing_grid o) grids -> Forall (Forall moderate) grids ->
  Forall (fun v => is_finite v = true) x -> SpecReal.inside_grid axes (map B2R x) ->
  1 <= rho -> Forall (fun a => spacing_ratio_at_most a rho) axes ->
  cubic_values prec emax rho (cubic_gain rho) (rectilinear_gamma prec rho) (length grids) A vals ->
  14000 * INR (length grids) * (roundoff prec * rho) <= 1 ->
  forall c' dom eval', multicubic c' lin (map B2R vals) axes dom eval' ->
  exists y r, eval x = Ok y /\ is_finite y = true /\ eval' (map B2R x) = Ok r /\
  Rabs (B2R y - r) <= cubic_error prec emax (cubic_gain rho) (rectilinear_gamma prec rho) (length grids) A.
Proof. intros prec emax Hp He o. exact (C58_proof_rectilinear prec emax Hp He). Qed.
(** On a regular grid the error grows with the distance of the grid from zero, counted in steps. *)
Theorem C58_regular :
  forall prec emax (Hp : Prec_gt_0 prec) (He : Prec_lt_emax prec emax),
  forall c lin dims (starts steps vals : list (binary_float prec emax)) eval x A kappa,
  let axes := reg_axes dims (map B2R starts) (map B2R steps) in
  float_cubic_regular Hp He c lin dims starts steps vals eval ->
  Forall (fun v => is_finite v = true) x -> axes_within prec emax kappa starts steps dims ->
  SpecReal.inside_grid axes (map B2R x) ->
  cubic_values prec emax 1 (5 / 4) (regular_gamma prec kappa) (length dims) A vals ->
  2000 * INR (length dims) * (roundoff prec * kappa) <= 1 -> (prec <= 64)%Z ->
  forall c' dom eval', multicubic c' lin (map B2R vals) axes dom eval' ->
  exists y r, eval x = Ok y /\ is_finite y = true /\ eval' (map B2R x) = Ok r /\
  Rabs (B2R y - r) <= cubic_error prec emax (5 / 4) (regular_gamma prec kappa) (length dims) A.
Proof. exact C58_proof_regular. Qed.
(** In particular at a grid node the result is that close to the stored value. *)
Theorem C58_rectilinear_node :
  forall prec emax (Hp : Prec_gt_0 prec) (He : Prec_lt_emax prec emax), let o := BOps Hp He in
  forall c lin (grids : list (list (binary_float prec emax))) vals eval x A rho,
  let axes := rect_axes (map (map B2R) grids) in
  float_cubic_rectilinear Hp He c lin grids vals eval ->
  Forall (increasing_grid o) grids -> Forall (Forall moderate) grids ->
  Forall (fun v => is_finite v = true) x -> SpecReal.inside_grid axes (map B2R x) ->
  1 <= rho -> Forall (fun a => spacing_ratio_at_most a rho) axes ->
  cubic_values prec emax rho (cubic_gain rho) (rectilinear_gamma prec rho) (length grids) A vals ->
  14000 * INR (length grids) * (roundoff prec * rho) <= 1 ->
  forall idx, in_shape (map npts axes) idx -> map B2R x = node_pos axes idx ->
  exists y, eval x = Ok y /\ is_finite y = true /\
  Rabs (B2R y - entry 0 (map npts axes) (map B2R vals) idx)
    <= cubic_error prec emax (cubic_gain rho) (rectilinear_gamma prec rho) (length grids) A.
Proof. intros prec emax Hp He o. exact (C58_proof_rectilinear_node prec emax Hp He). Qed.
Theorem C58_regular_node :
  forall prec emax (Hp : Prec_gt_0 prec) (He : Prec_lt_emax prec emax),
  forall c lin dims (starts steps vals : list (binary_float prec emax)) eval x A kappa,
  let axes := reg_axes dims (map B2R starts) (map B2R steps) in
  float_cubic_regular Hp He c lin dims starts steps vals eval ->
  Forall (fun v => is_finite v = true) x -> axes_within prec emax kappa starts steps dims ->
  SpecReal.inside_grid axes (map B2R x) ->
  cubic_values prec emax 1 (5 / 4) (regular_gamma prec kappa) (length dims) A vals ->
  2000 * INR (length dims) * (roundoff prec * kappa) <= 1 -> (prec <= 64)%Z ->
  forall idx, in_shape (map npts axes) idx -> map B2R x = node_pos axes idx ->
  exists y, eval x = Ok y /\ is_finite y = true /\
  Rabs (B2R y - entry 0 (map npts axes) (map B2R vals) idx)
    <= cubic_error prec emax (5 / 4) (regular_gamma prec kappa) (length dims) A.
Proof. exact C58_proof_regular_node. Qed.

(** * C59: inside the grid, the result computed in floating point from samples of a function that
    are accurate to [e] differs from the function by at most that rounding error, plus [e]
    magnified by the interpolation, plus the interpolation error of C51. *)
Theorem C59_rectilinear :
  forall prec emax (Hp : Prec_gt_0 prec) (He : Prec_lt_emax prec emax), let o := BOps Hp He in
  forall c lin (grids : list (list (binary_float prec emax))) vals eval x A rho,
  let axes := rect_axes (map (map B2R) grids) in
  float_cubic_rectilinear Hp He c lin grids vals eval ->
  Forall (increasing_grid o) grids -> Forall (Forall moderate) grids ->
  Forall (fun v => is_finite v = true) x -> SpecReal.inside_grid axes (map B2R x) ->
  1 <= rho -> Forall (fun a => spacing_ratio_at_most a rho) axes ->
  cubic_values prec emax rho (cubic_gain rho) (rectilinear_gamma prec rho) (length grids) A vals ->
  14000 * INR (length grids) * (roundoff prec * rho) <= 1 ->
  forall f e M h, samples_within e axes (map B2R vals) f ->
  (forall k, (k < length axes)%nat -> third_derivative_at_most axes f k (M k)) ->
  (forall k a, nth_error axes k = Some a -> spacing_at_most a (h k)) ->
  exists y, eval x = Ok y /\ is_finite y = true /\
  Rabs (B2R y - f (map B2R x))
    <= cubic_error prec emax (cubic_gain rho) (rectilinear_gamma prec rho) (length grids) A
       + cubic_gain rho ^ length axes * e
       + sum_upto (length axes) (fun k => cubic_gain rho ^ k * (7 / 48 * M k * h k ^ 3)).
Proof. intros prec emax Hp He o. exact (C59_proof_rectilinear prec emax Hp He). Qed.
Theorem C59_regular :
  forall prec emax (Hp : Prec_gt_0 prec) (He : Prec_lt_emax prec emax),
  forall c lin dims (starts steps vals : list (binary_float prec emax)) eval x A kappa,
  let axes := reg_axes dims (map B2R starts) (map B2R steps) in
  float_cubic_regular Hp He c lin dims starts steps vals eval ->
  Forall (fun v => is_finite v = true) x -> axes_within prec emax kappa starts steps dims ->
  SpecReal.inside_grid axes (map B2R x) ->
  cubic_values prec emax 1 (5 / 4) (regular_gamma prec kappa) (length dims) A vals ->
  2000 * INR (length dims) * (roundoff prec * kappa) <= 1 -> (prec <= 64)%Z ->
  forall f e M, samples_within e axes (map B2R vals) f ->
  (forall k, (k < length axes)%nat -> third_derivative_at_most axes f k (M k)) ->
  exists y, eval x = Ok y /\ is_finite y = true /\
  Rabs (B2R y - f (map B2R x))
    <= cubic_error prec emax (5 / 4) (regular_gamma prec kappa) (length dims) A
       + (5 / 4) ^ length axes * e
       + sum_upto (length axes) (fun k => (5 / 4) ^ k * (7 / 48 * M k * B2R (nth k steps (B754_zero false)) ^ 3)).
Proof. exact C59_proof_regular. Qed.

(** x^3 + y^2 sampled on an uneven 4 x 5 grid, whose neighbouring spacings differ by up to a factor
    of 4, and on an even one. *)
Definition wg_grids : list (list f64) := [[z64 0; z64 1; z64 3; z64 4]; [z64 (-1); z64 0; z64 1; z64 5; z64 7]].
Definition wg_vals : list f64 := flat_map (fun x => map (fun y => z64 (x * x * x + y * y)) [-1; 0; 1; 5; 7]%Z) [0; 1; 3; 4]%Z.
Definition ws_dims : list Z := [4%Z; 5%Z].
Definition ws_starts : list f64 := [z64 0; z64 (-1)].
Definition ws_steps : list f64 := [z64 1; z64 2].
Definition ws_vals : list f64 := flat_map (fun x => map (fun y => z64 (x * x * x + y * y)) [-1; 1; 3; 5; 7]%Z) [0; 1; 2; 3]%Z.
Definition wg lin : @cubic_rect f64 := mkCC (mkRect wg_grids [4%Z; 5%Z] wg_vals) lin.
Definition ws lin : @cubic_regular f64 := mkCR (mkRegular ws_dims ws_starts ws_steps ws_vals) lin.
Definition w_x : list f64 := [f64_lit 5 (-1); z64 6].
Lemma wg_grids_real : map (map B2R) wg_grids = rcu_grids.
Proof. unfold wg_grids, rcu_grids. cbn [map]. repeat (apply f_equal2); try reflexivity; real_lit. Qed.
Lemma wg_vals_real : map B2R wg_vals = wave_vals.
Proof. unfold wg_vals, wave_vals. cbn [map flat_map app]. repeat (apply f_equal2); try reflexivity; real_lit. Qed.
Definition ws_reals : list R := flat_map (fun x => map (fun y => x ^ 3 + y ^ 2) [-1; 1; 3; 5; 7]) [0; 1; 2; 3].
Lemma ws_vals_real : map B2R ws_vals = ws_reals.
Proof. unfold ws_vals, ws_reals. cbn [map flat_map app]. repeat (apply f_equal2); try reflexivity; real_lit. Qed.
Lemma ws_starts_real : map B2R ws_starts = rc_starts.
Proof. unfold ws_starts, rc_starts. cbn [map]. repeat (apply f_equal2); try reflexivity; real_lit. Qed.
Lemma ws_steps_real : map B2R ws_steps = rc_steps.
Proof. unfold ws_steps, rc_steps. cbn [map]. repeat (apply f_equal2); try reflexivity; real_lit. Qed.
Lemma w_x_real : map B2R w_x = [5 / 2; 6].
Proof. unfold w_x. cbn [map]. repeat (apply f_equal2); try reflexivity; real_lit. Qed.
Lemma wg_input : rect_input plain wg_grids wg_vals.
Proof. rect_ok. Qed.
Lemma ws_input : reg_input plain ws_dims ws_starts ws_steps ws_vals.
Proof. reg_ok. Qed.
Lemma wg_new lin : mcc_new F64Ops plain wg_grids wg_vals lin = Ok (wg lin).
Proof.
  destruct (@is_ok_ex _ (mcc_new F64Ops plain wg_grids wg_vals lin)) as (s & E); [destruct lin; vm_compute; reflexivity|].
  rewrite E. destruct (mcc_new_inv F64Ops lin wg_input E) as (_ & ->). reflexivity.
Qed.
Lemma ws_new lin : mcr_new F64Ops plain ws_dims ws_starts ws_steps ws_vals lin = Ok (ws lin).
Proof.
  destruct (@is_ok_ex _ (mcr_new F64Ops plain ws_dims ws_starts ws_steps ws_vals lin)) as (s & E); [destruct lin; vm_compute; reflexivity|].
  rewrite E. destruct (mcr_new_inv F64Ops lin ws_input E) as (_ & ->). reflexivity.
Qed.
Lemma wg_float lin : float_cubic_rectilinear Hp64 He64 plain lin wg_grids wg_vals (mcc_interp_one F64Ops plain (wg lin)).
Proof. apply float_cubic_rectilinear_flat; [apply wg_input|apply wg_new]. Qed.
Lemma ws_float lin : float_cubic_regular Hp64 He64 plain lin ws_dims ws_starts ws_steps ws_vals (mcr_interp_one F64Ops plain (ws lin)).
Proof. apply float_cubic_regular_flat; [apply ws_input|apply ws_new]. Qed.
Lemma wg_inc : Forall (increasing_grid F64Ops) wg_grids.
Proof. repeat (constructor; [inc_grid|]). constructor. Qed.
Lemma wg_mod : Forall (Forall moderate) wg_grids.
Proof. unfold wg_grids. repeat (apply Forall_cons; [repeat (apply Forall_cons; [mod_ok|]); apply Forall_nil|]). apply Forall_nil. Qed.
Lemma w_fin : Forall (fun v : f64 => is_finite v = true) w_x.
Proof. repeat (apply Forall_cons; [reflexivity|]). apply Forall_nil. Qed.
Lemma wg_inside : SpecReal.inside_grid (rect_axes (map (map B2R) wg_grids)) (map B2R w_x).
Proof. rewrite wg_grids_real, w_x_real. split; [reflexivity|]. each_axis2; lra. Qed.
Lemma ws_inside : SpecReal.inside_grid (reg_axes ws_dims (map B2R ws_starts) (map B2R ws_steps)) (map B2R w_x).
Proof. rewrite ws_starts_real, ws_steps_real, w_x_real. split; [reflexivity|]. each_axis2; lra. Qed.
Lemma wg_ratio : Forall (fun a => spacing_ratio_at_most a 4) (rect_axes (map (map B2R) wg_grids)).
Proof. rewrite wg_grids_real. apply Forall_forall. apply rcu_ratio_ok. Qed.
Lemma ws_within : axes_within 53 1024 4 ws_starts ws_steps ws_dims.
Proof.
  intros k s h d Es Eh Ed. destruct k as [|[|k]]; [| |destruct k; discriminate];
    injection Es as <-; injection Eh as <-; injection Ed as <-;
    (split; [reflexivity|]; split; [reflexivity|]; split; [apply Rabs_le; real_lit|]; split; [apply Rabs_le; real_lit|]).
  - apply Rle_trans with (bpow radix2 4); [real_lit|]. apply bpow_le. lia.
  - apply Rle_trans with (bpow radix2 4); [real_lit|]. apply bpow_le. lia.
Qed.
Lemma w_gain4 : cubic_gain 4 = 13 / 5.
Proof. unfold cubic_gain. field. Qed.
Lemma wg_bounded : cubic_values 53 1024 4 (cubic_gain 4) (rectilinear_gamma 53 4) 2 113 wg_vals.
Proof.
  split; [lra|]. split.
  - rewrite w_gain4. apply Rle_trans with (bpow radix2 13); [|apply bpow_le; lia]. unfold rectilinear_gamma.
    assert (U := roundoff_64). assert (0 <= roundoff 53) by apply bpow_ge_0.
    apply Rle_trans with (3 ^ 2 * (4 * (113 + 1))); [|simpl; lra].
    apply Rmult_le_compat_r; [lra|]. apply pow_incr. lra.
  - unfold wg_vals. cbn [map flat_map app]. repeat (apply Forall_cons; [split; [reflexivity|apply Rabs_le; real_lit]|]). apply Forall_nil.
Qed.
Lemma ws_bounded : cubic_values 53 1024 1 (5 / 4) (regular_gamma 53 4) 2 113 ws_vals.
Proof.
  split; [lra|]. split.
  - apply Rle_trans with (bpow radix2 13); [|apply bpow_le; lia]. unfold regular_gamma.
    assert (U := roundoff_64). assert (0 <= roundoff 53) by apply bpow_ge_0.
    apply Rle_trans with (3 ^ 2 * (1 * (113 + 1))); [|simpl; lra].
    apply Rmult_le_compat_r; [lra|]. apply pow_incr. lra.
  - unfold ws_vals. cbn [map flat_map app]. repeat (apply Forall_cons; [split; [reflexivity|apply Rabs_le; real_lit]|]). apply Forall_nil.
Qed.
Lemma w_error gain gamma : 0 <= gain + gamma <= 3 -> 0 <= gamma <= 4 * / 1000000000000 ->
  cubic_error 53 1024 gain gamma 2 113 <= / 100000000.
Proof.
  intros Hg Hgam. assert (U := roundoff_64). assert (0 <= roundoff 53) by apply bpow_ge_0.
  assert (W : underflow 53 1024 <= / 1000000000000 * roundoff 53).
  { apply Rle_trans with (bpow radix2 (-40) * bpow radix2 (- (53))).
    - rewrite <- bpow_plus. unfold underflow. assert (bpow radix2 (3 - 1024 - 53) <= bpow radix2 (-40 + - (53))) by (apply bpow_le; lia).
      assert (0 <= bpow radix2 (3 - 1024 - 53)) by apply bpow_ge_0. lra.
    - apply Rmult_le_compat_r; [apply bpow_ge_0|]. simpl. lra. }
  assert (W0 : 0 <= underflow 53 1024) by (unfold underflow; assert (P := bpow_ge_0 radix2 (3 - 1024 - 53)); lra).
  unfold cubic_error. replace (INR 2) with 2 by (simpl; lra). replace (2 - 1)%nat with 1%nat by lia. rewrite pow_1.
  apply Rle_trans with (2 * 3 * (4 * / 1000000000000 * 113 + 16000 * (/ 1000000000000 * / 9007199254740992))); [|lra].
  apply Rmult_le_compat; nra.
Qed.
Lemma wg_err : cubic_error 53 1024 (cubic_gain 4) (rectilinear_gamma 53 4) 2 113 <= / 100000000.
Proof. assert (U := roundoff_64). assert (0 <= roundoff 53) by apply bpow_ge_0. apply w_error; rewrite ?w_gain4; unfold rectilinear_gamma; lra. Qed.
Lemma ws_err : cubic_error 53 1024 (5 / 4) (regular_gamma 53 4) 2 113 <= / 100000000.
Proof. assert (U := roundoff_64). assert (0 <= roundoff 53) by apply bpow_ge_0. apply w_error; unfold regular_gamma; lra. Qed.
(** The same library code over the real numbers. *)
Definition ws_reval lin := mcr_interp_one ROps rplain (mkCR (mkRegular rc_dims rc_starts rc_steps ws_reals) lin).
Lemma ws_exact lin : multicubic rplain lin ws_reals rc_axes (cell_fits (isize_min + 1) rc_starts rc_steps) (ws_reval lin).
Proof.
  apply multicubic_regular; [rreg_ok|]. lazy -[Rltb IZR Rplus Rmult Rinv Ropp ws_reals]. rltb. reflexivity.
Qed.
Example C58_ex lin :
  (exists y r, mcc_interp_one F64Ops plain (wg lin) w_x = Ok y /\ is_finite y = true /\
     wave_eval lin [5 / 2; 6] = Ok r /\ Rabs (B2R y - r) <= / 100000000) /\
  (exists y r, mcr_interp_one F64Ops plain (ws lin) w_x = Ok y /\ is_finite y = true /\
     ws_reval lin [5 / 2; 6] = Ok r /\ Rabs (B2R y - r) <= / 100000000).
Proof.
  assert (U := roundoff_64). split.
  - destruct (C58_rectilinear _ _ Hp64 He64 plain lin wg_grids wg_vals _ w_x 113 4 (wg_float lin) wg_inc wg_mod w_fin wg_inside
      ltac:(lra) wg_ratio wg_bounded ltac:(simpl; lra) rplain everywhere (wave_eval lin)) as (y & r & E & F & E' & B).
    { rewrite wg_grids_real, wg_vals_real. apply wave_ok. }
    rewrite w_x_real in E'. exists y, r. split; [exact E|]. split; [exact F|]. split; [exact E'|].
    eapply Rle_trans; [exact B|]. apply wg_err.
  - destruct (C58_regular _ _ Hp64 He64 plain lin ws_dims ws_starts ws_steps ws_vals _ w_x 113 4 (ws_float lin) w_fin ws_within ws_inside
      ws_bounded ltac:(simpl; lra) ltac:(lia) rplain (cell_fits (isize_min + 1) rc_starts rc_steps) (ws_reval lin)) as (y & r & E & F & E' & B).
    { rewrite ws_starts_real, ws_steps_real, ws_vals_real. apply ws_exact. }
    rewrite w_x_real in E'. exists y, r. split; [exact E|]. split; [exact F|]. split; [exact E'|].
    eapply Rle_trans; [exact B|]. apply ws_err.
Qed.
(** At (3, 5): node (2, 3) of the uneven grid and node (3, 3) of the even one, both with value 52. *)
Example C58_node_ex lin :
  (exists y, mcc_interp_one F64Ops plain (wg lin) [z64 3; z64 5] = Ok y /\ is_finite y = true /\ Rabs (B2R y - 52) <= / 100000000) /\
  (exists y, mcr_interp_one F64Ops plain (ws lin) [z64 3; z64 5] = Ok y /\ is_finite y = true /\ Rabs (B2R y - 52) <= / 100000000).
Proof.
  assert (U := roundoff_64).
  assert (X : map B2R [z64 3; z64 5] = [3; 5]) by (cbn [map]; repeat (apply f_equal2); try reflexivity; real_lit).
  assert (Fx : Forall (fun v : f64 => is_finite v = true) [z64 3; z64 5]) by (repeat (apply Forall_cons; [reflexivity|]); apply Forall_nil).
  split.
  - destruct (C58_rectilinear_node _ _ Hp64 He64 plain lin wg_grids wg_vals _ [z64 3; z64 5] 113 4 (wg_float lin) wg_inc wg_mod Fx
      ltac:(rewrite wg_grids_real, X; split; [reflexivity|]; each_axis2; lra)
      ltac:(lra) wg_ratio wg_bounded ltac:(simpl; lra) [2%Z; 3%Z]) as (y & E & F & B).
    + rewrite wg_grids_real. unfold rcu_grids, rect_axes. cbn [map]. repeat (apply Forall2_cons; [unfold list_axis, zlen; simpl; lia|]). apply Forall2_nil.
    + rewrite wg_grids_real, X. simpl. repeat (apply f_equal2); try reflexivity; lra.
    + exists y. split; [exact E|]. split; [exact F|]. rewrite wg_grids_real, wg_vals_real in B.
      replace 52 with (entry 0 (map npts (rect_axes rcu_grids)) wave_vals [2%Z; 3%Z]) by (unfold entry; simpl; lra).
      eapply Rle_trans; [exact B|]. apply wg_err.
  - destruct (C58_regular_node _ _ Hp64 He64 plain lin ws_dims ws_starts ws_steps ws_vals _ [z64 3; z64 5] 113 4 (ws_float lin) Fx ws_within
      ltac:(rewrite ws_starts_real, ws_steps_real, X; split; [reflexivity|]; each_axis2; lra)
      ws_bounded ltac:(simpl; lra) ltac:(lia) [3%Z; 3%Z]) as (y & E & F & B).
    + repeat (apply Forall2_cons; [simpl; lia|]). apply Forall2_nil.
    + rewrite ws_starts_real, ws_steps_real, X. unfold ws_dims, rc_starts, rc_steps. simpl. apply f_equal2; [lra|apply f_equal2; [lra|reflexivity]].
    + exists y. split; [exact E|]. split; [exact F|]. rewrite ws_starts_real, ws_steps_real, ws_vals_real in B.
      replace 52 with (entry 0 (map npts (reg_axes ws_dims rc_starts rc_steps)) ws_reals [3%Z; 3%Z])
        by (unfold entry, ws_reals; simpl; lra).
      eapply Rle_trans; [exact B|]. apply ws_err.
Qed.
(** x^3 + y^2 = 413/8 at (5/2, 6). *)
Lemma wave_third_reg k : (k < 2)%nat -> third_derivative_at_most rc_axes wave k (wave_bound k).
Proof.
  intros Hk.
  exists (fun x => match k with O => 3 * nth 0 x 0 ^ 2 | _ => 2 * nth 1 x 0 end),
    (fun x => match k with O => 6 * nth 0 x 0 | _ => 2 end), (fun _ => wave_bound k). intros x (Lx & _).
  destruct x as [|u [|v [|]]]; try discriminate.
  destruct k as [|[|k]]; [| |lia]; unfold partial_derivative, wave, wave_bound; simpl.
  - split; [apply (poly_derivable _ (v ^ 2) 0 0 1); [intros; simpl; ring|ring]|].
    split; [apply (poly_derivable _ 0 0 3 0); [intros; simpl; ring|ring]|].
    split; [apply (poly_derivable _ 0 6 0 0); [intros; simpl; ring|ring]|rewrite Rabs_right; lra].
  - split; [apply (poly_derivable _ (u ^ 3) 0 1 0); [intros; simpl; ring|ring]|].
    split; [apply (poly_derivable _ 0 2 0 0); [intros; simpl; ring|ring]|].
    split; [apply (poly_derivable _ 2 0 0 0); [intros; simpl; ring|ring]|rewrite Rabs_R0; lra].
Qed.
Lemma ws_samples : samples_within 0 rc_axes ws_reals wave.
Proof.
  intros idx Hi. inversion Hi as [|? i ? ? Hi0 Hi']; subst; inversion Hi' as [|? j ? ? Hj0 Hj']; subst;
  inversion Hj'; subst; simpl in Hi0, Hj0.
  assert (Ei : (i = 0 \/ i = 1 \/ i = 2 \/ i = 3)%Z) by lia. assert (Ej : (j = 0 \/ j = 1 \/ j = 2 \/ j = 3 \/ j = 4)%Z) by lia.
  destruct Ei as [-> | [-> | [-> | ->]]], Ej as [-> | [-> | [-> | [-> | ->]]]]; unfold entry, wave, ws_reals; simpl; apply Rabs_le; lra.
Qed.
Example C59_ex lin :
  (exists y, mcc_interp_one F64Ops plain (wg lin) w_x = Ok y /\ is_finite y = true /\ Rabs (B2R y - 413 / 8) <= 7 + / 100000000) /\
  (exists y, mcr_interp_one F64Ops plain (ws lin) w_x = Ok y /\ is_finite y = true /\ Rabs (B2R y - 413 / 8) <= 7 / 8 + / 100000000).
Proof.
  assert (U := roundoff_64). assert (F : wave (map B2R w_x) = 413 / 8) by (rewrite w_x_real; unfold wave; simpl; field).
  split.
  - destruct (C59_rectilinear _ _ Hp64 He64 plain lin wg_grids wg_vals _ w_x 113 4 (wg_float lin) wg_inc wg_mod w_fin wg_inside
      ltac:(lra) wg_ratio wg_bounded ltac:(simpl; lra) wave 0 wave_bound rcu_spacing) as (y & E & Fy & B).
    + rewrite wg_grids_real, wg_vals_real. intros idx Hi. rewrite (wave_samples _ Hi). apply Rabs_le. lra.
    + rewrite wg_grids_real. apply wave_third.
    + rewrite wg_grids_real. apply rcu_spacing_ok.
    + exists y. split; [exact E|]. split; [exact Fy|]. rewrite F in B. eapply Rle_trans; [exact B|].
      assert (Q := wg_err). change (length wg_grids) with 2%nat.
      match goal with |- _ + _ + ?S <= _ => assert (ES : S = 7) by (unfold sum_upto; simpl; unfold wave_bound, rcu_spacing; field) end.
      rewrite ES. lra.
  - destruct (C59_regular _ _ Hp64 He64 plain lin ws_dims ws_starts ws_steps ws_vals _ w_x 113 4 (ws_float lin) w_fin ws_within ws_inside
      ws_bounded ltac:(simpl; lra) ltac:(lia) wave 0 wave_bound) as (y & E & Fy & B).
    + rewrite ws_starts_real, ws_steps_real, ws_vals_real. apply ws_samples.
    + rewrite ws_starts_real, ws_steps_real. apply wave_third_reg.
    + exists y. split; [exact E|]. split; [exact Fy|]. rewrite F in B. eapply Rle_trans; [exact B|].
      assert (Q := ws_err). change (length ws_dims) with 2%nat. change (length (reg_axes _ _ _)) with 2%nat.
      assert (S0 : B2R (nth 0 ws_steps (B754_zero false)) = 1) by (cbn [nth ws_steps]; real_lit).
      assert (S3 : Rsum (map (fun k => (5 / 4) ^ k * (7 / 48 * wave_bound k * B2R (nth k ws_steps (B754_zero false)) ^ 3)) (seq 0 2)) = 7 / 8)
        by (cbn [seq map]; rewrite S0; unfold wave_bound, Rsum; simpl; field).
      unfold sum_upto.
      match goal with |- context [Rsum ?l] => replace (Rsum l) with (7 / 8) by (symmetry; exact S3) end. lra.
Qed.
Print Assumptions C58_rectilinear.
Print Assumptions C58_regular.
Print Assumptions C58_rectilinear_node.
Print Assumptions C58_regular_node.
Print Assumptions C59_rectilinear.
Print Assumptions C59_regular.
