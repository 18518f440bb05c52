(** Property C98 at points outside the grid: on dyadic data floating-point multicubic extrapolation is exact. *)
From Coq Require Import Reals Lra PeanoNat Bool Lia List String.
From Flocq Require Import Core.Core IEEE754.BinarySingleNaN.
From Verif Require Import Base Ops RInst FInst ModelCore ModelLinear ModelCubic ModelPython Spec SpecOrder SpecIEEE SpecReal Interpolators SpecCubicError SpecPython SpecDetect SpecExact SpecCubicExact SpecExtrap SpecExactOut.
From Verif Require Import GenLemmas FLemmas FProofs FProofs2 FExact FCubicExactOut2 ExampleData ExampleReal.
From Verif Require Import PropertiesExact PropertiesFloat PropertiesError PropertiesPython PropertiesCubicError PropertiesDyadic PropertiesExtrap PropertiesCubicExact.
Import ListNotations.
Open Scope string_scope.
Open Scope R_scope.
Unset Implicit Arguments.

(** * C98: the result is the number that the same library code run in exact arithmetic returns.
    As [C98_regular], with points up to (2^m - 1) / 2 cell widths outside the grid; both continuations. *)
Theorem C98_regular_outside :
  forall prec emax (Hp : Prec_gt_0 prec) (He : Prec_lt_emax prec emax),
  forall c lin dims (starts steps vals x : list (binary_float prec emax)) eval a b g m,
  float_cubic_regular Hp He c lin dims starts steps vals eval -> length x = length dims -> (2 <= prec <= 62)%Z -> (0 <= b)%Z -> (0 <= m)%Z ->
  (forall k start step d xk, nth_error starts k = Some start -> nth_error steps k = Some step -> nth_error dims k = Some d ->
     nth_error x k = Some xk -> dyadic_axis_any prec emax b m start step xk d) ->
  dyadic_values prec emax a g vals ->
  (a + Z.of_nat (length dims) * (3 * b + 3 * m + 6) <= prec)%Z ->
  (3 - emax - prec <= g - Z.of_nat (length dims) * (3 * b + 1))%Z -> (g + a + Z.of_nat (length dims) * (3 * m + 5) < emax)%Z ->
  forall c' dom eval', multicubic c' lin (map B2R vals) (reg_axes dims (map B2R starts) (map B2R steps)) dom eval' -> dom (map B2R x) ->
  exists y, eval x = Ok y /\ is_finite y = true /\ eval' (map B2R x) = Ok (B2R y).
Proof. exact cubic_exact_regular_any. Qed.
(** Rectilinear interpolators on grids that are evenly spaced. *)
Theorem C98_rectilinear_outside :
  forall prec emax (Hp : Prec_gt_0 prec) (He : Prec_lt_emax prec emax), let o := BOps Hp He in
  forall c lin (grids : list (list (binary_float prec emax))) vals x eval a b g m,
  float_cubic_rectilinear Hp He c lin grids vals eval -> Forall (increasing_grid o) grids -> Forall (Forall moderate) grids ->
  Forall moderate x ->
  Forall2 (fun gr v => at_most_outside m (list_axis (map B2R gr)) (B2R v)) grids x ->
  (2 <= prec)%Z -> (0 <= a)%Z -> (0 <= b)%Z -> (0 <= m)%Z ->
  Forall2 (even_dyadic_grid prec emax b) grids x -> dyadic_values prec emax a g vals ->
  (a + Z.of_nat (length grids) * (3 * b + 3 * m + 6) <= prec)%Z ->
  (3 - emax - prec <= g - Z.of_nat (length grids) * (3 * b + 1))%Z -> (g + a + Z.of_nat (length grids) * (3 * m + 5) < emax)%Z ->
  forall c' dom eval', multicubic c' lin (map B2R vals) (rect_axes (map (map B2R) grids)) dom eval' -> dom (map B2R x) ->
  exists y, eval x = Ok y /\ is_finite y = true /\ eval' (map B2R x) = Ok (B2R y).
Proof. intros prec emax Hp He o. exact (cubic_exact_rectilinear_any prec emax Hp He). Qed.
(** The Python function interpn with method "cubic": grids that it takes for regular ones. *)
Theorem C98_python_outside :
  forall prec emax (Hp : Prec_gt_0 prec) (He : Prec_lt_emax prec emax), let o := BOps Hp He in
  forall c obs grids vals o0 lin assume atol a b g m,
  let gs := map nd_data grids in let point j := point_of (fzero o) (map nd_data obs) j in let n := length (nd_data o0) in
  good_call 4 o0 obs grids vals -> (1 <= length grids <= 8)%nat -> (0 <= b)%Z -> (0 <= m)%Z -> dyadic_values prec emax a g (nd_data vals) ->
  (a + Z.of_nat (length grids) * (3 * b + 3 * m + 6) <= prec)%Z ->
  (3 - emax - prec <= g - Z.of_nat (length grids) * (3 * b + 1))%Z -> (g + a + Z.of_nat (length grids) * (3 * m + 5) < emax)%Z ->
  forall c' dom eval', (2 <= prec <= 62)%Z -> assume = true \/ Forall (evenly_spaced o) gs ->
  (forall j, (j < n)%nat -> Forall2 (fun gr x => dyadic_axis_any prec emax b m (nth 0 gr (fzero o)) (first_step prec emax Hp He gr) x (zlen gr)) gs (point j)) ->
  (0 < n)%nat ->
  multicubic c' lin (map B2R (nd_data vals)) (reg_axes (map zlen gs) (map B2R (firsts (fzero o) gs)) (map B2R (spacings o (fzero o) gs))) dom eval' ->
  (forall j, (j < n)%nat -> dom (map B2R (point j))) ->
  exists r, fst (py_interpn o c obs grids vals "cubic" None lin assume false atol) = Ret r /\
  nd_shape r = nd_shape o0 /\ length (nd_data r) = n /\
  forall j, (j < n)%nat -> is_finite (nth j (nd_data r) (fzero o)) = true /\
    eval' (map B2R (point j)) = Ok (B2R (nth j (nd_data r) (fzero o))).
Proof. intros prec emax Hp He o. exact (cubic_exact_python_any prec emax Hp He). Qed.

(** ** Examples
    The values of [C98_regular_ex] and the point (-3/2, 10), one and a half cell widths outside on both axes. *)
Definition out_x : list f64 := [f64_lit (-3) (-1); z64 10].
Lemma out_x_real : map B2R out_x = [- (3 / 2); 10].
Proof. unfold out_x. cbn [map]. repeat (apply f_equal2); try reflexivity; real_lit. Qed.
Lemma out_axis0 : dyadic_axis_any 53 1024 1 2 (z64 0) (z64 1) (f64_lit (-3) (-1)) 4.
Proof.
  assert (S0 : B2R (z64 0) = 0) by real_lit. assert (S1 : B2R (z64 1) = 1) by real_lit. assert (S2 : B2R (f64_lit (-3) (-1)) = - (3 / 2)) by real_lit.
  split; [reflexivity|]. split; [reflexivity|]. split; [reflexivity|]. exists 0%Z. cbv zeta. rewrite S0, S1, S2.
  assert (B : 4 <= bpow radix2 (53 + (0 - 1))) by (change 4 with (bpow radix2 2); apply bpow_le; lia).
  split; [simpl; lra|]. split; [lia|]. split; [lia|]. split; [exists 0%Z; simpl; lra|]. split; [exists (-3)%Z; simpl; lra|].
  change (IZR (4 - 1)) with 3. split; [|split; [apply Rabs_le; lra|split; [apply Rabs_le; lra|lia]]].
  unfold at_most_outside. change (bpow radix2 2) with 4. overshoots.
Qed.
Lemma out_axis1 : dyadic_axis_any 53 1024 1 2 (z64 (-1)) (z64 2) (z64 10) 5.
Proof.
  assert (S0 : B2R (z64 (-1)) = -1) by real_lit. assert (S1 : B2R (z64 2) = 2) by real_lit. assert (S2 : B2R (z64 10) = 10) by real_lit.
  split; [reflexivity|]. split; [reflexivity|]. split; [reflexivity|]. exists 1%Z. cbv zeta. rewrite S0, S1, S2.
  assert (B : 8 <= bpow radix2 (53 + (1 - 1))) by (change 8 with (bpow radix2 3); apply bpow_le; lia).
  split; [simpl; lra|]. split; [lia|]. split; [lia|]. split; [exists (-1)%Z; simpl; lra|]. split; [exists 10%Z; simpl; lra|].
  change (IZR (5 - 1)) with 4. split; [|split; [apply Rabs_le; lra|split; [apply Rabs_le; lra|lia]]].
  unfold at_most_outside. change (bpow radix2 2) with 4. overshoots.
Qed.
Lemma out_axes : forall k start step d xk, nth_error ws_starts k = Some start -> nth_error ws_steps k = Some step ->
  nth_error ws_dims k = Some d -> nth_error out_x k = Some xk -> dyadic_axis_any 53 1024 1 2 start step xk d.
Proof.
  intros k start step d xk E1 E2 E3 E4. unfold ws_starts, ws_steps, ws_dims, out_x in *.
  destruct k as [|[|k]]; cbn [nth_error] in *; [| |destruct k; discriminate E3];
  apply (f_equal (fun q => match q with Some v => v | None => z64 1 end)) in E1, E2, E4; injection E3 as <-; rewrite <- E1, <- E2, <- E4.
  - exact out_axis0.
  - exact out_axis1.
Qed.
Lemma out_fits : cell_fits (isize_min + 1) rc_starts rc_steps [- (3 / 2); 10].
Proof. fits. Qed.
(** Exactly 94 with linear continuation and 439/4 with the cubic one. *)
Example C98_regular_outside_ex :
  (exists y, mcr_interp_one F64Ops plain (ws true) out_x = Ok y /\ ws_reval true [- (3 / 2); 10] = Ok (B2R y) /\ B2R y = 94) /\
  (exists y, mcr_interp_one F64Ops plain (ws false) out_x = Ok y /\ ws_reval false [- (3 / 2); 10] = Ok (B2R y) /\ B2R y = 439 / 4).
Proof.
  assert (Go : forall lin, exists y, mcr_interp_one F64Ops plain (ws lin) out_x = Ok y /\ is_finite y = true /\ ws_reval lin [- (3 / 2); 10] = Ok (B2R y)).
  { intros lin.
    destruct (C98_regular_outside _ _ Hp64 He64 plain lin ws_dims ws_starts ws_steps ws_vals out_x _ 7 1 0 2 (ws_float lin) eq_refl ltac:(lia) ltac:(lia) ltac:(lia) out_axes ws_dyadic
      ltac:(simpl; lia) ltac:(simpl; lia) ltac:(simpl; lia) rplain (cell_fits (isize_min + 1) rc_starts rc_steps) (ws_reval lin)) as (y & E & F & R).
    - rewrite ws_vals_real, ws_starts_real, ws_steps_real. apply ws_exact.
    - rewrite out_x_real. exact out_fits.
    - rewrite out_x_real in R. exists y. split; [exact E|]. split; [exact F|exact R]. }
  split.
  - destruct (Go true) as (y & E & F & R). exists y. split; [exact E|]. split; [exact R|].
    assert (Q : ok_is (mcr_interp_one F64Ops plain (ws true) out_x) (z64 94) = true) by (vm_compute; reflexivity).
    rewrite E in Q. apply (lit_value y (z64 94)); [exact F|reflexivity|exact Q|real_lit].
  - destruct (Go false) as (y & E & F & R). exists y. split; [exact E|]. split; [exact R|].
    assert (Q : ok_is (mcr_interp_one F64Ops plain (ws false) out_x) (f64_lit 439 (-2)) = true) by (vm_compute; reflexivity).
    rewrite E in Q. apply (lit_value y (f64_lit 439 (-2))); [exact F|reflexivity|exact Q|real_lit].
Qed.
Lemma out_moderate : Forall (@moderate 53 1024) out_x.
Proof. unfold out_x. repeat (apply Forall_cons; [mod_ok|]). apply Forall_nil. Qed.
Lemma out_overshoot : Forall2 (fun gr v => at_most_outside 2 (list_axis (map B2R gr)) (B2R v)) we_grids out_x.
Proof.
  assert (A : forall gr xk, nth_error [[0; 1; 2; 3]; [-1; 1; 3; 5; 7]] 0 = Some gr -> xk = - (3 / 2) -> at_most_outside 2 (list_axis gr) xk).
  { intros gr xk E ->. injection E as <-. unfold at_most_outside, list_axis. change (bpow radix2 2) with 4. overshoots. }
  assert (A' : forall gr xk, nth_error [[0; 1; 2; 3]; [-1; 1; 3; 5; 7]] 1 = Some gr -> xk = 10 -> at_most_outside 2 (list_axis gr) xk).
  { intros gr xk E ->. injection E as <-. unfold at_most_outside, list_axis. change (bpow radix2 2) with 4. overshoots. }
  assert (Q := we_real). unfold we_grids in *. cbn [map] in Q. unfold out_x.
  apply Forall2_cons; [|apply Forall2_cons; [|apply Forall2_nil]]; [apply A|apply A']; try (rewrite <- Q; reflexivity); real_lit.
Qed.
Lemma out_dyadic : Forall2 (even_dyadic_grid 53 1024 2) we_grids out_x.
Proof.
  unfold we_grids, out_x. apply Forall2_cons; [|apply Forall2_cons; [|apply Forall2_nil]].
  - exists 0%Z. split; [lia|]. split; [whole_by (-6)%Z|]. split.
    + apply Forall_cons; [whole_by 0%Z|]. apply Forall_cons; [whole_by 4%Z|]. apply Forall_cons; [whole_by 8%Z|]. apply Forall_cons; [whole_by 12%Z|]. apply Forall_nil.
    + intros i u v E1 E2. destruct i as [|[|[|i]]]; cbn [nth_error] in E1, E2; [| | |destruct i; discriminate E2];
      apply (f_equal (fun q => match q with Some v => v | None => z64 1 end)) in E1, E2; rewrite <- E1, <- E2; simpl bpow; real_lit.
  - exists 1%Z. split; [lia|]. split; [whole_by 20%Z|]. split.
    + apply Forall_cons; [whole_by (-2)%Z|]. apply Forall_cons; [whole_by 2%Z|]. apply Forall_cons; [whole_by 6%Z|]. apply Forall_cons; [whole_by 10%Z|].
      apply Forall_cons; [whole_by 14%Z|]. apply Forall_nil.
    + intros i u v E1 E2. destruct i as [|[|[|[|i]]]]; cbn [nth_error] in E1, E2; [| | | |destruct i; discriminate E2];
      apply (f_equal (fun q => match q with Some v => v | None => z64 1 end)) in E1, E2; rewrite <- E1, <- E2; simpl bpow; real_lit.
Qed.
Example C98_rectilinear_outside_ex : exists g s y, mcc_new F64Ops plain we_grids ws_vals true = Ok g /\ mcc_interp_one F64Ops plain g out_x = Ok y /\
  mcc_interp_one ROps rplain s [- (3 / 2); 10] = Ok (B2R y) /\ B2R y = 94.
Proof.
  destruct we_exact as (s & M).
  destruct (@is_ok_ex _ (mcc_new F64Ops plain we_grids ws_vals true)) as (g & Eg); [vm_compute; reflexivity|].
  assert (I : rect_input plain we_grids ws_vals) by rect_ok.
  destruct (C98_rectilinear_outside _ _ Hp64 He64 plain true we_grids ws_vals out_x (mcc_interp_one F64Ops plain g) 7 2 0 2 (float_cubic_rectilinear_flat Hp64 He64 plain true we_grids ws_vals g I Eg)
    we_inc we_mod out_moderate out_overshoot ltac:(lia) ltac:(lia) ltac:(lia) ltac:(lia) out_dyadic ws_dyadic ltac:(simpl; lia) ltac:(simpl; lia) ltac:(simpl; lia) _ _ _ M Logic.I) as (y & E & F & R).
  rewrite out_x_real in R. exists g, s, y. split; [exact Eg|]. split; [exact E|]. split; [exact R|].
  assert (Q : match mcc_new F64Ops plain we_grids ws_vals true with Ok g => ok_is (mcc_interp_one F64Ops plain g out_x) (z64 94) | _ => false end = true) by (vm_compute; reflexivity).
  rewrite Eg in Q. assert (E' : mcc_interp_one F64Ops plain g out_x = Ok y) by exact E. rewrite E' in Q.
  apply (lit_value y (z64 94)); [exact F|reflexivity|exact Q|real_lit].
Qed.
(** The call from Python. *)
Definition out_obs : list (ndarray f64) := [mkNd [1]%nat [f64_lit (-3) (-1)]; mkNd [1]%nat [z64 10]].
Example C98_python_outside_ex : exists r, fst (py_interpn F64Ops plain out_obs (map arr we_grids) (arr ws_vals) "cubic" None true false false (z64 0)) = Ret r /\
  nd_shape r = [1]%nat /\ ws_reval true [- (3 / 2); 10] = Ok (B2R (nth 0 (nd_data r) (z64 0))).
Proof.
  assert (C : good_call 4 (mkNd [1]%nat [f64_lit (-3) (-1)]) out_obs (map arr we_grids) (arr ws_vals)).
  { split; [reflexivity|]. split; [reflexivity|]. split; [repeat constructor|]. split; [repeat constructor|]. split; [reflexivity|vm_compute; discriminate]. }
  destruct (C98_python_outside 53 1024 Hp64 He64 plain out_obs (map arr we_grids) (arr ws_vals) _ true false (z64 0) 7 1 0 2 C ltac:(simpl; lia) ltac:(lia) ltac:(lia) ws_dyadic
    ltac:(simpl; lia) ltac:(simpl; lia) ltac:(simpl; lia) rplain (cell_fits (isize_min + 1) rc_starts rc_steps) (ws_reval true) ltac:(lia) (or_intror we_even)) as (r & E & S & _ & H).
  - intros j Hj. destruct j as [|j]; [|simpl in Hj; lia].
    assert (S0 : first_step 53 1024 Hp64 He64 (nth 0 we_grids []) = z64 1) by (apply B2SF_inj; vm_compute; reflexivity).
    assert (S1 : first_step 53 1024 Hp64 He64 (nth 1 we_grids []) = z64 2) by (apply B2SF_inj; vm_compute; reflexivity).
    unfold we_grids in *. cbn [nth] in S0, S1.
    apply Forall2_cons; [|apply Forall2_cons; [|apply Forall2_nil]]; cbn [nd_data arr].
    + rewrite S0. exact out_axis0.
    + rewrite S1. exact out_axis1.
  - simpl. lia.
  - assert (Q := we_spacings). change (spacings (BOps Hp64 He64) (fzero (BOps Hp64 He64)) (map nd_data (map arr we_grids))) with (spacings F64Ops (z64 0) we_grids).
    rewrite Q, ws_steps_real. cbn [nd_data arr]. rewrite ws_vals_real.
    change (firsts (fzero (BOps Hp64 He64)) (map nd_data (map arr we_grids))) with ws_starts. rewrite ws_starts_real. exact (ws_exact true).
  - intros j Hj. destruct j as [|j]; [|simpl in Hj; lia].
    change (point_of (fzero (BOps Hp64 He64)) (map nd_data out_obs) 0) with out_x. rewrite out_x_real. exact out_fits.
  - exists r. split; [exact E|]. split; [exact S|]. destruct (H 0%nat ltac:(simpl; lia)) as (_ & Q).
    rewrite <- out_x_real. exact Q.
Qed.
Print Assumptions C98_regular_outside.
Print Assumptions C98_rectilinear_outside.
Print Assumptions C98_python_outside.
