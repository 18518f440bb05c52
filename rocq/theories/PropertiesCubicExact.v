(** Property C98: on dyadic data floating-point multicubic interpolation is exact. *)
From Coq Require Import Reals Lra PeanoNat Bool Lia List String.
From Flocq Require Import Core.Core IEEE754.BinarySingleNaN.
From Verif Require Import Base Ops RInst FInst ModelCore ModelLinear ModelCubic ModelPython Spec SpecOrder SpecIEEE SpecReal Interpolators SpecCubicError SpecPython SpecDetect SpecExact SpecCubicExact.
From Verif Require Import GenLemmas FLemmas FProofs FProofs2 FExact FCubicExact2 ExampleData ExampleReal.
From Verif Require Import PropertiesExact PropertiesFloat PropertiesError PropertiesPython PropertiesCubicError PropertiesDyadic.
Import ListNotations.
Open Scope string_scope.
Open Scope R_scope.
Unset Implicit Arguments.

(** * C98: the result is the number that the same library code run in exact arithmetic returns.
    Values that are multiples of 2^g below 2^(g+a), points at multiples of 2^-b of the spacing. *)
Theorem C98_regular :
  forall prec emax (Hp : Prec_gt_0 prec) (He : Prec_lt_emax prec emax),
  forall c lin dims (starts steps vals x : list (binary_float prec emax)) eval a b g,
  float_cubic_regular Hp He c lin dims starts steps vals eval -> length x = length dims -> (2 <= prec <= 62)%Z -> (0 <= b)%Z ->
  (forall k start step d xk, nth_error starts k = Some start -> nth_error steps k = Some step -> nth_error dims k = Some d ->
     nth_error x k = Some xk -> dyadic_axis prec emax b start step xk d) ->
  dyadic_values prec emax a g vals ->
  (a + 3 + Z.of_nat (length dims) * (3 * b + 2) <= prec)%Z ->
  (3 - emax - prec <= g - Z.of_nat (length dims) * (3 * b + 1))%Z -> (g + a + Z.of_nat (length dims) + 3 < emax)%Z ->
  forall c' dom eval', multicubic c' lin (map B2R vals) (reg_axes dims (map B2R starts) (map B2R steps)) dom eval' ->
  exists y, eval x = Ok y /\ is_finite y = true /\ eval' (map B2R x) = Ok (B2R y).
Proof. exact cubic_exact_regular. Qed.
(** Rectilinear interpolators on grids that are evenly spaced. *)
Theorem C98_rectilinear :
  forall prec emax (Hp : Prec_gt_0 prec) (He : Prec_lt_emax prec emax), let o := BOps Hp He in
  forall c lin (grids : list (list (binary_float prec emax))) vals x eval a b g,
  float_cubic_rectilinear Hp He c lin grids vals eval -> Forall (increasing_grid o) grids -> Forall (Forall moderate) grids ->
  Forall (fun v => is_finite v = true) x -> SpecReal.inside_grid (rect_axes (map (map B2R) grids)) (map B2R x) ->
  (2 <= prec)%Z -> (0 <= a)%Z -> (0 <= b)%Z ->
  Forall2 (even_dyadic_grid prec emax b) grids x -> dyadic_values prec emax a g vals ->
  (a + 3 + Z.of_nat (length grids) * (3 * b + 2) <= prec)%Z ->
  (3 - emax - prec <= g - Z.of_nat (length grids) * (3 * b + 1))%Z -> (g + a + Z.of_nat (length grids) + 3 < emax)%Z ->
  forall c' dom eval', multicubic c' lin (map B2R vals) (rect_axes (map (map B2R) grids)) dom eval' ->
  exists y, eval x = Ok y /\ is_finite y = true /\ eval' (map B2R x) = Ok (B2R y).
Proof. intros prec emax Hp He o. exact (cubic_exact_rectilinear prec emax Hp He). Qed.
(** The Python function interpn with method "cubic": grids that it takes for regular ones. *)
Theorem C98_python :
  forall prec emax (Hp : Prec_gt_0 prec) (He : Prec_lt_emax prec emax), let o := BOps Hp He in
  forall c obs grids vals o0 lin assume atol a b g,
  let gs := map nd_data grids in let point j := point_of (fzero o) (map nd_data obs) j in let n := length (nd_data o0) in
  good_call 4 o0 obs grids vals -> (1 <= length grids <= 8)%nat -> (0 <= b)%Z -> dyadic_values prec emax a g (nd_data vals) ->
  (a + 3 + Z.of_nat (length grids) * (3 * b + 2) <= prec)%Z ->
  (3 - emax - prec <= g - Z.of_nat (length grids) * (3 * b + 1))%Z -> (g + a + Z.of_nat (length grids) + 3 < emax)%Z ->
  forall c' dom eval', (2 <= prec <= 62)%Z -> assume = true \/ Forall (evenly_spaced o) gs ->
  (forall j, (j < n)%nat -> Forall2 (fun gr x => dyadic_axis prec emax b (nth 0 gr (fzero o)) (first_step prec emax Hp He gr) x (zlen gr)) gs (point j)) ->
  (0 < n)%nat ->
  multicubic c' lin (map B2R (nd_data vals)) (reg_axes (map zlen gs) (map B2R (firsts (fzero o) gs)) (map B2R (spacings o (fzero o) gs))) dom eval' ->
  exists r, fst (py_interpn o c obs grids vals "cubic" None lin assume false atol) = Ret r /\
  nd_shape r = nd_shape o0 /\ length (nd_data r) = n /\
  forall j, (j < n)%nat -> is_finite (nth j (nd_data r) (fzero o)) = true /\
    eval' (map B2R (point j)) = Ok (B2R (nth j (nd_data r) (fzero o))).
Proof. intros prec emax Hp He o. exact (cubic_exact_python prec emax Hp He). Qed.

(** ** Examples
    x^3 + y^2 sampled on the axes 0, 1, 2, 3 and -1, 1, ..., 7: whole numbers at most 128. *)
Lemma ws_dyadic : dyadic_values 53 1024 7 0 ws_vals.
Proof.
  unfold ws_vals. cbn [flat_map map app]. change (bpow radix2 (0 + 7)) with 128. change (bpow radix2 0) with 1.
  assert (W : forall n, (-128 <= n <= 128)%Z -> is_finite (z64 n) = true /\ B2R (z64 n) = IZR n ->
    is_finite (z64 n) = true /\ whole 1 (B2R (z64 n)) /\ Rabs (B2R (z64 n)) <= 128).
  { intros n Hn (F & E). split; [exact F|]. rewrite E. split; [exists n; lra|]. apply Rabs_le. split; [change (- (128)) with (IZR (-128))|]; apply IZR_le; lia. }
  repeat (apply Forall_cons; [apply W; [lia|split; [reflexivity|real_lit]]|]). apply Forall_nil.
Qed.
(** The point 5/2 on the first axis and 6 on the second one. *)
Lemma ws_axis0 : dyadic_axis 53 1024 1 (z64 0) (z64 1) (f64_lit 5 (-1)) 4.
Proof.
  assert (S0 : B2R (z64 0) = 0) by real_lit. assert (S1 : B2R (z64 1) = 1) by real_lit. assert (S2 : B2R (f64_lit 5 (-1)) = 5 / 2) by real_lit.
  split; [reflexivity|]. split; [reflexivity|]. split; [reflexivity|]. exists 0%Z. cbv zeta. rewrite S0, S1, S2.
  assert (B : 4 <= bpow radix2 (53 + (0 - 1))) by (change 4 with (bpow radix2 2); apply bpow_le; lia).
  split; [simpl; lra|]. split; [lia|]. split; [lia|]. split; [exists 0%Z; simpl; lra|]. split; [exists 5%Z; simpl; lra|].
  change (IZR (4 - 1)) with 3. split; [lra|]. split; [apply Rabs_le; lra|]. split; [apply Rabs_le; lra|lia].
Qed.
Lemma ws_axis1 : dyadic_axis 53 1024 1 (z64 (-1)) (z64 2) (z64 6) 5.
Proof.
  assert (S0 : B2R (z64 (-1)) = -1) by real_lit. assert (S1 : B2R (z64 2) = 2) by real_lit. assert (S2 : B2R (z64 6) = 6) by real_lit.
  split; [reflexivity|]. split; [reflexivity|]. split; [reflexivity|]. exists 1%Z. cbv zeta. rewrite S0, S1, S2.
  assert (B : 8 <= bpow radix2 (53 + (1 - 1))) by (change 8 with (bpow radix2 3); apply bpow_le; lia).
  split; [simpl; lra|]. split; [lia|]. split; [lia|]. split; [exists (-1)%Z; simpl; lra|]. split; [exists 6%Z; simpl; lra|].
  change (IZR (5 - 1)) with 4. split; [lra|]. split; [apply Rabs_le; lra|]. split; [apply Rabs_le; lra|lia].
Qed.
Lemma ws_axes_dyadic : forall k start step d xk, nth_error ws_starts k = Some start -> nth_error ws_steps k = Some step ->
  nth_error ws_dims k = Some d -> nth_error w_x k = Some xk -> dyadic_axis 53 1024 1 start step xk d.
Proof.
  intros k start step d xk E1 E2 E3 E4. unfold ws_starts, ws_steps, ws_dims, w_x in *.
  destruct k as [|[|k]]; cbn [nth_error] in *; [| |destruct k; discriminate E3];
  apply (f_equal (fun q => match q with Some v => v | None => z64 1 end)) in E1, E2, E4; injection E3 as <-; rewrite <- E1, <- E2, <- E4.
  - exact ws_axis0.
  - exact ws_axis1.
Qed.
(** Exactly 52. *)
Example C98_regular_ex : exists y, mcr_interp_one F64Ops plain (ws true) w_x = Ok y /\
  ws_reval true [5 / 2; 6] = Ok (B2R y) /\ B2R y = 52.
Proof.
  destruct (C98_regular _ _ Hp64 He64 plain true ws_dims ws_starts ws_steps ws_vals w_x _ 7 1 0 (ws_float true) eq_refl ltac:(lia) ltac:(lia) ws_axes_dyadic ws_dyadic
    ltac:(simpl; lia) ltac:(simpl; lia) ltac:(simpl; lia) rplain (cell_fits (isize_min + 1) rc_starts rc_steps) (ws_reval true)) as (y & E & F & R).
  { rewrite ws_vals_real, ws_starts_real, ws_steps_real. apply ws_exact. }
  rewrite w_x_real in R. exists y. split; [exact E|]. split; [exact R|].
  assert (Q : ok_is (mcr_interp_one F64Ops plain (ws true) w_x) (z64 52) = true) by (vm_compute; reflexivity).
  assert (E' : mcr_interp_one F64Ops plain (ws true) w_x = Ok y) by exact E. rewrite E' in Q.
  apply (lit_value y (z64 52)); [exact F|reflexivity|exact Q|real_lit].
Qed.
(** The same grid given by its coordinates, at a point in inner cells. *)
Definition we_grids : list (list f64) := [[z64 0; z64 1; z64 2; z64 3]; [z64 (-1); z64 1; z64 3; z64 5; z64 7]].
Definition we_x : list f64 := [f64_lit 3 (-1); f64_lit 5 (-1)].
Lemma we_real : map (map B2R) we_grids = [[0; 1; 2; 3]; [-1; 1; 3; 5; 7]].
Proof. unfold we_grids. cbn [map]. repeat (apply f_equal2); try reflexivity; real_lit. Qed.
Lemma we_x_real : map B2R we_x = [3 / 2; 5 / 2].
Proof. unfold we_x. cbn [map]. repeat (apply f_equal2); try reflexivity; real_lit. Qed.
Lemma we_inc : Forall (increasing_grid F64Ops) we_grids.
Proof. repeat (constructor; [inc_grid|]). constructor. Qed.
Lemma we_mod : Forall (Forall moderate) we_grids.
Proof. unfold we_grids. repeat (apply Forall_cons; [repeat (apply Forall_cons; [mod_ok|]); apply Forall_nil|]). apply Forall_nil. Qed.
Lemma we_fin : Forall (fun v : f64 => is_finite v = true) we_x.
Proof. repeat (apply Forall_cons; [reflexivity|]). apply Forall_nil. Qed.
Lemma we_inside : SpecReal.inside_grid (rect_axes (map (map B2R) we_grids)) (map B2R we_x).
Proof. rewrite we_real, we_x_real. split; [reflexivity|]. each_axis2; lra. Qed.
Lemma we_dyadic : Forall2 (even_dyadic_grid 53 1024 2) we_grids we_x.
Proof.
  unfold we_grids, we_x. apply Forall2_cons; [|apply Forall2_cons; [|apply Forall2_nil]].
  - exists 0%Z. split; [lia|]. split; [whole_by 6%Z|]. split.
    + apply Forall_cons; [whole_by 0%Z|]. apply Forall_cons; [whole_by 4%Z|]. apply Forall_cons; [whole_by 8%Z|]. apply Forall_cons; [whole_by 12%Z|]. apply Forall_nil.
    + intros i u v E1 E2. destruct i as [|[|[|i]]]; cbn [nth_error] in E1, E2; [| | |destruct i; discriminate E2];
      apply (f_equal (fun q => match q with Some v => v | None => z64 1 end)) in E1, E2; rewrite <- E1, <- E2; simpl bpow; real_lit.
  - exists 1%Z. split; [lia|]. split; [whole_by 5%Z|]. split.
    + apply Forall_cons; [whole_by (-2)%Z|]. apply Forall_cons; [whole_by 2%Z|]. apply Forall_cons; [whole_by 6%Z|]. apply Forall_cons; [whole_by 10%Z|].
      apply Forall_cons; [whole_by 14%Z|]. apply Forall_nil.
    + intros i u v E1 E2. destruct i as [|[|[|[|i]]]]; cbn [nth_error] in E1, E2; [| | | |destruct i; discriminate E2];
      apply (f_equal (fun q => match q with Some v => v | None => z64 1 end)) in E1, E2; rewrite <- E1, <- E2; simpl bpow; real_lit.
Qed.
Lemma we_exact : exists s, multicubic rplain true (map B2R ws_vals) (rect_axes (map (map B2R) we_grids)) everywhere (mcc_interp_one ROps rplain s).
Proof.
  rewrite we_real, ws_vals_real. eexists. apply multicubic_rectilinear.
  - rrect_ok.
  - repeat (apply Forall_cons; [sorted_ok|]). apply Forall_nil.
  - lazy -[Rltb IZR Rplus Rmult Rinv Ropp Rdiv ws_reals]. rltb. reflexivity.
Qed.
Example C98_rectilinear_ex : exists g s y, mcc_new F64Ops plain we_grids ws_vals true = Ok g /\ mcc_interp_one F64Ops plain g we_x = Ok y /\
  mcc_interp_one ROps rplain s [3 / 2; 5 / 2] = Ok (B2R y) /\ B2R y = 77 / 8.
Proof.
  destruct we_exact as (s & M).
  destruct (@is_ok_ex _ (mcc_new F64Ops plain we_grids ws_vals true)) as (g & Eg); [vm_compute; reflexivity|].
  assert (I : rect_input plain we_grids ws_vals) by rect_ok.
  destruct (C98_rectilinear _ _ Hp64 He64 plain true we_grids ws_vals we_x (mcc_interp_one F64Ops plain g) 7 2 0 (float_cubic_rectilinear_flat Hp64 He64 plain true we_grids ws_vals g I Eg)
    we_inc we_mod we_fin we_inside ltac:(lia) ltac:(lia) ltac:(lia) we_dyadic ws_dyadic ltac:(simpl; lia) ltac:(simpl; lia) ltac:(simpl; lia) _ _ _ M) as (y & E & F & R).
  rewrite we_x_real in R. exists g, s, y. split; [exact Eg|]. split; [exact E|]. split; [exact R|].
  assert (Q : match mcc_new F64Ops plain we_grids ws_vals true with Ok g => ok_is (mcc_interp_one F64Ops plain g we_x) (f64_lit 77 (-3)) | _ => false end = true) by (vm_compute; reflexivity).
  rewrite Eg in Q. assert (E' : mcc_interp_one F64Ops plain g we_x = Ok y) by exact E. rewrite E' in Q.
  apply (lit_value y (f64_lit 77 (-3))); [exact F|reflexivity|exact Q|real_lit].
Qed.
(** The call from Python. *)
Definition we_obs : list (ndarray f64) := [mkNd [1]%nat [f64_lit 5 (-1)]; mkNd [1]%nat [z64 6]].
Lemma we_spacings : spacings F64Ops (z64 0) we_grids = ws_steps.
Proof. unfold spacings, we_grids, ws_steps. cbn [map nth]. repeat (apply f_equal2); try reflexivity; apply B2SF_inj; vm_compute; reflexivity. Qed.
Lemma we_even : Forall (evenly_spaced F64Ops) we_grids.
Proof.
  apply Forall_cons; [|apply Forall_cons; [|apply Forall_nil]]; intros i a0 a1 a b E0 E1 Ea Eb; simpl in E0, E1; injection E0 as <-; injection E1 as <-;
    (destruct i as [|[|[|[|[|i]]]]]; simpl in Ea, Eb; try discriminate Ea; try discriminate Eb;
     injection Ea as <-; injection Eb as <-; split; vm_compute; reflexivity).
Qed.
Example C98_python_ex : exists r, fst (py_interpn F64Ops plain we_obs (map arr we_grids) (arr ws_vals) "cubic" None true false false (z64 0)) = Ret r /\
  nd_shape r = [1]%nat /\ ws_reval true [5 / 2; 6] = Ok (B2R (nth 0 (nd_data r) (z64 0))).
Proof.
  assert (C : good_call 4 (mkNd [1]%nat [f64_lit 5 (-1)]) we_obs (map arr we_grids) (arr ws_vals)).
  { split; [reflexivity|]. split; [reflexivity|]. split; [repeat constructor|]. split; [repeat constructor|]. split; [reflexivity|vm_compute; discriminate]. }
  destruct (C98_python 53 1024 Hp64 He64 plain we_obs (map arr we_grids) (arr ws_vals) _ true false (z64 0) 7 1 0 C ltac:(simpl; lia) ltac:(lia) ws_dyadic
    ltac:(simpl; lia) ltac:(simpl; lia) ltac:(simpl; lia) rplain (cell_fits (isize_min + 1) rc_starts rc_steps) (ws_reval true) ltac:(lia) (or_intror we_even)) as (r & E & S & _ & H).
  - intros j Hj. destruct j as [|j]; [|simpl in Hj; lia].
    assert (S0 : first_step 53 1024 Hp64 He64 (nth 0 we_grids []) = z64 1) by (apply B2SF_inj; vm_compute; reflexivity).
    assert (S1 : first_step 53 1024 Hp64 He64 (nth 1 we_grids []) = z64 2) by (apply B2SF_inj; vm_compute; reflexivity).
    unfold we_grids in *. cbn [nth] in S0, S1.
    apply Forall2_cons; [|apply Forall2_cons; [|apply Forall2_nil]]; cbn [nd_data arr].
    + rewrite S0. exact ws_axis0.
    + rewrite S1. exact ws_axis1.
  - simpl. lia.
  - assert (Q := we_spacings). change (spacings (BOps Hp64 He64) (fzero (BOps Hp64 He64)) (map nd_data (map arr we_grids))) with (spacings F64Ops (z64 0) we_grids).
    rewrite Q, ws_steps_real. cbn [nd_data arr]. rewrite ws_vals_real.
    change (firsts (fzero (BOps Hp64 He64)) (map nd_data (map arr we_grids))) with ws_starts. rewrite ws_starts_real. exact (ws_exact true).
  - exists r. split; [exact E|]. split; [exact S|]. destruct (H 0%nat ltac:(simpl; lia)) as (_ & Q).
    rewrite <- w_x_real. exact Q.
Qed.
Print Assumptions C98_regular.
Print Assumptions C98_rectilinear.
Print Assumptions C98_python.
