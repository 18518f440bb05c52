(** Property C89 outside the grid: dyadic data are also extrapolated exactly. *)
From Coq Require Import Reals Lra PeanoNat Bool Lia List String.
From Flocq Require Import Core.Core IEEE754.BinarySingleNaN.
From Verif Require Import Base Ops RInst FInst ModelCore ModelLinear ModelPython Spec SpecOrder SpecIEEE SpecReal Interpolators SpecPython SpecDetect SpecApprox SpecExtrap SpecExact SpecExactOut.
From Verif Require Import GenLemmas FLemmas FProofs FProofs2 FExact FExactOut ExampleData ExampleReal.
From Verif Require Import PropertiesExact PropertiesFloat PropertiesError PropertiesPython PropertiesExtrap PropertiesReach PropertiesDyadic.
Import ListNotations.
Open Scope string_scope.
Open Scope R_scope.
Unset Implicit Arguments.

(** * C89 outside the grid. A point that lies at most (2^m - 1) / 2 cell widths outside the grid along every
    axis costs m more binary digits per axis; m = 0 is the case of points inside the grid. *)
Theorem C89_regular_outside :
  forall prec emax (Hp : Prec_gt_0 prec) (He : Prec_lt_emax prec emax),
  forall c dims (starts steps vals x : list (binary_float prec emax)) eval a b g m,
  float_regular Hp He c dims starts steps vals eval -> length x = length dims -> (2 <= prec <= 62)%Z -> (0 <= b)%Z -> (0 <= m)%Z ->
  (forall k start step d xk, nth_error starts k = Some start -> nth_error steps k = Some step -> nth_error dims k = Some d ->
     nth_error x k = Some xk -> dyadic_axis_any prec emax b m start step xk d) ->
  dyadic_values prec emax a g vals ->
  (a + 1 + Z.of_nat (length dims) * (b + m) <= prec)%Z -> (3 - emax - prec <= g - Z.of_nat (length dims) * b)%Z -> (g + a + 1 + Z.of_nat (length dims) * m < emax)%Z ->
  forall c' dom eval', multilinear c' (map B2R vals) (reg_axes dims (map B2R starts) (map B2R steps)) dom eval' -> dom (map B2R x) ->
  exists y, eval x = Ok y /\ is_finite y = true /\ eval' (map B2R x) = Ok (B2R y).
Proof. exact exact_regular_any. Qed.
Theorem C89_rectilinear_outside :
  forall prec emax (Hp : Prec_gt_0 prec) (He : Prec_lt_emax prec emax), let o := BOps Hp He in
  forall c (grids : list (list (binary_float prec emax))) vals x eval a b g m,
  float_rectilinear Hp He c grids vals eval -> Forall (increasing_grid o) grids -> Forall (Forall moderate) grids ->
  Forall moderate x ->
  Forall2 (fun gr v => at_most_outside m (list_axis (map B2R gr)) (B2R v)) grids x -> (2 <= prec)%Z -> (0 <= b)%Z -> (0 <= m)%Z ->
  Forall2 (dyadic_grid prec emax b) grids x -> dyadic_values prec emax a g vals -> (0 <= a)%Z ->
  (a + 1 + Z.of_nat (length grids) * (b + m) <= prec)%Z -> (3 - emax - prec <= g - Z.of_nat (length grids) * b)%Z -> (g + a + 1 + Z.of_nat (length grids) * m < emax)%Z ->
  forall c' dom eval', multilinear c' (map B2R vals) (rect_axes (map (map B2R) grids)) dom eval' -> dom (map B2R x) ->
  exists y, eval x = Ok y /\ is_finite y = true /\ eval' (map B2R x) = Ok (B2R y).
Proof. intros prec emax Hp He o. exact (exact_rectilinear_any prec emax Hp He). Qed.
(** The Python function interpn with method "linear": grids that it takes for regular ones. *)
Theorem C89_python_even_outside :
  forall prec emax (Hp : Prec_gt_0 prec) (He : Prec_lt_emax prec emax), let o := BOps Hp He in
  forall c obs grids vals o0 lin assume atol a b g m,
  let gs := map nd_data grids in let point j := point_of (fzero o) (map nd_data obs) j in let n := length (nd_data o0) in
  good_call 2 o0 obs grids vals -> (1 <= length grids <= 8)%nat -> (0 <= b)%Z -> (0 <= m)%Z -> dyadic_values prec emax a g (nd_data vals) ->
  (a + 1 + Z.of_nat (length grids) * (b + m) <= prec)%Z -> (3 - emax - prec <= g - Z.of_nat (length grids) * b)%Z -> (g + a + 1 + Z.of_nat (length grids) * m < emax)%Z ->
  forall c' dom eval', (2 <= prec <= 62)%Z -> assume = true \/ Forall (evenly_spaced o) gs ->
  (forall j, (j < n)%nat -> Forall2 (fun gr x => dyadic_axis_any prec emax b m (nth 0 gr (fzero o)) (first_step prec emax Hp He gr) x (zlen gr)) gs (point j)) ->
  (0 < n)%nat ->
  multilinear c' (map B2R (nd_data vals)) (reg_axes (map zlen gs) (map B2R (firsts (fzero o) gs)) (map B2R (spacings o (fzero o) gs))) dom eval' -> (forall j, (j < n)%nat -> dom (map B2R (point j))) ->
  exists r, fst (py_interpn o c obs grids vals "linear" None lin assume false atol) = Ret r /\
  nd_shape r = nd_shape o0 /\ length (nd_data r) = n /\
  forall j, (j < n)%nat -> is_finite (nth j (nd_data r) (fzero o)) = true /\
    eval' (map B2R (point j)) = Ok (B2R (nth j (nd_data r) (fzero o))).
Proof. intros prec emax Hp He o. exact (exact_python_even_any prec emax Hp He). Qed.
(** Other grids. *)
Theorem C89_python_uneven_outside :
  forall prec emax (Hp : Prec_gt_0 prec) (He : Prec_lt_emax prec emax), let o := BOps Hp He in
  forall c obs grids vals o0 lin assume atol a b g m,
  let gs := map nd_data grids in let point j := point_of (fzero o) (map nd_data obs) j in let n := length (nd_data o0) in
  good_call 2 o0 obs grids vals -> (1 <= length grids <= 8)%nat -> (0 <= b)%Z -> (0 <= m)%Z -> dyadic_values prec emax a g (nd_data vals) ->
  (a + 1 + Z.of_nat (length grids) * (b + m) <= prec)%Z -> (3 - emax - prec <= g - Z.of_nat (length grids) * b)%Z -> (g + a + 1 + Z.of_nat (length grids) * m < emax)%Z ->
  forall c' dom eval', (2 <= prec)%Z -> (0 <= a)%Z -> assume = false -> ~ Forall (evenly_spaced o) gs ->
  Forall (increasing_grid o) gs -> Forall (Forall moderate) gs ->
  (forall j, (j < n)%nat -> Forall moderate (point j) /\
    Forall2 (fun gr x => at_most_outside m (list_axis (map B2R gr)) (B2R x)) gs (point j) /\ Forall2 (dyadic_grid prec emax b) gs (point j)) ->
  multilinear c' (map B2R (nd_data vals)) (rect_axes (map (map B2R) gs)) dom eval' -> (forall j, (j < n)%nat -> dom (map B2R (point j))) ->
  exists r, fst (py_interpn o c obs grids vals "linear" None lin assume false atol) = Ret r /\
  nd_shape r = nd_shape o0 /\ length (nd_data r) = n /\
  forall j, (j < n)%nat -> is_finite (nth j (nd_data r) (fzero o)) = true /\
    eval' (map B2R (point j)) = Ok (B2R (nth j (nd_data r) (fzero o))).
Proof. intros prec emax Hp He o. exact (exact_python_uneven_any prec emax Hp He). Qed.

(** ** Examples
    The point (3, 2): 4 cell widths outside the even axis 0, 1/2, 1, and 1/4 outside the uneven one 0, 1/2, 5/2. *)
Lemma axis0_far : dyadic_axis_any 53 1024 1 4 (z64 0) (f64_lit 1 (-1)) (z64 3) 3.
Proof.
  assert (S0 : B2R (z64 0) = 0) by real_lit. assert (S1 : B2R (f64_lit 1 (-1)) = / 2) by real_lit. assert (S2 : B2R (z64 3) = 3) by real_lit.
  split; [reflexivity|]. split; [reflexivity|]. split; [reflexivity|]. exists (-1)%Z. cbv zeta. rewrite S0, S1, S2.
  assert (B : 4 <= bpow radix2 (53 + (-1 - 1))) by (change 4 with (bpow radix2 2); apply bpow_le; lia).
  split; [simpl; lra|]. split; [lia|]. split; [lia|]. split; [exists 0%Z; simpl; lra|]. split; [exists 12%Z; simpl; lra|].
  change (IZR (3 - 1)) with 2. split; [|split; [apply Rabs_le; lra|split; [apply Rabs_le; lra|lia]]].
  unfold at_most_outside. change (bpow radix2 4) with 16. overshoots.
Qed.
Lemma axis1_far : dyadic_axis_any 53 1024 1 4 (z64 1) (z64 2) (z64 2) 2.
Proof.
  assert (S0 : B2R (z64 1) = 1) by real_lit. assert (S1 : B2R (z64 2) = 2) by real_lit.
  split; [reflexivity|]. split; [reflexivity|]. split; [reflexivity|]. exists 1%Z. cbv zeta. rewrite S0, S1.
  assert (B : 4 <= bpow radix2 (53 + (1 - 1))) by (change 4 with (bpow radix2 2); apply bpow_le; lia).
  split; [simpl; lra|]. split; [lia|]. split; [lia|]. split; [exists 1%Z; simpl; lra|]. split; [exists 2%Z; simpl; lra|].
  change (IZR (2 - 1)) with 1. split; [|split; [apply Rabs_le; lra|split; [apply Rabs_le; lra|lia]]].
  unfold at_most_outside. change (bpow radix2 4) with 16. overshoots.
Qed.
Lemma far_axes : forall k start step d xk, nth_error lin_starts k = Some start -> nth_error lin_steps k = Some step ->
  nth_error lin_dims k = Some d -> nth_error far_x k = Some xk -> dyadic_axis_any 53 1024 1 4 start step xk d.
Proof.
  intros k start step d xk E1 E2 E3 E4. unfold lin_starts, lin_steps, lin_dims, far_x in *.
  destruct k as [|[|k]]; cbn [nth_error] in *; [| |destruct k; discriminate E3];
  apply (f_equal (fun q => match q with Some v => v | None => z64 1 end)) in E1, E2, E4; injection E3 as <-; rewrite <- E1, <- E2, <- E4.
  - exact axis0_far.
  - exact axis1_far.
Qed.
Lemma far_exact_reg : exists s, multilinear plain (map B2R lin_vals) (reg_axes lin_dims (map B2R lin_starts) (map B2R lin_steps))
  (cell_fits isize_min (map B2R lin_starts) (map B2R lin_steps)) (mlr_interp_one ROps plain s).
Proof.
  rewrite lin_starts_real, lin_steps_real, lin_vals_real. eexists. apply multilinear_regular; [rreg_ok|].
  lazy -[Rltb IZR Rplus Rmult Rinv Ropp Rdiv]. rltb. reflexivity.
Qed.
Lemma far_fits : cell_fits isize_min (map B2R lin_starts) (map B2R lin_steps) (map B2R far_x).
Proof. rewrite lin_starts_real, lin_steps_real, far_x_real. fits. Qed.
(** Exactly 551/16. *)
Example C89_regular_outside_ex : exists s y, mlr_interp_one F64Ops plain lin_s far_x = Ok y /\
  mlr_interp_one ROps plain s (map B2R far_x) = Ok (B2R y) /\ B2R y = 551 / 16.
Proof.
  destruct far_exact_reg as (s & M).
  destruct (C89_regular_outside _ _ Hp64 He64 plain lin_dims lin_starts lin_steps lin_vals far_x _ 7 1 (-3) 4 lin_freg eq_refl ltac:(lia) ltac:(lia) ltac:(lia)
    far_axes lin_dyadic ltac:(simpl; lia) ltac:(simpl; lia) ltac:(simpl; lia) _ _ _ M far_fits) as (y & E & F & R).
  exists s, y. split; [exact E|]. split; [exact R|].
  assert (Q : ok_is (mlr_interp_one F64Ops plain lin_s far_x) (f64_lit 551 (-4)) = true) by (vm_compute; reflexivity).
  assert (E' : mlr_interp_one F64Ops plain lin_s far_x = Ok y) by exact E. rewrite E' in Q.
  apply (lit_value y (f64_lit 551 (-4))); [exact F|reflexivity|exact Q|real_lit].
Qed.
Lemma far_dyadic : Forall2 (dyadic_grid 53 1024 3) dy_grids far_x.
Proof.
  unfold dy_grids, far_x. apply Forall2_cons; [|apply Forall2_cons; [|apply Forall2_nil]].
  - exists (-2)%Z. split; [lia|]. split; [whole_by 12%Z|]. split.
    + apply Forall_cons; [whole_by 0%Z|]. apply Forall_cons; [whole_by 2%Z|]. apply Forall_cons; [whole_by 10%Z|]. apply Forall_nil.
    + intros i u v E1 E2. destruct i as [|[|i]]; cbn [nth_error] in E1, E2; [| |destruct i; discriminate E2];
      apply (f_equal (fun q => match q with Some v => v | None => z64 1 end)) in E1, E2; rewrite <- E1, <- E2.
      * exists (-1)%Z. split; [lia|simpl bpow; real_lit].
      * exists 1%Z. split; [lia|simpl bpow; real_lit].
  - exists (-2)%Z. split; [lia|]. split; [whole_by 8%Z|]. split.
    + apply Forall_cons; [whole_by 4%Z|]. apply Forall_cons; [whole_by 12%Z|]. apply Forall_nil.
    + intros i u v E1 E2. destruct i as [|i]; cbn [nth_error] in E1, E2; [|destruct i; discriminate E2].
      apply (f_equal (fun q => match q with Some v => v | None => z64 1 end)) in E1, E2; rewrite <- E1, <- E2.
      exists 1%Z. split; [lia|simpl bpow; real_lit].
Qed.
Lemma far_out : Forall2 (fun gr v => at_most_outside 1 (list_axis (map B2R gr)) (B2R v)) dy_grids far_x.
Proof.
  assert (G := dy_real). assert (X := far_x_real). unfold dy_grids, far_x in *. cbn [map] in G, X.
  apply Forall2_cons; [|apply Forall2_cons; [|apply Forall2_nil]]; unfold at_most_outside; change (bpow radix2 1) with 2.
  - match goal with |- context [list_axis ?l] => replace l with [0; 1 / 2; 5 / 2] by (cbn [map]; symmetry; congruence) end.
    replace (B2R (z64 3)) with 3 by (symmetry; congruence). overshoots.
  - match goal with |- context [list_axis ?l] => replace l with [1; 3] by (cbn [map]; symmetry; congruence) end.
    replace (B2R (z64 2)) with 2 by (symmetry; congruence). overshoots.
Qed.
(** Exactly 479/64. *)
Example C89_rectilinear_outside_ex : exists g s y, mlc_new F64Ops plain dy_grids lin_vals = Ok g /\ mlc_interp_one F64Ops plain g far_x = Ok y /\
  mlc_interp_one ROps plain s (map B2R far_x) = Ok (B2R y) /\ B2R y = 479 / 64.
Proof.
  destruct dy_exact as (s & M).
  destruct (@is_ok_ex _ (mlc_new F64Ops plain dy_grids lin_vals)) as (g & Eg); [vm_compute; reflexivity|].
  assert (I : rect_input plain dy_grids lin_vals) by rect_ok.
  destruct (C89_rectilinear_outside _ _ Hp64 He64 plain dy_grids lin_vals far_x (mlc_interp_one F64Ops plain g) 7 3 (-3) 1 (float_rectilinear_flat Hp64 He64 I Eg)
    dy_inc dy_mod far_moderate far_out ltac:(lia) ltac:(lia) ltac:(lia) far_dyadic lin_dyadic ltac:(lia) ltac:(simpl; lia) ltac:(simpl; lia) ltac:(simpl; lia) _ _ _ M Logic.I) as (y & E & F & R).
  exists g, s, y. split; [exact Eg|]. split; [exact E|]. split; [exact R|].
  assert (Q : match mlc_new F64Ops plain dy_grids lin_vals with Ok g => ok_is (mlc_interp_one F64Ops plain g far_x) (f64_lit 479 (-6)) | _ => false end = true) by (vm_compute; reflexivity).
  rewrite Eg in Q. assert (E' : mlc_interp_one F64Ops plain g far_x = Ok y) by exact E. rewrite E' in Q.
  apply (lit_value y (f64_lit 479 (-6))); [exact F|reflexivity|exact Q|real_lit].
Qed.
(** The two calls from Python. *)
Definition far_obs1 : list (ndarray f64) := [mkNd [1]%nat [z64 3]; mkNd [1]%nat [z64 2]].
Example C89_python_even_outside_ex : exists r, fst (py_interpn F64Ops plain far_obs1 ev_grids (arr lin_vals) "linear" None true true false (z64 0)) = Ret r /\
  nd_shape r = [1]%nat /\ exists s, mlr_interp_one ROps plain s [3; 2] = Ok (B2R (nth 0 (nd_data r) (z64 0))).
Proof.
  destruct far_exact_reg as (s & M).
  assert (C : good_call 2 (mkNd [1]%nat [z64 3]) far_obs1 ev_grids (arr lin_vals)).
  { split; [reflexivity|]. split; [reflexivity|]. split; [repeat constructor|]. split; [repeat constructor|]. split; [reflexivity|vm_compute; discriminate]. }
  destruct (C89_python_even_outside 53 1024 Hp64 He64 plain far_obs1 ev_grids (arr lin_vals) _ true true (z64 0) 7 1 (-3) 4 C ltac:(simpl; lia) ltac:(lia) ltac:(lia) lin_dyadic
    ltac:(simpl; lia) ltac:(simpl; lia) ltac:(simpl; lia) plain (cell_fits isize_min (map B2R lin_starts) (map B2R lin_steps)) (mlr_interp_one ROps plain s) ltac:(lia) (or_introl eq_refl)) as (r & E & S & _ & H).
  - intros j Hj. destruct j as [|j]; [|simpl in Hj; lia].
    assert (S0 : first_step 53 1024 Hp64 He64 [z64 0; f64_lit 1 (-1); z64 1] = f64_lit 1 (-1)) by (apply B2SF_inj; vm_compute; reflexivity).
    assert (S1 : first_step 53 1024 Hp64 He64 [z64 1; z64 3] = z64 2) by (apply B2SF_inj; vm_compute; reflexivity).
    apply Forall2_cons; [|apply Forall2_cons; [|apply Forall2_nil]]; cbn [nd_data arr].
    + rewrite S0. exact axis0_far.
    + rewrite S1. exact axis1_far.
  - simpl. lia.
  - assert (Q := ev_spacings). change (spacings (BOps Hp64 He64) (fzero (BOps Hp64 He64)) (map nd_data ev_grids)) with (spacings F64Ops (z64 0) (map nd_data ev_grids)). rewrite Q. exact M.
  - intros j Hj. destruct j as [|j]; [|simpl in Hj; lia]. exact far_fits.
  - exists r. split; [exact E|]. split; [exact S|]. exists s. destruct (H 0%nat ltac:(simpl; lia)) as (_ & Q).
    rewrite <- far_x_real. exact Q.
Qed.
Example C89_python_uneven_outside_ex : exists r, fst (py_interpn F64Ops plain far_obs1 (map arr dy_grids) (arr lin_vals) "linear" None true false false (z64 0)) = Ret r /\
  nd_shape r = [1]%nat /\ exists s, mlc_interp_one ROps plain s [3; 2] = Ok (B2R (nth 0 (nd_data r) (z64 0))).
Proof.
  destruct dy_exact as (s & M).
  assert (C : good_call 2 (mkNd [1]%nat [z64 3]) far_obs1 (map arr dy_grids) (arr lin_vals)).
  { split; [reflexivity|]. split; [reflexivity|]. split; [repeat constructor|]. split; [repeat constructor|]. split; [reflexivity|vm_compute; discriminate]. }
  destruct (C89_python_uneven_outside 53 1024 Hp64 He64 plain far_obs1 (map arr dy_grids) (arr lin_vals) _ true false (z64 0) 7 3 (-3) 1 C ltac:(simpl; lia) ltac:(lia) ltac:(lia) lin_dyadic
    ltac:(simpl; lia) ltac:(simpl; lia) ltac:(simpl; lia) plain everywhere (mlc_interp_one ROps plain s) ltac:(lia) ltac:(lia) eq_refl dy_uneven dy_inc dy_mod) as (r & E & S & _ & H).
  - intros j Hj. destruct j as [|j]; [|simpl in Hj; lia]. split; [exact far_moderate|]. split; [exact far_out|exact far_dyadic].
  - exact M.
  - intros j Hj. exact Logic.I.
  - exists r. split; [exact E|]. split; [exact S|]. exists s. destruct (H 0%nat ltac:(simpl; lia)) as (_ & Q).
    rewrite <- far_x_real. exact Q.
Qed.
Print Assumptions C89_regular_outside.
Print Assumptions C89_rectilinear_outside.
Print Assumptions C89_python_even_outside.
Print Assumptions C89_python_uneven_outside.
