(** Property C89: on dyadic data floating-point multilinear interpolation is exact. *)
From Coq Require Import Reals Lra PeanoNat Bool Lia List String.
From Flocq Require Import Core.Core IEEE754.BinarySingleNaN.
From Verif Require Import Base Ops RInst FInst ModelCore ModelLinear ModelPython Spec SpecOrder SpecIEEE SpecReal Interpolators SpecPython SpecDetect SpecExact.
From Verif Require Import GenLemmas FLemmas FProofs FProofs2 FExact ExampleData ExampleReal.
From Verif Require Import PropertiesExact PropertiesFloat PropertiesError PropertiesPython.
Import ListNotations.
Open Scope string_scope.
Open Scope R_scope.
Unset Implicit Arguments.

(** * C89: the result is the number that the same library code run in exact arithmetic returns.
    Values that are multiples of 2^g below 2^(g+a), points at multiples of 2^-b of the spacing. *)
Theorem C89_regular :
  forall prec emax (Hp : Prec_gt_0 prec) (He : Prec_lt_emax prec emax),
  forall c dims (starts steps vals x : list (binary_float prec emax)) eval a b g,
  float_regular Hp He c dims starts steps vals eval -> length x = length dims -> (2 <= prec <= 62)%Z -> (0 <= b)%Z ->
  (forall k start step d xk, nth_error starts k = Some start -> nth_error steps k = Some step -> nth_error dims k = Some d ->
     nth_error x k = Some xk -> dyadic_axis prec emax b start step xk d) ->
  dyadic_values prec emax a g vals ->
  (a + 1 + Z.of_nat (length dims) * b <= prec)%Z -> (3 - emax - prec <= g - Z.of_nat (length dims) * b)%Z -> (g + a + 1 < emax)%Z ->
  forall c' dom eval', multilinear c' (map B2R vals) (reg_axes dims (map B2R starts) (map B2R steps)) dom eval' ->
  exists y, eval x = Ok y /\ is_finite y = true /\ eval' (map B2R x) = Ok (B2R y).
Proof. exact exact_regular. Qed.
Theorem C89_rectilinear :
  forall prec emax (Hp : Prec_gt_0 prec) (He : Prec_lt_emax prec emax), let o := BOps Hp He in
  forall c (grids : list (list (binary_float prec emax))) vals x eval a b g,
  float_rectilinear Hp He c grids vals eval -> Forall (increasing_grid o) grids -> Forall (Forall moderate) grids ->
  Forall2 (SpecIEEE.inside_grid Hp He) grids x -> (2 <= prec)%Z -> (0 <= b)%Z ->
  Forall2 (dyadic_grid prec emax b) grids x -> dyadic_values prec emax a g vals -> (0 <= a)%Z ->
  (a + 1 + Z.of_nat (length grids) * b <= prec)%Z -> (3 - emax - prec <= g - Z.of_nat (length grids) * b)%Z -> (g + a + 1 < emax)%Z ->
  forall c' dom eval', multilinear c' (map B2R vals) (rect_axes (map (map B2R) grids)) dom eval' ->
  exists y, eval x = Ok y /\ is_finite y = true /\ eval' (map B2R x) = Ok (B2R y).
Proof. intros prec emax Hp He o. exact (exact_rectilinear prec emax Hp He). Qed.
(** The Python function interpn with method "linear": grids that it takes for regular ones. *)
Theorem C89_python_even :
  forall prec emax (Hp : Prec_gt_0 prec) (He : Prec_lt_emax prec emax), let o := BOps Hp He in
  forall c obs grids vals o0 lin assume atol a b g,
  let gs := map nd_data grids in let point j := point_of (fzero o) (map nd_data obs) j in let n := length (nd_data o0) in
  good_call 2 o0 obs grids vals -> (1 <= length grids <= 8)%nat -> (0 <= b)%Z -> dyadic_values prec emax a g (nd_data vals) ->
  (a + 1 + Z.of_nat (length grids) * b <= prec)%Z -> (3 - emax - prec <= g - Z.of_nat (length grids) * b)%Z -> (g + a + 1 < emax)%Z ->
  forall c' dom eval', (2 <= prec <= 62)%Z -> assume = true \/ Forall (evenly_spaced o) gs ->
  (forall j, (j < n)%nat -> Forall2 (fun gr x => dyadic_axis prec emax b (nth 0 gr (fzero o)) (first_step prec emax Hp He gr) x (zlen gr)) gs (point j)) ->
  (0 < n)%nat ->
  multilinear c' (map B2R (nd_data vals)) (reg_axes (map zlen gs) (map B2R (firsts (fzero o) gs)) (map B2R (spacings o (fzero o) gs))) dom eval' ->
  exists r, fst (py_interpn o c obs grids vals "linear" None lin assume false atol) = Ret r /\
  nd_shape r = nd_shape o0 /\ length (nd_data r) = n /\
  forall j, (j < n)%nat -> is_finite (nth j (nd_data r) (fzero o)) = true /\
    eval' (map B2R (point j)) = Ok (B2R (nth j (nd_data r) (fzero o))).
Proof. intros prec emax Hp He o. exact (exact_python_even prec emax Hp He). Qed.
(** Other grids. *)
Theorem C89_python_uneven :
  forall prec emax (Hp : Prec_gt_0 prec) (He : Prec_lt_emax prec emax), let o := BOps Hp He in
  forall c obs grids vals o0 lin assume atol a b g,
  let gs := map nd_data grids in let point j := point_of (fzero o) (map nd_data obs) j in let n := length (nd_data o0) in
  good_call 2 o0 obs grids vals -> (1 <= length grids <= 8)%nat -> (0 <= b)%Z -> dyadic_values prec emax a g (nd_data vals) ->
  (a + 1 + Z.of_nat (length grids) * b <= prec)%Z -> (3 - emax - prec <= g - Z.of_nat (length grids) * b)%Z -> (g + a + 1 < emax)%Z ->
  forall c' dom eval', (2 <= prec)%Z -> (0 <= a)%Z -> assume = false -> ~ Forall (evenly_spaced o) gs ->
  Forall (increasing_grid o) gs -> Forall (Forall moderate) gs ->
  (forall j, (j < n)%nat -> Forall2 (SpecIEEE.inside_grid Hp He) gs (point j) /\ Forall2 (dyadic_grid prec emax b) gs (point j)) ->
  multilinear c' (map B2R (nd_data vals)) (rect_axes (map (map B2R) gs)) dom eval' ->
  exists r, fst (py_interpn o c obs grids vals "linear" None lin assume false atol) = Ret r /\
  nd_shape r = nd_shape o0 /\ length (nd_data r) = n /\
  forall j, (j < n)%nat -> is_finite (nth j (nd_data r) (fzero o)) = true /\
    eval' (map B2R (point j)) = Ok (B2R (nth j (nd_data r) (fzero o))).
Proof. intros prec emax Hp He o. exact (exact_python_uneven prec emax Hp He). Qed.

(** ** Examples
    Values that are multiples of 1/8 and at most 16. *)
Ltac whole_by n := exists n; simpl bpow; real_lit.
Lemma lin_dyadic : dyadic_values 53 1024 7 (-3) lin_vals.
Proof.
  unfold lin_vals. change (bpow radix2 (-3 + 7)) with 16.
  apply Forall_cons; [split; [reflexivity|split; [whole_by 8%Z|apply Rabs_le; real_lit]]|].
  apply Forall_cons; [split; [reflexivity|split; [whole_by 20%Z|apply Rabs_le; real_lit]]|].
  apply Forall_cons; [split; [reflexivity|split; [whole_by 32%Z|apply Rabs_le; real_lit]]|].
  apply Forall_cons; [split; [reflexivity|split; [whole_by (-56)%Z|apply Rabs_le; real_lit]]|].
  apply Forall_cons; [split; [reflexivity|split; [whole_by 88%Z|apply Rabs_le; real_lit]]|].
  apply Forall_cons; [split; [reflexivity|split; [whole_by 3%Z|apply Rabs_le; real_lit]]|].
  apply Forall_nil.
Qed.
(** The axes 0, 1/2, 1 with the point 3/4, and 1, 3 with the point 2. *)
Lemma axis0_dyadic : dyadic_axis 53 1024 1 (z64 0) (f64_lit 1 (-1)) (f64_lit 3 (-2)) 3.
Proof.
  assert (S0 : B2R (z64 0) = 0) by real_lit. assert (S1 : B2R (f64_lit 1 (-1)) = / 2) by real_lit. assert (S2 : B2R (f64_lit 3 (-2)) = 3 / 4) by real_lit.
  split; [reflexivity|]. split; [reflexivity|]. split; [reflexivity|]. exists (-1)%Z. cbv zeta. rewrite S0, S1, S2.
  assert (B : 4 <= bpow radix2 (53 + (-1 - 1))) by (change 4 with (bpow radix2 2); apply bpow_le; lia).
  split; [simpl; lra|]. split; [lia|]. split; [lia|]. split; [exists 0%Z; simpl; lra|]. split; [exists 3%Z; simpl; lra|].
  change (IZR (3 - 1)) with 2. split; [lra|]. split; [apply Rabs_le; lra|]. split; [apply Rabs_le; lra|lia].
Qed.
Lemma axis1_dyadic : dyadic_axis 53 1024 1 (z64 1) (z64 2) (z64 2) 2.
Proof.
  assert (S0 : B2R (z64 1) = 1) by real_lit. assert (S1 : B2R (z64 2) = 2) by real_lit.
  split; [reflexivity|]. split; [reflexivity|]. split; [reflexivity|]. exists 1%Z. cbv zeta. rewrite S0, S1.
  assert (B : 4 <= bpow radix2 (53 + (1 - 1))) by (change 4 with (bpow radix2 2); apply bpow_le; lia).
  split; [simpl; lra|]. split; [lia|]. split; [lia|]. split; [exists 1%Z; simpl; lra|]. split; [exists 2%Z; simpl; lra|].
  change (IZR (2 - 1)) with 1. split; [lra|]. split; [apply Rabs_le; lra|]. split; [apply Rabs_le; lra|lia].
Qed.
Lemma lin_axes_dyadic : forall k start step d xk, nth_error lin_starts k = Some start -> nth_error lin_steps k = Some step ->
  nth_error lin_dims k = Some d -> nth_error err_x k = Some xk -> dyadic_axis 53 1024 1 start step xk d.
Proof.
  intros k start step d xk E1 E2 E3 E4. unfold lin_starts, lin_steps, lin_dims, err_x in *.
  destruct k as [|[|k]]; cbn [nth_error] in *; [| |destruct k; discriminate E3];
  apply (f_equal (fun q => match q with Some v => v | None => z64 1 end)) in E1, E2, E4; injection E3 as <-; rewrite <- E1, <- E2, <- E4.
  - exact axis0_dyadic.
  - exact axis1_dyadic.
Qed.
Lemma lit_value (y v : f64) r : is_finite y = true -> is_finite v = true -> Beqb y v = true -> B2R v = r -> B2R y = r.
Proof. intros F1 F2 E <-. rewrite Beqb_correct in E by auto. apply Req_bool_true_iff in E || (destruct (Req_bool_spec (B2R y) (B2R v)); [auto|discriminate E]). Qed.
(** Exactly 67/32. *)
Example C89_regular_ex : exists s y, mlr_interp_one F64Ops plain lin_s err_x = Ok y /\
  mlr_interp_one ROps plain s (map B2R err_x) = Ok (B2R y) /\ B2R y = 67 / 32.
Proof.
  destruct lin_exact_reg as (dom & s & M).
  destruct (C89_regular _ _ Hp64 He64 plain lin_dims lin_starts lin_steps lin_vals err_x _ 7 1 (-3) lin_freg eq_refl ltac:(lia) ltac:(lia) lin_axes_dyadic lin_dyadic
    ltac:(simpl; lia) ltac:(simpl; lia) ltac:(lia) _ _ _ M) as (y & E & F & R).
  exists s, y. split; [exact E|]. split; [exact R|].
  assert (Q : ok_is (mlr_interp_one F64Ops plain lin_s err_x) (f64_lit 67 (-5)) = true) by (vm_compute; reflexivity).
  assert (E' : mlr_interp_one F64Ops plain lin_s err_x = Ok y) by exact E. rewrite E' in Q.
  apply (lit_value y (f64_lit 67 (-5))); [exact F|reflexivity|exact Q|real_lit].
Qed.
(** The uneven grid 0, 1/2, 5/2. *)
Definition dy_grids : list (list f64) := [[z64 0; f64_lit 1 (-1); f64_lit 5 (-1)]; [z64 1; z64 3]].
Lemma dy_inc : Forall (increasing_grid F64Ops) dy_grids.
Proof. repeat (constructor; [inc_grid|]). constructor. Qed.
Lemma dy_mod : Forall (Forall moderate) dy_grids.
Proof. unfold dy_grids. repeat (apply Forall_cons; [repeat (apply Forall_cons; [mod_ok|]); apply Forall_nil|]). apply Forall_nil. Qed.
Lemma dy_real : map (map B2R) dy_grids = [[0; 1 / 2; 5 / 2]; [1; 3]].
Proof. unfold dy_grids. cbn [map]. repeat (apply f_equal2); try reflexivity; real_lit. Qed.
Lemma dy_inside : Forall2 (SpecIEEE.inside_grid Hp64 He64) dy_grids err_x.
Proof. inside_ok. Qed.
Lemma dy_dyadic : Forall2 (dyadic_grid 53 1024 3) dy_grids err_x.
Proof.
  unfold dy_grids, err_x. apply Forall2_cons; [|apply Forall2_cons; [|apply Forall2_nil]].
  - exists (-2)%Z. split; [lia|]. split; [whole_by 3%Z|]. split.
    + apply Forall_cons; [whole_by 0%Z|]. apply Forall_cons; [whole_by 2%Z|]. apply Forall_cons; [whole_by 10%Z|]. apply Forall_nil.
    + intros i u v E1 E2. destruct i as [|[|i]]; cbn [nth_error] in E1, E2; [| |destruct i; discriminate E2];
      apply (f_equal (fun q => match q with Some v => v | None => z64 1 end)) in E1, E2; rewrite <- E1, <- E2.
      * exists (-1)%Z. split; [lia|simpl bpow; real_lit].
      * exists 1%Z. split; [lia|simpl bpow; real_lit].
  - exists (-2)%Z. split; [lia|]. split; [whole_by 8%Z|]. split.
    + apply Forall_cons; [whole_by 4%Z|]. apply Forall_cons; [whole_by 12%Z|]. apply Forall_nil.
    + intros i u v E1 E2. destruct i as [|i]; cbn [nth_error] in E1, E2; [|destruct i; discriminate E2].
      apply (f_equal (fun q => match q with Some v => v | None => z64 1 end)) in E1, E2; rewrite <- E1, <- E2.
      exists 1%Z. split; [lia|simpl bpow; real_lit].
Qed.
Lemma dy_exact : exists s, multilinear plain (map B2R lin_vals) (rect_axes (map (map B2R) dy_grids)) everywhere (mlc_interp_one ROps plain s).
Proof.
  rewrite dy_real, lin_vals_real. eexists. apply multilinear_rectilinear.
  - rrect_ok.
  - repeat (apply Forall_cons; [sorted_ok|]). apply Forall_nil.
  - lazy -[Rltb IZR Rplus Rmult Rinv Ropp Rdiv]. rltb. reflexivity.
Qed.
Example C89_rectilinear_ex : exists g s y, mlc_new F64Ops plain dy_grids lin_vals = Ok g /\ mlc_interp_one F64Ops plain g err_x = Ok y /\
  mlc_interp_one ROps plain s (map B2R err_x) = Ok (B2R y) /\ B2R y = - (77 / 128).
Proof.
  destruct dy_exact as (s & M).
  destruct (@is_ok_ex _ (mlc_new F64Ops plain dy_grids lin_vals)) as (g & Eg); [vm_compute; reflexivity|].
  assert (I : rect_input plain dy_grids lin_vals) by rect_ok.
  destruct (C89_rectilinear _ _ Hp64 He64 plain dy_grids lin_vals err_x (mlc_interp_one F64Ops plain g) 7 3 (-3) (float_rectilinear_flat Hp64 He64 I Eg)
    dy_inc dy_mod dy_inside ltac:(lia) ltac:(lia) dy_dyadic lin_dyadic ltac:(lia) ltac:(simpl; lia) ltac:(simpl; lia) ltac:(lia) _ _ _ M) as (y & E & F & R).
  exists g, s, y. split; [exact Eg|]. split; [exact E|]. split; [exact R|].
  assert (Q : match mlc_new F64Ops plain dy_grids lin_vals with Ok g => ok_is (mlc_interp_one F64Ops plain g err_x) (f64_lit (-77) (-7)) | _ => false end = true) by (vm_compute; reflexivity).
  rewrite Eg in Q. assert (E' : mlc_interp_one F64Ops plain g err_x = Ok y) by exact E. rewrite E' in Q.
  apply (lit_value y (f64_lit (-77) (-7))); [exact F|reflexivity|exact Q|real_lit].
Qed.
(** The two calls from Python. *)
Definition ev_grids : list (ndarray f64) := [arr [z64 0; f64_lit 1 (-1); z64 1]; arr [z64 1; z64 3]].
Definition dy_obs : list (ndarray f64) := [mkNd [1]%nat [f64_lit 3 (-2)]; mkNd [1]%nat [z64 2]].
Lemma ev_firsts : firsts (z64 0) (map nd_data ev_grids) = lin_starts. Proof. reflexivity. Qed.
Lemma ev_spacings : spacings F64Ops (z64 0) (map nd_data ev_grids) = lin_steps.
Proof. unfold spacings, ev_grids, lin_steps, arr. cbn [map nd_data nth]. repeat (apply f_equal2); try reflexivity; apply B2SF_inj; vm_compute; reflexivity. Qed.
Example C89_python_even_ex : exists r, fst (py_interpn F64Ops plain dy_obs ev_grids (arr lin_vals) "linear" None true true false (z64 0)) = Ret r /\
  nd_shape r = [1]%nat /\ exists s, mlr_interp_one ROps plain s [3 / 4; 2] = Ok (B2R (nth 0 (nd_data r) (z64 0))).
Proof.
  destruct lin_exact_reg as (dom & s & M).
  assert (C : good_call 2 (mkNd [1]%nat [f64_lit 3 (-2)]) dy_obs ev_grids (arr lin_vals)).
  { split; [reflexivity|]. split; [reflexivity|]. split; [repeat constructor|]. split; [repeat constructor|]. split; [reflexivity|vm_compute; discriminate]. }
  destruct (C89_python_even 53 1024 Hp64 He64 plain dy_obs ev_grids (arr lin_vals) _ true true (z64 0) 7 1 (-3) C ltac:(simpl; lia) ltac:(lia) lin_dyadic
    ltac:(simpl; lia) ltac:(simpl; lia) ltac:(lia) plain dom (mlr_interp_one ROps plain s) ltac:(lia) (or_introl eq_refl)) as (r & E & S & _ & H).
  - intros j Hj. destruct j as [|j]; [|simpl in Hj; lia].
    assert (S0 : first_step 53 1024 Hp64 He64 [z64 0; f64_lit 1 (-1); z64 1] = f64_lit 1 (-1)) by (apply B2SF_inj; vm_compute; reflexivity).
    assert (S1 : first_step 53 1024 Hp64 He64 [z64 1; z64 3] = z64 2) by (apply B2SF_inj; vm_compute; reflexivity).
    apply Forall2_cons; [|apply Forall2_cons; [|apply Forall2_nil]]; cbn [nd_data arr].
    + rewrite S0. exact axis0_dyadic.
    + rewrite S1. exact axis1_dyadic.
  - simpl. lia.
  - assert (Q := ev_spacings). change (spacings (BOps Hp64 He64) (fzero (BOps Hp64 He64)) (map nd_data ev_grids)) with (spacings F64Ops (z64 0) (map nd_data ev_grids)). rewrite Q. exact M.
  - exists r. split; [exact E|]. split; [exact S|]. exists s. destruct (H 0%nat ltac:(simpl; lia)) as (_ & Q).
    assert (X : map B2R err_x = [3 / 4; 2]) by exact err_x_real. rewrite <- X. exact Q.
Qed.
Lemma dy_uneven : ~ Forall (evenly_spaced F64Ops) (map nd_data (map arr dy_grids)).
Proof.
  intros H. inversion H as [|g l H1 H2]; subst.
  assert (E := H1 1%nat _ _ _ _ eq_refl eq_refl eq_refl eq_refl). destruct E as (E & _). vm_compute in E. discriminate E.
Qed.
Example C89_python_uneven_ex : exists r, fst (py_interpn F64Ops plain dy_obs (map arr dy_grids) (arr lin_vals) "linear" None true false false (z64 0)) = Ret r /\
  nd_shape r = [1]%nat /\ exists s, mlc_interp_one ROps plain s [3 / 4; 2] = Ok (B2R (nth 0 (nd_data r) (z64 0))).
Proof.
  destruct dy_exact as (s & M).
  assert (C : good_call 2 (mkNd [1]%nat [f64_lit 3 (-2)]) dy_obs (map arr dy_grids) (arr lin_vals)).
  { split; [reflexivity|]. split; [reflexivity|]. split; [repeat constructor|]. split; [repeat constructor|]. split; [reflexivity|vm_compute; discriminate]. }
  destruct (C89_python_uneven 53 1024 Hp64 He64 plain dy_obs (map arr dy_grids) (arr lin_vals) _ true false (z64 0) 7 3 (-3) C ltac:(simpl; lia) ltac:(lia) lin_dyadic
    ltac:(simpl; lia) ltac:(simpl; lia) ltac:(lia) plain everywhere (mlc_interp_one ROps plain s) ltac:(lia) ltac:(lia) eq_refl dy_uneven dy_inc dy_mod) as (r & E & S & _ & H).
  - intros j Hj. destruct j as [|j]; [|simpl in Hj; lia]. split; [exact dy_inside|exact dy_dyadic].
  - exact M.
  - exists r. split; [exact E|]. split; [exact S|]. exists s. destruct (H 0%nat ltac:(simpl; lia)) as (_ & Q).
    assert (X : map B2R err_x = [3 / 4; 2]) by exact err_x_real. rewrite <- X. exact Q.
Qed.
Print Assumptions C89_regular.
Print Assumptions C89_rectilinear.
Print Assumptions C89_python_even.
Print Assumptions C89_python_uneven.
