(** Properties C79, C80: the Python function interpn(method="linear") in floating point, from the
    arrays passed to the array returned. *)
From Coq Require Import Reals Lra PeanoNat Bool Lia List String.
From Flocq Require Import Core.Core IEEE754.BinarySingleNaN.
From Verif Require Import Base Ops RInst FInst ModelCore ModelLinear ModelPython Spec SpecOrder SpecIEEE SpecError SpecReal Interpolators SpecApprox SpecPython SpecDetect.
From Verif Require Import GenLemmas FLemmas FProofs FProofs2 FError2 FApprox FPython RChar ExampleData ExampleReal.
From Verif Require Import PropertiesExact PropertiesFloat PropertiesError PropertiesApprox PropertiesAccuracy PropertiesPython.
Import ListNotations.
Open Scope string_scope.
Open Scope R_scope.
Unset Implicit Arguments.

(** * C79: every number returned is close to the multilinear interpolant, in exact arithmetic, of the
    grids and values as given. Here the computed differences of the points of each grid are equal,
    so that interpn treats the grid as a regular one although its points may deviate from that. *)
Theorem C79_evenly_spaced :
  forall prec emax (Hp : Prec_gt_0 prec) (He : Prec_lt_emax prec emax), let o := BOps Hp He in
  forall c obs grids vals o0 lin assume atol A,
  let gs := map nd_data grids in let xs := map nd_data obs in let axes := rect_axes (map (map B2R) gs) in
  good_call 2 o0 obs grids vals -> (1 <= length grids <= 8)%nat ->
  Forall (increasing_grid o) gs -> Forall (Forall (fun v => is_finite v = true)) xs ->
  (forall j, (j < length (nd_data o0))%nat -> SpecReal.inside_grid axes (map B2R (point_of (fzero o) xs j))) ->
  bounded_values prec emax A (nd_data vals) ->
  forall kappa, Forall (evenly_spaced o) gs -> Forall (grid_within prec emax Hp He kappa) gs ->
  A <= bpow radix2 (emax - 5) -> 525 * INR (length grids) * (roundoff prec * kappa) <= 1 -> (prec <= 64)%Z ->
  forall c' dom eval', multilinear c' (map B2R (nd_data vals)) axes dom eval' ->
  exists r, fst (py_interpn o c obs grids vals "linear" None lin assume false atol) = Ret r /\
  nd_shape r = nd_shape o0 /\ length (nd_data r) = length (nd_data o0) /\
  forall j, (j < length (nd_data o0))%nat -> let y := nth j (nd_data r) (fzero o) in
    exists e, eval' (map B2R (point_of (fzero o) xs j)) = Ok e /\ is_finite y = true /\
    Rabs (B2R y - e) <= detected_error prec emax (length grids) kappa A.
Proof. intros prec emax Hp He o. exact (C79_proof_even prec emax Hp He). Qed.
(** Any other grids: the rectilinear code runs. *)
Theorem C79_unevenly_spaced :
  forall prec emax (Hp : Prec_gt_0 prec) (He : Prec_lt_emax prec emax), let o := BOps Hp He in
  forall c obs grids vals o0 lin assume atol A,
  let gs := map nd_data grids in let xs := map nd_data obs in let axes := rect_axes (map (map B2R) gs) in
  good_call 2 o0 obs grids vals -> (1 <= length grids <= 8)%nat ->
  Forall (increasing_grid o) gs -> Forall (Forall (fun v => is_finite v = true)) xs ->
  (forall j, (j < length (nd_data o0))%nat -> SpecReal.inside_grid axes (map B2R (point_of (fzero o) xs j))) ->
  bounded_values prec emax A (nd_data vals) ->
  assume = false -> ~ Forall (evenly_spaced o) gs -> Forall (Forall moderate) gs ->
  126 * INR (length grids) * roundoff prec <= 1 ->
  forall c' dom eval', multilinear c' (map B2R (nd_data vals)) axes dom eval' ->
  exists r, fst (py_interpn o c obs grids vals "linear" None lin assume false atol) = Ret r /\
  nd_shape r = nd_shape o0 /\ length (nd_data r) = length (nd_data o0) /\
  forall j, (j < length (nd_data o0))%nat -> let y := nth j (nd_data r) (fzero o) in
    exists e, eval' (map B2R (point_of (fzero o) xs j)) = Ok e /\ is_finite y = true /\
    Rabs (B2R y - e) <= rectilinear_error prec emax (length grids) A.
Proof. intros prec emax Hp He o. exact (C79_proof_uneven prec emax Hp He). Qed.

(** * C80: if the values are samples of a smooth function up to an error e, every number returned is
    close to the function at its point: rounding, error of the samples, interpolation error. *)
Theorem C80_evenly_spaced :
  forall prec emax (Hp : Prec_gt_0 prec) (He : Prec_lt_emax prec emax), let o := BOps Hp He in
  forall c obs grids vals o0 lin assume atol A,
  let gs := map nd_data grids in let xs := map nd_data obs in let axes := rect_axes (map (map B2R) gs) in
  good_call 2 o0 obs grids vals -> (1 <= length grids <= 8)%nat ->
  Forall (increasing_grid o) gs -> Forall (Forall (fun v => is_finite v = true)) xs ->
  (forall j, (j < length (nd_data o0))%nat -> SpecReal.inside_grid axes (map B2R (point_of (fzero o) xs j))) ->
  bounded_values prec emax A (nd_data vals) ->
  forall kappa, Forall (evenly_spaced o) gs -> Forall (grid_within prec emax Hp He kappa) gs ->
  A <= bpow radix2 (emax - 5) -> 525 * INR (length grids) * (roundoff prec * kappa) <= 1 -> (prec <= 64)%Z ->
  forall f e M h, samples_within e axes (map B2R (nd_data vals)) f ->
  (forall k, (k < length axes)%nat -> second_derivative_at_most axes f k (M k)) ->
  (forall k a, nth_error axes k = Some a -> spacing_at_most a (h k)) ->
  exists r, fst (py_interpn o c obs grids vals "linear" None lin assume false atol) = Ret r /\
  nd_shape r = nd_shape o0 /\ length (nd_data r) = length (nd_data o0) /\
  forall j, (j < length (nd_data o0))%nat -> let y := nth j (nd_data r) (fzero o) in is_finite y = true /\
    Rabs (B2R y - f (map B2R (point_of (fzero o) xs j))) <=
      detected_error prec emax (length grids) kappa A + e + sum_upto (length axes) (fun k => M k * h k ^ 2 / 8).
Proof. intros prec emax Hp He o. exact (C80_proof_even prec emax Hp He). Qed.
Theorem C80_unevenly_spaced :
  forall prec emax (Hp : Prec_gt_0 prec) (He : Prec_lt_emax prec emax), let o := BOps Hp He in
  forall c obs grids vals o0 lin assume atol A,
  let gs := map nd_data grids in let xs := map nd_data obs in let axes := rect_axes (map (map B2R) gs) in
  good_call 2 o0 obs grids vals -> (1 <= length grids <= 8)%nat ->
  Forall (increasing_grid o) gs -> Forall (Forall (fun v => is_finite v = true)) xs ->
  (forall j, (j < length (nd_data o0))%nat -> SpecReal.inside_grid axes (map B2R (point_of (fzero o) xs j))) ->
  bounded_values prec emax A (nd_data vals) ->
  assume = false -> ~ Forall (evenly_spaced o) gs -> Forall (Forall moderate) gs ->
  126 * INR (length grids) * roundoff prec <= 1 ->
  forall f e M h, samples_within e axes (map B2R (nd_data vals)) f ->
  (forall k, (k < length axes)%nat -> second_derivative_at_most axes f k (M k)) ->
  (forall k a, nth_error axes k = Some a -> spacing_at_most a (h k)) ->
  exists r, fst (py_interpn o c obs grids vals "linear" None lin assume false atol) = Ret r /\
  nd_shape r = nd_shape o0 /\ length (nd_data r) = length (nd_data o0) /\
  forall j, (j < length (nd_data o0))%nat -> let y := nth j (nd_data r) (fzero o) in is_finite y = true /\
    Rabs (B2R y - f (map B2R (point_of (fzero o) xs j))) <=
      rectilinear_error prec emax (length grids) A + e + sum_upto (length axes) (fun k => M k * h k ^ 2 / 8).
Proof. intros prec emax Hp He o. exact (C80_proof_uneven prec emax Hp He). Qed.

(** ** Examples
    The grid 2^-60, 1, 2 is not evenly spaced, but its computed differences are both 1. *)
Definition d_grid : list f64 := [f64_lit 1 (-60); z64 1; z64 2].
Definition d_grids : list (ndarray f64) := [arr d_grid; arr [z64 1; z64 3]].
Definition d_vals : list f64 := [z64 1; z64 9; z64 2; z64 10; z64 5; z64 13].
Definition d_obs : list (ndarray f64) := [mkNd [2]%nat [z64 1; f64_lit 3 (-2)]; mkNd [2]%nat [z64 3; z64 2]].
Definition tiny : R := / 1152921504606846976.

Lemma d_grids_real : map (map B2R) (map nd_data d_grids) = [[tiny; 1; 2]; [1; 3]].
Proof. unfold d_grids, d_grid, tiny, arr. cbn [map nd_data]. repeat (apply f_equal2); try reflexivity; real_lit. Qed.
Lemma d_vals_real : map B2R d_vals = [1; 9; 2; 10; 5; 13].
Proof. unfold d_vals. cbn [map]. repeat (apply f_equal2); try reflexivity; real_lit. Qed.
Example C79_not_exactly_even :
  Forall (evenly_spaced F64Ops) (map nd_data d_grids) /\
  B2R (nth 1 d_grid (z64 0)) - B2R (nth 0 d_grid (z64 0)) <> B2R (nth 2 d_grid (z64 0)) - B2R (nth 1 d_grid (z64 0)).
Proof.
  split.
  - apply Forall_cons; [|apply Forall_cons; [|apply Forall_nil]]; intros i a0 a1 a b E0 E1 Ea Eb; simpl in E0, E1; injection E0 as <-; injection E1 as <-;
    (destruct i as [|[|[|i]]]; simpl in Ea, Eb; try discriminate Ea; try discriminate Eb;
     injection Ea as <-; injection Eb as <-; split; vm_compute; reflexivity).
  - cbn [nth d_grid]. assert (E : B2R (f64_lit 1 (-60)) = tiny) by (unfold tiny; real_lit).
    assert (E1 : B2R (z64 1) = 1) by real_lit. assert (E2 : B2R (z64 2) = 2) by real_lit.
    rewrite E, E1, E2. unfold tiny. lra.
Qed.
Lemma d_step0 : first_step 53 1024 Hp64 He64 d_grid = z64 1.
Proof. apply B2SF_inj. vm_compute. reflexivity. Qed.
Lemma d_step1 : first_step 53 1024 Hp64 He64 [z64 1; z64 3] = z64 2.
Proof. apply B2SF_inj. vm_compute. reflexivity. Qed.
Lemma d_within : Forall (grid_within 53 1024 Hp64 He64 2) (map nd_data d_grids).
Proof.
  assert (E1 : B2R (z64 1) = 1) by real_lit. assert (E2 : B2R (z64 2) = 2) by real_lit.
  assert (P : 4 <= bpow radix2 (1024 - 4)) by (apply Rle_trans with (bpow radix2 4); [simpl; lra|apply bpow_le; lia]).
  unfold d_grids, arr. cbn [map nd_data]. apply Forall_cons; [|apply Forall_cons; [|apply Forall_nil]].
  - unfold grid_within. rewrite d_step0, E1. split; [reflexivity|]. split; [lra|]. unfold d_grid.
    repeat (apply Forall_cons; [split; [reflexivity|apply Rabs_le; real_lit]|]). apply Forall_nil.
  - unfold grid_within. rewrite d_step1, E2. split; [reflexivity|]. split; [lra|].
    repeat (apply Forall_cons; [split; [reflexivity|apply Rabs_le; real_lit]|]). apply Forall_nil.
Qed.
Lemma d_inc : Forall (increasing_grid F64Ops) (map nd_data d_grids).
Proof. unfold d_grids, d_grid, arr. cbn [map nd_data]. repeat (constructor; [inc_grid|]). constructor. Qed.
Lemma d_obs_fin : Forall (Forall (fun v : f64 => is_finite v = true)) (map nd_data d_obs).
Proof. repeat (apply Forall_cons; [repeat (apply Forall_cons; [reflexivity|]); apply Forall_nil|]). apply Forall_nil. Qed.
Lemma d_pt0 : map B2R (point_of (fzero F64Ops) (map nd_data d_obs) 0) = [1; 3].
Proof. unfold d_obs, point_of. cbn [map nd_data nth]. repeat (apply f_equal2); try reflexivity; real_lit. Qed.
Lemma d_pt1 : map B2R (point_of (fzero F64Ops) (map nd_data d_obs) 1) = [3 / 4; 2].
Proof. unfold d_obs, point_of. cbn [map nd_data nth]. repeat (apply f_equal2); try reflexivity; real_lit. Qed.
Lemma d_inside j : (j < 2)%nat -> SpecReal.inside_grid (rect_axes (map (map B2R) (map nd_data d_grids))) (map B2R (point_of (fzero F64Ops) (map nd_data d_obs) j)).
Proof.
  intros Hj. rewrite d_grids_real. destruct j as [|[|j]]; [rewrite d_pt0|rewrite d_pt1|lia]; (split; [reflexivity|]);
    intros k a Hk; destruct k as [|[|k]]; [| |destruct k; discriminate Hk| | |destruct k; discriminate Hk]; injection Hk as <-; simpl; unfold tiny; lra.
Qed.
Lemma d_bounded : bounded_values 53 1024 13 d_vals.
Proof.
  split.
  - split; [lra|]. apply Rle_trans with (bpow radix2 4); [simpl; lra|]. apply bpow_le. lia.
  - unfold d_vals. repeat (apply Forall_cons; [split; [reflexivity|apply Rabs_le; real_lit]|]); apply Forall_nil.
Qed.
Lemma d_call : good_call 2 (mkNd [2]%nat [z64 1; f64_lit 3 (-2)]) d_obs d_grids (arr d_vals).
Proof.
  split; [reflexivity|]. split; [reflexivity|]. split; [repeat (apply Forall_cons; [reflexivity|]); apply Forall_nil|].
  split; [repeat (apply Forall_cons; [le_ok|]); apply Forall_nil|]. split; [reflexivity|]. vm_compute. discriminate.
Qed.
Lemma d_samples : samples_within (/ 1000000000000) (rect_axes (map (map B2R) (map nd_data d_grids))) (map B2R d_vals) bowl.
Proof. rewrite d_grids_real, d_vals_real. each_node2; apply Rabs_le; unfold tiny; lra. Qed.
Lemma d_spacing k a : nth_error (rect_axes (map (map B2R) (map nd_data d_grids))) k = Some a -> spacing_at_most a (match k with O => 1 | _ => 2 end).
Proof.
  rewrite d_grids_real. intros Hk. destruct k as [|[|k]]; [| |destruct k; discriminate]; injection Hk as <-;
    intros j Hj; unfold spacing, list_axis, zlen in *; simpl in *.
  - assert (Ej : (j = 0 \/ j = 1)%Z) by lia. destruct Ej as [-> | ->]; simpl; unfold tiny; lra.
  - assert (Ej : (j = 0)%Z) by lia. rewrite Ej. simpl. lra.
Qed.
Lemma d_exact : exists s, multilinear plain (map B2R d_vals) (rect_axes (map (map B2R) (map nd_data d_grids))) everywhere (mlc_interp_one ROps plain s).
Proof.
  rewrite d_grids_real, d_vals_real. eexists. apply multilinear_rectilinear.
  - rrect_ok.
  - unfold tiny. repeat (apply Forall_cons; [sorted_ok|]). apply Forall_nil.
  - assert (0 < tiny < 1) by (unfold tiny; lra). lazy -[Rltb IZR Rplus Rmult Rinv Ropp Rdiv tiny]. rltb. reflexivity.
Qed.
Example C79_evenly_spaced_ex : exists s r,
  fst (py_interpn F64Ops plain d_obs d_grids (arr d_vals) "linear" None true false false (z64 0)) = Ret r /\ nd_shape r = [2]%nat /\
  forall j, (j < 2)%nat -> exists e,
    mlc_interp_one ROps plain s (map B2R (point_of (fzero F64Ops) (map nd_data d_obs) j)) = Ok e /\
    Rabs (B2R (nth j (nd_data r) (fzero F64Ops)) - e) <= / 1000000000.
Proof.
  destruct d_exact as (s & Hs). assert (U := roundoff_64). assert (U0 : 0 <= roundoff 53) by apply bpow_ge_0.
  destruct (C79_evenly_spaced 53 1024 Hp64 He64 plain d_obs d_grids (arr d_vals) _ true false (z64 0) 13 d_call ltac:(simpl; lia) d_inc d_obs_fin d_inside
    d_bounded 2 (proj1 C79_not_exactly_even) d_within) with (eval' := mlc_interp_one ROps plain s) (c' := plain) (dom := everywhere)
    as (r & E & S & _ & H).
  - apply Rle_trans with (bpow radix2 4); [simpl; lra|apply bpow_le; lia].
  - simpl length. simpl INR. lra.
  - lia.
  - exact Hs.
  - exists s, r. split; [exact E|]. split; [exact S|]. intros j Hj. destruct (H j Hj) as (e & Ee & _ & B). exists e. split; [exact Ee|].
    eapply Rle_trans; [exact B|]. unfold detected_error. simpl length. simpl INR.
    assert (W : underflow 53 1024 <= / 2 * roundoff 53).
    { unfold underflow, roundoff. apply Rmult_le_compat_l; [lra|]. apply bpow_le. lia. }
    lra.
Qed.
(** x^2 + y^2 at (1, 3) and (3/4, 2). *)
Example C80_evenly_spaced_ex : exists r,
  fst (py_interpn F64Ops plain d_obs d_grids (arr d_vals) "linear" None true false false (z64 0)) = Ret r /\
  Rabs (B2R (nth 0 (nd_data r) (fzero F64Ops)) - 10) <= 13 / 10 /\ Rabs (B2R (nth 1 (nd_data r) (fzero F64Ops)) - 73 / 16) <= 13 / 10.
Proof.
  assert (U := roundoff_64). assert (U0 : 0 <= roundoff 53) by apply bpow_ge_0.
  destruct (C80_evenly_spaced 53 1024 Hp64 He64 plain d_obs d_grids (arr d_vals) _ true false (z64 0) 13 d_call ltac:(simpl; lia) d_inc d_obs_fin d_inside
    d_bounded 2 (proj1 C79_not_exactly_even) d_within) with (f := bowl) (e := / 1000000000000) (M := fun _ : nat => 2)
      (h := fun k : nat => match k with O => 1 | _ => 2 end) as (r & E & S & _ & H).
  - apply Rle_trans with (bpow radix2 4); [simpl; lra|apply bpow_le; lia].
  - simpl length. simpl INR. lra.
  - lia.
  - exact d_samples.
  - intros k Hk. apply bowl_second; auto.
  - exact d_spacing.
  - exists r. split; [exact E|].
    assert (W : underflow 53 1024 <= / 2 * roundoff 53).
    { unfold underflow, roundoff. apply Rmult_le_compat_l; [lra|]. apply bpow_le. lia. }
    split.
    + destruct (H 0%nat ltac:(simpl; lia)) as (_ & B).
      assert (Ef : bowl (map B2R (point_of (fzero F64Ops) (map nd_data d_obs) 0)) = 10) by (rewrite d_pt0; unfold bowl; simpl; lra).
      assert (B' : Rabs (B2R (nth 0 (nd_data r) (fzero F64Ops)) - bowl (map B2R (point_of (fzero F64Ops) (map nd_data d_obs) 0))) <= 13 / 10).
      { eapply Rle_trans; [exact B|]. change (length (rect_axes _)) with 2%nat. unfold detected_error, sum_upto. simpl length. simpl INR. simpl. lra. }
      rewrite Ef in B'. exact B'.
    + destruct (H 1%nat ltac:(simpl; lia)) as (_ & B).
      assert (Ef : bowl (map B2R (point_of (fzero F64Ops) (map nd_data d_obs) 1)) = 73 / 16) by (rewrite d_pt1; unfold bowl; simpl; lra).
      assert (B' : Rabs (B2R (nth 1 (nd_data r) (fzero F64Ops)) - bowl (map B2R (point_of (fzero F64Ops) (map nd_data d_obs) 1))) <= 13 / 10).
      { eapply Rle_trans; [exact B|]. change (length (rect_axes _)) with 2%nat. unfold detected_error, sum_upto. simpl length. simpl INR. simpl. lra. }
      rewrite Ef in B'. exact B'.
Qed.

(** The uneven grid 0, 1/2, 2 with the samples of x^2 + y^2, one of them off by 1/4. *)
Definition u_obs : list (ndarray f64) := [mkNd [1]%nat [f64_lit 3 (-2)]; mkNd [1]%nat [z64 2]].
Lemma u_call vals : length vals = 6%nat -> good_call 2 (mkNd [1]%nat [f64_lit 3 (-2)]) u_obs uneven_grids (arr vals).
Proof.
  intros Lv. split; [reflexivity|]. split; [reflexivity|]. split; [repeat (apply Forall_cons; [reflexivity|]); apply Forall_nil|].
  split; [repeat (apply Forall_cons; [le_ok|]); apply Forall_nil|]. split; [|]; cbn [arr nd_data]; unfold zlen; rewrite Lv; [reflexivity|vm_compute; discriminate].
Qed.
Lemma u_obs_fin : Forall (Forall (fun v : f64 => is_finite v = true)) (map nd_data u_obs).
Proof. repeat (apply Forall_cons; [repeat (apply Forall_cons; [reflexivity|]); apply Forall_nil|]). apply Forall_nil. Qed.
Lemma u_pt : map B2R (point_of (fzero F64Ops) (map nd_data u_obs) 0) = [3 / 4; 2].
Proof. unfold u_obs, point_of. cbn [map nd_data nth]. repeat (apply f_equal2); try reflexivity; real_lit. Qed.
Lemma u_inside j : (j < 1)%nat -> SpecReal.inside_grid (rect_axes (map (map B2R) (map nd_data uneven_grids))) (map B2R (point_of (fzero F64Ops) (map nd_data u_obs) j)).
Proof.
  intros Hj. destruct j as [|j]; [rewrite u_pt|lia]. change (map nd_data uneven_grids) with lin_grids. rewrite lin_grids_real.
  split; [reflexivity|]. intros k a Hk. destruct k as [|[|k]]; [| |destruct k; discriminate Hk]; injection Hk as <-; simpl; lra.
Qed.
Example C79_unevenly_spaced_ex : exists s r e,
  fst (py_interpn F64Ops plain u_obs uneven_grids (arr lin_vals) "linear" None true false false (z64 0)) = Ret r /\
  mlc_interp_one ROps plain s (map B2R (point_of (fzero F64Ops) (map nd_data u_obs) 0)) = Ok e /\
  Rabs (B2R (nth 0 (nd_data r) (fzero F64Ops)) - e) <= / 1000000000000.
Proof.
  destruct lin_exact_rect as (s & Hs). assert (U := roundoff_64).
  destruct (C79_unevenly_spaced 53 1024 Hp64 He64 plain u_obs uneven_grids (arr lin_vals) _ true false (z64 0) 11 (u_call lin_vals eq_refl) ltac:(simpl; lia) lin_inc u_obs_fin u_inside
    lin_bounded eq_refl uneven_ok lin_mod) with (eval' := mlc_interp_one ROps plain s) (c' := plain) (dom := everywhere) as (r & E & S & _ & H).
  - simpl length. simpl INR. lra.
  - exact Hs.
  - destruct (H 0%nat ltac:(simpl; lia)) as (e & Ee & _ & B). exists s, r, e. split; [exact E|]. split; [exact Ee|].
    eapply Rle_trans; [exact B|]. unfold rectilinear_error. simpl length. simpl INR. assert (Q := err_small 352 ltac:(lra)). lra.
Qed.
Example C80_unevenly_spaced_ex : exists r,
  fst (py_interpn F64Ops plain u_obs uneven_grids (arr bowl_rect) "linear" None true false false (z64 0)) = Ret r /\
  Rabs (B2R (nth 0 (nd_data r) (fzero F64Ops)) - 73 / 16) <= 30 / 16.
Proof.
  assert (U := roundoff_64).
  destruct (C80_unevenly_spaced 53 1024 Hp64 He64 plain u_obs uneven_grids (arr bowl_rect) _ true false (z64 0) 13 (u_call bowl_rect eq_refl) ltac:(simpl; lia) lin_inc u_obs_fin u_inside
    (bowl_bounded _ (or_introl eq_refl)) eq_refl uneven_ok lin_mod) with (f := bowl) (e := 1 / 4) (M := fun _ : nat => 2)
      (h := fun k : nat => match k with O => 3 / 2 | _ => 2 end) as (r & E & S & _ & H).
  - simpl length. simpl INR. lra.
  - exact bowl_rect_samples.
  - intros k Hk. apply bowl_second; auto.
  - change (map nd_data uneven_grids) with lin_grids. rewrite lin_grids_real. intros k a Hk. destruct k as [|[|k]]; [| |destruct k; discriminate]; injection Hk as <-;
      intros j Hj; unfold spacing, list_axis, zlen in *; simpl in *.
    + assert (Ej : (j = 0 \/ j = 1)%Z) by lia. destruct Ej as [-> | ->]; simpl; lra.
    + assert (Ej : (j = 0)%Z) by lia. rewrite Ej. simpl. lra.
  - exists r. split; [exact E|]. destruct (H 0%nat ltac:(simpl; lia)) as (_ & B).
    assert (Ef : bowl (map B2R (point_of (fzero F64Ops) (map nd_data u_obs) 0)) = 73 / 16) by (rewrite u_pt; unfold bowl; simpl; lra).
    assert (B' : Rabs (B2R (nth 0 (nd_data r) (fzero F64Ops)) - bowl (map B2R (point_of (fzero F64Ops) (map nd_data u_obs) 0))) <= 30 / 16).
    { eapply Rle_trans; [exact B|]. change (length (rect_axes _)) with 2%nat. unfold rectilinear_error, sum_upto. simpl length. simpl INR.
    assert (Q := err_small 416 ltac:(lra)). simpl. lra. }
    rewrite Ef in B'. exact B'.
Qed.
Print Assumptions C79_evenly_spaced.
Print Assumptions C79_unevenly_spaced.
Print Assumptions C80_evenly_spaced.
Print Assumptions C80_unevenly_spaced.
