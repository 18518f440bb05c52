(** Property C99: the Python function interpn in floating point at any point, inside or outside the
    grid, with detected or assumed regular grids. *)
From Coq Require Import Reals Lra PeanoNat Bool Lia List String.
From Flocq Require Import Core.Core IEEE754.BinarySingleNaN.
From Verif Require Import Base Ops RInst FInst ModelCore ModelLinear ModelCubic ModelPython Spec SpecOrder SpecIEEE SpecError SpecReal Interpolators SpecApprox SpecPython SpecDetect.
From Verif Require Import SpecExtrap SpecReach SpecCubicError SpecCubicReach.
From Verif Require Import GenLemmas FLemmas FProofs FProofs2 FError2 FApprox FPyReach RChar ExampleData ExampleReal.
From Verif Require Import PropertiesExact PropertiesFloat PropertiesError PropertiesApprox PropertiesAccuracy PropertiesExtrap PropertiesPython PropertiesReach PropertiesCubicError PropertiesCubicReach PropertiesDetect PropertiesDyadic PropertiesCubicExact.
Import ListNotations.
Open Scope string_scope.
Open Scope R_scope.
Unset Implicit Arguments.

(** * C99: every number returned is close to the number that the interpolator over the same axes
    returns in exact arithmetic, and to the function sampled. If assume_regular is set or the
    grids are evenly spaced, the axes are those given by the first two coordinates of each grid;
    otherwise by all coordinates. *)
Theorem C99_linear_regular :
  forall prec emax (Hp : Prec_gt_0 prec) (He : Prec_lt_emax prec emax), let o := BOps Hp He in
  forall c obs grids vals o0 lin assume atol,
  let gs := map nd_data grids in let vs := nd_data vals in
  let point j := point_of (fzero o) (map nd_data obs) j in let n := length (nd_data o0) in
  let dims := map zlen gs in let starts := firsts (fzero o) gs in let steps := spacings o (fzero o) gs in
  let axes := reg_axes dims (map B2R starts) (map B2R steps) in
  (1 <= length grids <= 8)%nat -> forall A kappa : R,
  good_call 2 o0 obs grids vals -> assume = true \/ Forall (evenly_spaced o) gs -> Forall (fun h => 0 < B2R h) steps ->
  axes_within prec emax kappa starts steps dims ->
  (forall j, (j < n)%nat -> point_within prec emax kappa steps (point j) /\ reach_fits emax axes (map B2R (point j)) A) ->
  bounded_values prec emax A vs -> 504 * INR (length grids) * (roundoff prec * kappa) <= 1 -> (prec <= 64)%Z ->
  forall c' (dom : list R -> Prop) eval', multilinear c' (map B2R vs) axes dom eval' -> (forall j, (j < n)%nat -> dom (map B2R (point j))) ->
  exists r, fst (py_interpn o c obs grids vals "linear" None lin assume false atol) = Ret r /\
  nd_shape r = nd_shape o0 /\ length (nd_data r) = n /\
  forall j, (j < n)%nat -> let y := nth j (nd_data r) (fzero o) in let xr := map B2R (point j) in
    exists e, eval' xr = Ok e /\ is_finite y = true /\ Rabs (B2R y - e) <= reach_factor axes xr * regular_error prec emax (length grids) kappa A.
Proof. intros prec emax Hp He o. exact (reach_linear_regular prec emax Hp He). Qed.
Theorem C99_linear_rectilinear :
  forall prec emax (Hp : Prec_gt_0 prec) (He : Prec_lt_emax prec emax), let o := BOps Hp He in
  forall c obs grids vals o0 lin assume atol,
  let gs := map nd_data grids in let vs := nd_data vals in
  let point j := point_of (fzero o) (map nd_data obs) j in let n := length (nd_data o0) in
  let axes := rect_axes (map (map B2R) gs) in
  (1 <= length grids <= 8)%nat -> forall A : R,
  good_call 2 o0 obs grids vals -> assume = false -> ~ Forall (evenly_spaced o) gs ->
  Forall (increasing_grid o) gs -> Forall (Forall moderate) gs ->
  (forall j, (j < n)%nat -> Forall moderate (point j) /\ reach_fits emax axes (map B2R (point j)) A) ->
  bounded_values prec emax A vs -> 144 * INR (length grids) * roundoff prec <= 1 ->
  forall c' (dom : list R -> Prop) eval', multilinear c' (map B2R vs) axes dom eval' -> (forall j, (j < n)%nat -> dom (map B2R (point j))) ->
  exists r, fst (py_interpn o c obs grids vals "linear" None lin assume false atol) = Ret r /\
  nd_shape r = nd_shape o0 /\ length (nd_data r) = n /\
  forall j, (j < n)%nat -> let y := nth j (nd_data r) (fzero o) in let xr := map B2R (point j) in
    exists e, eval' xr = Ok e /\ is_finite y = true /\ Rabs (B2R y - e) <= reach_factor axes xr * rectilinear_reach_error prec emax (length grids) A.
Proof. intros prec emax Hp He o. exact (reach_linear_rectilinear prec emax Hp He). Qed.
Theorem C99_cubic_regular :
  forall prec emax (Hp : Prec_gt_0 prec) (He : Prec_lt_emax prec emax), let o := BOps Hp He in
  forall c obs grids vals o0 lin assume atol,
  let gs := map nd_data grids in let vs := nd_data vals in
  let point j := point_of (fzero o) (map nd_data obs) j in let n := length (nd_data o0) in
  let dims := map zlen gs in let starts := firsts (fzero o) gs in let steps := spacings o (fzero o) gs in
  let axes := reg_axes dims (map B2R starts) (map B2R steps) in
  (1 <= length grids <= 8)%nat -> forall A kappa D : R,
  let gain := cubic_reach_gain lin 1 D in let stretch := cubic_stretch lin D in
  good_call 4 o0 obs grids vals -> assume = true \/ Forall (evenly_spaced o) gs -> Forall (fun h => 0 < B2R h) steps ->
  axes_within prec emax kappa starts steps dims ->
  (forall j, (j < n)%nat -> point_within prec emax kappa steps (point j) /\ outside_at_most axes (map B2R (point j)) D) ->
  cubic_reach_values prec emax 1 gain (regular_gamma prec kappa) stretch (length grids) A vs ->
  2000 * INR (length grids) * (roundoff prec * kappa) <= 1 -> (prec <= 64)%Z ->
  forall c' (dom : list R -> Prop) eval', multicubic c' lin (map B2R vs) axes dom eval' -> (forall j, (j < n)%nat -> dom (map B2R (point j))) ->
  exists r, fst (py_interpn o c obs grids vals "cubic" None lin assume false atol) = Ret r /\
  nd_shape r = nd_shape o0 /\ length (nd_data r) = n /\
  forall j, (j < n)%nat -> let y := nth j (nd_data r) (fzero o) in let xr := map B2R (point j) in
    exists e, eval' xr = Ok e /\ is_finite y = true /\ Rabs (B2R y - e) <= cubic_reach_error prec emax gain (regular_gamma prec kappa) stretch (length grids) A.
Proof. intros prec emax Hp He o. exact (reach_cubic_regular prec emax Hp He). Qed.
Theorem C99_cubic_rectilinear :
  forall prec emax (Hp : Prec_gt_0 prec) (He : Prec_lt_emax prec emax), let o := BOps Hp He in
  forall c obs grids vals o0 lin assume atol,
  let gs := map nd_data grids in let vs := nd_data vals in
  let point j := point_of (fzero o) (map nd_data obs) j in let n := length (nd_data o0) in
  let axes := rect_axes (map (map B2R) gs) in
  (1 <= length grids <= 8)%nat -> forall A rho D : R,
  let gain := cubic_reach_gain lin rho D in let stretch := cubic_stretch lin D in
  good_call 4 o0 obs grids vals -> assume = false -> ~ Forall (evenly_spaced o) gs ->
  Forall (increasing_grid o) gs -> Forall (Forall moderate) gs ->
  (forall j, (j < n)%nat -> Forall moderate (point j) /\ outside_at_most axes (map B2R (point j)) D) ->
  1 <= rho -> Forall (fun a => spacing_ratio_at_most a rho) axes ->
  cubic_reach_values prec emax rho gain (rectilinear_gamma prec rho) stretch (length grids) A vs ->
  14000 * INR (length grids) * (roundoff prec * rho) <= 1 ->
  forall c' (dom : list R -> Prop) eval', multicubic c' lin (map B2R vs) axes dom eval' -> (forall j, (j < n)%nat -> dom (map B2R (point j))) ->
  exists r, fst (py_interpn o c obs grids vals "cubic" None lin assume false atol) = Ret r /\
  nd_shape r = nd_shape o0 /\ length (nd_data r) = n /\
  forall j, (j < n)%nat -> let y := nth j (nd_data r) (fzero o) in let xr := map B2R (point j) in
    exists e, eval' xr = Ok e /\ is_finite y = true /\ Rabs (B2R y - e) <= cubic_reach_error prec emax gain (rectilinear_gamma prec rho) stretch (length grids) A.
Proof. intros prec emax Hp He o. exact (reach_cubic_rectilinear prec emax Hp He). Qed.
(** The same, for values sampled from a function f with accuracy e. *)
Theorem C99_linear_regular_function :
  forall prec emax (Hp : Prec_gt_0 prec) (He : Prec_lt_emax prec emax), let o := BOps Hp He in
  forall c obs grids vals o0 lin assume atol,
  let gs := map nd_data grids in let vs := nd_data vals in
  let point j := point_of (fzero o) (map nd_data obs) j in let n := length (nd_data o0) in
  let dims := map zlen gs in let starts := firsts (fzero o) gs in let steps := spacings o (fzero o) gs in
  let axes := reg_axes dims (map B2R starts) (map B2R steps) in
  (1 <= length grids <= 8)%nat -> forall A kappa : R,
  good_call 2 o0 obs grids vals -> assume = true \/ Forall (evenly_spaced o) gs -> Forall (fun h => 0 < B2R h) steps ->
  axes_within prec emax kappa starts steps dims ->
  (forall j, (j < n)%nat -> point_within prec emax kappa steps (point j) /\ reach_fits emax axes (map B2R (point j)) A) ->
  bounded_values prec emax A vs -> 504 * INR (length grids) * (roundoff prec * kappa) <= 1 -> (prec <= 64)%Z ->
  forall f e M, samples_within e axes (map B2R vs) f ->
  (forall j k, (j < n)%nat -> (k < length grids)%nat -> second_derivative_reaching axes (map B2R (point j)) f k (M k)) ->
  exists r, fst (py_interpn o c obs grids vals "linear" None lin assume false atol) = Ret r /\
  nd_shape r = nd_shape o0 /\ length (nd_data r) = n /\
  forall j, (j < n)%nat -> let y := nth j (nd_data r) (fzero o) in let xr := map B2R (point j) in
    is_finite y = true /\ Rabs (B2R y - f xr) <= reach_factor axes xr * regular_error prec emax (length grids) kappa A + reach_factor axes xr * e
      + sum_upto (length grids) (fun k => prod_upto k (fun i => 1 + 2 * outside_by axes xr i) * (M k * B2R (nth k steps (fzero o)) ^ 2 * linear_miss (outside_by axes xr k))).
Proof. intros prec emax Hp He o. exact (reach_linear_regular_function prec emax Hp He). Qed.
Theorem C99_linear_rectilinear_function :
  forall prec emax (Hp : Prec_gt_0 prec) (He : Prec_lt_emax prec emax), let o := BOps Hp He in
  forall c obs grids vals o0 lin assume atol,
  let gs := map nd_data grids in let vs := nd_data vals in
  let point j := point_of (fzero o) (map nd_data obs) j in let n := length (nd_data o0) in
  let axes := rect_axes (map (map B2R) gs) in
  (1 <= length grids <= 8)%nat -> forall A : R,
  good_call 2 o0 obs grids vals -> assume = false -> ~ Forall (evenly_spaced o) gs ->
  Forall (increasing_grid o) gs -> Forall (Forall moderate) gs ->
  (forall j, (j < n)%nat -> Forall moderate (point j) /\ reach_fits emax axes (map B2R (point j)) A) ->
  bounded_values prec emax A vs -> 144 * INR (length grids) * roundoff prec <= 1 ->
  forall f e M h, samples_within e axes (map B2R vs) f ->
  (forall j k, (j < n)%nat -> (k < length grids)%nat -> second_derivative_reaching axes (map B2R (point j)) f k (M k)) ->
  (forall k a, nth_error axes k = Some a -> spacing_at_most a (h k)) ->
  exists r, fst (py_interpn o c obs grids vals "linear" None lin assume false atol) = Ret r /\
  nd_shape r = nd_shape o0 /\ length (nd_data r) = n /\
  forall j, (j < n)%nat -> let y := nth j (nd_data r) (fzero o) in let xr := map B2R (point j) in
    is_finite y = true /\ Rabs (B2R y - f xr) <= reach_factor axes xr * rectilinear_reach_error prec emax (length grids) A + reach_factor axes xr * e
      + sum_upto (length grids) (fun k => prod_upto k (fun i => 1 + 2 * outside_by axes xr i) * (M k * h k ^ 2 * linear_miss (outside_by axes xr k))).
Proof. intros prec emax Hp He o. exact (reach_linear_rectilinear_function prec emax Hp He). Qed.
Theorem C99_cubic_regular_function :
  forall prec emax (Hp : Prec_gt_0 prec) (He : Prec_lt_emax prec emax), let o := BOps Hp He in
  forall c obs grids vals o0 lin assume atol,
  let gs := map nd_data grids in let vs := nd_data vals in
  let point j := point_of (fzero o) (map nd_data obs) j in let n := length (nd_data o0) in
  let dims := map zlen gs in let starts := firsts (fzero o) gs in let steps := spacings o (fzero o) gs in
  let axes := reg_axes dims (map B2R starts) (map B2R steps) in
  (1 <= length grids <= 8)%nat -> forall A kappa D : R,
  let gain := cubic_reach_gain lin 1 D in let stretch := cubic_stretch lin D in
  good_call 4 o0 obs grids vals -> assume = true \/ Forall (evenly_spaced o) gs -> Forall (fun h => 0 < B2R h) steps ->
  axes_within prec emax kappa starts steps dims ->
  (forall j, (j < n)%nat -> point_within prec emax kappa steps (point j) /\ outside_at_most axes (map B2R (point j)) D) ->
  cubic_reach_values prec emax 1 gain (regular_gamma prec kappa) stretch (length grids) A vs ->
  2000 * INR (length grids) * (roundoff prec * kappa) <= 1 -> (prec <= 64)%Z ->
  forall f e M N, samples_within e axes (map B2R vs) f ->
  (forall j k, (j < n)%nat -> (k < length grids)%nat -> third_derivative_reaching axes (map B2R (point j)) f k (M k)) ->
  (lin = true -> forall j k, (j < n)%nat -> (k < length grids)%nat -> second_derivative_reaching axes (map B2R (point j)) f k (N k)) ->
  exists r, fst (py_interpn o c obs grids vals "cubic" None lin assume false atol) = Ret r /\
  nd_shape r = nd_shape o0 /\ length (nd_data r) = n /\
  forall j, (j < n)%nat -> let y := nth j (nd_data r) (fzero o) in let xr := map B2R (point j) in
    is_finite y = true /\ Rabs (B2R y - f xr) <= cubic_reach_error prec emax gain (regular_gamma prec kappa) stretch (length grids) A
      + prod_upto (length grids) (fun k => cubic_reach_gain lin 1 (outside_by axes xr k)) * e
      + sum_upto (length grids) (fun k => prod_upto k (fun i => cubic_reach_gain lin 1 (outside_by axes xr i))
          * cubic_reach_miss lin (M k) (N k) (B2R (nth k steps (fzero o))) (outside_by axes xr k)).
Proof. intros prec emax Hp He o. exact (reach_cubic_regular_function prec emax Hp He). Qed.
Theorem C99_cubic_rectilinear_function :
  forall prec emax (Hp : Prec_gt_0 prec) (He : Prec_lt_emax prec emax), let o := BOps Hp He in
  forall c obs grids vals o0 lin assume atol,
  let gs := map nd_data grids in let vs := nd_data vals in
  let point j := point_of (fzero o) (map nd_data obs) j in let n := length (nd_data o0) in
  let axes := rect_axes (map (map B2R) gs) in
  (1 <= length grids <= 8)%nat -> forall A rho D : R,
  let gain := cubic_reach_gain lin rho D in let stretch := cubic_stretch lin D in
  good_call 4 o0 obs grids vals -> assume = false -> ~ Forall (evenly_spaced o) gs ->
  Forall (increasing_grid o) gs -> Forall (Forall moderate) gs ->
  (forall j, (j < n)%nat -> Forall moderate (point j) /\ outside_at_most axes (map B2R (point j)) D) ->
  1 <= rho -> Forall (fun a => spacing_ratio_at_most a rho) axes ->
  cubic_reach_values prec emax rho gain (rectilinear_gamma prec rho) stretch (length grids) A vs ->
  14000 * INR (length grids) * (roundoff prec * rho) <= 1 ->
  forall f e M N h, samples_within e axes (map B2R vs) f ->
  (forall j k, (j < n)%nat -> (k < length grids)%nat -> third_derivative_reaching axes (map B2R (point j)) f k (M k)) ->
  (lin = true -> forall j k, (j < n)%nat -> (k < length grids)%nat -> second_derivative_reaching axes (map B2R (point j)) f k (N k)) ->
  (forall k a, nth_error axes k = Some a -> spacing_at_most a (h k)) ->
  exists r, fst (py_interpn o c obs grids vals "cubic" None lin assume false atol) = Ret r /\
  nd_shape r = nd_shape o0 /\ length (nd_data r) = n /\
  forall j, (j < n)%nat -> let y := nth j (nd_data r) (fzero o) in let xr := map B2R (point j) in
    is_finite y = true /\ Rabs (B2R y - f xr) <= cubic_reach_error prec emax gain (rectilinear_gamma prec rho) stretch (length grids) A
      + prod_upto (length grids) (fun k => cubic_reach_gain lin rho (outside_by axes xr k)) * e
      + sum_upto (length grids) (fun k => prod_upto k (fun i => cubic_reach_gain lin rho (outside_by axes xr i))
          * cubic_reach_miss lin (M k) (N k) (h k) (outside_by axes xr k)).
Proof. intros prec emax Hp He o. exact (reach_cubic_rectilinear_function prec emax Hp He). Qed.

(** ** Examples
    The calls of C62, C63, C75 and C76 from Python. *)
Definition far_obs : list (ndarray f64) := [mkNd [1]%nat [z64 3]; mkNd [1]%nat [z64 2]].
Definition far_o0 : ndarray f64 := mkNd [1]%nat [z64 3].
Lemma far_point j : (j < length (nd_data far_o0))%nat -> point_of (fzero F64Ops) (map nd_data far_obs) j = far_x.
Proof. intros Hj. simpl in Hj. assert (j = 0)%nat as -> by lia. reflexivity. Qed.
Lemma lin_spaced : Forall (fun h : f64 => 0 < B2R h) lin_steps.
Proof. unfold lin_steps. repeat (apply Forall_cons; [real_lit|]). apply Forall_nil. Qed.
Lemma ev_call vals : vals = lin_vals \/ vals = bowl_reg -> good_call 2 far_o0 far_obs ev_grids (arr vals).
Proof.
  intros [-> | ->]; (split; [reflexivity|]; split; [reflexivity|]; split; [repeat constructor|]; split; [repeat constructor|];
  split; [reflexivity|vm_compute; discriminate]).
Qed.
Lemma lin_call vals : vals = lin_vals \/ vals = bowl_rect -> good_call 2 far_o0 far_obs (map arr lin_grids) (arr vals).
Proof.
  intros [-> | ->]; (split; [reflexivity|]; split; [reflexivity|]; split; [repeat constructor|]; split; [repeat constructor|];
  split; [reflexivity|vm_compute; discriminate]).
Qed.
Lemma lin_uneven : ~ Forall (evenly_spaced F64Ops) (map nd_data (map arr lin_grids)).
Proof.
  intros H. inversion H as [|g l H1 H2]; subst.
  assert (E := H1 1%nat _ _ _ _ eq_refl eq_refl eq_refl eq_refl). destruct E as (E & _). vm_compute in E. discriminate E.
Qed.
Example C99_linear_regular_ex : exists s r v,
  fst (py_interpn F64Ops plain far_obs ev_grids (arr lin_vals) "linear" None true true false (z64 0)) = Ret r /\ nd_shape r = [1]%nat /\
  mlr_interp_one ROps plain s [3; 2] = Ok v /\ Rabs (B2R (nth 0 (nd_data r) (z64 0)) - v) <= / 10000000000.
Proof.
  assert (U := roundoff_64). destruct lin_exact_reg_far as (s & dom & Hs & Dx).
  assert (Q := C99_linear_regular 53 1024 Hp64 He64 plain far_obs ev_grids (arr lin_vals) far_o0 true true (z64 0) ltac:(simpl; lia) 11 6).
  cbv zeta in Q. change (spacings (BOps Hp64 He64) (fzero (BOps Hp64 He64)) (map nd_data ev_grids)) with (spacings F64Ops (z64 0) (map nd_data ev_grids)) in Q.
  rewrite ev_spacings in Q. change (firsts (fzero (BOps Hp64 He64)) (map nd_data ev_grids)) with lin_starts in Q.
  change (map zlen (map nd_data ev_grids)) with lin_dims in Q.
  destruct (Q (ev_call lin_vals (or_introl eq_refl)) (or_introl eq_refl) lin_spaced lin_within_6) with (c' := plain) (dom := dom) (eval' := mlr_interp_one ROps plain s) as (r & E & S & _ & H).
  - intros j Hj. assert (P := far_point j Hj). split.
    + eapply eq_ind_r with (P := fun p => point_within 53 1024 6 lin_steps p); [exact far_within|exact P].
    + eapply eq_ind_r with (P := fun p => reach_fits 1024 _ (map B2R p) 11); [apply far_reg_fits; lra|exact P].
  - exact lin_bounded.
  - simpl. lra.
  - lia.
  - exact Hs.
  - intros j Hj. assert (P := far_point j Hj). eapply eq_ind_r with (P := fun p => dom (map B2R p)); [rewrite far_x_real; exact Dx|exact P].
  - destruct (H 0%nat ltac:(simpl; lia)) as (v & Ev & _ & B). clear H Q. exists s, r, v. split; [exact E|]. split; [exact S|].
    assert (P := far_point 0 ltac:(simpl; lia)).
    assert (Ev' : mlr_interp_one ROps plain s (map B2R far_x) = Ok v) by exact Ev. rewrite far_x_real in Ev'. split; [exact Ev'|].
    eapply Rle_trans; [exact B|]. change (map B2R (point_of (fzero (BOps Hp64 He64)) (map nd_data far_obs) 0)) with (map B2R far_x).
    rewrite far_reg_factor. unfold regular_error. simpl length. simpl INR. assert (Q := far_small 76032 54 ltac:(lra) ltac:(lra)). lra.
Qed.
Example C99_linear_rectilinear_ex : exists s r v,
  fst (py_interpn F64Ops plain far_obs (map arr lin_grids) (arr lin_vals) "linear" None true false false (z64 0)) = Ret r /\ nd_shape r = [1]%nat /\
  mlc_interp_one ROps plain s [3; 2] = Ok v /\ Rabs (B2R (nth 0 (nd_data r) (z64 0)) - v) <= / 10000000000.
Proof.
  assert (U := roundoff_64). destruct lin_exact_rect as (s & Hs).
  destruct (C99_linear_rectilinear 53 1024 Hp64 He64 plain far_obs (map arr lin_grids) (arr lin_vals) far_o0 true false (z64 0) ltac:(simpl; lia) 11
    (lin_call lin_vals (or_introl eq_refl)) eq_refl lin_uneven lin_inc lin_mod) with (c' := plain) (dom := everywhere) (eval' := mlc_interp_one ROps plain s) as (r & E & S & _ & H).
  - intros j Hj. assert (P := far_point j Hj). split.
    + eapply eq_ind_r with (P := fun p => Forall (@moderate 53 1024) p); [exact far_moderate|exact P].
    + eapply eq_ind_r with (P := fun p => reach_fits 1024 _ (map B2R p) 11); [apply far_rect_fits; lra|exact P].
  - exact lin_bounded.
  - simpl. lra.
  - exact Hs.
  - intros j Hj. exact I.
  - destruct (H 0%nat ltac:(simpl; lia)) as (v & Ev & _ & B). clear H. exists s, r, v. split; [exact E|]. split; [exact S|].
    assert (Ev' : mlc_interp_one ROps plain s (map B2R far_x) = Ok v) by exact Ev. rewrite far_x_real in Ev'. split; [exact Ev'|].
    eapply Rle_trans; [exact B|]. change (map B2R (point_of (fzero (BOps Hp64 He64)) (map nd_data far_obs) 0)) with (map B2R far_x).
    change (map nd_data (map arr lin_grids)) with lin_grids.
    rewrite far_rect_factor. unfold rectilinear_reach_error. simpl length. simpl INR. assert (Q := far_small 924 14 ltac:(lra) ltac:(lra)). lra.
Qed.
(** x^2 + y^2 = 13 at (3, 2). *)
Example C99_linear_regular_function_ex : exists r,
  fst (py_interpn F64Ops plain far_obs ev_grids (arr bowl_reg) "linear" None true true false (z64 0)) = Ret r /\ nd_shape r = [1]%nat /\
  Rabs (B2R (nth 0 (nd_data r) (z64 0)) - 13) <= 15.
Proof.
  assert (U := roundoff_64). assert (F : bowl (map B2R far_x) = 13) by (rewrite far_x_real; unfold bowl; simpl; field).
  destruct far_reg_outside as (O0 & O1).
  assert (Q := C99_linear_regular_function 53 1024 Hp64 He64 plain far_obs ev_grids (arr bowl_reg) far_o0 true true (z64 0) ltac:(simpl; lia) 13 6).
  cbv zeta in Q. change (spacings (BOps Hp64 He64) (fzero (BOps Hp64 He64)) (map nd_data ev_grids)) with (spacings F64Ops (z64 0) (map nd_data ev_grids)) in Q.
  rewrite ev_spacings in Q. change (firsts (fzero (BOps Hp64 He64)) (map nd_data ev_grids)) with lin_starts in Q.
  change (map zlen (map nd_data ev_grids)) with lin_dims in Q.
  destruct (Q (ev_call bowl_reg (or_intror eq_refl)) (or_introl eq_refl) lin_spaced lin_within_6) with (f := bowl) (e := 0) (M := fun _ : nat => 2) as (r & E & S & _ & H).
  - intros j Hj. assert (P := far_point j Hj). split.
    + eapply eq_ind_r with (P := fun p => point_within 53 1024 6 lin_steps p); [exact far_within|exact P].
    + eapply eq_ind_r with (P := fun p => reach_fits 1024 _ (map B2R p) 13); [apply far_reg_fits; lra|exact P].
  - exact (bowl_bounded _ (or_intror eq_refl)).
  - simpl. lra.
  - lia.
  - exact bowl_reg_samples.
  - intros j k Hj Hk. apply bowl_reaching; auto.
  - destruct (H 0%nat ltac:(simpl; lia)) as (_ & B). clear H Q. exists r. split; [exact E|]. split; [exact S|].
    change (map B2R (point_of (fzero (BOps Hp64 He64)) (map nd_data far_obs) 0)) with (map B2R far_x) in B.
    rewrite F, far_reg_factor in B. eapply Rle_trans; [exact B|].
    unfold regular_error, sum_upto, prod_upto.
    assert (S0 : B2R (nth 0 lin_steps (B754_zero false)) = 1 / 2) by (cbn [nth lin_steps]; real_lit).
    assert (S1 : B2R (nth 1 lin_steps (B754_zero false)) = 2) by (cbn [nth lin_steps]; real_lit).
    change (length ev_grids) with 2%nat. cbn [seq map fold_right Rsum INR]. rewrite O0, O1.
    match goal with |- context [2 * ?t ^ 2 * linear_miss 4] => replace t with (1 / 2) by (symmetry; exact S0) end.
    match goal with |- context [2 * ?t ^ 2 * linear_miss 0] => replace t with 2 by (symmetry; exact S1) end. unfold Rsum, linear_miss.
    cbn [fold_right]. assert (Q := far_small 89856 54 ltac:(lra) ltac:(lra)). simpl INR. lra.
Qed.
Example C99_linear_rectilinear_function_ex : exists r,
  fst (py_interpn F64Ops plain far_obs (map arr lin_grids) (arr bowl_rect) "linear" None true false false (z64 0)) = Ret r /\ nd_shape r = [1]%nat /\
  Rabs (B2R (nth 0 (nd_data r) (z64 0)) - 13) <= 7.
Proof.
  assert (U := roundoff_64). assert (F : bowl (map B2R far_x) = 13) by (rewrite far_x_real; unfold bowl; simpl; field).
  destruct far_rect_outside as (O0 & O1).
  destruct (C99_linear_rectilinear_function 53 1024 Hp64 He64 plain far_obs (map arr lin_grids) (arr bowl_rect) far_o0 true false (z64 0) ltac:(simpl; lia) 13
    (lin_call bowl_rect (or_intror eq_refl)) eq_refl lin_uneven lin_inc lin_mod) with (f := bowl) (e := 1 / 4) (M := fun _ : nat => 2)
      (h := fun k : nat => match k with O => 3 / 2 | _ => 2 end) as (r & E & S & _ & H).
  - intros j Hj. assert (P := far_point j Hj). split.
    + eapply eq_ind_r with (P := fun p => Forall (@moderate 53 1024) p); [exact far_moderate|exact P].
    + eapply eq_ind_r with (P := fun p => reach_fits 1024 _ (map B2R p) 13); [apply far_rect_fits; lra|exact P].
  - exact (bowl_bounded _ (or_introl eq_refl)).
  - simpl. lra.
  - exact bowl_rect_samples.
  - intros j k Hj Hk. apply bowl_reaching; auto.
  - change (map nd_data (map arr lin_grids)) with lin_grids.
    rewrite lin_grids_real. intros k a Hk. destruct k as [|[|k]]; [| |destruct k; discriminate]; injection Hk as <-;
      intros j Hj; unfold spacing, list_axis, zlen in *; simpl in *.
    + assert (Ej : (j = 0 \/ j = 1)%Z) by lia. destruct Ej as [-> | ->]; simpl; lra.
    + assert (Ej : (j = 0)%Z) by lia. rewrite Ej. simpl. lra.
  - destruct (H 0%nat ltac:(simpl; lia)) as (_ & B). clear H. exists r. split; [exact E|]. split; [exact S|].
    change (map B2R (point_of (fzero (BOps Hp64 He64)) (map nd_data far_obs) 0)) with (map B2R far_x) in B.
    change (map nd_data (map arr lin_grids)) with lin_grids in B.
    rewrite F, far_rect_factor in B. eapply Rle_trans; [exact B|].
    unfold rectilinear_reach_error, sum_upto, prod_upto.
    change (length (map arr lin_grids)) with 2%nat. cbn [seq map fold_right Rsum INR]. rewrite O0, O1. unfold Rsum, linear_miss.
    cbn [fold_right]. assert (Q := far_small 1092 14 ltac:(lra) ltac:(lra)). simpl INR. lra.
Qed.
(** x^3 + y^2 at (5, 9). *)
Definition out_obs : list (ndarray f64) := [mkNd [1]%nat [z64 5]; mkNd [1]%nat [z64 9]].
Definition out_o0 : ndarray f64 := mkNd [1]%nat [z64 5].
Lemma out_point j : (j < length (nd_data out_o0))%nat -> point_of (fzero F64Ops) (map nd_data out_obs) j = out_x.
Proof. intros Hj. simpl in Hj. assert (j = 0)%nat as -> by lia. reflexivity. Qed.
Lemma ws_spaced : Forall (fun h : f64 => 0 < B2R h) ws_steps.
Proof. unfold ws_steps. repeat (apply Forall_cons; [real_lit|]). apply Forall_nil. Qed.
Lemma we_call : good_call 4 out_o0 out_obs (map arr we_grids) (arr ws_vals).
Proof. split; [reflexivity|]. split; [reflexivity|]. split; [repeat constructor|]. split; [repeat constructor|]. split; [reflexivity|vm_compute; discriminate]. Qed.
Lemma wg_call : good_call 4 out_o0 out_obs (map arr wg_grids) (arr wg_vals).
Proof. split; [reflexivity|]. split; [reflexivity|]. split; [repeat constructor|]. split; [repeat constructor|]. split; [reflexivity|vm_compute; discriminate]. Qed.
Lemma wg_uneven : ~ Forall (evenly_spaced F64Ops) (map nd_data (map arr wg_grids)).
Proof.
  intros H. inversion H as [|g l H1 H2]; subst.
  assert (E := H1 1%nat _ _ _ _ eq_refl eq_refl eq_refl eq_refl). destruct E as (E & _). vm_compute in E. discriminate E.
Qed.
Example C99_cubic_regular_ex lin : exists r v,
  fst (py_interpn F64Ops plain out_obs (map arr we_grids) (arr ws_vals) "cubic" None lin false false (z64 0)) = Ret r /\ nd_shape r = [1]%nat /\
  ws_reval lin [5; 9] = Ok v /\ Rabs (B2R (nth 0 (nd_data r) (z64 0)) - v) <= / 1000000.
Proof.
  assert (U := roundoff_64).
  assert (Q := C99_cubic_regular 53 1024 Hp64 He64 plain out_obs (map arr we_grids) (arr ws_vals) out_o0 lin false (z64 0) ltac:(simpl; lia) 113 5 2).
  cbv zeta in Q. change (spacings (BOps Hp64 He64) (fzero (BOps Hp64 He64)) (map nd_data (map arr we_grids))) with (spacings F64Ops (z64 0) we_grids) in Q.
  rewrite we_spacings in Q. change (firsts (fzero (BOps Hp64 He64)) (map nd_data (map arr we_grids))) with ws_starts in Q.
  change (map zlen (map nd_data (map arr we_grids))) with ws_dims in Q.
  destruct (Q we_call (or_intror we_even) ws_spaced ws_within_5) with (c' := rplain) (dom := cell_fits (isize_min + 1) rc_starts rc_steps) (eval' := ws_reval lin) as (r & E & S & _ & H).
  - intros j Hj. assert (P := out_point j Hj). split.
    + eapply eq_ind_r with (P := fun p => point_within 53 1024 5 ws_steps p); [exact out_within|exact P].
    + eapply eq_ind_r with (P := fun p => outside_at_most _ (map B2R p) 2); [exact out_reg_outside|exact P].
  - exact (out_reg_values lin).
  - simpl. lra.
  - lia.
  - cbn [arr nd_data]. rewrite ws_starts_real, ws_steps_real, ws_vals_real. apply ws_exact.
  - intros j Hj. assert (P := out_point j Hj). eapply eq_ind_r with (P := fun p => cell_fits (isize_min + 1) rc_starts rc_steps (map B2R p)); [rewrite out_x_real; clear; fits|exact P].
  - destruct (H 0%nat ltac:(simpl; lia)) as (v & Ev & _ & B). clear H Q. exists r, v. split; [exact E|]. split; [exact S|].
    assert (Ev' : ws_reval lin (map B2R out_x) = Ok v) by exact Ev. rewrite out_x_real in Ev'. split; [exact Ev'|].
    eapply Rle_trans; [exact B|]. exact (out_reg_err lin).
Qed.
Example C99_cubic_rectilinear_ex lin : exists r v,
  fst (py_interpn F64Ops plain out_obs (map arr wg_grids) (arr wg_vals) "cubic" None lin false false (z64 0)) = Ret r /\ nd_shape r = [1]%nat /\
  wave_eval lin [5; 9] = Ok v /\ Rabs (B2R (nth 0 (nd_data r) (z64 0)) - v) <= / 1000000.
Proof.
  assert (U := roundoff_64).
  destruct (C99_cubic_rectilinear 53 1024 Hp64 He64 plain out_obs (map arr wg_grids) (arr wg_vals) out_o0 lin false (z64 0) ltac:(simpl; lia) 113 4 1
    wg_call eq_refl wg_uneven wg_inc wg_mod) with (c' := rplain) (dom := everywhere) (eval' := wave_eval lin) as (r & E & S & _ & H).
  - intros j Hj. assert (P := out_point j Hj). split.
    + eapply eq_ind_r with (P := fun p => Forall (@moderate 53 1024) p); [exact out_moderate|exact P].
    + eapply eq_ind_r with (P := fun p => outside_at_most _ (map B2R p) 1); [exact out_rect_outside|exact P].
  - lra.
  - exact wg_ratio.
  - exact (out_rect_values lin).
  - simpl. lra.
  - change (map nd_data (map arr wg_grids)) with wg_grids. cbn [arr nd_data]. rewrite wg_grids_real, wg_vals_real. apply wave_ok.
  - intros j Hj. exact I.
  - destruct (H 0%nat ltac:(simpl; lia)) as (v & Ev & _ & B). clear H. exists r, v. split; [exact E|]. split; [exact S|].
    assert (Ev' : wave_eval lin (map B2R out_x) = Ok v) by exact Ev. rewrite out_x_real in Ev'. split; [exact Ev'|].
    eapply Rle_trans; [exact B|]. exact (out_rect_err lin).
Qed.
Example C99_cubic_regular_function_ex lin : exists r,
  fst (py_interpn F64Ops plain out_obs (map arr we_grids) (arr ws_vals) "cubic" None lin false false (z64 0)) = Ret r /\ nd_shape r = [1]%nat /\
  Rabs (B2R (nth 0 (nd_data r) (z64 0)) - 206) <= (if lin then 102 else 25).
Proof.
  assert (U := roundoff_64). assert (F : wave (map B2R out_x) = 206) by (rewrite out_x_real; unfold wave; simpl; lra).
  assert (Q := C99_cubic_regular_function 53 1024 Hp64 He64 plain out_obs (map arr we_grids) (arr ws_vals) out_o0 lin false (z64 0) ltac:(simpl; lia) 113 5 2).
  cbv zeta in Q. change (spacings (BOps Hp64 He64) (fzero (BOps Hp64 He64)) (map nd_data (map arr we_grids))) with (spacings F64Ops (z64 0) we_grids) in Q.
  rewrite we_spacings in Q. change (firsts (fzero (BOps Hp64 He64)) (map nd_data (map arr we_grids))) with ws_starts in Q.
  change (map zlen (map nd_data (map arr we_grids))) with ws_dims in Q.
  destruct (Q we_call (or_intror we_even) ws_spaced ws_within_5) with (f := wave) (e := 0) (M := wave_bound) (N := wave_bend) as (r & E & S & _ & H).
  - intros j Hj. assert (P := out_point j Hj). split.
    + eapply eq_ind_r with (P := fun p => point_within 53 1024 5 ws_steps p); [exact out_within|exact P].
    + eapply eq_ind_r with (P := fun p => outside_at_most _ (map B2R p) 2); [exact out_reg_outside|exact P].
  - exact (out_reg_values lin).
  - simpl. lra.
  - lia.
  - cbn [arr nd_data]. rewrite ws_starts_real, ws_steps_real, ws_vals_real. apply ws_samples.
  - intros j k Hj Hk. rewrite ws_starts_real, ws_steps_real. apply wave_third_out. exact Hk.
  - intros _ j k Hj Hk. assert (P := out_point j Hj).
    eapply eq_ind_r with (P := fun p => second_derivative_reaching _ (map B2R p) wave k (wave_bend k)); [|exact P].
    rewrite ws_starts_real, ws_steps_real, out_x_real. apply wave_second_out. exact Hk.
  - destruct (H 0%nat ltac:(simpl; lia)) as (_ & B). clear H Q. exists r. split; [exact E|]. split; [exact S|].
    change (map B2R (point_of (fzero (BOps Hp64 He64)) (map nd_data out_obs) 0)) with (map B2R out_x) in B.
    rewrite F in B. eapply Rle_trans; [exact B|].
    assert (Q := out_reg_err lin). rewrite ws_starts_real, ws_steps_real, out_x_real. destruct ws_outside as (O0 & O1).
    change (reg_axes ws_dims rc_starts rc_steps) with rc_axes. change (length (map arr we_grids)) with 2%nat.
    eapply Rle_trans; [apply Rplus_le_compat_r, Rplus_le_compat_r; exact Q|].
    assert (S0 : B2R (nth 0 ws_steps (B754_zero false)) = 1) by (cbn [nth ws_steps]; real_lit).
    assert (S1 : B2R (nth 1 ws_steps (B754_zero false)) = 2) by (cbn [nth ws_steps]; real_lit).
    unfold sum_upto, prod_upto, Rsum. cbn [seq map fold_right]. rewrite O0, O1.
    match goal with |- context [cubic_reach_miss lin _ _ ?t 2] => replace t with 1 by (symmetry; exact S0) end.
    match goal with |- context [cubic_reach_miss lin _ _ ?t 1] => replace t with 2 by (symmetry; exact S1) end.
    unfold cubic_reach_miss, wave_bound, wave_bend, cubic_reach_gain, cubic_gain, cubic_miss. destruct lin; lra.
Qed.
Example C99_cubic_rectilinear_function_ex lin : exists r,
  fst (py_interpn F64Ops plain out_obs (map arr wg_grids) (arr wg_vals) "cubic" None lin false false (z64 0)) = Ret r /\ nd_shape r = [1]%nat /\
  Rabs (B2R (nth 0 (nd_data r) (z64 0)) - 206) <= (if lin then 286 else 56).
Proof.
  assert (U := roundoff_64). assert (F : wave (map B2R out_x) = 206) by (rewrite out_x_real; unfold wave; simpl; lra).
  destruct (C99_cubic_rectilinear_function 53 1024 Hp64 He64 plain out_obs (map arr wg_grids) (arr wg_vals) out_o0 lin false (z64 0) ltac:(simpl; lia) 113 4 1
    wg_call eq_refl wg_uneven wg_inc wg_mod) with (f := wave) (e := 0) (M := wave_bound) (N := wave_bend) (h := rcu_spacing) as (r & E & S & _ & H).
  - intros j Hj. assert (P := out_point j Hj). split.
    + eapply eq_ind_r with (P := fun p => Forall (@moderate 53 1024) p); [exact out_moderate|exact P].
    + eapply eq_ind_r with (P := fun p => outside_at_most _ (map B2R p) 1); [exact out_rect_outside|exact P].
  - lra.
  - exact wg_ratio.
  - exact (out_rect_values lin).
  - simpl. lra.
  - change (map nd_data (map arr wg_grids)) with wg_grids. cbn [arr nd_data]. rewrite wg_grids_real, wg_vals_real.
    intros idx Hi. rewrite (wave_samples _ Hi). apply Rabs_le. lra.
  - intros j k Hj Hk. change (map nd_data (map arr wg_grids)) with wg_grids. rewrite wg_grids_real. apply wave_third_far. exact Hk.
  - intros _ j k Hj Hk. assert (P := out_point j Hj). change (map nd_data (map arr wg_grids)) with wg_grids.
    eapply eq_ind_r with (P := fun p => second_derivative_reaching _ (map B2R p) wave k (wave_bend k)); [|exact P].
    rewrite wg_grids_real, out_x_real. apply wave_second_far. exact Hk.
  - change (map nd_data (map arr wg_grids)) with wg_grids. rewrite wg_grids_real. apply rcu_spacing_ok.
  - destruct (H 0%nat ltac:(simpl; lia)) as (_ & B). clear H. exists r. split; [exact E|]. split; [exact S|].
    change (map B2R (point_of (fzero (BOps Hp64 He64)) (map nd_data out_obs) 0)) with (map B2R out_x) in B.
    rewrite F in B. eapply Rle_trans; [exact B|].
    assert (Q := out_rect_err lin). change (map nd_data (map arr wg_grids)) with wg_grids. rewrite wg_grids_real, out_x_real. destruct rcu_outside as (O0 & O1).
    change (length (map arr wg_grids)) with 2%nat.
    eapply Rle_trans; [apply Rplus_le_compat_r, Rplus_le_compat_r; exact Q|].
    unfold sum_upto, prod_upto, Rsum. cbn [seq map fold_right]. rewrite O0, O1.
    unfold cubic_reach_miss, wave_bound, wave_bend, rcu_spacing, cubic_reach_gain, cubic_gain, cubic_miss. destruct lin; lra.
Qed.
Print Assumptions C99_linear_regular.
Print Assumptions C99_linear_rectilinear.
Print Assumptions C99_cubic_regular.
Print Assumptions C99_cubic_rectilinear.
Print Assumptions C99_linear_regular_function.
Print Assumptions C99_linear_rectilinear_function.
Print Assumptions C99_cubic_regular_function.
Print Assumptions C99_cubic_rectilinear_function.
