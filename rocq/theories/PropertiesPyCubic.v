(** Properties C82, C83: the Python function interpn(method="cubic") in floating point, from the
    arrays passed to the array returned. *)
From Coq Require Import Reals Lra PeanoNat Bool Lia List String.
From Flocq Require Import Core.Core IEEE754.BinarySingleNaN.
From Verif Require Import Base Ops RInst FInst ModelCore ModelLinear ModelCubic ModelPython Spec SpecOrder SpecIEEE SpecError SpecReal Interpolators SpecApprox SpecPython SpecDetect.
From Verif Require Import SpecExtrap SpecReach SpecCubicError SpecCubicReach SpecPyCubic.
From Verif Require Import GenLemmas FLemmas FProofs FProofs2 FError2 FApprox FPyCubic RChar ExampleData ExampleReal.
From Verif Require Import PropertiesExact PropertiesFloat PropertiesError PropertiesApprox PropertiesAccuracy PropertiesPython PropertiesCubicError PropertiesCubicReach PropertiesDetect.
Import ListNotations.
Open Scope string_scope.
Open Scope R_scope.
Unset Implicit Arguments.

(** * C82: every number returned is close to the multicubic interpolant in exact arithmetic. If the
    computed differences of the points of each grid are equal, interpn treats the grids as regular
    ones with the points first + i * step, at most [3 * u * kappa] steps away from the points given: *)
Theorem C82_evenly_spaced :
  forall prec emax (Hp : Prec_gt_0 prec) (He : Prec_lt_emax prec emax), let o := BOps Hp He in
  forall c obs grids vals o0 lin assume atol A,
  let gs := map nd_data grids in let xs := map nd_data obs in let axes := rect_axes (map (map B2R) gs) in
  good_call 4 o0 obs grids vals -> (1 <= length grids <= 8)%nat ->
  Forall (increasing_grid o) gs -> Forall (Forall (fun v => is_finite v = true)) xs ->
  (forall j, (j < length (nd_data o0))%nat -> SpecReal.inside_grid axes (map B2R (point_of (fzero o) xs j))) ->
  forall kappa, let D := 3 * (roundoff prec * kappa) in
  let gain := cubic_reach_gain lin 1 D in let gamma := regular_gamma prec (25 / 24 * kappa) in let stretch := cubic_stretch lin D in
  Forall (evenly_spaced o) gs -> Forall (grid_within prec emax Hp He kappa) gs ->
  cubic_reach_values prec emax 1 gain gamma stretch (length grids) A (nd_data vals) ->
  2100 * INR (length grids) * (roundoff prec * kappa) <= 1 -> (prec <= 64)%Z ->
  let regular := map (fun g => mkAxis (zlen g) (fun i => B2R (nth 0 g (fzero o)) + B2R (first_step prec emax Hp He g) * IZR i)) gs in
  forall c' (dom : list R -> Prop) eval', multicubic c' lin (map B2R (nd_data vals)) regular dom eval' ->
  (forall j, (j < length (nd_data o0))%nat -> dom (map B2R (point_of (fzero o) xs j))) ->
  exists r, fst (py_interpn o c obs grids vals "cubic" None lin assume false atol) = Ret r /\
  nd_shape r = nd_shape o0 /\ length (nd_data r) = length (nd_data o0) /\
  forall j, (j < length (nd_data o0))%nat -> let y := nth j (nd_data r) (fzero o) in
    exists e, eval' (map B2R (point_of (fzero o) xs j)) = Ok e /\ is_finite y = true /\
    Rabs (B2R y - e) <= cubic_reach_error prec emax gain gamma stretch (length grids) A.
Proof. intros prec emax Hp He o. exact (C82_proof_even_exact prec emax Hp He). Qed.
(** Any other grids: the rectilinear code runs on the grids as given. *)
Theorem C82_unevenly_spaced :
  forall prec emax (Hp : Prec_gt_0 prec) (He : Prec_lt_emax prec emax), let o := BOps Hp He in
  forall c obs grids vals o0 lin assume atol A,
  let gs := map nd_data grids in let xs := map nd_data obs in let axes := rect_axes (map (map B2R) gs) in
  good_call 4 o0 obs grids vals -> (1 <= length grids <= 8)%nat ->
  Forall (increasing_grid o) gs -> Forall (Forall (fun v => is_finite v = true)) xs ->
  (forall j, (j < length (nd_data o0))%nat -> SpecReal.inside_grid axes (map B2R (point_of (fzero o) xs j))) ->
  forall rho, assume = false -> ~ Forall (evenly_spaced o) gs -> Forall (Forall moderate) gs ->
  1 <= rho -> Forall (fun a => spacing_ratio_at_most a rho) axes ->
  cubic_values prec emax rho (cubic_gain rho) (rectilinear_gamma prec rho) (length grids) A (nd_data vals) ->
  14000 * INR (length grids) * (roundoff prec * rho) <= 1 ->
  forall c' (dom : list R -> Prop) eval', multicubic c' lin (map B2R (nd_data vals)) axes dom eval' ->
  exists r, fst (py_interpn o c obs grids vals "cubic" None lin assume false atol) = Ret r /\
  nd_shape r = nd_shape o0 /\ length (nd_data r) = length (nd_data o0) /\
  forall j, (j < length (nd_data o0))%nat -> let y := nth j (nd_data r) (fzero o) in
    exists e, eval' (map B2R (point_of (fzero o) xs j)) = Ok e /\ is_finite y = true /\
    Rabs (B2R y - e) <= cubic_error prec emax (cubic_gain rho) (rectilinear_gamma prec rho) (length grids) A.
Proof. intros prec emax Hp He o. exact (C82_proof_uneven prec emax Hp He). Qed.

(** * C83: if the values are samples of a smooth function at the grid points given, up to an error e,
    every number returned is close to the function at its point. The function is smooth in a box that
    is a little larger than the grid. *)
Theorem C83_evenly_spaced :
  forall prec emax (Hp : Prec_gt_0 prec) (He : Prec_lt_emax prec emax), let o := BOps Hp He in
  forall c obs grids vals o0 lin assume atol A,
  let gs := map nd_data grids in let xs := map nd_data obs in let axes := rect_axes (map (map B2R) gs) in
  good_call 4 o0 obs grids vals -> (1 <= length grids <= 8)%nat ->
  Forall (increasing_grid o) gs -> Forall (Forall (fun v => is_finite v = true)) xs ->
  (forall j, (j < length (nd_data o0))%nat -> SpecReal.inside_grid axes (map B2R (point_of (fzero o) xs j))) ->
  forall kappa, let D := 3 * (roundoff prec * kappa) in
  let gain := cubic_reach_gain lin 1 D in let gamma := regular_gamma prec (25 / 24 * kappa) in let stretch := cubic_stretch lin D in
  Forall (evenly_spaced o) gs -> Forall (grid_within prec emax Hp He kappa) gs ->
  cubic_reach_values prec emax 1 gain gamma stretch (length grids) A (nd_data vals) ->
  2100 * INR (length grids) * (roundoff prec * kappa) <= 1 -> (prec <= 64)%Z ->
  let h k := B2R (first_step prec emax Hp He (nth k gs [])) in
  forall f e L M K box, samples_within e axes (map B2R (nd_data vals)) f ->
  box_around (fun k => D * h k) axes box ->
  (forall k, (k < length box)%nat -> slope_at_most box f k (L k)) ->
  (forall k, (k < length box)%nat -> third_derivative_at_most box f k (M k)) ->
  (lin = true -> forall k, (k < length box)%nat -> second_derivative_at_most box f k (K k)) ->
  exists r, fst (py_interpn o c obs grids vals "cubic" None lin assume false atol) = Ret r /\
  nd_shape r = nd_shape o0 /\ length (nd_data r) = length (nd_data o0) /\
  forall j, (j < length (nd_data o0))%nat -> let y := nth j (nd_data r) (fzero o) in is_finite y = true /\
    Rabs (B2R y - f (map B2R (point_of (fzero o) xs j))) <=
      cubic_reach_error prec emax gain gamma stretch (length grids) A
      + gain ^ length grids * (e + sum_upto (length grids) (fun k => L k * (D * h k)))
      + sum_upto (length grids) (fun k => gain ^ k * cubic_reach_miss lin (M k) (K k) (h k) D).
Proof. intros prec emax Hp He o. exact (C83_proof_even prec emax Hp He). Qed.
Theorem C83_unevenly_spaced :
  forall prec emax (Hp : Prec_gt_0 prec) (He : Prec_lt_emax prec emax), let o := BOps Hp He in
  forall c obs grids vals o0 lin assume atol A,
  let gs := map nd_data grids in let xs := map nd_data obs in let axes := rect_axes (map (map B2R) gs) in
  good_call 4 o0 obs grids vals -> (1 <= length grids <= 8)%nat ->
  Forall (increasing_grid o) gs -> Forall (Forall (fun v => is_finite v = true)) xs ->
  (forall j, (j < length (nd_data o0))%nat -> SpecReal.inside_grid axes (map B2R (point_of (fzero o) xs j))) ->
  forall rho, assume = false -> ~ Forall (evenly_spaced o) gs -> Forall (Forall moderate) gs ->
  1 <= rho -> Forall (fun a => spacing_ratio_at_most a rho) axes ->
  cubic_values prec emax rho (cubic_gain rho) (rectilinear_gamma prec rho) (length grids) A (nd_data vals) ->
  14000 * INR (length grids) * (roundoff prec * rho) <= 1 ->
  forall f e M h, samples_within e axes (map B2R (nd_data vals)) f ->
  (forall k, (k < length axes)%nat -> third_derivative_at_most axes f k (M k)) ->
  (forall k a, nth_error axes k = Some a -> spacing_at_most a (h k)) ->
  exists r, fst (py_interpn o c obs grids vals "cubic" None lin assume false atol) = Ret r /\
  nd_shape r = nd_shape o0 /\ length (nd_data r) = length (nd_data o0) /\
  forall j, (j < length (nd_data o0))%nat -> let y := nth j (nd_data r) (fzero o) in is_finite y = true /\
    Rabs (B2R y - f (map B2R (point_of (fzero o) xs j))) <=
      cubic_error prec emax (cubic_gain rho) (rectilinear_gamma prec rho) (length grids) A
      + cubic_gain rho ^ length grids * e
      + sum_upto (length grids) (fun k => cubic_gain rho ^ k * (7 / 48 * M k * h k ^ 3)).
Proof. intros prec emax Hp He o. exact (C83_proof_uneven prec emax Hp He). Qed.

(** The grids 2^-60, 1, 2, 3 and -1, 1, 3, 5, 7: the computed differences of each grid are equal, the
    exact ones are not. The values are those of x^3 + y^2 with 0 instead of 2^-180. *)
Definition p_grids : list (ndarray f64) := [arr [f64_lit 1 (-60); z64 1; z64 2; z64 3]; arr [z64 (-1); z64 1; z64 3; z64 5; z64 7]].
Definition p_obs : list (ndarray f64) := [mkNd [1]%nat [f64_lit 5 (-1)]; mkNd [1]%nat [z64 6]].
Definition p_dom := cell_fits (isize_min + 1) [tiny; -1] [1; 2].
Definition p_reval lin := mcr_interp_one ROps rplain (mkCR (mkRegular rc_dims [tiny; -1] [1; 2] ws_reals) lin).
Lemma p_grids_real : map (map B2R) (map nd_data p_grids) = [[tiny; 1; 2; 3]; [-1; 1; 3; 5; 7]].
Proof. unfold p_grids, tiny, arr. cbn [map nd_data]. repeat (apply f_equal2); try reflexivity; real_lit. Qed.
Lemma p_even : Forall (evenly_spaced F64Ops) (map nd_data p_grids).
Proof.
  apply Forall_cons; [|apply Forall_cons; [|apply Forall_nil]]; intros i a0 a1 a b E0 E1 Ea Eb; simpl in E0, E1; injection E0 as <-; injection E1 as <-;
    (destruct i as [|[|[|[|[|i]]]]]; simpl in Ea, Eb; try discriminate Ea; try discriminate Eb;
     injection Ea as <-; injection Eb as <-; split; vm_compute; reflexivity).
Qed.
Lemma p_step0 : first_step 53 1024 Hp64 He64 (nth 0 (map nd_data p_grids) []) = z64 1.
Proof. apply B2SF_inj. vm_compute. reflexivity. Qed.
Lemma p_step1 : first_step 53 1024 Hp64 He64 (nth 1 (map nd_data p_grids) []) = z64 2.
Proof. apply B2SF_inj. vm_compute. reflexivity. Qed.
Lemma p_within : Forall (grid_within 53 1024 Hp64 He64 4) (map nd_data p_grids).
Proof.
  assert (E1 : B2R (z64 1) = 1) by real_lit. assert (E2 : B2R (z64 2) = 2) by real_lit.
  assert (P : 8 <= bpow radix2 (1024 - 4)) by (apply Rle_trans with (bpow radix2 4); [simpl; lra|apply bpow_le; lia]).
  assert (S0 := p_step0). assert (S1 := p_step1).
  unfold p_grids, arr in *. cbn [map nd_data nth] in *. apply Forall_cons; [|apply Forall_cons; [|apply Forall_nil]].
  - unfold grid_within. rewrite S0, E1. split; [reflexivity|]. split; [lra|]. clear.
    repeat (apply Forall_cons; [split; [reflexivity|apply Rabs_le; real_lit]|]). apply Forall_nil.
  - unfold grid_within. rewrite S1, E2. split; [reflexivity|]. split; [lra|]. clear.
    repeat (apply Forall_cons; [split; [reflexivity|apply Rabs_le; real_lit]|]). apply Forall_nil.
Qed.
Lemma p_inc : Forall (increasing_grid F64Ops) (map nd_data p_grids).
Proof. unfold p_grids, arr. cbn [map nd_data]. repeat (constructor; [inc_grid|]). constructor. Qed.
Lemma p_obs_fin : Forall (Forall (fun v : f64 => is_finite v = true)) (map nd_data p_obs).
Proof. repeat (apply Forall_cons; [repeat (apply Forall_cons; [reflexivity|]); apply Forall_nil|]). apply Forall_nil. Qed.
Lemma p_pt : map B2R (point_of (fzero F64Ops) (map nd_data p_obs) 0) = [5 / 2; 6].
Proof. unfold p_obs, point_of. cbn [map nd_data nth]. repeat (apply f_equal2); try reflexivity; real_lit. Qed.
Lemma p_inside j : (j < 1)%nat -> SpecReal.inside_grid (rect_axes (map (map B2R) (map nd_data p_grids))) (map B2R (point_of (fzero F64Ops) (map nd_data p_obs) j)).
Proof.
  intros Hj. rewrite p_grids_real. destruct j as [|j]; [rewrite p_pt|lia]; (split; [reflexivity|]);
    intros k a Hk; destruct k as [|[|k]]; [| |destruct k; discriminate Hk]; injection Hk as <-; simpl; unfold tiny; lra.
Qed.
Lemma p_call : good_call 4 (mkNd [1]%nat [f64_lit 5 (-1)]) p_obs p_grids (arr ws_vals).
Proof.
  split; [reflexivity|]. split; [reflexivity|]. split; [repeat (apply Forall_cons; [reflexivity|]); apply Forall_nil|].
  split; [repeat (apply Forall_cons; [le_ok|]); apply Forall_nil|]. split; [reflexivity|]. vm_compute. discriminate.
Qed.
Notation p_D := (3 * (roundoff 53 * 4)).
Lemma p_D_small : 0 <= p_D <= / 100000000000000.
Proof. assert (U := roundoff_64). assert (0 <= roundoff 53) by apply bpow_ge_0. lra. Qed.
Lemma p_gain lin : 1 <= cubic_reach_gain lin 1 p_D <= 126 / 100 /\ 1 <= cubic_stretch lin p_D <= 2.
Proof.
  assert (Q := p_D_small). unfold cubic_reach_gain, cubic_gain, cubic_stretch. set (D := p_D) in *. clearbody D.
  destruct lin; [simpl; split; lra|].
  assert (0 <= D * D <= / 100000000000000 * 1) by (split; [apply Rmult_le_pos; lra|apply Rmult_le_compat; lra]).
  assert (0 <= D * D * D <= / 100000000000000 * 1) by (split; [apply Rmult_le_pos; lra|apply Rmult_le_compat; lra]).
  simpl. split; lra.
Qed.
Lemma p_gamma : 0 <= regular_gamma 53 (25 / 24 * 4) <= / 1000000000000.
Proof. assert (U := roundoff_64). assert (0 <= roundoff 53) by apply bpow_ge_0. unfold regular_gamma. lra. Qed.
Lemma p_values lin : cubic_reach_values 53 1024 1 (cubic_reach_gain lin 1 p_D) (regular_gamma 53 (25 / 24 * 4)) (cubic_stretch lin p_D) 2 113 ws_vals.
Proof. destruct (p_gain lin) as (G & S). assert (Ga := p_gamma). apply out_bounded; try lra. apply ws_bounded. Qed.
Lemma p_err lin : cubic_reach_error 53 1024 (cubic_reach_gain lin 1 p_D) (regular_gamma 53 (25 / 24 * 4)) (cubic_stretch lin p_D) 2 113 <= / 1000000.
Proof.
  destruct (p_gain lin) as (G & S). assert (Ga := p_gamma). apply (out_error _ _ _ (126 / 100) 2 (/ 1000000000000)); lra.
Qed.
Lemma p_exact lin : multicubic rplain lin ws_reals (reg_axes rc_dims [tiny; -1] [1; 2]) p_dom (p_reval lin).
Proof.
  apply multicubic_regular; [rreg_ok|]. lazy -[Rltb IZR Rplus Rmult Rinv Ropp ws_reals tiny]. rltb. reflexivity.
Qed.
Example C82_evenly_spaced_ex lin : exists r v,
  fst (py_interpn F64Ops plain p_obs p_grids (arr ws_vals) "cubic" None lin false false (z64 0)) = Ret r /\ nd_shape r = [1]%nat /\
  p_reval lin [5 / 2; 6] = Ok v /\ Rabs (B2R (nth 0 (nd_data r) (fzero F64Ops)) - v) <= / 1000000.
Proof.
  assert (U := roundoff_64).
  destruct (C82_evenly_spaced 53 1024 Hp64 He64 plain p_obs p_grids (arr ws_vals) _ lin false (z64 0) 113 p_call ltac:(simpl; lia) p_inc p_obs_fin p_inside
    4 p_even p_within (p_values lin)) with (c' := rplain) (dom := p_dom) (eval' := p_reval lin) as (r & E & S & _ & H).
  - simpl length. simpl INR. lra.
  - lia.
  - cbn [nd_data arr]. rewrite ws_vals_real.
    assert (S0 := p_step0). assert (S1 := p_step1). unfold p_grids, arr in *. cbn [map nd_data nth] in *. rewrite S0, S1.
    assert (E0 : B2R (f64_lit 1 (-60)) = tiny) by (unfold tiny; real_lit). assert (E1 : B2R (z64 1) = 1) by real_lit.
    assert (E2 : B2R (z64 2) = 2) by real_lit. assert (E3 : B2R (z64 (-1)) = -1) by real_lit.
    rewrite E0, E1, E2, E3. exact (p_exact lin).
  - intros j Hj. simpl in Hj. assert (j = 0)%nat as -> by lia.
    change (p_dom (map B2R (point_of (fzero F64Ops) (map nd_data p_obs) 0))). rewrite p_pt. unfold p_dom, tiny. clear. fits.
  - destruct (H 0%nat ltac:(simpl; lia)) as (v & Ev & _ & B). exists r, v.
    change (p_reval lin (map B2R (point_of (fzero F64Ops) (map nd_data p_obs) 0)) = Ok v) in Ev. rewrite p_pt in Ev.
    split; [exact E|]. split; [exact S|]. split; [exact Ev|].
    eapply Rle_trans; [exact B|]. apply p_err.
Qed.
Definition p_box : list axis := rect_axes [[-1; 4]; [-2; 8]].
Lemma p_box_in x : SpecReal.inside_grid p_box x -> exists u v, x = [u; v] /\ -1 <= u <= 4 /\ -2 <= v <= 8.
Proof.
  intros (Lx & H). destruct x as [|u [|v [|]]]; try discriminate Lx. exists u, v. split; [reflexivity|].
  assert (H0 := H 0%nat _ eq_refl). assert (H1 := H 1%nat _ eq_refl). simpl in H0, H1. split; lra.
Qed.
Definition p_slope (k : nat) : R := match k with O => 48 | _ => 16 end.
Definition p_bend (k : nat) : R := match k with O => 24 | _ => 2 end.
Lemma p_slopes k : (k < 2)%nat -> slope_at_most p_box wave k (p_slope k).
Proof.
  intros Hk x t Hx Ht. destruct (p_box_in x Hx) as (u & v & -> & Hu & Hv).
  destruct k as [|[|k]]; [| |lia]; destruct (p_box_in _ Ht) as (u' & v' & E' & Hu' & Hv'); simpl in E'; injection E' as <- <-; unfold wave, p_slope; simpl.
  - replace (t * (t * (t * 1)) + v * (v * 1) - (u * (u * (u * 1)) + v * (v * 1))) with ((t * t + t * u + u * u) * (t - u)) by ring.
    rewrite Rabs_mult. apply Rmult_le_compat_r; [apply Rabs_pos|]. apply Rabs_le. split; nra.
  - replace (u * (u * (u * 1)) + t * (t * 1) - (u * (u * (u * 1)) + v * (v * 1))) with ((t + v) * (t - v)) by ring.
    rewrite Rabs_mult. apply Rmult_le_compat_r; [apply Rabs_pos|]. apply Rabs_le. split; lra.
Qed.
Lemma p_thirds k : (k < 2)%nat -> third_derivative_at_most p_box wave k (wave_bound k).
Proof.
  intros Hk.
  exists (fun x => match k with O => 3 * nth 0 x 0 ^ 2 | _ => 2 * nth 1 x 0 end),
    (fun x => match k with O => 6 * nth 0 x 0 | _ => 2 end), (fun _ => wave_bound k). intros x (Lx & _).
  destruct x as [|u [|v [|]]]; try discriminate.
  destruct k as [|[|k]]; [| |lia]; unfold partial_derivative, wave, wave_bound; simpl.
  - split; [apply (poly_derivable _ (v ^ 2) 0 0 1); [intros; simpl; ring|ring]|].
    split; [apply (poly_derivable _ 0 0 3 0); [intros; simpl; ring|ring]|].
    split; [apply (poly_derivable _ 0 6 0 0); [intros; simpl; ring|ring]|rewrite Rabs_right; lra].
  - split; [apply (poly_derivable _ (u ^ 3) 0 1 0); [intros; simpl; ring|ring]|].
    split; [apply (poly_derivable _ 0 2 0 0); [intros; simpl; ring|ring]|].
    split; [apply (poly_derivable _ 2 0 0 0); [intros; simpl; ring|ring]|rewrite Rabs_R0; lra].
Qed.
Lemma p_seconds k : (k < 2)%nat -> second_derivative_at_most p_box wave k (p_bend k).
Proof.
  intros Hk.
  exists (fun x => match k with O => 3 * nth 0 x 0 ^ 2 | _ => 2 * nth 1 x 0 end),
    (fun x => match k with O => 6 * nth 0 x 0 | _ => 2 end). intros x Hx. destruct (p_box_in x Hx) as (u & v & -> & Hu & Hv).
  destruct k as [|[|k]]; [| |lia]; unfold partial_derivative, wave, p_bend; simpl.
  - split; [apply (poly_derivable _ (v ^ 2) 0 0 1); [intros; simpl; ring|ring]|].
    split; [apply (poly_derivable _ 0 0 3 0); [intros; simpl; ring|ring]|apply Rabs_le; lra].
  - split; [apply (poly_derivable _ (u ^ 3) 0 1 0); [intros; simpl; ring|ring]|].
    split; [apply (poly_derivable _ 0 2 0 0); [intros; simpl; ring|ring]|apply Rabs_le; lra].
Qed.
Lemma p_samples : samples_within (/ 1000000000000) (rect_axes (map (map B2R) (map nd_data p_grids))) (map B2R ws_vals) wave.
Proof.
  rewrite p_grids_real, ws_vals_real.
  intros idx Hi. inversion Hi as [|? i ? ? Hi0 Hi']; subst; inversion Hi' as [|? j ? ? Hj0 Hj']; subst;
  inversion Hj'; subst; simpl in Hi0, Hj0; unfold zlen in Hi0, Hj0; simpl in Hi0, Hj0.
  assert (Ei : (i = 0 \/ i = 1 \/ i = 2 \/ i = 3)%Z) by lia. assert (Ej : (j = 0 \/ j = 1 \/ j = 2 \/ j = 3 \/ j = 4)%Z) by lia.
  destruct Ei as [-> | [-> | [-> | ->]]], Ej as [-> | [-> | [-> | [-> | ->]]]]; unfold entry, wave, ws_reals; simpl; apply Rabs_le; unfold tiny; lra.
Qed.
Ltac p_steps :=
  repeat match goal with |- context [first_step ?p ?e ?a ?b (nth 0 ?l ?d)] => replace (first_step p e a b (nth 0 l d)) with (z64 1) by (symmetry; exact p_step0) end;
  repeat match goal with |- context [first_step ?p ?e ?a ?b (nth 1 ?l ?d)] => replace (first_step p e a b (nth 1 l d)) with (z64 2) by (symmetry; exact p_step1) end.
(** x^3 + y^2 = 413/8 at (5/2, 6). *)
Example C83_evenly_spaced_ex lin : exists r,
  fst (py_interpn F64Ops plain p_obs p_grids (arr ws_vals) "cubic" None lin false false (z64 0)) = Ret r /\
  Rabs (B2R (nth 0 (nd_data r) (fzero F64Ops)) - 413 / 8) <= 7 / 8 + / 100000.
Proof.
  assert (U := roundoff_64). assert (E1 : B2R (z64 1) = 1) by real_lit. assert (E2 : B2R (z64 2) = 2) by real_lit. assert (Q := p_D_small).
  destruct (C83_evenly_spaced 53 1024 Hp64 He64 plain p_obs p_grids (arr ws_vals) _ lin false (z64 0) 113 p_call ltac:(simpl; lia) p_inc p_obs_fin p_inside
    4 p_even p_within (p_values lin)) with (f := wave) (e := / 1000000000000) (L := p_slope) (M := wave_bound) (K := p_bend) (box := p_box) as (r & E & S & _ & H).
  - simpl length. simpl INR. lra.
  - lia.
  - exact p_samples.
  - split; [reflexivity|]. intros k a b Ea Eb.
    change (nth_error (rect_axes (map (map B2R) (map nd_data p_grids))) k = Some a) in Ea. rewrite p_grids_real in Ea. destruct k as [|[|k]]; [| |destruct k; discriminate Ea];
      injection Ea as <-; injection Eb as <-; p_steps; rewrite ?E1, ?E2; set (D := p_D) in *; clearbody D; simpl; unfold tiny; lra.
  - intros k Hk. apply p_slopes. exact Hk.
  - intros k Hk. apply p_thirds. exact Hk.
  - intros _ k Hk. apply p_seconds. exact Hk.
  - exists r. split; [exact E|]. destruct (H 0%nat ltac:(simpl; lia)) as (_ & B).
    assert (Ef : wave (map B2R (point_of (fzero F64Ops) (map nd_data p_obs) 0)) = 413 / 8) by (rewrite p_pt; unfold wave; simpl; lra).
    assert (B' : Rabs (B2R (nth 0 (nd_data r) (fzero F64Ops)) - wave (map B2R (point_of (fzero F64Ops) (map nd_data p_obs) 0))) <= 7 / 8 + / 100000).
    { eapply Rle_trans; [exact B|]. assert (Er := p_err lin). destruct (p_gain lin) as (G & _). change (length p_grids) with 2%nat.
      eapply Rle_trans; [apply Rplus_le_compat_r, Rplus_le_compat_r; exact Er|].
      unfold sum_upto, Rsum. cbn [seq map fold_right]. p_steps. rewrite E1, E2.
      set (gain := cubic_reach_gain lin 1 p_D) in *. clearbody gain. unfold p_slope, wave_bound, p_bend, cubic_reach_miss, cubic_miss.
      set (D := p_D) in *. clearbody D. clear - Q G.
      assert (H0 : 0 <= D * D <= / 100000000000000 * 1) by (split; [apply Rmult_le_pos; lra|apply Rmult_le_compat; lra]).
      assert (H1 : 0 <= D * D * D <= / 100000000000000 * 1) by (split; [apply Rmult_le_pos; lra|apply Rmult_le_compat; lra]).
      assert (G2 : 0 <= gain ^ 2 <= 2) by (simpl; split; nra).
      assert (G3 : gain ^ 2 * (/ 1000000000000 + (48 * (D * 1) + (16 * (D * 2) + 0))) <= 2 * (2 * / 1000000000000)) by (apply Rmult_le_compat; lra).
      assert (H2 : 0 <= gain * (D * D) <= 2 * (/ 100000000000000 * 1)) by (split; [apply Rmult_le_pos; lra|apply Rmult_le_compat; lra]).
      clear - Q G H0 H1 H2 G3. destruct lin; simpl in *; lra. }
    rewrite Ef in B'. exact B'.
Qed.

(** The uneven grids 0, 1, 3, 4 and -1, 0, 1, 5, 7. *)
Definition pu_grids : list (ndarray f64) := map arr wg_grids.
Lemma pu_grids_data : map nd_data pu_grids = wg_grids.
Proof. reflexivity. Qed.
Lemma pu_call : good_call 4 (mkNd [1]%nat [f64_lit 5 (-1)]) p_obs pu_grids (arr wg_vals).
Proof.
  split; [reflexivity|]. split; [reflexivity|]. split; [repeat (apply Forall_cons; [reflexivity|]); apply Forall_nil|].
  split; [repeat (apply Forall_cons; [le_ok|]); apply Forall_nil|]. split; [reflexivity|]. vm_compute. discriminate.
Qed.
Lemma pu_inside j : (j < 1)%nat -> SpecReal.inside_grid (rect_axes (map (map B2R) (map nd_data pu_grids))) (map B2R (point_of (fzero F64Ops) (map nd_data p_obs) j)).
Proof. intros Hj. destruct j as [|j]; [rewrite p_pt|lia]. rewrite pu_grids_data, wg_grids_real. split; [reflexivity|]. each_axis2; lra. Qed.
Lemma pu_uneven : ~ Forall (evenly_spaced F64Ops) (map nd_data pu_grids).
Proof.
  intros H. inversion H as [|g l H1 H2]; subst.
  assert (E := H1 1%nat _ _ _ _ eq_refl eq_refl eq_refl eq_refl). destruct E as (E & _).
  vm_compute in E. discriminate E.
Qed.
Example C82_unevenly_spaced_ex lin : exists r v,
  fst (py_interpn F64Ops plain p_obs pu_grids (arr wg_vals) "cubic" None lin false false (z64 0)) = Ret r /\
  wave_eval lin [5 / 2; 6] = Ok v /\ Rabs (B2R (nth 0 (nd_data r) (fzero F64Ops)) - v) <= / 100000000.
Proof.
  assert (U := roundoff_64).
  destruct (C82_unevenly_spaced 53 1024 Hp64 He64 plain p_obs pu_grids (arr wg_vals) _ lin false (z64 0) 113 pu_call ltac:(simpl; lia) wg_inc p_obs_fin pu_inside
    4 eq_refl pu_uneven wg_mod ltac:(lra) wg_ratio wg_bounded ltac:(simpl; lra) rplain everywhere (wave_eval lin)) as (r & E & S & _ & H).
  - change (multicubic rplain lin (map B2R wg_vals) (rect_axes (map (map B2R) wg_grids)) everywhere (wave_eval lin)).
    rewrite wg_grids_real, wg_vals_real. apply wave_ok.
  - destruct (H 0%nat ltac:(simpl; lia)) as (v & Ev & _ & B). exists r, v.
    change (wave_eval lin (map B2R (point_of (fzero F64Ops) (map nd_data p_obs) 0)) = Ok v) in Ev. rewrite p_pt in Ev.
    split; [exact E|]. split; [exact Ev|]. eapply Rle_trans; [exact B|]. apply wg_err.
Qed.
Example C83_unevenly_spaced_ex lin : exists r,
  fst (py_interpn F64Ops plain p_obs pu_grids (arr wg_vals) "cubic" None lin false false (z64 0)) = Ret r /\
  Rabs (B2R (nth 0 (nd_data r) (fzero F64Ops)) - 413 / 8) <= 7 + / 100000000.
Proof.
  assert (U := roundoff_64).
  destruct (C83_unevenly_spaced 53 1024 Hp64 He64 plain p_obs pu_grids (arr wg_vals) _ lin false (z64 0) 113 pu_call ltac:(simpl; lia) wg_inc p_obs_fin pu_inside
    4 eq_refl pu_uneven wg_mod ltac:(lra) wg_ratio wg_bounded ltac:(simpl; lra) wave 0 wave_bound rcu_spacing) as (r & E & S & _ & H).
  - change (samples_within 0 (rect_axes (map (map B2R) wg_grids)) (map B2R wg_vals) wave).
    rewrite wg_grids_real, wg_vals_real. intros idx Hi. rewrite (wave_samples _ Hi). apply Rabs_le. lra.
  - change (forall k, (k < 2)%nat -> third_derivative_at_most (rect_axes (map (map B2R) wg_grids)) wave k (wave_bound k)).
    rewrite wg_grids_real. apply wave_third.
  - change (forall k a, nth_error (rect_axes (map (map B2R) wg_grids)) k = Some a -> spacing_at_most a (rcu_spacing k)).
    rewrite wg_grids_real. apply rcu_spacing_ok.
  - exists r. split; [exact E|]. destruct (H 0%nat ltac:(simpl; lia)) as (_ & B).
    assert (Ef : wave (map B2R (point_of (fzero F64Ops) (map nd_data p_obs) 0)) = 413 / 8) by (rewrite p_pt; unfold wave; simpl; lra).
    assert (B' : Rabs (B2R (nth 0 (nd_data r) (fzero F64Ops)) - wave (map B2R (point_of (fzero F64Ops) (map nd_data p_obs) 0))) <= 7 + / 100000000).
    { eapply Rle_trans; [exact B|]. assert (Q := wg_err). change (length pu_grids) with 2%nat.
      match goal with |- _ + _ + ?S <= _ => assert (ES : S = 7) by (unfold sum_upto; simpl; unfold wave_bound, rcu_spacing; field) end.
      rewrite ES. lra. }
    rewrite Ef in B'. exact B'.
Qed.
Print Assumptions C82_evenly_spaced.
Print Assumptions C82_unevenly_spaced.
Print Assumptions C83_evenly_spaced.
Print Assumptions C83_unevenly_spaced.
