(** Theorems about how well the interpolators approximate a function, in exact arithmetic:
    error bounds and convergence, stability against errors in the data, monotonicity and
    slopes. *)
From Coq Require Import Reals Lra PeanoNat Bool.
From Verif Require Import Base Ops RInst ModelLinear ModelNearest ModelCubic Spec SpecReal Interpolators.
From Verif Require Import RPoly RTensor R1D RChar REval RProofs ExampleReal PropertiesExact SpecApprox Approx1D Approx Shape.
Unset Implicit Arguments.
Open Scope R_scope.

(** * C51: the interpolation error of a smooth function *)

(** Multilinear: second order in the size of the cell of the point. *)
Theorem C51_multilinear_cell :
  forall c vals axes dom eval f x os M, multilinear c vals axes dom eval -> samples axes vals f ->
  inside_grid axes x -> in_cells axes x os ->
  (forall k, (k < length axes)%nat -> second_derivative_at_most axes f k (M k)) ->
  exists r, eval x = Ok r /\
    Rabs (r - f x) <= sum_upto (length axes)
      (fun k => M k * spacing (nth k axes no_axis) (nth k os 0%Z) ^ 2 / 8).
Proof. exact lin_approx. Qed.
(** Multilinear: second order in the largest spacing of each axis. *)
Theorem C51_multilinear :
  forall c vals axes dom eval f x M h, multilinear c vals axes dom eval -> samples axes vals f ->
  inside_grid axes x ->
  (forall k, (k < length axes)%nat -> second_derivative_at_most axes f k (M k)) ->
  (forall k a, nth_error axes k = Some a -> spacing_at_most a (h k)) ->
  exists r, eval x = Ok r /\ Rabs (r - f x) <= sum_upto (length axes) (fun k => M k * h k ^ 2 / 8).
Proof. exact lin_approx_grid. Qed.
(** Multilinear, for a function that is only known to have bounded slopes. *)
Theorem C51_multilinear_slope :
  forall c vals axes dom eval f x L h, multilinear c vals axes dom eval -> samples axes vals f ->
  inside_grid axes x ->
  (forall k, (k < length axes)%nat -> slope_at_most axes f k (L k)) ->
  (forall k a, nth_error axes k = Some a -> spacing_at_most a (h k)) ->
  exists r, eval x = Ok r /\ Rabs (r - f x) <= sum_upto (length axes) (fun k => L k * h k / 2).
Proof. exact lin_approx_slope. Qed.
(** Multilinear, any function: the error is at most what the function varies between the
    point and the corners of its cell. *)
Theorem C51_multilinear_variation :
  forall c vals axes dom eval f x os e, multilinear c vals axes dom eval -> samples axes vals f ->
  inside_grid axes x -> in_cells axes x os ->
  (forall b, In b (corners (length os)) -> Rabs (f (node_pos axes (corner_index os b)) - f x) <= e) ->
  exists r, eval x = Ok r /\ Rabs (r - f x) <= e.
Proof. exact lin_approx_cell. Qed.
(** Nearest neighbour: first order. *)
Theorem C51_nearest :
  forall c vals axes dom eval f x L h, nearest_nd c vals axes dom eval -> samples axes vals f ->
  inside_grid axes x ->
  (forall k, (k < length axes)%nat -> slope_at_most axes f k (L k)) ->
  (forall k a, nth_error axes k = Some a -> spacing_at_most a (h k)) ->
  exists r, eval x = Ok r /\ Rabs (r - f x) <= sum_upto (length axes) (fun k => L k * h k / 2).
Proof. exact nearest_approx. Qed.
(** Multicubic: third order, on grids whose neighbouring spacings differ by a bounded
    factor. *)
Theorem C51_multicubic :
  forall c lin vals axes dom eval f x M h rho, multicubic c lin vals axes dom eval -> samples axes vals f ->
  inside_grid axes x ->
  (forall k, (k < length axes)%nat -> third_derivative_at_most axes f k (M k)) ->
  (forall k a, nth_error axes k = Some a -> spacing_at_most a (h k)) ->
  (forall a, In a axes -> spacing_ratio_at_most a rho) ->
  exists r, eval x = Ok r /\
    Rabs (r - f x) <= sum_upto (length axes) (fun k => cubic_gain rho ^ k * (7 / 48 * M k * h k ^ 3)).
Proof. exact cubic_approx. Qed.
(** On a regular grid the spacing of axis k is the step, and the factor is 1. *)
Theorem C51_regular_spacing :
  forall dims starts steps, length starts = length dims -> length steps = length dims ->
  forall k a, nth_error (reg_axes dims starts steps) k = Some a -> spacing_at_most a (nth k steps 0).
Proof. exact reg_axes_spacing. Qed.
Theorem C51_regular_ratio :
  forall dims starts steps, length starts = length dims -> length steps = length dims ->
  forall a, In a (reg_axes dims starts steps) -> spacing_ratio_at_most a 1.
Proof. exact reg_axes_ratio. Qed.
(** Refining the grid makes the error as small as wanted, uniformly in the point, the
    grid and the function. *)
Theorem C51_multilinear_converges :
  forall n M eps, 0 < eps -> exists d, 0 < d /\
  forall c vals axes dom eval f x, multilinear c vals axes dom eval -> length axes = n ->
  samples axes vals f -> inside_grid axes x ->
  (forall k, (k < n)%nat -> second_derivative_at_most axes f k (M k)) ->
  (forall a, In a axes -> spacing_at_most a d) ->
  exists r, eval x = Ok r /\ Rabs (r - f x) < eps.
Proof. exact lin_converges. Qed.
Theorem C51_nearest_converges :
  forall n L eps, 0 < eps -> exists d, 0 < d /\
  forall c vals axes dom eval f x, nearest_nd c vals axes dom eval -> length axes = n ->
  samples axes vals f -> inside_grid axes x ->
  (forall k, (k < n)%nat -> slope_at_most axes f k (L k)) ->
  (forall a, In a axes -> spacing_at_most a d) ->
  exists r, eval x = Ok r /\ Rabs (r - f x) < eps.
Proof. exact nearest_converges. Qed.
Theorem C51_multicubic_converges :
  forall n M rho eps, 0 < eps -> 0 < rho -> exists d, 0 < d /\
  forall c lin vals axes dom eval f x, multicubic c lin vals axes dom eval -> length axes = n ->
  samples axes vals f -> inside_grid axes x ->
  (forall k, (k < n)%nat -> third_derivative_at_most axes f k (M k)) ->
  (forall a, In a axes -> spacing_at_most a d /\ spacing_ratio_at_most a rho) ->
  exists r, eval x = Ok r /\ Rabs (r - f x) < eps.
Proof. exact cubic_converges. Qed.

(** x^2 + y^2 on the 3 x 2 example grid. *)
Definition bowl (p : list R) : R := nth 0 p 0 ^ 2 + nth 1 p 0 ^ 2.
Definition bowl_vals : list R := [1; 9; 2; 10; 5; 13].
Definition bowl_eval := mlr_interp_one ROps rplain (mkRegular rl_dims rl_starts rl_steps bowl_vals).
Definition bowl_nearest := nr_interp_one ROps rplain (mkRegular rl_dims rl_starts rl_steps bowl_vals).
Lemma bowl_new : mlr_new ROps rplain rl_dims rl_starts rl_steps bowl_vals
  = Ok (mkRegular rl_dims rl_starts rl_steps bowl_vals).
Proof. lazy -[Rltb IZR Rplus Rmult Rinv Ropp bowl_vals]. rltb. reflexivity. Qed.
Lemma bowl_ok : multilinear rplain bowl_vals rl_axes (cell_fits isize_min rl_starts rl_steps) bowl_eval.
Proof. apply multilinear_regular; [rreg_ok|apply bowl_new]. Qed.
Lemma bowl_nearest_ok : nearest_nd rplain bowl_vals rl_axes (cell_fits isize_min rl_starts rl_steps) bowl_nearest.
Proof. apply nearest_regular; [rreg_ok|apply bowl_new]. Qed.

Lemma poly_derivable (g : R -> R) c0 c1 c2 c3 t D : (forall x, g x = c0 + c1 * x + c2 * (x * x) + c3 * (x * x * x)) ->
  D = c1 + 2 * c2 * t + 3 * c3 * (t * t) -> derivable_pt_lim g t D.
Proof.
  intros Hg ->. assert (Q := cubic_derivable c0 c1 c2 c3 0 t).
  intros eps He. destruct (Q eps He) as (d & Hd). exists d. intros h Hh Hh'. specialize (Hd h Hh Hh').
  rewrite !Hg. 
  match goal with |- Rabs ?e < _ => match type of Hd with Rabs ?e' < _ => replace e with e' end end; auto.
  field. auto.
Qed.

Lemma bowl_samples : samples rl_axes bowl_vals bowl.
Proof.
  intros idx Hi. inversion Hi as [|? i ? ? Hi0 Hi']; subst. inversion Hi' as [|? j ? ? Hj0 Hj']; subst.
  inversion Hj'; subst. simpl in Hi0, Hj0. unfold zlen in Hi0, Hj0. simpl in Hi0, Hj0.
  assert (Ei : (i = 0 \/ i = 1 \/ i = 2)%Z) by lia. assert (Ej : (j = 0 \/ j = 1)%Z) by lia.
  destruct Ei as [-> | [-> | ->]], Ej as [-> | ->]; unfold entry, bowl; simpl; lra.
Qed.

Lemma bowl_curved k : (k < 2)%nat -> second_derivative_at_most rl_axes bowl k 2.
Proof.
  intros Hk. exists (fun x => 2 * nth k x 0), (fun _ => 2). intros x (Lx & _).
  destruct x as [|u [|v [|]]]; try discriminate.
  destruct k as [|[|k]]; [| |lia]; unfold partial_derivative, bowl; simpl.
  - split; [apply (poly_derivable _ (v ^ 2) 0 1 0); [intros; simpl; ring|ring]|].
    split; [apply (poly_derivable _ 0 2 0 0); [intros; simpl; ring|ring]|rewrite Rabs_right; lra].
  - split; [apply (poly_derivable _ (u ^ 2) 0 1 0); [intros; simpl; ring|ring]|].
    split; [apply (poly_derivable _ 0 2 0 0); [intros; simpl; ring|ring]|rewrite Rabs_right; lra].
Qed.

Lemma bowl_slopes k : (k < 2)%nat -> slope_at_most rl_axes bowl k 6.
Proof.
  intros Hk x t (Lx & Hx) (Lt & Ht).
  destruct x as [|u [|v [|]]]; try discriminate.
  assert (X0 := Hx 0%nat _ eq_refl). assert (X1 := Hx 1%nat _ eq_refl).
  assert (T0 := Ht 0%nat _ eq_refl). assert (T1 := Ht 1%nat _ eq_refl).
  simpl in X0, X1, T0, T1. clear Hx Ht.
  destruct k as [|[|k]]; [| |lia]; unfold bowl; simpl in *.
  - replace (t * (t * 1) + v * (v * 1) - (u * (u * 1) + v * (v * 1))) with ((t + u) * (t - u)) by ring.
    rewrite Rabs_mult. apply Rmult_le_compat_r; [apply Rabs_pos|]. rewrite Rabs_right; lra.
  - replace (u * (u * 1) + t * (t * 1) - (u * (u * 1) + v * (v * 1))) with ((t + v) * (t - v)) by ring.
    rewrite Rabs_mult. apply Rmult_le_compat_r; [apply Rabs_pos|]. rewrite Rabs_right; lra.
Qed.

Lemma rl_spacing k a : nth_error rl_axes k = Some a -> spacing_at_most a (nth k rl_steps 0).
Proof. apply (C51_regular_spacing rl_dims rl_starts rl_steps); reflexivity. Qed.

(** In the middle of a cell the bound is attained: x^2 + y^2 = 17/4 at (1/2, 2), and the
    multilinear interpolant gives 22/4, off by the bound 2 * 1^2/8 + 2 * 2^2/8 = 5/4. *)
Example C51_multilinear_ex :
  (exists r, bowl_eval [1 / 3; 5 / 2] = Ok r /\ Rabs (r - bowl [1 / 3; 5 / 2]) <= 5 / 4)
  /\ bowl_eval [1 / 2; 2] = Ok (22 / 4) /\ 22 / 4 - bowl [1 / 2; 2] = 5 / 4.
Proof.
  split; [|split].
  - destruct (C51_multilinear _ _ _ _ _ bowl [1 / 3; 5 / 2] (fun _ => 2) (fun k => nth k rl_steps 0) bowl_ok bowl_samples)
      as (r & Er & Hr).
    + split; auto. each_axis; lra.
    + intros k Hk. apply bowl_curved. exact Hk.
    + apply rl_spacing.
    + exists r. split; auto. eapply Rle_trans; [exact Hr|]. unfold sum_upto. simpl. lra.
  - rewrite (C01_multilinear _ _ _ _ _ [1 / 2; 2] [0%Z; 0%Z] bowl_ok).
    + f_equal. unfold corner_sum, entry. simpl. unfold local_coord. simpl. lra.
    + split; auto. split; auto. each_axis; split; simpl; try lia; split; auto; right; lra.
    + fits.
  - unfold bowl. simpl. lra.
Qed.
Example C51_multilinear_cell_ex : exists r, bowl_eval [3 / 2; 3] = Ok r /\ Rabs (r - bowl [3 / 2; 3]) <= 5 / 4.
Proof.
  destruct (C51_multilinear_cell _ _ _ _ _ bowl [3 / 2; 3] [1%Z; 0%Z] (fun _ => 2) bowl_ok bowl_samples)
    as (r & Er & Hr).
  - split; auto. each_axis; lra.
  - split; auto. split; auto. each_axis; split; simpl; try lia; split; auto; right; lra.
  - intros k Hk. apply bowl_curved. exact Hk.
  - exists r. split; auto. eapply Rle_trans; [exact Hr|]. unfold sum_upto, spacing. simpl. lra.
Qed.
Example C51_slope_ex :
  (exists r, bowl_eval [1 / 3; 5 / 2] = Ok r /\ Rabs (r - bowl [1 / 3; 5 / 2]) <= 9)
  /\ (exists r, bowl_nearest [1 / 3; 5 / 2] = Ok r /\ Rabs (r - bowl [1 / 3; 5 / 2]) <= 9).
Proof.
  assert (I : inside_grid rl_axes [1 / 3; 5 / 2]) by (split; auto; each_axis; lra).
  split.
  - destruct (C51_multilinear_slope _ _ _ _ _ bowl [1 / 3; 5 / 2] (fun _ => 6) (fun k => nth k rl_steps 0)
      bowl_ok bowl_samples I bowl_slopes rl_spacing) as (r & Er & Hr).
    exists r. split; auto. eapply Rle_trans; [exact Hr|]. unfold sum_upto. simpl. lra.
  - destruct (C51_nearest _ _ _ _ _ bowl [1 / 3; 5 / 2] (fun _ => 6) (fun k => nth k rl_steps 0)
      bowl_nearest_ok bowl_samples I bowl_slopes rl_spacing) as (r & Er & Hr).
    exists r. split; auto. eapply Rle_trans; [exact Hr|]. unfold sum_upto. simpl. lra.
Qed.
Example C51_variation_ex : exists r, bowl_eval [1 / 2; 2] = Ok r /\ Rabs (r - bowl [1 / 2; 2]) <= 23 / 4.
Proof.
  apply (C51_multilinear_variation _ _ _ _ _ bowl [1 / 2; 2] [0%Z; 0%Z] (23 / 4) bowl_ok bowl_samples).
  - split; auto. each_axis; lra.
  - split; auto. split; auto. each_axis; split; simpl; try lia; split; auto; right; lra.
  - intros b Hb. simpl in Hb. unfold bowl.
    destruct Hb as [<-|[<-|[<-|[<-|[]]]]]; simpl; apply Rabs_le; lra.
Qed.

(** x^3 + y^2 on the unevenly spaced 4 x 5 grid. *)
Definition wave (p : list R) : R := nth 0 p 0 ^ 3 + nth 1 p 0 ^ 2.
Definition wave_vals : list R := flat_map (fun x => map (fun y => x ^ 3 + y ^ 2) [-1; 0; 1; 5; 7]) [0; 1; 3; 4].
Definition wave_eval lin := mcc_interp_one ROps rplain (mkCC (mkRect rcu_grids [4%Z; 5%Z] wave_vals) lin).
Lemma wave_ok lin : multicubic rplain lin wave_vals (rect_axes rcu_grids) everywhere (wave_eval lin).
Proof.
  apply multicubic_rectilinear; [rrect_ok|sorted_ok|].
  lazy -[Rltb IZR Rplus Rmult Rinv Ropp wave_vals]. rltb. reflexivity.
Qed.

Lemma wave_samples : samples (rect_axes rcu_grids) wave_vals wave.
Proof.
  intros idx Hi. inversion Hi as [|? i ? ? Hi0 Hi']; subst. inversion Hi' as [|? j ? ? Hj0 Hj']; subst.
  inversion Hj'; subst. simpl in Hi0, Hj0. unfold zlen in Hi0, Hj0. simpl in Hi0, Hj0.
  assert (Ei : (i = 0 \/ i = 1 \/ i = 2 \/ i = 3)%Z) by lia. assert (Ej : (j = 0 \/ j = 1 \/ j = 2 \/ j = 3 \/ j = 4)%Z) by lia.
  destruct Ei as [-> | [-> | [-> | ->]]], Ej as [-> | [-> | [-> | [-> | ->]]]]; unfold entry, wave; simpl; lra.
Qed.

Definition wave_bound (k : nat) : R := match k with O => 6 | _ => 0 end.
Lemma wave_third k : (k < 2)%nat -> third_derivative_at_most (rect_axes rcu_grids) wave k (wave_bound k).
Proof.
  intros Hk.
  exists (fun x => match k with O => 3 * nth 0 x 0 ^ 2 | _ => 2 * nth 1 x 0 end),
    (fun x => match k with O => 6 * nth 0 x 0 | _ => 2 end), (fun _ => wave_bound k). intros x (Lx & _).
  destruct x as [|u [|v [|]]]; try discriminate.
  destruct k as [|[|k]]; [| |lia]; unfold partial_derivative, wave, wave_bound; simpl.
  - split; [apply (poly_derivable _ (v ^ 2) 0 0 1); [intros; simpl; ring|ring]|].
    split; [apply (poly_derivable _ 0 0 3 0); [intros; simpl; ring|ring]|].
    split; [apply (poly_derivable _ 0 6 0 0); [intros; simpl; ring|ring]|rewrite Rabs_right; lra].
  - split; [apply (poly_derivable _ (u ^ 3) 0 1 0); [intros; simpl; ring|ring]|].
    split; [apply (poly_derivable _ 0 2 0 0); [intros; simpl; ring|ring]|].
    split; [apply (poly_derivable _ 2 0 0 0); [intros; simpl; ring|ring]|rewrite Rabs_R0; lra].
Qed.

Definition rcu_spacing (k : nat) : R := match k with O => 2 | _ => 4 end.
Lemma rcu_spacing_ok k a : nth_error (rect_axes rcu_grids) k = Some a -> spacing_at_most a (rcu_spacing k).
Proof.
  intros Hk o Ho. destruct k as [|[|k]]; simpl in Hk; [| |destruct k; discriminate]; injection Hk as <-;
    unfold spacing, rcu_spacing, list_axis, zlen in *; simpl in *.
  - assert (E : (o = 0 \/ o = 1 \/ o = 2)%Z) by lia. destruct E as [-> | [-> | ->]]; simpl; lra.
  - assert (E : (o = 0 \/ o = 1 \/ o = 2 \/ o = 3)%Z) by lia. destruct E as [-> | [-> | [-> | ->]]]; simpl; lra.
Qed.
Lemma rcu_ratio_ok a : In a (rect_axes rcu_grids) -> spacing_ratio_at_most a 4.
Proof.
  intros Ha o Ho1 Ho2. simpl in Ha. destruct Ha as [<-|[<-|[]]];
    unfold spacing, list_axis, zlen in *; simpl in *.
  - assert (E : (o = 0 \/ o = 1)%Z) by lia. destruct E as [-> | ->]; simpl; lra.
  - assert (E : (o = 0 \/ o = 1 \/ o = 2)%Z) by lia. destruct E as [-> | [-> | ->]]; simpl; lra.
Qed.
Example C51_multicubic_ex : exists r, wave_eval true [5 / 2; 6] = Ok r /\ Rabs (r - wave [5 / 2; 6]) <= 7.
Proof.
  destruct (C51_multicubic _ _ _ _ _ _ wave [5 / 2; 6] wave_bound rcu_spacing 4 (wave_ok true) wave_samples)
    as (r & Er & Hr).
  - split; auto. each_axis; lra.
  - apply wave_third.
  - apply rcu_spacing_ok.
  - apply rcu_ratio_ok.
  - exists r. split; auto. eapply Rle_trans; [exact Hr|]. unfold sum_upto. simpl. lra.
Qed.
(** The hypotheses of the convergence theorems, at one spacing: any d above the spacings
    of the example grids, for the bounds of the example functions. *)
Example C51_converges_ex : exists d, 0 < d /\ ((forall a, In a rl_axes -> spacing_at_most a d) ->
  exists r, bowl_eval [1 / 3; 5 / 2] = Ok r /\ Rabs (r - bowl [1 / 3; 5 / 2]) < 1000).
Proof.
  destruct (C51_multilinear_converges 2 (fun _ => 2) 1000 ltac:(lra)) as (d & Hd & H). exists d. split; auto.
  intros Hs. apply (H rplain bowl_vals rl_axes _ _ _ _ bowl_ok eq_refl bowl_samples); auto.
  - split; auto. each_axis; lra.
  - intros k Hk. apply bowl_curved; auto.
Qed.
Print Assumptions C51_multilinear_cell.
Print Assumptions C51_multilinear.
Print Assumptions C51_multilinear_slope.
Print Assumptions C51_multilinear_variation.
Print Assumptions C51_nearest.
Print Assumptions C51_multicubic.
Print Assumptions C51_multilinear_converges.
Print Assumptions C51_nearest_converges.
Print Assumptions C51_multicubic_converges.

(** * C52: errors in the data are not amplified *)

(** Two multilinear interpolators on the same grid, whose values differ by at most e. *)
Theorem C52_multilinear :
  forall c c' u v axes dom dom' ev ev' x e,
  multilinear c u axes dom ev -> multilinear c' v axes dom' ev' -> inside_grid axes x -> values_within e u v ->
  exists r r', ev x = Ok r /\ ev' x = Ok r' /\ Rabs (r - r') <= e.
Proof. exact lin_stable. Qed.
(** Nearest neighbour: also outside the grid. *)
Theorem C52_nearest :
  forall c c' u v axes dom dom' ev ev' x e,
  nearest_nd c u axes dom ev -> nearest_nd c' v axes dom' ev' -> length x = length axes -> dom x -> dom' x ->
  values_within e u v -> exists r r', ev x = Ok r /\ ev' x = Ok r' /\ Rabs (r - r') <= e.
Proof. exact nearest_stable. Qed.
(** Multicubic: at most by the gain, once per axis. *)
Theorem C52_multicubic :
  forall c c' lin u v axes dom dom' ev ev' x e rho,
  multicubic c lin u axes dom ev -> multicubic c' lin v axes dom' ev' -> inside_grid axes x ->
  (forall a, In a axes -> spacing_ratio_at_most a rho) -> values_within e u v ->
  exists r r', ev x = Ok r /\ ev' x = Ok r' /\ Rabs (r - r') <= cubic_gain rho ^ length axes * e.
Proof. exact cubic_stable. Qed.
(** Multicubic: how far the interpolant leaves the range of the values. *)
Theorem C52_multicubic_range :
  forall c lin vals axes dom eval x E rho, multicubic c lin vals axes dom eval -> inside_grid axes x ->
  (forall a, In a axes -> spacing_ratio_at_most a rho) -> Forall (fun v => Rabs v <= E) vals ->
  exists r, eval x = Ok r /\ Rabs r <= cubic_gain rho ^ length axes * E.
Proof. exact cubic_range. Qed.

Lemma bowl_near : values_within 19 rl_vals bowl_vals.
Proof. unfold rl_vals, bowl_vals. repeat (apply Forall2_cons; [apply Rabs_le; lra|]). apply Forall2_nil. Qed.
Example C52_ex :
  (exists r r', rl_eval [1 / 3; 5 / 2] = Ok r /\ bowl_eval [1 / 3; 5 / 2] = Ok r' /\ Rabs (r - r') <= 19)
  /\ (exists r r', rn_eval [-8; 5 / 2] = Ok r /\ bowl_nearest [-8; 5 / 2] = Ok r' /\ Rabs (r - r') <= 19).
Proof.
  split.
  - apply (C52_multilinear _ _ _ _ _ _ _ _ _ [1 / 3; 5 / 2] 19 rl_ok bowl_ok); [|exact bowl_near].
    split; auto. each_axis; lra.
  - apply (C52_nearest _ _ _ _ _ _ _ _ _ [-8; 5 / 2] 19 rn_ok bowl_nearest_ok); [reflexivity|fits|fits|exact bowl_near].
Qed.

(** One axis with four evenly spaced points. *)
Definition four_eval lin vals := mcr_interp_one ROps rplain (mkCR (mkRegular [4%Z] [0] [1] vals) lin).
Definition four_axes : list axis := reg_axes [4%Z] [0] [1].
Lemma four_ok lin p0 p1 p2 p3 : multicubic rplain lin [p0; p1; p2; p3] four_axes (cell_fits (isize_min + 1) [0] [1])
  (four_eval lin [p0; p1; p2; p3]).
Proof. 
  apply multicubic_regular; [rreg_ok|]. lazy -[Rltb IZR Rplus Rmult Rinv Ropp]. rltb. reflexivity.
Qed.
Lemma four_value lin p0 p1 p2 p3 : four_eval lin [p0; p1; p2; p3] [3 / 2] = Ok ((9 * (p1 + p2) - p0 - p3) / 16).
Proof.
  destruct (multicubic_value (four_ok lin p0 p1 p2 p3)) as (G & _ & E). rewrite E; [|reflexivity|].
  - f_equal. inversion G as [|a l Ga _ Ea]; subst. simpl. destruct Ga as (H2 & H4).
    rewrite (@cub1_herm _ H2 H4 lin _ (3 / 2) 1%Z).
    + unfold herm_piece, slope, mid_slope, dd, gap, entry. simpl. field.
    + split; simpl; [lia|]. split; right; lra.
    + left. simpl. lra.
  - intros [|k] Hk; simpl in *; try lia. unfold isize_min, isize_max; simpl; split; lra.
Qed.
(** The gain is attained: the values are between -1 and 1, the interpolant reaches 5/4. *)
Example C52_multicubic_ex :
  four_eval true [-1; 1; 1; -1] [3 / 2] = Ok (5 / 4) /\ cubic_gain 1 ^ length four_axes * 1 = 5 / 4
  /\ (exists r, four_eval true [-1; 1; 1; -1] [2 / 3] = Ok r /\ Rabs r <= 5 / 4)
  /\ (exists r r', wave_eval true [5 / 2; 6] = Ok r /\ rcu_eval true [5 / 2; 6] = Ok r'
      /\ Rabs (r - r') <= (1 + 16 / 10) ^ 2 * 300).
Proof.
  split; [|split; [|split]].
  - rewrite four_value. f_equal. lra.
  - unfold cubic_gain. simpl. lra.
  - destruct (C52_multicubic_range _ _ _ _ _ _ [2 / 3] 1 1 (four_ok true (-1) 1 1 (-1))) as (r & Er & Hr).
    + split; auto. intros [|[|k]] a Hk; simpl in Hk; try discriminate. injection Hk as <-. simpl. lra.
    + apply C51_regular_ratio; reflexivity.
    + repeat (apply Forall_cons; [apply Rabs_le; lra|]). apply Forall_nil.
    + exists r. split; auto. eapply Rle_trans; [exact Hr|]. unfold cubic_gain. simpl. lra.
  - destruct (C52_multicubic _ _ _ _ _ _ _ _ _ _ [5 / 2; 6] 300 4 (wave_ok true) (rcu_ok true)) as (r & r' & Er & Er' & Hr).
    + split; auto. each_axis; lra.
    + apply rcu_ratio_ok.
    + unfold wave_vals, rc_vals. simpl. repeat (apply Forall2_cons; [apply Rabs_le; lra|]). apply Forall2_nil.
    + exists r, r'. split; auto. split; auto. eapply Rle_trans; [exact Hr|]. unfold cubic_gain. simpl. lra.
Qed.
Print Assumptions C52_multilinear.
Print Assumptions C52_nearest.
Print Assumptions C52_multicubic.
Print Assumptions C52_multicubic_range.

(** * C53: monotone data gives a monotone interpolant *)
Theorem C53_multilinear :
  forall c vals axes dom eval x k t, multilinear c vals axes dom eval -> (k < length axes)%nat ->
  inside_except axes k x -> dom x -> dom (upd x k t) -> data_nondecreasing (map npts axes) vals k ->
  nth k x 0 <= t -> exists r r', eval x = Ok r /\ eval (upd x k t) = Ok r' /\ r <= r'.
Proof. exact lin_monotone. Qed.
Theorem C53_nearest :
  forall c vals axes dom eval x k t, nearest_nd c vals axes dom eval -> (k < length axes)%nat ->
  length x = length axes -> dom x -> dom (upd x k t) -> data_nondecreasing (map npts axes) vals k ->
  nth k x 0 <= t -> exists r r', eval x = Ok r /\ eval (upd x k t) = Ok r' /\ r <= r'.
Proof. exact nearest_monotone. Qed.

Lemma rl_nondecreasing k : (k < 2)%nat -> data_nondecreasing (map npts rl_axes) rl_vals k.
Proof.
  intros Hk idx Hi Hn. inversion Hi as [|? i ? ? Hi0 Hi']; subst. inversion Hi' as [|? j ? ? Hj0 Hj']; subst.
  inversion Hj'; subst. simpl in Hi0, Hj0. unfold zlen in Hi0, Hj0. simpl in Hi0, Hj0. unfold next_along in *.
  assert (Ei : (i = 0 \/ i = 1 \/ i = 2)%Z) by lia. assert (Ej : (j = 0 \/ j = 1)%Z) by lia.
  destruct k as [|[|k]]; [| |lia]; simpl in Hn; inversion Hn as [|? ? ? ? Hn0 Hn']; subst;
    inversion Hn' as [|? ? ? ? Hn1 _]; subst; simpl in Hn0, Hn1;
  destruct Ei as [-> | [-> | ->]], Ej as [-> | ->]; try lia; unfold entry; simpl; lra.
Qed.
(** Along the first axis, from far below the grid to far above it. *)
Example C53_ex :
  (exists r r', rl_eval [-7; 2] = Ok r /\ rl_eval [50; 2] = Ok r' /\ r <= r')
  /\ (exists r r', rn_eval [5; 2] = Ok r /\ rn_eval [5; 9] = Ok r' /\ r <= r').
Proof.
  split.
  - apply (C53_multilinear _ _ _ _ _ [-7; 2] 0%nat 50 rl_ok); [simpl; lia| |fits|fits|apply rl_nondecreasing; lia|simpl; lra].
    split; auto. intros [|[|[|k]]] a Hk Ha; simpl in Ha; try discriminate; try congruence. injection Ha as <-. simpl. lra.
  - apply (C53_nearest _ _ _ _ _ [5; 2] 1%nat 9 rn_ok); [simpl; lia|reflexivity|fits|fits|apply rl_nondecreasing; lia|simpl; lra].
Qed.
(** The multicubic interpolants do not have the property: on the values 0, 0, 0, 1 the
    interpolant first goes down. *)
Theorem C53_multicubic_refuted :
  ~ (forall c lin vals axes dom eval x k t, multicubic c lin vals axes dom eval -> (k < length axes)%nat ->
     inside_grid axes x -> inside_grid axes (upd x k t) -> data_nondecreasing (map npts axes) vals k ->
     nth k x 0 <= t -> exists r r', eval x = Ok r /\ eval (upd x k t) = Ok r' /\ r <= r').
Proof.
  intros H. destruct (H _ _ _ _ _ _ [1] 0%nat (3 / 2) (four_ok true 0 0 0 1)) as (r & r' & Er & Er' & Hr).
  - simpl. lia.
  - split; auto. intros [|[|k]] a Hk; simpl in Hk; try discriminate. injection Hk as <-. simpl. lra.
  - split; auto. intros [|[|k]] a Hk; simpl in Hk; try discriminate. injection Hk as <-. simpl. lra.
  - intros idx Hi Hn. inversion Hi as [|? i ? ? Hi0 Hi']; subst. inversion Hi'; subst. unfold next_along in *. simpl in *.
    inversion Hn as [|? ? ? ? Hn0 _]; subst.
    assert (Ei : (i = 0 \/ i = 1 \/ i = 2)%Z) by lia. destruct Ei as [-> | [-> | ->]]; unfold entry; simpl; lra.
  - simpl. lra.
  - simpl in Er'. rewrite four_value in Er'. injection Er' as <-.
    assert (S : in_shape (map npts four_axes) [1%Z]) by (repeat constructor; simpl; lia).
    assert (N := C03_multicubic _ _ _ _ _ _ _ (four_ok true 0 0 0 1) S).
    replace (node_pos four_axes [1%Z]) with [1] in N by (simpl; f_equal; lra).
    rewrite N in Er. injection Er as <-. unfold entry in Hr. simpl in Hr. lra.
Qed.
Print Assumptions C53_multilinear.
Print Assumptions C53_nearest.
Print Assumptions C53_multicubic_refuted.

(** * C54: the interpolant is no steeper than the data *)

(** Along one axis: also when the point moves outside the grid along that axis. *)
Theorem C54_axis :
  forall c vals axes dom eval x k t L, multilinear c vals axes dom eval -> (k < length axes)%nat ->
  inside_except axes k x -> dom x -> dom (upd x k t) -> data_slope_at_most axes vals k L ->
  exists r r', eval x = Ok r /\ eval (upd x k t) = Ok r' /\ Rabs (r' - r) <= L * Rabs (t - nth k x 0).
Proof. exact lin_slope. Qed.
(** Between two points inside the grid. *)
Theorem C54_points :
  forall c vals axes dom eval x y L, multilinear c vals axes dom eval ->
  inside_grid axes x -> inside_grid axes y ->
  (forall k, (k < length axes)%nat -> data_slope_at_most axes vals k (L k)) ->
  exists r r', eval x = Ok r /\ eval y = Ok r' /\
    Rabs (r - r') <= sum_upto (length axes) (fun k => L k * Rabs (nth k x 0 - nth k y 0)).
Proof. exact lin_lipschitz. Qed.

Definition rl_slopes (k : nat) : R := match k with O => 24 | _ => 8 end.
Lemma rl_slopes_ok k : (k < 2)%nat -> data_slope_at_most rl_axes rl_vals k (rl_slopes k).
Proof.
  intros Hk idx Hi Hn. inversion Hi as [|? i ? ? Hi0 Hi']; subst. inversion Hi' as [|? j ? ? Hj0 Hj']; subst.
  inversion Hj'; subst. simpl in Hi0, Hj0. unfold zlen in Hi0, Hj0. simpl in Hi0, Hj0. unfold next_along in *.
  assert (Ei : (i = 0 \/ i = 1 \/ i = 2)%Z) by lia. assert (Ej : (j = 0 \/ j = 1)%Z) by lia.
  destruct k as [|[|k]]; [| |lia]; simpl in Hn; inversion Hn as [|? ? ? ? Hn0 Hn']; subst;
    inversion Hn' as [|? ? ? ? Hn1 _]; subst; simpl in Hn0, Hn1;
  destruct Ei as [-> | [-> | ->]], Ej as [-> | ->]; try lia; unfold entry, spacing; simpl; apply Rabs_le; lra.
Qed.
Example C54_ex :
  (exists r r', rl_eval [-7; 2] = Ok r /\ rl_eval [50; 2] = Ok r' /\ Rabs (r' - r) <= 24 * 57)
  /\ (exists r r', rl_eval [1 / 2; 3] = Ok r /\ rl_eval [1; 2] = Ok r' /\ Rabs (r - r') <= 20).
Proof.
  split.
  - destruct (C54_axis _ _ _ _ _ [-7; 2] 0%nat 50 24 rl_ok) as (r & r' & Er & Er' & Hr);
      [simpl; lia| |fits|fits|apply (rl_slopes_ok 0); lia|].
    + split; auto. intros [|[|[|k]]] a Hk Ha; simpl in Ha; try discriminate; try congruence. injection Ha as <-. simpl. lra.
    + exists r, r'. split; auto. split; auto. eapply Rle_trans; [exact Hr|]. simpl. rewrite Rabs_right; lra.
  - destruct (C54_points _ _ _ _ _ [1 / 2; 3] [1; 2] rl_slopes rl_ok) as (r & r' & Er & Er' & Hr).
    + split; auto. each_axis; lra.
    + split; auto. each_axis; lra.
    + intros k Hk. apply rl_slopes_ok. exact Hk.
    + exists r, r'. split; auto. split; auto. eapply Rle_trans; [exact Hr|]. unfold sum_upto. simpl.
      rewrite (Rabs_left (1 / 2 - 1)) by lra. rewrite (Rabs_right (3 - 2)) by lra. lra.
Qed.
Print Assumptions C54_axis.
Print Assumptions C54_points.
