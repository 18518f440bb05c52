(** One dimension, exact arithmetic: the interpolator with one axis (C29), smooth functions inside
    (C51) and outside the grid (C61), moved grids (C78). *)
From Coq Require Import Reals Lra Lia ZArith List.
From Verif Require Import Base Ops RInst ModelLinear ModelOneDim Spec SpecReal SpecApprox SpecExtrap SpecMoved Interpolators Spec1D Spec1DShape.
From Verif Require Import SpecError OneDimBridge OneDimSmooth OneDimSteps.
From Verif Require Import ExampleData ExampleReal PropertiesOneDim Properties1DMaps.
Import ListNotations.
Unset Implicit Arguments.
Open Scope R_scope.

(** * C29: for every one-dimensional grid accepted by the constructors, the multilinear constructor
    accepts the list of its points as the only axis, and Linear1D is that interpolator. *)
Theorem C29_one_axis :
  forall c c' vals a dom at_, grid1 c vals a dom at_ ->
  exists grid s, zlen grid = npts a /\ (forall i, (0 <= i < npts a)%Z -> nth (Z.to_nat i) grid 0 = coord a i) /\
    mlc_new ROps c' [grid] vals = Ok s /\
    forall x, dom x -> linear1 ROps c at_ x = mlc_interp_one ROps c' s [x].
Proof.
  intros c c' vals a dom at_ H. destruct (bridge c c' vals a dom at_ H) as (s & E & _ & (N & C) & L).
  exists (points_of a), s. split; [symmetry; exact N|]. split; [|split; assumption].
  intros i Hi. symmetry. exact (C i Hi).
Qed.

(** * C51: samples of a function with second derivative at most M, inside the grid. *)
Theorem C51_one_dim :
  forall c vals a dom at_ f f1 f2 x M h, grid1 c vals a dom at_ ->
  (forall i, (0 <= i < npts a)%Z -> val_at vals i = f (coord a i)) ->
  coord a 0 <= x <= coord a (npts a - 1) ->
  (forall t, coord a 0 <= t <= coord a (npts a - 1) ->
     derivable_pt_lim f t (f1 t) /\ derivable_pt_lim f1 t (f2 t) /\ Rabs (f2 t) <= M) ->
  spacing_at_most a h ->
  exists r, linear1 ROps c at_ x = Ok r /\ hold_last1 ROps c at_ x = Ok r /\ Rabs (r - f x) <= M * h ^ 2 / 8.
Proof. exact smooth_inside. Qed.

(** Samples of a function with slope at most L: half a spacing for Linear1D and Nearest1D, a whole
    one for Left1D and Right1D (at the grid points, too). *)
Theorem C51_one_dim_slope :
  forall c vals a dom at_ f x L h, grid1 c vals a dom at_ ->
  (forall i, (0 <= i < npts a)%Z -> val_at vals i = f (coord a i)) ->
  coord a 0 <= x <= coord a (npts a - 1) ->
  (forall s t, coord a 0 <= s <= coord a (npts a - 1) -> coord a 0 <= t <= coord a (npts a - 1) -> Rabs (f s - f t) <= L * Rabs (s - t)) ->
  spacing_at_most a h ->
  exists r n u v, linear1 ROps c at_ x = Ok r /\ nearest1 ROps at_ x = Ok n /\ left1 at_ x = Ok u /\ right1 at_ x = Ok v /\
    Rabs (r - f x) <= L * h / 2 /\ Rabs (n - f x) <= L * h / 2 /\ Rabs (u - f x) <= L * h /\ Rabs (v - f x) <= L * h.
Proof. exact slope_inside. Qed.

(** * C61: the same for Linear1D at any accepted point; [overshoot] is its distance from the grid in
    widths of the outermost cell. *)
Theorem C61_one_dim :
  forall c vals a dom at_ f f1 f2 x M h, grid1 c vals a dom at_ ->
  (forall i, (0 <= i < npts a)%Z -> val_at vals i = f (coord a i)) -> dom x ->
  (forall t, Rmin (coord a 0) x <= t <= Rmax (coord a (npts a - 1)) x ->
     derivable_pt_lim f t (f1 t) /\ derivable_pt_lim f1 t (f2 t) /\ Rabs (f2 t) <= M) ->
  spacing_at_most a h ->
  exists r, linear1 ROps c at_ x = Ok r /\ Rabs (r - f x) <= M * h ^ 2 * linear_miss (overshoot a x).
Proof. exact smooth_anywhere. Qed.

(** * C78: the same values on grids whose points differ by at most d, each point inside its grid;
    for LinearHoldLast1D any two accepted points. *)
Theorem C78_one_dim_linear :
  forall c c' vals a a' dom dom' at_ at_' x x' d L, grid1 c vals a dom at_ -> grid1 c' vals a' dom' at_' ->
  nodes_within d a a' -> slopes_between a vals (- L) L ->
  coord a 0 <= x <= coord a (npts a - 1) -> coord a' 0 <= x' <= coord a' (npts a' - 1) ->
  exists r r', linear1 ROps c at_ x = Ok r /\ linear1 ROps c' at_' x' = Ok r' /\ Rabs (r - r') <= L * (Rabs (x - x') + d).
Proof. exact moved_points. Qed.
Theorem C78_one_dim_hold_last :
  forall c c' vals a a' dom dom' at_ at_' x x' d L, grid1 c vals a dom at_ -> grid1 c' vals a' dom' at_' ->
  nodes_within d a a' -> slopes_between a vals (- L) L -> dom x -> dom' x' ->
  exists r r', hold_last1 ROps c at_ x = Ok r /\ hold_last1 ROps c' at_' x' = Ok r' /\
    Rabs (r - r') <= L * (Rmax (Rabs (x - x')) d + d).
Proof. exact moved_points_hold. Qed.
(** Nearest1D on the moved grid returns the value of a node nearest in the first grid up to 2 d. *)
Theorem C78_one_dim_nearest :
  forall c vals a a' dom at_ x d, grid1 c vals a' dom at_ -> nodes_within d a a' -> dom x ->
  exists i, nearest1 ROps at_ x = Ok (val_at vals i) /\ nearest_up_to (2 * d) a x i.
Proof. exact moved_nearest1. Qed.

Example C29_one_axis_ex : exists grid s, zlen grid = 3%Z /\ mlc_new ROps rplain [grid] e1_vals = Ok s /\
  linear1 ROps rplain (r1_at ROps rplain e1_reg) 7 = mlc_interp_one ROps rplain s [7].
Proof.
  destruct (C29_one_axis rplain rplain _ _ _ _ e1_reg_ok) as (g & s & N & _ & E & L). exists g, s.
  split; [exact N|]. split; [exact E|]. apply L. fits1.
Qed.

(** The squares of 0, 1 and 4. *)
Definition sq_vals : list R := [0; 1; 16].
Definition sq_at := c1_at ROps rplain (mkC1 e1_grid sq_vals).
Lemma sq_ok : grid1 rplain sq_vals (list_axis e1_grid) (fun _ => True) sq_at.
Proof. apply (@grid1_rectilinear rplain sq_vals e1_grid (mkC1 e1_grid sq_vals)); [vm_compute; discriminate|sorted_ok|reflexivity]. Qed.
Lemma sq_index i : (0 <= i < npts (list_axis e1_grid))%Z -> (i = 0 \/ i = 1 \/ i = 2)%Z.
Proof. intros H. change (npts (list_axis e1_grid)) with 3%Z in H. lia. Qed.
Lemma sq_samples i : (0 <= i < npts (list_axis e1_grid))%Z -> val_at sq_vals i = (fun t => t * t) (coord (list_axis e1_grid) i).
Proof. intros H. destruct (sq_index i H) as [->|[->| ->]]; unfold val_at; simpl; lra. Qed.
Lemma sq_spacing : spacing_at_most (list_axis e1_grid) 3.
Proof.
  intros o Ho. change (npts (list_axis e1_grid)) with 3%Z in Ho. assert (E : (o = 0 \/ o = 1)%Z) by lia.
  unfold spacing. destruct E as [->| ->]; simpl; lra.
Qed.
Lemma sq_derivs t : derivable_pt_lim (fun t => t * t) t ((fun t => 2 * t) t) /\
  derivable_pt_lim (fun t => 2 * t) t ((fun _ => 2) t) /\ Rabs ((fun _ : R => 2) t) <= 2.
Proof.
  split; [|split].
  - replace ((fun t => 2 * t) t) with (1 * id t + id t * 1) by (unfold id; lra).
    apply (derivable_pt_lim_mult id id); apply derivable_pt_lim_id.
  - assert (D := derivable_pt_lim_scal id 2 t 1 (derivable_pt_lim_id t)). rewrite Rmult_1_r in D. exact D.
  - cbv beta. rewrite Rabs_right; lra.
Qed.
Example C51_one_dim_ex : exists r, linear1 ROps rplain sq_at 2 = Ok r /\ hold_last1 ROps rplain sq_at 2 = Ok r /\ Rabs (r - 4) <= 9 / 4.
Proof.
  destruct (C51_one_dim _ _ _ _ _ (fun t => t * t) (fun t => 2 * t) (fun _ => 2) 2 2 3 sq_ok sq_samples) as (r & E & E' & B).
  - simpl. lra.
  - intros t _. apply sq_derivs.
  - exact sq_spacing.
  - exists r. split; [exact E|]. split; [exact E'|]. replace 4 with (2 * 2) by lra. lra.
Qed.
Example C51_one_dim_slope_ex : exists r n u v, linear1 ROps rplain sq_at 2 = Ok r /\ nearest1 ROps sq_at 2 = Ok n /\
  left1 sq_at 2 = Ok u /\ right1 sq_at 2 = Ok v /\
  Rabs (r - 4) <= 12 /\ Rabs (n - 4) <= 12 /\ Rabs (u - 4) <= 24 /\ Rabs (v - 4) <= 24.
Proof.
  destruct (C51_one_dim_slope _ _ _ _ _ (fun t => t * t) 2 8 3 sq_ok sq_samples) as (r & n & u & v & E1 & E2 & E3 & E4 & B1 & B2 & B3 & B4).
  - simpl. lra.
  - simpl. intros s t Hs Ht. replace (s * s - t * t) with ((s + t) * (s - t)) by ring. rewrite Rabs_mult.
    apply Rmult_le_compat_r; [apply Rabs_pos|]. apply Rabs_le. lra.
  - exact sq_spacing.
  - cbv beta in B1, B2, B3, B4. replace (2 * 2) with 4 in * by lra. exists r, n, u, v. repeat (split; [assumption || lra|]). lra.
Qed.
(** Linear1D returns 31 at 7, where the square is 49. *)
Example C61_one_dim_ex : exists r, linear1 ROps rplain sq_at 7 = Ok r /\ Rabs (r - 49) <= 81 / 4.
Proof.
  destruct (C61_one_dim _ _ _ _ _ (fun t => t * t) (fun t => 2 * t) (fun _ => 2) 7 2 3 sq_ok sq_samples) as (r & E & B).
  - exact I.
  - intros t _. apply sq_derivs.
  - exact sq_spacing.
  - exists r. split; [exact E|]. replace 49 with (7 * 7) by lra. eapply Rle_trans; [exact B|].
    assert (O : overshoot (list_axis e1_grid) 7 = 1).
    { unfold overshoot, spacing. simpl. rewrite (Rmax_right ((0 - 7) / (1 - 0))) by lra. rewrite Rmax_right by lra. field. }
    rewrite O. unfold linear_miss. lra.
Qed.

Definition mv_grid : list R := [0; 11 / 10; 4].
Definition mv_at := c1_at ROps rplain (mkC1 mv_grid e1_vals).
Lemma mv_ok : grid1 rplain e1_vals (list_axis mv_grid) (fun _ => True) mv_at.
Proof. apply (@grid1_rectilinear rplain e1_vals mv_grid (mkC1 mv_grid e1_vals)); [vm_compute; discriminate|sorted_ok|reflexivity]. Qed.
Lemma mv_near : nodes_within (1 / 10) (list_axis e1_grid) (list_axis mv_grid).
Proof. split; [reflexivity|]. intros i H. destruct (sq_index i H) as [->|[->| ->]]; simpl; apply Rabs_le; lra. Qed.
Lemma mv_slopes : slopes_between (list_axis e1_grid) e1_vals (- 10) 10.
Proof.
  intros o Ho. change (npts (list_axis e1_grid)) with 3%Z in Ho. assert (E : (o = 0 \/ o = 1)%Z) by lia.
  unfold val_at. destruct E as [->| ->]; simpl; lra.
Qed.
Example C78_one_dim_linear_ex : exists r r', linear1 ROps rplain (c1_at ROps rplain e1_rect) 2 = Ok r /\
  linear1 ROps rplain mv_at 2 = Ok r' /\ Rabs (r - r') <= 1.
Proof.
  destruct (C78_one_dim_linear _ _ _ _ _ _ _ _ _ 2 2 (1 / 10) 10 e1_rect_ok mv_ok mv_near mv_slopes) as (r & r' & E & E' & B);
    [simpl; lra|simpl; lra|].
  exists r, r'. split; [exact E|]. split; [exact E'|]. replace (2 - 2) with 0 in B by lra. rewrite Rabs_R0 in B. lra.
Qed.
Example C78_one_dim_hold_last_ex : exists r r', hold_last1 ROps rplain (c1_at ROps rplain e1_rect) (-9) = Ok r /\
  hold_last1 ROps rplain mv_at (-9) = Ok r' /\ Rabs (r - r') <= 2.
Proof.
  destruct (C78_one_dim_hold_last _ _ _ _ _ _ _ _ _ (-9) (-9) (1 / 10) 10 e1_rect_ok mv_ok mv_near mv_slopes I I) as (r & r' & E & E' & B).
  exists r, r'. split; [exact E|]. split; [exact E'|]. replace (-9 - -9) with 0 in B by lra. rewrite Rabs_R0, Rmax_right in B by lra. lra.
Qed.
(** At 26/10: a point whose nearest nodes 1 and 4 are almost equally far. *)
Example C78_one_dim_nearest_ex : exists i, nearest1 ROps mv_at (26 / 10) = Ok (val_at e1_vals i) /\
  nearest_up_to (2 * (1 / 10)) (list_axis e1_grid) (26 / 10) i.
Proof. exact (C78_one_dim_nearest _ _ _ _ _ _ (26 / 10) _ mv_ok mv_near I). Qed.

Print Assumptions C29_one_axis.
Print Assumptions C51_one_dim.
Print Assumptions C61_one_dim.
Print Assumptions C78_one_dim_linear.
Print Assumptions C78_one_dim_hold_last.
Print Assumptions C51_one_dim_slope.
Print Assumptions C78_one_dim_nearest.
