(** The multicubic interpolant is at most a stated factor steeper than the data (C101). *)
From Coq Require Import Reals Lra PeanoNat Bool Lia List.
From Flocq Require Import Core.Core IEEE754.BinarySingleNaN.
From Verif Require Import Base Ops RInst FInst ModelCore ModelLinear ModelCubic Spec SpecOrder SpecIEEE SpecError SpecReal Interpolators.
From Verif Require Import SpecApprox SpecExtrap SpecReach SpecCubicError SpecCubicReach SpecSplit SpecAgree SpecSlope CubicSlope FSlope.
From Verif Require Import R1D RTensor GenLemmas FLemmas FProofs FProofs2 FError2 RChar REval RProofs ExampleData ExampleReal.
From Verif Require Import PropertiesExact PropertiesFloat PropertiesError PropertiesApprox PropertiesCubicError PropertiesAgree PropertiesDyadic PropertiesSymmetry.
Import ListNotations.
Open Scope list_scope.
Open Scope R_scope.
Unset Implicit Arguments.

(** Four evenly spaced points with the values 0, 1, 0, 1. *)
Definition zig_vals : list R := [0; 1; 0; 1].
Lemma zig_value lin x : 0 <= x <= 1 -> four_eval lin zig_vals [x] = Ok (x * (2 - x)).
Proof.
  intros Hx. destruct (multicubic_value (four_ok lin 0 1 0 1)) as (G & _ & E). unfold zig_vals. rewrite E; [|reflexivity|].
  - f_equal. inversion G as [|a l Ga _ Ea]; subst. simpl. destruct Ga as (H2 & H4).
    rewrite (@cub1_herm _ H2 H4 lin _ x 0%Z).
    + unfold herm_piece, slope, mid_slope, dd, gap, entry. simpl. field.
    + split; simpl; [lia|]. split; [left; reflexivity|right; lra].
    + left. simpl. lra.
  - intros [|k] Hk; simpl in *; try lia. unfold isize_min, isize_max; simpl; split; lra.
Qed.
Lemma zig_slope : data_slope_at_most four_axes zig_vals 0 1.
Proof.
  intros idx Hi Hn. inversion Hi as [|? i ? ? Hi0 Hi']; subst. inversion Hi'; subst. unfold next_along in *. simpl in *.
  inversion Hn as [|? ? ? ? Hn0 _]; subst. simpl in Hn0, Hi0.
  assert (Ei : (i = 0 \/ i = 1 \/ i = 2)%Z) by lia.
  destruct Ei as [-> | [-> | ->]]; unfold entry, spacing; simpl; apply Rabs_le; lra.
Qed.
Lemma four_ratio a : In a four_axes -> spacing_ratio_at_most a 1.
Proof. apply C51_regular_ratio; reflexivity. Qed.
Lemma four_inside x : 0 <= x <= 3 -> inside_grid four_axes [x].
Proof. intros Hx. split; auto. intros [|[|k]] a Hk; simpl in Hk; try discriminate. injection Hk as <-. simpl. lra. Qed.

Lemma gain_values : cubic_slope_gain 1 = 2 /\ forall rho, 1 <= rho -> 2 <= cubic_slope_gain rho < 3.
Proof.
  split; [unfold cubic_slope_gain; field|]. intros rho H. destruct (gain_range rho ltac:(lra)). split; [|lra].
  unfold cubic_slope_gain. apply Rmult_le_reg_r with (1 + rho); [lra|].
  unfold Rdiv. rewrite Rmult_assoc, Rinv_l by lra. lra.
Qed.
Lemma factor_needed lin K : K < 2 -> exists c vals axes dom eval s t r r', multicubic c lin vals axes dom eval /\
  (forall a, In a axes -> spacing_ratio_at_most a 1) /\ data_slope_at_most axes vals 0 1 /\
  inside_grid axes [s] /\ inside_grid axes [t] /\ eval [s] = Ok r /\ eval [t] = Ok r' /\
  Rabs (r' - r) > K * 1 * Rabs (t - s).
Proof.
  intros HK. set (t := Rmin 1 ((2 - K) / 2)).
  assert (T0 : 0 < t) by (apply Rmin_glb_lt; lra). assert (T1 : t <= 1) by apply Rmin_l. assert (T2 : t <= (2 - K) / 2) by apply Rmin_r.
  exists rplain, zig_vals, four_axes, (cell_fits (isize_min + 1) [0] [1]), (four_eval lin zig_vals), 0, t, (0 * (2 - 0)), (t * (2 - t)).
  split; [apply four_ok|]. split; [apply four_ratio|]. split; [apply zig_slope|].
  split; [apply four_inside; lra|]. split; [apply four_inside; lra|].
  split; [apply zig_value; lra|]. split; [apply zig_value; lra|].
  rewrite !Rabs_right by nra. nra.
Qed.

(** * C101: moving the point along one axis changes the result of multicubic interpolation by at
    most the distance times the steepest slope of the data along that axis, times a factor that
    depends only on how uneven the spacing of the grid is and on the number of axes. The point must
    stay inside the grid, unless extrapolation is linear: then it may go as far out as it likes
    along the axis it moves on. *)
Theorem C101_axis :
  forall c lin vals axes dom eval x k t rho L, multicubic c lin vals axes dom eval ->
  (k < length axes)%nat -> inside_except axes k x -> dom x -> dom (upd x k t) ->
  (lin = true \/ inside_grid axes x /\ inside_grid axes (upd x k t)) ->
  (forall a, In a axes -> spacing_ratio_at_most a rho) -> data_slope_at_most axes vals k L ->
  exists r r', eval x = Ok r /\ eval (upd x k t) = Ok r' /\
    Rabs (r' - r) <= cubic_slope_gain rho * cubic_gain rho ^ (length axes - 1) * L * Rabs (t - nth k x 0).
Proof. exact cub_slope. Qed.
(** Any two points inside the grid: the contributions of the axes add up. *)
Theorem C101_points :
  forall c lin vals axes dom eval x y rho L, multicubic c lin vals axes dom eval ->
  inside_grid axes x -> inside_grid axes y ->
  (forall a, In a axes -> spacing_ratio_at_most a rho) ->
  (forall k, (k < length axes)%nat -> data_slope_at_most axes vals k (L k)) ->
  exists r r', eval x = Ok r /\ eval y = Ok r' /\
    Rabs (r - r') <= cubic_slope_gain rho * cubic_gain rho ^ (length axes - 1)
      * sum_upto (length axes) (fun k => L k * Rabs (nth k x 0 - nth k y 0)).
Proof. exact cub_lipschitz. Qed.
(** The factor along the axis is 2 on evenly spaced grids, and below 3 on every grid. *)
Theorem C101_factor : cubic_slope_gain 1 = 2 /\ forall rho, 1 <= rho -> 2 <= cubic_slope_gain rho < 3.
Proof. exact gain_values. Qed.
(** It cannot be lowered: for every smaller factor there are evenly spaced data and two points
    between which the interpolant is steeper. *)
Theorem C101_factor_is_needed :
  forall lin K, K < 2 -> exists c vals axes dom eval s t r r', multicubic c lin vals axes dom eval /\
  (forall a, In a axes -> spacing_ratio_at_most a 1) /\ data_slope_at_most axes vals 0 1 /\
  inside_grid axes [s] /\ inside_grid axes [t] /\ eval [s] = Ok r /\ eval [t] = Ok r' /\
  Rabs (r' - r) > K * 1 * Rabs (t - s).
Proof. exact factor_needed. Qed.
(** In floating point the rounding errors of the two evaluations are added. They may be done by
    different implementations and in different number formats. *)
Theorem C101_float_axis :
  forall lin axes axes' vals x k t e e' r r' rho L,
  cubic_run lin axes vals x e r -> cubic_run lin axes' vals (upd x k t) e' r' -> same_grid axes axes' ->
  (k < length axes)%nat -> inside_except axes k x ->
  (lin = true \/ inside_grid axes x /\ inside_grid axes (upd x k t)) ->
  (forall a, In a axes -> spacing_ratio_at_most a rho) -> data_slope_at_most axes vals k L ->
  exists y y', r = Some y /\ r' = Some y' /\
    Rabs (y' - y) <= cubic_slope_gain rho * cubic_gain rho ^ (length axes - 1) * L * Rabs (t - nth k x 0) + (e + e').
Proof. exact C101_proof_float_axis. Qed.
(** Both the point and the values may differ, as when both are rounded to a shorter format. *)
Theorem C101_float_points :
  forall lin axes axes' vals vals' x x' e e' r r' rho d L,
  cubic_run lin axes vals x e r -> cubic_run lin axes' vals' x' e' r' -> same_grid axes axes' ->
  inside_grid axes x -> inside_grid axes x' ->
  (forall a, In a axes -> spacing_ratio_at_most a rho) -> values_within d vals vals' ->
  (forall k, (k < length axes)%nat -> data_slope_at_most axes vals k (L k)) ->
  exists y y', r = Some y /\ r' = Some y' /\
    Rabs (y - y') <= e + e' + (cubic_gain rho ^ length axes * d + cubic_slope_gain rho * cubic_gain rho ^ (length axes - 1)
      * sum_upto (length axes) (fun k => L k * Rabs (nth k x 0 - nth k x' 0))).
Proof. exact C101_proof_float_points. Qed.

(** Linear extrapolation far outside along the first axis, and two points inside. *)
Definition rcu_slopes (k : nat) : R := match k with O => 200 | _ => 40 end.
Lemma rcu_slopes_ok k : (k < 2)%nat -> data_slope_at_most (rect_axes rcu_grids) rc_vals k (rcu_slopes k).
Proof.
  intros Hk idx Hi Hn. inversion Hi as [|? i ? ? Hi0 Hi']; subst. inversion Hi' as [|? j ? ? Hj0 Hj']; subst.
  inversion Hj'; subst. simpl in Hi0, Hj0. unfold zlen in Hi0, Hj0. simpl in Hi0, Hj0. unfold next_along in *.
  assert (Ei : (i = 0 \/ i = 1 \/ i = 2 \/ i = 3)%Z) by lia. assert (Ej : (j = 0 \/ j = 1 \/ j = 2 \/ j = 3 \/ j = 4)%Z) by lia.
  destruct k as [|[|k]]; [| |lia]; simpl in Hn; inversion Hn as [|? ? ? ? Hn0 Hn']; subst;
    inversion Hn' as [|? ? ? ? Hn1 _]; subst; simpl in Hn0, Hn1; unfold zlen in Hn0, Hn1; simpl in Hn0, Hn1; clear - Ei Ej Hn0 Hn1;
  destruct Ei as [-> | [-> | [-> | ->]]], Ej as [-> | [-> | [-> | [-> | ->]]]]; try lia; unfold entry, spacing, rc_vals; simpl; apply Rabs_le; lra.
Qed.
Example C101_ex :
  (exists r r', rcu_eval true [2; 6] = Ok r /\ rcu_eval true [50; 6] = Ok r' /\ Rabs (r' - r) <= 13 / 5 * (13 / 5) * 200 * 48)
  /\ (exists r r', rcu_eval false [2; 6] = Ok r /\ rcu_eval false [5 / 2; 4] = Ok r' /\ Rabs (r - r') <= 13 / 5 * (13 / 5) * 180).
Proof.
  assert (E1 : cubic_slope_gain 4 = 13 / 5) by (unfold cubic_slope_gain; field).
  assert (E2 : cubic_gain 4 = 13 / 5) by (unfold cubic_gain; field).
  split.
  - destruct (C101_axis _ _ _ _ _ _ [2; 6] 0%nat 50 4 200 (rcu_ok true)) as (r & r' & Er & Er' & Hr);
      [simpl; lia| |exact I|exact I|left; reflexivity|exact rcu_ratio_ok|apply (rcu_slopes_ok 0); lia|].
    + split; auto. intros [|[|[|k]]] a Hk Ha; simpl in Ha; try discriminate; try congruence. injection Ha as <-. simpl. lra.
    + exists r, r'. split; auto. split; auto. eapply Rle_trans; [exact Hr|]. rewrite E1, E2. simpl. rewrite Rabs_right; lra.
  - destruct (C101_points _ _ _ _ _ _ [2; 6] [5 / 2; 4] 4 rcu_slopes (rcu_ok false)) as (r & r' & Er & Er' & Hr).
    + split; auto. each_axis; lra.
    + split; auto. each_axis; lra.
    + exact rcu_ratio_ok.
    + intros k Hk. apply rcu_slopes_ok. exact Hk.
    + exists r, r'. split; auto. split; auto. eapply Rle_trans; [exact Hr|]. rewrite E1, E2. unfold sum_upto. simpl.
      rewrite (Rabs_left (2 - 5 / 2)) by lra. rewrite (Rabs_right (6 - 4)) by lra. lra.
Qed.
(** The same in f64, on an evenly spaced grid. *)
Definition cv_slopes (k : nat) : R := match k with O => 11 / 2 | _ => 9 / 4 end.
Lemma cv_slopes_ok k : (k < 2)%nat -> data_slope_at_most (iaxes cg) (map IZR cv) k (cv_slopes k).
Proof.
  intros Hk idx Hi Hn. inversion Hi as [|? i ? ? Hi0 Hi']; subst. inversion Hi' as [|? j ? ? Hj0 Hj']; subst.
  inversion Hj'; subst. simpl in Hi0, Hj0. unfold zlen in Hi0, Hj0. simpl in Hi0, Hj0. unfold next_along in *.
  assert (Ei : (i = 0 \/ i = 1 \/ i = 2 \/ i = 3)%Z) by lia. assert (Ej : (j = 0 \/ j = 1 \/ j = 2 \/ j = 3 \/ j = 4)%Z) by lia.
  destruct k as [|[|k]]; [| |lia]; simpl in Hn; inversion Hn as [|? ? ? ? Hn0 Hn']; subst;
    inversion Hn' as [|? ? ? ? Hn1 _]; subst; simpl in Hn0, Hn1; unfold zlen in Hn0, Hn1; simpl in Hn0, Hn1; clear - Ei Ej Hn0 Hn1;
  destruct Ei as [-> | [-> | [-> | ->]]], Ej as [-> | [-> | [-> | [-> | ->]]]]; try lia; unfold entry, spacing, cv; simpl; apply Rabs_le; lra.
Qed.
Lemma cg_ratio a : In a (iaxes cg) -> spacing_ratio_at_most a 1.
Proof. assert (Hr : Forall (fun a => spacing_ratio_at_most a 1) (iaxes cg)) by even_ratio. rewrite Forall_forall in Hr. apply Hr. Qed.
Lemma crun_v2 lin : crun lin cg cv [5; 7]%Z. Proof. is_crun. Qed.
Lemma crun_v3 lin : crun lin cg cv [4; 10]%Z. Proof. is_crun. Qed.
Example C101_float_ex lin :
  (exists y y', number_of (cev lin cg cv [3; 7]%Z) = Some y /\ number_of (cev lin cg cv [5; 7]%Z) = Some y' /\
    Rabs (y' - y) <= 2 * (5 / 4) * (11 / 2) * 2 + / 10000000)
  /\ (exists y y', number_of (cev lin cg cv [3; 7]%Z) = Some y /\ number_of (cev lin cg cv [4; 10]%Z) = Some y' /\
    Rabs (y - y') <= 2 * (5 / 4) * (11 / 2 + 9 / 4 * 3) + / 10000000).
Proof.
  assert (E1 : cubic_slope_gain 1 = 2) by (unfold cubic_slope_gain; field).
  assert (E2 : cubic_gain 1 = 5 / 4) by (unfold cubic_gain; field).
  assert (H2 := cerr_small 2 (or_intror eq_refl)).
  split.
  - destruct (C101_float_axis lin (iaxes cg) (iaxes cg) (map IZR cv) [3; 7] 0 5 _ _ _ _ 1 (11 / 2) (crun_v lin) (crun_v2 lin)
      (FSymmetry.same_grid_refl _)) as (y & y' & E & E' & B).
    + simpl. lia.
    + split; auto. intros [|[|[|k]]] a Hk Ha; simpl in Ha; try discriminate; try congruence. injection Ha as <-. simpl. lra.
    + right. split; (split; [reflexivity|]; each_axis2; lra).
    + exact cg_ratio.
    + apply (cv_slopes_ok 0). lia.
    + exists y, y'. split; [exact E|]. split; [exact E'|]. change (length cg) with 2%nat in B. rewrite E1, E2 in B. simpl in B. rewrite (Rabs_right (5 - 3)) in B by lra. lra.
  - destruct (C101_float_points lin (iaxes cg) (iaxes cg) (map IZR cv) (map IZR cv) [3; 7] [4; 10] _ _ _ _ 1 0 cv_slopes (crun_v lin) (crun_v3 lin)
      (FSymmetry.same_grid_refl _)) as (y & y' & E & E' & B).
    + split; [reflexivity|]; each_axis2; lra.
    + split; [reflexivity|]; each_axis2; lra.
    + exact cg_ratio.
    + unfold cv. simpl. repeat (apply Forall2_cons; [apply Rabs_le; lra|]). apply Forall2_nil.
    + intros k Hk. apply cv_slopes_ok. exact Hk.
    + exists y, y'. split; [exact E|]. split; [exact E'|]. change (length cg) with 2%nat in B. rewrite E1, E2 in B. unfold sum_upto in B. simpl in B.
      rewrite (Rabs_left (3 - 4)) in B by lra. rewrite (Rabs_left (7 - 10)) in B by lra. lra.
Qed.
Print Assumptions C101_axis.
Print Assumptions C101_points.
Print Assumptions C101_factor.
Print Assumptions C101_factor_is_needed.
Print Assumptions C101_float_axis.
Print Assumptions C101_float_points.
