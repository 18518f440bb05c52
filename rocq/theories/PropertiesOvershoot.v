(** How far results leave the range of the data around them (C102). *)
From Coq Require Import Reals Lra PeanoNat Bool Lia List.
From Flocq Require Import Core.Core IEEE754.BinarySingleNaN.
From Verif Require Import Base Ops RInst FInst ModelCore ModelLinear ModelCubic Spec SpecOrder SpecIEEE SpecError SpecReal Interpolators.
From Verif Require Import SpecApprox SpecExtrap SpecReach SpecCubicError SpecCubicReach SpecAgree SpecMissing SpecOvershoot Overshoot.
From Verif Require Import R1D RTensor GenLemmas FLemmas FProofs FProofs2 FError2 RChar REval RProofs ExampleData ExampleReal.
From Verif Require Import PropertiesExact PropertiesFloat PropertiesError PropertiesApprox PropertiesExtrap PropertiesReach PropertiesCubicError PropertiesAgree PropertiesDyadic PropertiesSymmetry PropertiesSlope.
Import ListNotations.
Open Scope list_scope.
Open Scope R_scope.
Unset Implicit Arguments.

(** The arch 0, 1, 1, 0 on four evenly spaced points. *)
Lemma arch_value lin : four_eval lin [0; 1; 1; 0] [3 / 2] = Ok (9 / 8).
Proof.
  destruct (multicubic_value (four_ok lin 0 1 1 0)) as (G & _ & E). rewrite E; [|reflexivity|].
  - f_equal. inversion G as [|a l Ga _ Ea]; subst. simpl. destruct Ga as (H2 & H4).
    rewrite (@cub1_herm _ H2 H4 lin _ (3 / 2) 1%Z).
    + unfold herm_piece, slope, mid_slope, dd, gap, entry. simpl. field.
    + split; simpl; [lia|]. split; right; lra.
    + left. simpl. lra.
  - intros [|k] Hk; simpl in *; try lia. unfold isize_min, isize_max; simpl; split; lra.
Qed.
Lemma arch_attained lin : exists c vals axes dom eval x r, multicubic c lin vals axes dom eval /\ length axes = 1%nat /\
  (forall a, In a axes -> spacing_ratio_at_most a 1) /\ inside_grid axes x /\ Forall (fun v => 0 <= v <= 1) vals /\
  eval x = Ok r /\ r = 1 + (cubic_gain 1 ^ 1 - 1) / 2 * (1 - 0).
Proof.
  exists rplain, [0; 1; 1; 0], four_axes, (cell_fits (isize_min + 1) [0] [1]), (four_eval lin [0; 1; 1; 0]), [3 / 2], (9 / 8).
  split; [apply four_ok|]. split; [reflexivity|]. split; [apply four_ratio|]. split; [apply four_inside; lra|].
  split; [repeat (apply Forall_cons; [lra|]); apply Forall_nil|]. split; [apply arch_value|]. unfold cubic_gain. simpl. field.
Qed.

(** * C102: all that matters is the range of the values around the cell of the point. Multilinear
    interpolation stays inside it, and extrapolation leaves it by at most the width of the range
    times a number that grows with the distance from the grid (half of the factor of C62 less 1). *)
Theorem C102_multilinear :
  forall c vals axes (dom : list R -> Prop) eval x cells lo hi, multilinear c vals axes dom eval -> dom x ->
  in_cells axes x cells -> (forall idx, corner cells idx -> lo <= entry 0 (map npts axes) vals idx <= hi) ->
  exists r, eval x = Ok r /\ leaves_by_at_most ((reach_factor axes x - 1) / 2) lo hi r.
Proof. exact overshoot_linear. Qed.
(** Multicubic interpolation leaves it by at most half of the gain of C52, less 1, times its width. *)
Theorem C102_multicubic_inside :
  forall c lin vals axes dom eval x cells lo hi rho, multicubic c lin vals axes dom eval -> inside_grid axes x ->
  in_cells axes x cells -> (forall a, In a axes -> spacing_ratio_at_most a rho) ->
  (forall idx, around (map npts axes) cells idx -> lo <= entry 0 (map npts axes) vals idx <= hi) ->
  exists r, eval x = Ok r /\ leaves_by_at_most ((cubic_gain rho ^ length axes - 1) / 2) lo hi r.
Proof. exact overshoot_cubic_inside. Qed.
(** Anywhere, with the factor of C60. *)
Theorem C102_multicubic :
  forall c lin vals axes (dom : list R -> Prop) eval x cells lo hi rho, multicubic c lin vals axes dom eval -> dom x ->
  in_cells axes x cells -> (forall a, In a axes -> spacing_ratio_at_most a rho) ->
  (forall idx, around (map npts axes) cells idx -> lo <= entry 0 (map npts axes) vals idx <= hi) ->
  exists r, eval x = Ok r /\
    leaves_by_at_most ((prod_upto (length axes) (fun k => cubic_reach_gain lin rho (outside_by axes x k)) - 1) / 2) lo hi r.
Proof. exact overshoot_cubic. Qed.
(** On evenly spaced points the fraction is 1/8 for one axis, and this is reached: values between
    0 and 1 can give 9/8. *)
Theorem C102_attained :
  forall lin, exists c vals axes dom eval x r, multicubic c lin vals axes dom eval /\ length axes = 1%nat /\
  (forall a, In a axes -> spacing_ratio_at_most a 1) /\ inside_grid axes x /\ Forall (fun v => 0 <= v <= 1) vals /\
  eval x = Ok r /\ r = 1 + (cubic_gain 1 ^ 1 - 1) / 2 * (1 - 0).
Proof. exact arch_attained. Qed.
(** In floating point the rounding error is added. *)
Theorem C102_linear_float :
  forall axes vals x cells e r lo hi, linear_run axes vals x e r -> in_cells axes x cells ->
  (forall idx, corner cells idx -> lo <= entry 0 (map npts axes) vals idx <= hi) ->
  let q := (reach_factor axes x - 1) / 2 in
  exists y, r = Some y /\ lo - q * (hi - lo) - e <= y <= hi + q * (hi - lo) + e.
Proof. exact overshoot_linear_float. Qed.
Theorem C102_cubic_float :
  forall lin axes vals x cells e r lo hi rho, cubic_run lin axes vals x e r -> in_cells axes x cells ->
  (forall a, In a axes -> spacing_ratio_at_most a rho) ->
  (forall idx, around (map npts axes) cells idx -> lo <= entry 0 (map npts axes) vals idx <= hi) ->
  let q := (prod_upto (length axes) (fun k => cubic_reach_gain lin rho (outside_by axes x k)) - 1) / 2 in
  exists y, r = Some y /\ lo - q * (hi - lo) - e <= y <= hi + q * (hi - lo) + e.
Proof. exact overshoot_cubic_float. Qed.

(** Two cell widths above the first axis; the values at the corners of the last cell are 4, 8, 16
    and 32, the other values do not matter. *)
Example C102_multilinear_ex : exists r, rl_eval [4; 2] = Ok r /\ 4 - 56 <= r <= 32 + 56.
Proof.
  destruct (C102_multilinear _ _ _ _ _ [4; 2] [1; 0]%Z 4 32 rl_ok) as (r & E & B).
  - fits.
  - split; [reflexivity|]. split; [reflexivity|]. intros [|[|[|k]]] a Hk; simpl in Hk; try discriminate; injection Hk as <-;
      (split; [simpl; lia|]); simpl; split; first [left; reflexivity|right; lra].
  - intros idx Hc. inversion Hc as [|? i ? ? Hi Hc']; subst. inversion Hc' as [|? j ? ? Hj Hc'']; subst. inversion Hc''; subst.
    assert (Ei : (i = 1 \/ i = 2)%Z) by lia. assert (Ej : (j = 0 \/ j = 1)%Z) by lia.
    destruct Ei as [-> | ->], Ej as [-> | ->]; unfold entry; simpl; lra.
  - exists r. split; auto. destruct rl_outside as (O0 & O1). unfold leaves_by_at_most, reach_factor, prod_upto in B.
    change (length rl_axes) with 2%nat in B. cbn [seq map fold_right] in B. rewrite O0, O1 in B. lra.
Qed.
(** The values around the cell are between -3 and 354. *)
Lemma rcu_around idx : around [4; 5]%Z [1; 3]%Z idx -> -3 <= entry 0 [4; 5]%Z rc_vals idx <= 354.
Proof.
  intros (Hs & Hc). inversion Hs as [|? i ? ? Hi Hs']; subst. inversion Hs' as [|? j ? ? Hj Hs'']; subst. inversion Hs''; subst.
  inversion Hc as [|? ? ? ? Hi1 Hc']; subst. inversion Hc' as [|? ? ? ? Hj1 _]; subst.
  assert (Ei : (i = 0 \/ i = 1 \/ i = 2 \/ i = 3)%Z) by lia. assert (Ej : (j = 2 \/ j = 3 \/ j = 4)%Z) by lia.
  destruct Ei as [-> | [-> | [-> | ->]]], Ej as [-> | [-> | ->]]; unfold entry, rc_vals; simpl; lra.
Qed.
Example C102_multicubic_ex :
  (forall lin, exists r, rcu_eval lin [2; 6] = Ok r /\ -3 - 72 / 25 * 357 <= r <= 354 + 72 / 25 * 357)
  /\ (exists r, rcu_eval true [5; 6] = Ok r /\ -3 - (63 / 5 * (13 / 5) - 1) / 2 * 357 <= r <= 354 + (63 / 5 * (13 / 5) - 1) / 2 * 357).
Proof.
  assert (E2 : cubic_gain 4 = 13 / 5) by (unfold cubic_gain; field).
  split.
  - intros lin. destruct (C102_multicubic_inside _ _ _ _ _ _ [2; 6] [1; 3]%Z (-3) 354 4 (rcu_ok lin)) as (r & E & B).
    + split; auto. each_axis; lra.
    + split; [reflexivity|]. split; [reflexivity|]. intros [|[|[|k]]] a Hk; simpl in Hk; try discriminate; injection Hk as <-;
        (split; [simpl; unfold zlen; simpl; lia|]); simpl; split; first [right; lra|left; reflexivity].
    + exact rcu_ratio_ok.
    + exact rcu_around.
    + exists r. split; auto. unfold leaves_by_at_most in B. rewrite E2 in B. simpl in B. lra.
  - destruct (C102_multicubic _ _ _ _ _ _ [5; 6] [2; 3]%Z (-3) 354 4 (rcu_ok true)) as (r & E & B).
    + exact I.
    + split; [reflexivity|]. split; [reflexivity|]. intros [|[|[|k]]] a Hk; simpl in Hk; try discriminate; injection Hk as <-;
        (split; [simpl; unfold zlen; simpl; lia|]); simpl; split; first [left; reflexivity|right; lra].
    + exact rcu_ratio_ok.
    + intros idx (Hs & Hc). apply rcu_around. split; auto. inversion Hs as [|? i ? ? Hi Hs']; subst.
      inversion Hc as [|? ? ? ? Hi1 Hc']; subst. constructor; auto. simpl in Hi. unfold zlen in Hi. simpl in Hi. lia.
    + exists r. split; auto. unfold leaves_by_at_most, prod_upto in B. cbn [length rect_axes map rcu_grids seq fold_right] in B.
      assert (O0 : outside_by (rect_axes rcu_grids) [5; 6] 0 = 1) by overshoots.
      assert (O1 : outside_by (rect_axes rcu_grids) [5; 6] 1 = 0) by overshoots.
      change [list_axis [0; 1; 3; 4]; list_axis [-1; 0; 1; 5; 7]] with (rect_axes rcu_grids) in B.
      rewrite O0, O1 in B. unfold cubic_reach_gain in B. rewrite E2 in B. lra.
Qed.
(** f32 and f64. *)
Example C102_linear_float_ex : exists y, number_of (a_eval [f32_lit 3 (-2); z32 2]) = Some y /\ -7 - 1 / 10000 <= y <= 11 + 1 / 10000.
Proof.
  assert (R2 := a_run [f32_lit 3 (-2); z32 2] ltac:(repeat (apply Forall_cons; [reflexivity|]); apply Forall_nil)
    ltac:(rewrite a_grids_real, x34_real; split; [reflexivity|]; each_axis2; lra)).
  rewrite x34_real, a_grids_real, lin_vals_real in R2.
  destruct (C102_linear_float _ _ _ [1; 0]%Z _ _ (-7) 11 R2) as (y & E & B).
  - split; [reflexivity|]. split; [reflexivity|]. intros [|[|[|k]]] a Hk; simpl in Hk; try discriminate; injection Hk as <-;
      (split; [simpl; unfold zlen; simpl; lia|]); simpl; split; first [right; lra|left; reflexivity].
  - intros idx Hc. inversion Hc as [|? i ? ? Hi Hc']; subst. inversion Hc' as [|? j ? ? Hj Hc'']; subst. inversion Hc''; subst.
    assert (Ei : (i = 1 \/ i = 2)%Z) by lia. assert (Ej : (j = 0 \/ j = 1)%Z) by lia.
    destruct Ei as [-> | ->], Ej as [-> | ->]; unfold entry; simpl; lra.
  - exists y. split; [exact E|]. assert (A := a_err).
    assert (O0 : outside_by (rect_axes [[0; 1 / 2; 1]; [1; 3]]) [3 / 4; 2] 0 = 0) by overshoots.
    assert (O1 : outside_by (rect_axes [[0; 1 / 2; 1]; [1; 3]]) [3 / 4; 2] 1 = 0) by overshoots.
    unfold reach_factor, prod_upto in B. change (length (rect_axes [[0; 1 / 2; 1]; [1; 3]])) with 2%nat in B.
    cbn [seq map fold_right] in B. rewrite O0, O1 in B. lra.
Qed.
Example C102_cubic_float_ex lin : exists y, number_of (cev lin cg cv [3; 7]%Z) = Some y /\ -3 - 9 / 32 * 15 - / 10000000 <= y <= 12 + 9 / 32 * 15 + / 10000000.
Proof.
  assert (E2 : cubic_gain 1 = 5 / 4) by (unfold cubic_gain; field).
  assert (H2 := cerr_small 2 (or_intror eq_refl)).
  destruct (C102_cubic_float lin (iaxes cg) (map IZR cv) [3; 7] [1; 1]%Z _ _ (-3) 12 1 (crun_v lin)) as (y & E & B).
  - split; [reflexivity|]. split; [reflexivity|]. intros [|[|[|k]]] a Hk; simpl in Hk; try discriminate; injection Hk as <-;
      (split; [simpl; unfold zlen; simpl; lia|]); simpl; split; right; lra.
  - exact cg_ratio.
  - intros idx (Hs & Hc). inversion Hs as [|? i ? ? Hi Hs']; subst. inversion Hs' as [|? j ? ? Hj Hs'']; subst. inversion Hs''; subst.
    inversion Hc as [|? ? ? ? Hi1 Hc']; subst. inversion Hc' as [|? ? ? ? Hj1 _]; subst.
    assert (Ei : (i = 0 \/ i = 1 \/ i = 2 \/ i = 3)%Z) by lia. assert (Ej : (j = 0 \/ j = 1 \/ j = 2 \/ j = 3)%Z) by lia. clear - Ei Ej.
    destruct Ei as [-> | [-> | [-> | ->]]], Ej as [-> | [-> | [-> | ->]]]; unfold entry, cv; simpl; lra.
  - exists y. split; [exact E|].
    assert (O0 : outside_by (iaxes cg) [3; 7] 0 = 0) by overshoots.
    assert (O1 : outside_by (iaxes cg) [3; 7] 1 = 0) by overshoots.
    unfold prod_upto in B. change (length (iaxes cg)) with 2%nat in B. change (length cg) with 2%nat in B. cbn [seq map fold_right] in B. rewrite O0, O1 in B. unfold cubic_reach_gain in B. rewrite E2 in B.
    destruct lin; lra.
Qed.
Print Assumptions C102_multilinear.
Print Assumptions C102_multicubic_inside.
Print Assumptions C102_multicubic.
Print Assumptions C102_attained.
Print Assumptions C102_linear_float.
Print Assumptions C102_cubic_float.
