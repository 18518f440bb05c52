(** Concrete instances of theorems in exact arithmetic whose hypotheses are met by the data of
    ExampleReal.v (C01-C11, C20-C31, C51, C60). *)
From Coq Require Import Reals Lra PeanoNat Bool Permutation.
From Verif Require Import Base Ops RInst ModelLinear ModelNearest ModelCubic ModelOneDim ModelUtils Spec SpecReal Interpolators.
From Verif Require Import SpecApprox SpecExtrap Spec1D GenProofs3.
From Verif Require Import ExampleReal PropertiesExact PropertiesUtils PropertiesOneDim PropertiesApprox PropertiesExtrap.
Open Scope R_scope.
Unset Implicit Arguments.

Ltac both_indices := intros idx Hi; inversion Hi as [|? i ? ? Hi0 Hi']; subst; inversion Hi' as [|? j ? ? Hj0 Hj']; subst;
  inversion Hj'; subst; unfold zlen in Hi0, Hj0; simpl in Hi0, Hj0.

(** Every point of the plane lies in a cell, and that cell's corners are nodes. *)
Example C01_cell_exists_ex : exists os, in_cells (rect_axes ru_grids) [9; -40] os /\
  in_shape [3%Z; 2%Z] (corner_index os [true; true]).
Proof.
  destruct (C01_cell_exists _ _ _ _ _ [9; -40] rlu_ok eq_refl) as (os & H). exists os. split; [exact H|].
  apply (C01_cell_corners _ _ _ [true; true] H).
  assert (L : length os = 2%nat) by (destruct H as (_ & L & _); exact L).
  rewrite L. simpl. auto 10.
Qed.

(** An affine function of the coordinates on the uneven 4 x 5 grid. *)
Definition tilt (x : list R) : R := match x with [u; v] => 3 + 2 * u - v | _ => 0 end.
Definition tilt_data : list R := flat_map (fun x => map (fun y => 3 + 2 * x - y) [-1; 0; 1; 5; 7]) [0; 1; 3; 4].
Definition tilt_cubic lin := mcc_interp_one ROps rplain (mkCC (mkRect rcu_grids [4%Z; 5%Z] tilt_data) lin).
Lemma tilt_cubic_ok lin : multicubic rplain lin tilt_data (rect_axes rcu_grids) everywhere (tilt_cubic lin).
Proof. apply multicubic_rectilinear; [rrect_ok|sorted_ok|new_ok]. Qed.
Example C06_affine_ex : tilt_cubic true [10; 100] = Ok (-77).
Proof.
  rewrite (C06_affine _ _ _ _ _ _ tilt [10; 100] (tilt_cubic_ok true)).
  - f_equal. simpl. lra.
  - intros [|[|k]] [|y0 [|y1 [|]]] Hk Hy; simpl in *; try lia.
    + exists (3 - y1), 2. intros; lra.
    + exists (3 + 2 * y0), (-1). intros; lra.
  - both_indices.
    assert (Ei : (i = 0 \/ i = 1 \/ i = 2 \/ i = 3)%Z) by lia. assert (Ej : (j = 0 \/ j = 1 \/ j = 2 \/ j = 3 \/ j = 4)%Z) by lia.
    destruct Ei as [-> | [-> | [-> | ->]]], Ej as [-> | [-> | [-> | [-> | ->]]]]; unfold entry; simpl; lra.
  - reflexivity.
  - exact I.
Qed.
Example C07_multicubic_ex lin : exists F, (forall x, length x = 2%nat -> rcu_eval lin x = Ok (F x)) /\
  forall x, length x = 2%nat -> continuous_at 2 F x.
Proof.
  destruct (C07_multicubic _ _ _ _ _ _ (rcu_ok lin)) as (F & E & C). exists F. split; [|exact C].
  intros x Lx. apply E; [exact Lx|exact I].
Qed.
Example C08_smooth_ex lin : exists F, (forall x, length x = 2%nat -> rcu_eval lin x = Ok (F x)) /\
  continuously_differentiable 2 F.
Proof.
  destruct (C08_multicubic _ _ _ _ _ _ (rcu_ok lin)) as (F & E & C). exists F. split; [|exact C].
  intros x Lx. apply E; [exact Lx|exact I].
Qed.
(** Above the last node (7) of the second axis. *)
Example C09_high_ex : exists u v w, rcu_eval true [2; 9] = Ok (u + v * 7 + w * 7 * 7 + (v + 2 * w * 7) * (9 - 7)) /\
  rcu_eval true [2; 6] = Ok (u + v * 6 + w * 6 * 6).
Proof.
  destruct (C09_high _ _ _ _ _ _ [2; 0] 1%nat _ (rcu_ok true) eq_refl eq_refl) as (u & v & w & H).
  exists u, v, w. split.
  - apply (H 9); simpl; try lra; auto. exact I.
  - apply (H 6); simpl; try lra. exact I.
Qed.
(** The regular and the rectilinear build are the same grid (C10); here the flattened cubic with and
    without fma. *)
Example C11_exact_multicubic_ex : rcu_eval true [5; 5] =
  mcc_interp_one ROps (mkCfg true false) (mkCC (mkRect rcu_grids [4%Z; 5%Z] rc_vals) true) [5; 5].
Proof.
  apply (C11_exact_multicubic rplain (mkCfg true false) true rc_vals (rect_axes rcu_grids) everywhere everywhere _ _ [5; 5]
    (rcu_ok true)); [|reflexivity|exact I|exact I].
  apply multicubic_rectilinear; [rrect_ok|sorted_ok|new_ok].
Qed.
(** Cubic: twice the one data set plus the other. *)
Example C20_multicubic_ex : exists r1 r2, rcu_eval false [2; 2] = Ok r1 /\ tilt_cubic false [2; 2] = Ok r2 /\
  mcc_interp_one ROps rplain (mkCC (mkRect rcu_grids [4%Z; 5%Z] (combination 2 1 rc_vals tilt_data)) false) [2; 2]
    = Ok (2 * r1 + 1 * r2).
Proof.
  refine (C20_multicubic rplain rplain rplain false 2 1 rc_vals tilt_data (rect_axes rcu_grids) everywhere everywhere everywhere
    _ _ _ [2; 2] (rcu_ok false) (tilt_cubic_ok false) _ eq_refl I I I).
  apply multicubic_rectilinear; [rrect_ok|sorted_ok|new_ok].
Qed.
Definition rcs_grids : list (list R) := [[0; 1000; 3000; 4000]; [9; 10; 11; 15; 17]].
Lemma rescale_ex : rescaled_grid [(1000, 0); (1, 10)] (rect_axes rcu_grids) (rect_axes rcs_grids) [2; 2] [2000; 12].
Proof.
  simpl. unfold rescaled_axis. simpl. repeat split; try lra; intros i Hi; unfold zlen in Hi; simpl in Hi.
  - assert (E : (i = 0 \/ i = 1 \/ i = 2 \/ i = 3)%Z) by lia. destruct E as [-> | [-> | [-> | ->]]]; simpl; lra.
  - assert (E : (i = 0 \/ i = 1 \/ i = 2 \/ i = 3 \/ i = 4)%Z) by lia. destruct E as [-> | [-> | [-> | [-> | ->]]]]; simpl; lra.
Qed.
Example C21_multicubic_ex lin :
  mcc_interp_one ROps rplain (mkCC (mkRect rcs_grids [4%Z; 5%Z] rc_vals) lin) [2000; 12] = rcu_eval lin [2; 2].
Proof.
  refine (C21_multicubic rplain rplain lin rc_vals _ _ _ everywhere everywhere _ _ _ _ (rcu_ok lin) _ rescale_ex I I).
  apply multicubic_rectilinear; [rrect_ok|sorted_ok|new_ok].
Qed.
Example C21_nearest_ex :
  nc_interp_one ROps rplain (mkRect rcs_grids [4%Z; 5%Z] rc_vals) [2000; 12] =
  nc_interp_one ROps rplain (mkRect rcu_grids [4%Z; 5%Z] rc_vals) [2; 2].
Proof.
  refine (C21_nearest rplain rplain rc_vals _ _ _ everywhere everywhere _ _ _ _ _ _ rescale_ex I I);
    apply nearest_rectilinear; [rrect_ok|sorted_ok|new_ok|rrect_ok|sorted_ok|new_ok].
Qed.
(** The transposed 5 x 4 array. *)
Definition rct_grids : list (list R) := [[-1; 0; 1; 5; 7]; [0; 1; 3; 4]].
Definition rct_vals : list R := flat_map (fun j => map (fun i => nth (5 * i + j) rc_vals 0) [0; 1; 2; 3]%nat) [0; 1; 2; 3; 4]%nat.
Example C22_multicubic_ex lin :
  mcc_interp_one ROps rplain (mkCC (mkRect rct_grids [5%Z; 4%Z] rct_vals) lin) [2; 3 / 2] = rcu_eval lin [3 / 2; 2].
Proof.
  refine (C22_multicubic rplain rplain lin [1%nat; 0%nat] rc_vals rct_vals (rect_axes rcu_grids) everywhere everywhere _ _
    [3 / 2; 2] (perm_swap 0%nat 1%nat []) (rcu_ok lin) _ _ eq_refl I I).
  - apply (@multicubic_rectilinear rplain lin rct_vals rct_grids); [rrect_ok|sorted_ok|new_ok].
  - both_indices.
    assert (Ei : (i = 0 \/ i = 1 \/ i = 2 \/ i = 3)%Z) by lia. assert (Ej : (j = 0 \/ j = 1 \/ j = 2 \/ j = 3 \/ j = 4)%Z) by lia.
    destruct Ei as [-> | [-> | [-> | ->]]], Ej as [-> | [-> | [-> | [-> | ->]]]]; reflexivity.
Qed.
Example C22_nearest_ex :
  nc_interp_one ROps rplain (mkRect [[-1; 3]; [0; 1; 4]] [2%Z; 3%Z] [1; 4; 16; 2; 8; 32]) [2; 3] = rnu_eval [3; 2].
Proof.
  refine (C22_nearest rplain rplain [1%nat; 0%nat] rl_vals _ (rect_axes ru_grids) everywhere everywhere _ _
    [3; 2] (perm_swap 0%nat 1%nat []) rnu_ok _ _ eq_refl I I).
  - apply (@nearest_rectilinear rplain [1; 4; 16; 2; 8; 32] [[-1; 3]; [0; 1; 4]]); [rrect_ok|sorted_ok|new_ok].
  - both_indices.
    assert (Ei : (i = 0 \/ i = 1 \/ i = 2)%Z) by lia. assert (Ej : (j = 0 \/ j = 1)%Z) by lia.
    destruct Ei as [-> | [-> | ->]], Ej as [-> | ->]; reflexivity.
Qed.
(** The first axis reflected. *)
Definition rcf_grids : list (list R) := [[-4; -3; -1; 0]; [-1; 0; 1; 5; 7]].
Definition rcf_vals : list R := flat_map (fun i => map (fun j => nth (5 * (3 - i) + j) rc_vals 0) [0; 1; 2; 3; 4]%nat) [0; 1; 2; 3]%nat.
Example C23_multicubic_ex lin :
  mcc_interp_one ROps rplain (mkCC (mkRect rcf_grids [4%Z; 5%Z] rcf_vals) lin) [-9; 2] = rcu_eval lin [9; 2].
Proof.
  refine (C23_multicubic rplain rplain lin rc_vals rcf_vals [true; false] _ _ everywhere everywhere _ _ [9; 2] [-9; 2] (rcu_ok lin) _ _ _ I I).
  - apply (@multicubic_rectilinear rplain lin rcf_vals rcf_grids); [rrect_ok|sorted_ok|new_ok].
  - simpl. unfold reflected_axis, same_axis. simpl. repeat split; try lra; intros i Hi.
    unfold zlen in Hi. simpl in Hi.
    assert (E : (i = 0 \/ i = 1 \/ i = 2 \/ i = 3)%Z) by lia. destruct E as [-> | [-> | [-> | ->]]]; simpl; lra.
  - both_indices.
    assert (Ei : (i = 0 \/ i = 1 \/ i = 2 \/ i = 3)%Z) by lia. assert (Ej : (j = 0 \/ j = 1 \/ j = 2 \/ j = 3 \/ j = 4)%Z) by lia.
    destruct Ei as [-> | [-> | [-> | ->]]], Ej as [-> | [-> | [-> | [-> | ->]]]]; reflexivity.
Qed.

(** Inside the line 0, 1, 4 the clamped and the extrapolating method agree. *)
Example C30_inside_ex : hold_last1 ROps rplain (c1_at ROps rplain e1_rect) (5 / 2) = linear1 ROps rplain (c1_at ROps rplain e1_rect) (5 / 2).
Proof. refine (C30_inside _ _ _ _ _ (5 / 2) e1_rect_ok I _). unfold coord, npts, list_axis. simpl. lra. Qed.
Example C26_exact_partial_ex : exists out', mlc_check_bounds ROps ru_grids [[0; 4]; [5]] (1 / 8) [true; false] = (Ok tt, out') /\
  nth 0 out' false = false.
Proof.
  destruct (C26_exact_partial ru_grids [[0; 4]; [5]] (1 / 8) [true; false]) as (out' & E & H);
    [repeat constructor; simpl; lia|reflexivity|reflexivity|lra|].
  exists out'. split; [exact E|]. apply (H 0%nat); [simpl; lia|]. simpl. repeat constructor; lra.
Qed.
Example C28_samples_ex : samples (rect_axes ru_grids) (map tilt (meshgrid ru_grids)) tilt /\
  zlen (map tilt (meshgrid ru_grids)) = 6%Z.
Proof. split; [apply C28_samples|apply (C28_size R R ru_grids tilt)]. Qed.

(** The spacing bound of a regular axis, and the convergence theorems at one spacing. *)
Example C51_regular_spacing_ex : spacing_at_most (mkAxis 3 (fun i => 0 + 1 * IZR i)) 1.
Proof. exact (C51_regular_spacing rl_dims rl_starts rl_steps eq_refl eq_refl 0 _ eq_refl). Qed.
Example C51_nearest_converges_ex : exists d, 0 < d /\ ((forall a, In a rl_axes -> spacing_at_most a d) ->
  exists r, bowl_nearest [1 / 3; 5 / 2] = Ok r /\ Rabs (r - bowl [1 / 3; 5 / 2]) < 1000).
Proof.
  destruct (C51_nearest_converges 2 (fun _ => 6) 1000 ltac:(lra)) as (d & Hd & H). exists d. split; auto.
  intros Hs. apply (H rplain bowl_vals rl_axes _ _ _ _ bowl_nearest_ok eq_refl bowl_samples); auto.
  - split; auto. each_axis; lra.
  - intros k Hk. apply bowl_slopes; auto.
Qed.
Example C51_multicubic_converges_ex : exists d, 0 < d /\ ((forall a, In a (rect_axes rcu_grids) -> spacing_at_most a d) ->
  exists r, wave_eval true [5 / 2; 6] = Ok r /\ Rabs (r - wave [5 / 2; 6]) < 1000).
Proof.
  destruct (C51_multicubic_converges 2 wave_bound 4 1000 ltac:(lra) ltac:(lra)) as (d & Hd & H). exists d. split; auto.
  intros Hs. apply (H rplain true wave_vals (rect_axes rcu_grids) _ _ _ _ (wave_ok true) eq_refl wave_samples); auto.
  - split; auto. each_axis; lra.
  - intros k Hk. apply wave_third; auto.
  - intros a Ha. split; [apply Hs; exact Ha|apply rcu_ratio_ok; exact Ha].
Qed.
Example C60_inside_ex : overshoot (list_axis [0; 1; 4]) 3 = 0.
Proof.
  apply C60_inside; [|vm_compute; discriminate|unfold coord, npts, list_axis; simpl; lra].
  intros i j Hi Hj. unfold list_axis, zlen in *. simpl in *.
  assert (E : (i = 0 /\ j = 1 \/ i = 0 /\ j = 2 \/ i = 1 /\ j = 2)%Z) by lia.
  destruct E as [(-> & ->) | [(-> & ->) | (-> & ->)]]; simpl; lra.
Qed.
