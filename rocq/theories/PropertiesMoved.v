(** Property C78: small changes of the grid coordinates, in exact arithmetic. *)
From Coq Require Import Reals Lra PeanoNat Bool.
From Verif Require Import Base Ops RInst ModelLinear ModelNearest Spec SpecReal Interpolators SpecApprox SpecExtrap SpecError SpecMoved.
From Verif Require Import RTensor R1D RChar ExampleReal PropertiesExact PropertiesApprox Extrap1D Extrap Moved.
Unset Implicit Arguments.
Open Scope R_scope.

(** * C78: two interpolators with the same values, on grids whose nodes differ by at most d k along
    axis k. If the data changes by at most L k per unit length along axis k of the first grid, the
    multilinear results differ by at most the sum of the L k * d k, times a factor that is 1 inside
    both grids. *)
Theorem C78_linear :
  forall c c' vals axes axes' (dom dom' : list R -> Prop) eval eval' x d L,
  multilinear c vals axes dom eval -> multilinear c' vals axes' dom' eval' -> moved_grid d axes axes' ->
  length x = length axes -> dom x -> dom' x ->
  (forall k, (k < length axes)%nat -> 0 <= L k /\ data_slope_at_most axes vals k (L k)) ->
  exists r r', eval x = Ok r /\ eval' x = Ok r' /\
    Rabs (r - r') <= moved_factor axes axes' x * sum_upto (length axes) (fun k => L k * d k).
Proof. exact moved_grid_linear. Qed.
Theorem C78_linear_inside :
  forall c c' vals axes axes' dom dom' eval eval' x d L,
  multilinear c vals axes dom eval -> multilinear c' vals axes' dom' eval' -> moved_grid d axes axes' ->
  inside_grid axes x -> inside_grid axes' x ->
  (forall k, (k < length axes)%nat -> 0 <= L k /\ data_slope_at_most axes vals k (L k)) ->
  exists r r', eval x = Ok r /\ eval' x = Ok r' /\ Rabs (r - r') <= sum_upto (length axes) (fun k => L k * d k).
Proof. exact moved_grid_linear_inside. Qed.
(** Nearest: the value returned belongs to a node of the first grid that is nearest up to 2 d k. *)
Theorem C78_nearest :
  forall c vals axes axes' (dom : list R -> Prop) eval x d,
  nearest_nd c vals axes' dom eval -> moved_grid d axes axes' -> length x = length axes -> dom x ->
  exists idx, in_shape (map npts axes) idx /\ eval x = Ok (entry 0 (map npts axes) vals idx) /\
  forall k a, nth_error axes k = Some a -> nearest_up_to (2 * d k) a (nth k x 0) (nth k idx 0%Z).
Proof. exact moved_grid_nearest. Qed.

(** The second point of the first axis moved from 1 to 101/100. *)
Definition rm_grids : list (list R) := [[0; 101 / 100; 2]; [1; 3]].
Definition rm_d (k : nat) : R := match k with O => 1 / 100 | _ => 0 end.
Lemma rm_new : mlc_new ROps rplain rm_grids rl_vals = Ok (mkRect rm_grids [3%Z; 2%Z] rl_vals).
Proof. lazy -[Rltb IZR Rplus Rmult Rinv Ropp Rdiv rl_vals]. rltb. reflexivity. Qed.
Lemma rmn_new : nc_new ROps rplain rm_grids rl_vals = Ok (mkRect rm_grids [3%Z; 2%Z] rl_vals).
Proof. lazy -[Rltb IZR Rplus Rmult Rinv Ropp Rdiv rl_vals]. rltb. reflexivity. Qed.
Lemma rm_sorted : Forall strictly_increasing rm_grids.
Proof. sorted_ok. Qed.
Lemma rm_ok : multilinear rplain rl_vals (rect_axes rm_grids) everywhere (mlc_interp_one ROps rplain (mkRect rm_grids [3%Z; 2%Z] rl_vals)).
Proof. apply multilinear_rectilinear; [rrect_ok|apply rm_sorted|apply rm_new]. Qed.
Lemma rmn_ok : nearest_nd rplain rl_vals (rect_axes rm_grids) everywhere (nc_interp_one ROps rplain (mkRect rm_grids [3%Z; 2%Z] rl_vals)).
Proof. apply nearest_rectilinear; [rrect_ok|apply rm_sorted|apply rmn_new]. Qed.
Lemma rm_moved : moved_grid rm_d rl_axes (rect_axes rm_grids).
Proof.
  split; [reflexivity|]. intros k a b Ha Hb. destruct k as [|[|k]]; [| |destruct k; discriminate Ha]; injection Ha as <-; injection Hb as <-;
    (split; [reflexivity|]); simpl; intros i Hi.
  - assert (Ei : (i = 0 \/ i = 1 \/ i = 2)%Z) by lia. destruct Ei as [-> | [-> | ->]]; simpl; apply Rabs_le; lra.
  - assert (Ei : (i = 0 \/ i = 1)%Z) by lia. destruct Ei as [-> | ->]; simpl; apply Rabs_le; lra.
Qed.
Lemma rm_slopes k : (k < length rl_axes)%nat -> 0 <= rl_slopes k /\ data_slope_at_most rl_axes rl_vals k (rl_slopes k).
Proof. intros Hk. split; [destruct k; simpl; lra|apply rl_slopes_ok; exact Hk]. Qed.
Example C78_inside_ex : exists r r', rl_eval [3 / 2; 2] = Ok r /\
  mlc_interp_one ROps rplain (mkRect rm_grids [3%Z; 2%Z] rl_vals) [3 / 2; 2] = Ok r' /\ Rabs (r - r') <= 24 / 100.
Proof.
  destruct (C78_linear_inside _ _ _ _ _ _ _ _ _ [3 / 2; 2] rm_d rl_slopes rl_ok rm_ok rm_moved) as (r & r' & E & E' & B).
  - split; auto. each_axis; lra.
  - split; auto. each_axis; lra.
  - exact rm_slopes.
  - exists r, r'. split; [exact E|]. split; [exact E'|]. eapply Rle_trans; [exact B|]. unfold sum_upto. simpl. lra.
Qed.
(** One cell width above the grid, where the factor is at most 3.03. *)
Example C78_linear_ex : exists r r', rl_eval [3; 2] = Ok r /\
  mlc_interp_one ROps rplain (mkRect rm_grids [3%Z; 2%Z] rl_vals) [3; 2] = Ok r' /\ Rabs (r - r') <= 74 / 100.
Proof.
  destruct (C78_linear _ _ _ _ _ _ _ _ _ [3; 2] rm_d rl_slopes rl_ok rm_ok rm_moved) as (r & r' & E & E' & B).
  - reflexivity.
  - fits.
  - exact I.
  - exact rm_slopes.
  - exists r, r'. split; [exact E|]. split; [exact E'|]. eapply Rle_trans; [exact B|].
    replace (moved_factor rl_axes (rect_axes rm_grids) [3; 2]) with (1 + 2 * (100 / 99)).
    + unfold sum_upto. simpl. lra.
    + assert (O0 : outside_by rl_axes [3; 2] 0 = 1) by (unfold outside_by, overshoot, spacing; simpl; unfold Rmax; repeat destruct Rle_dec; lra).
      assert (O1 : outside_by rl_axes [3; 2] 1 = 0) by (unfold outside_by, overshoot, spacing; simpl; unfold Rmax; repeat destruct Rle_dec; lra).
      assert (O2 : outside_by (rect_axes rm_grids) [3; 2] 0 = 100 / 99) by (unfold outside_by, overshoot, spacing; simpl; unfold Rmax; repeat destruct Rle_dec; lra).
      assert (O3 : outside_by (rect_axes rm_grids) [3; 2] 1 = 0) by (unfold outside_by, overshoot, spacing; simpl; unfold Rmax; repeat destruct Rle_dec; lra).
      unfold moved_factor, prod_upto. change (length rl_axes) with 2%nat. cbn [seq map fold_right]. rewrite O0, O1, O2, O3.
      rewrite (Rmax_left 0 0), Rmax_right by lra. lra.
Qed.
Example C78_nearest_ex : exists idx, in_shape [3%Z; 2%Z] idx /\
  nc_interp_one ROps rplain (mkRect rm_grids [3%Z; 2%Z] rl_vals) [1 / 2; 2] = Ok (entry 0 [3%Z; 2%Z] rl_vals idx) /\
  nearest_up_to (2 / 100) (nth 0 rl_axes no_axis) (1 / 2) (nth 0 idx 0%Z).
Proof.
  destruct (C78_nearest _ _ _ _ _ _ [1 / 2; 2] rm_d rmn_ok rm_moved) as (idx & S & E & H).
  - reflexivity.
  - exact I.
  - exists idx. split; [exact S|]. split; [exact E|]. assert (Q := H 0%nat _ eq_refl). simpl in Q. 
    replace (2 / 100) with (2 * (1 / 100)) by lra. exact Q.
Qed.
Print Assumptions C78_linear.
Print Assumptions C78_linear_inside.
Print Assumptions C78_nearest.
