(** C78 for multicubic interpolation, and in floating point. *)
From Coq Require Import Reals Lra PeanoNat Bool Lia List.
From Flocq Require Import Core.Core IEEE754.BinarySingleNaN.
From Verif Require Import Base Ops RInst FInst ModelCore ModelLinear ModelCubic Spec SpecOrder SpecIEEE SpecError SpecReal Interpolators.
From Verif Require Import SpecApprox SpecExtrap SpecReach SpecCubicError SpecCubicReach SpecAgree SpecSlope SpecMoved CubicMoved FMoved.
From Verif Require Import R1D RTensor GenLemmas FLemmas FProofs FProofs2 FError2 RChar REval RProofs ExampleData ExampleReal.
From Verif Require Import PropertiesExact PropertiesFloat PropertiesError PropertiesApprox PropertiesReach PropertiesCubicError PropertiesAgree PropertiesDyadic PropertiesSymmetry PropertiesSlope PropertiesMoved.
Import ListNotations.
Open Scope list_scope.
Open Scope R_scope.
Unset Implicit Arguments.

(** * C78, each point inside its own grid: the points may differ as well. Multilinear: every axis
    contributes the slope of the data times the distance that the point and the nodes moved. *)
Theorem C78_linear_points :
  forall c c' vals axes axes' dom dom' eval eval' x x' d L,
  multilinear c vals axes dom eval -> multilinear c' vals axes' dom' eval' -> moved_grid d axes axes' ->
  inside_grid axes x -> inside_grid axes' x' ->
  (forall k, (k < length axes)%nat -> data_slope_at_most axes vals k (L k)) ->
  exists r r', eval x = Ok r /\ eval' x' = Ok r' /\
    Rabs (r - r') <= sum_upto (length axes) (fun k => L k * (Rabs (nth k x 0 - nth k x' 0) + d k)).
Proof. exact moved_grid_linear_points. Qed.
(** Multicubic: the same with the factor of C101 for the movement of the point and a slightly
    larger one for the movement of the nodes; both depend only on how uneven the spacings are. *)
Theorem C78_cubic :
  forall c c' lin vals axes axes' dom dom' eval eval' x x' d L rho,
  multicubic c lin vals axes dom eval -> multicubic c' lin vals axes' dom' eval' -> moved_grid d axes axes' ->
  inside_grid axes x -> inside_grid axes' x' ->
  (forall a, In a axes -> spacing_ratio_at_most a rho) -> (forall a, In a axes' -> spacing_ratio_at_most a rho) ->
  (forall k, (k < length axes)%nat -> data_slope_at_most axes vals k (L k)) ->
  exists r r', eval x = Ok r /\ eval' x' = Ok r' /\
    Rabs (r - r') <= cubic_gain rho ^ (length axes - 1) * sum_upto (length axes)
      (fun k => L k * (cubic_slope_gain rho * Rabs (nth k x 0 - nth k x' 0) + cubic_move_gain rho * d k)).
Proof. exact moved_grid_cubic. Qed.
(** In floating point, by any two implementations in any two number formats: grid, values and point
    may all differ, as when all the arguments of a call are rounded to a shorter format. *)
Theorem C78_linear_float :
  forall axes axes' vals vals' x x' e e' r r' d dv L,
  linear_run axes vals x e r -> linear_run axes' vals' x' e' r' -> moved_grid d axes axes' ->
  inside_grid axes x -> inside_grid axes' x' -> values_within dv vals vals' ->
  (forall k, (k < length axes)%nat -> data_slope_at_most axes vals k (L k)) ->
  exists y y', r = Some y /\ r' = Some y' /\
    Rabs (y - y') <= e + e' + (dv + sum_upto (length axes) (fun k => L k * (Rabs (nth k x 0 - nth k x' 0) + d k))).
Proof. exact C78_proof_float_linear. Qed.
Theorem C78_cubic_float :
  forall lin axes axes' vals vals' x x' e e' r r' d dv L rho,
  cubic_run lin axes vals x e r -> cubic_run lin axes' vals' x' e' r' -> moved_grid d axes axes' ->
  inside_grid axes x -> inside_grid axes' x' -> values_within dv vals vals' ->
  (forall a, In a axes -> spacing_ratio_at_most a rho) -> (forall a, In a axes' -> spacing_ratio_at_most a rho) ->
  (forall k, (k < length axes)%nat -> data_slope_at_most axes vals k (L k)) ->
  exists y y', r = Some y /\ r' = Some y' /\
    Rabs (y - y') <= e + e' + (cubic_gain rho ^ length axes * dv + cubic_gain rho ^ (length axes - 1) * sum_upto (length axes)
      (fun k => L k * (cubic_slope_gain rho * Rabs (nth k x 0 - nth k x' 0) + cubic_move_gain rho * d k))).
Proof. exact C78_proof_float_cubic. Qed.

Example C78_linear_points_ex : exists r r', rl_eval [3 / 2; 2] = Ok r /\
  mlc_interp_one ROps rplain (mkRect rm_grids [3%Z; 2%Z] rl_vals) [151 / 100; 2] = Ok r' /\ Rabs (r - r') <= 48 / 100.
Proof.
  destruct (C78_linear_points _ _ _ _ _ _ _ _ _ [3 / 2; 2] [151 / 100; 2] rm_d rl_slopes rl_ok rm_ok rm_moved) as (r & r' & E & E' & B).
  - split; auto. each_axis; lra.
  - split; auto. each_axis; lra.
  - intros k Hk. apply rm_slopes. exact Hk.
  - exists r, r'. split; [exact E|]. split; [exact E'|]. eapply Rle_trans; [exact B|]. unfold sum_upto. simpl.
    rewrite (Rabs_left (3 / 2 - 151 / 100)) by lra. replace (2 - 2) with 0 by lra. rewrite Rabs_R0. lra.
Qed.
(** The second point of the first axis moved from 1 to 0.99, and the evaluation point by 0.01. *)
Definition rcm_grids : list (list R) := [[0; 99 / 100; 3; 4]; [-1; 0; 1; 5; 7]].
Definition rcm_eval lin := mcc_interp_one ROps rplain (mkCC (mkRect rcm_grids [4%Z; 5%Z] rc_vals) lin).
Definition rcm_d (k : nat) : R := match k with O => 1 / 100 | _ => 0 end.
Lemma rcm_new lin : mcc_new ROps rplain rcm_grids rc_vals lin = Ok (mkCC (mkRect rcm_grids [4%Z; 5%Z] rc_vals) lin).
Proof. lazy -[Rltb IZR Rplus Rmult Rinv Ropp Rdiv rc_vals]. rltb. reflexivity. Qed.
Lemma rcm_ok lin : multicubic rplain lin rc_vals (rect_axes rcm_grids) everywhere (rcm_eval lin).
Proof. apply multicubic_rectilinear; [rrect_ok|sorted_ok|apply rcm_new]. Qed.
Lemma rcm_ratio a : In a (rect_axes rcm_grids) -> spacing_ratio_at_most a 4.
Proof.
  intros Ha o Ho1 Ho2. simpl in Ha. destruct Ha as [<-|[<-|[]]]; unfold spacing, list_axis, zlen in *; simpl in *.
  - assert (E : (o = 0 \/ o = 1)%Z) by lia. destruct E as [-> | ->]; simpl; lra.
  - assert (E : (o = 0 \/ o = 1 \/ o = 2)%Z) by lia. destruct E as [-> | [-> | ->]]; simpl; lra.
Qed.
Lemma rcm_moved : moved_grid rcm_d (rect_axes rcu_grids) (rect_axes rcm_grids).
Proof.
  split; [reflexivity|]. intros k a b Ha Hb. destruct k as [|[|k]]; [| |destruct k; discriminate Ha]; injection Ha as <-; injection Hb as <-;
    (split; [reflexivity|]); intros i Hi; unfold zlen in Hi; simpl in Hi; unfold zlen in Hi; simpl in Hi.
  - assert (Ei : (i = 0 \/ i = 1 \/ i = 2 \/ i = 3)%Z) by lia. destruct Ei as [-> | [-> | [-> | ->]]]; simpl; apply Rabs_le; lra.
  - assert (Ei : (i = 0 \/ i = 1 \/ i = 2 \/ i = 3 \/ i = 4)%Z) by lia. destruct Ei as [-> | [-> | [-> | [-> | ->]]]]; simpl; apply Rabs_le; lra.
Qed.
Example C78_cubic_ex lin : exists r r', rcu_eval lin [2; 6] = Ok r /\ rcm_eval lin [201 / 100; 6] = Ok r' /\
  Rabs (r - r') <= 13 / 5 * (200 * (13 / 5 * (1 / 100) + 27 / 5 * (1 / 100))).
Proof.
  assert (E1 : cubic_slope_gain 4 = 13 / 5) by (unfold cubic_slope_gain; field).
  assert (E2 : cubic_gain 4 = 13 / 5) by (unfold cubic_gain; field).
  assert (E3 : cubic_move_gain 4 = 27 / 5) by (unfold cubic_move_gain; field).
  destruct (C78_cubic _ _ _ _ _ _ _ _ _ _ [2; 6] [201 / 100; 6] rcm_d rcu_slopes 4 (rcu_ok lin) (rcm_ok lin) rcm_moved) as (r & r' & Er & Er' & Hr).
  - split; auto. each_axis; lra.
  - split; auto. each_axis; lra.
  - exact rcu_ratio_ok.
  - exact rcm_ratio.
  - intros k Hk. apply rcu_slopes_ok. exact Hk.
  - exists r, r'. split; auto. split; auto. eapply Rle_trans; [exact Hr|]. rewrite E1, E2, E3. unfold sum_upto. simpl.
    rewrite (Rabs_left (2 - 201 / 100)) by lra. replace (6 - 6) with 0 by lra. rewrite Rabs_R0. lra.
Qed.

(** f64 against f32, where a node, a value and the point differ. *)
Definition mb_grids : list (list f32) := [[z32 0; f32_lit 513 (-10); z32 1]; [z32 1; z32 3]].
Definition mb_vals : list f32 := [z32 1; f32_lit 2561 (-10); z32 4; z32 (-7); z32 11; f32_lit 3 (-3)].
Definition mb_g : rectilinear f32 := mkRect mb_grids [3%Z; 2%Z] mb_vals.
Lemma mb_grids_real : map (map B2R) mb_grids = [[0; 513 / 1024; 1]; [1; 3]].
Proof. unfold mb_grids. cbn [map]. repeat (apply f_equal2); try reflexivity; real32. Qed.
Lemma mb_vals_real : map B2R mb_vals = [1; 2561 / 1024; 4; -7; 11; 3 / 8].
Proof. unfold mb_vals. cbn [map]. repeat (apply f_equal2); try reflexivity; real32. Qed.
Lemma mb_input : rect_input fused mb_grids mb_vals.
Proof. rect_ok. Qed.
Lemma mb_new : mlcr_new F32Ops fused 8 mb_grids mb_vals = Ok mb_g.
Proof.
  destruct (@is_ok_ex _ (mlcr_new F32Ops fused 8 mb_grids mb_vals)) as (s & E); [vm_compute; reflexivity|].
  rewrite E. destruct (mlcr_new_inv F32Ops _ mb_input E) as (_ & -> & _). reflexivity.
Qed.
Definition mb_eval := mlcr_interp_one F32Ops fused 8 mb_g.
Lemma mb_float : float_rectilinear Hp32 He32 fused mb_grids mb_vals mb_eval.
Proof. apply float_rectilinear_recursive; [apply mb_input|apply mb_new]. Qed.
Lemma mb_inc : Forall (increasing_grid F32Ops) mb_grids.
Proof. repeat (constructor; [inc_grid|]). constructor. Qed.
Lemma mb_mod : Forall (Forall (@moderate 24 128)) mb_grids.
Proof. unfold mb_grids. repeat (apply Forall_cons; [repeat (apply Forall_cons; [apply moderate32; [reflexivity|real32]|]); apply Forall_nil|]). apply Forall_nil. Qed.
Lemma mb_bounded : bounded_values 24 128 11 mb_vals.
Proof.
  split; [apply a_bounded|].
  unfold mb_vals. repeat (apply Forall_cons; [split; [reflexivity|apply Rabs_le; real32]|]). apply Forall_nil.
Qed.
Notation mb_axes := (rect_axes (map (map B2R) mb_grids)).
Lemma mb_run (x : list f32) : Forall (fun v => is_finite v = true) x -> SpecReal.inside_grid mb_axes (map B2R x) ->
  linear_run mb_axes (map B2R mb_vals) (map B2R x) (rectilinear_error 24 128 2 11) (number_of (mb_eval x)).
Proof.
  intros Fx Hx. apply (linear_run_rectilinear 24 128 Hp32 He32 fused mb_grids mb_vals mb_eval x 11); auto.
  - exact mb_float.
  - exact mb_inc.
  - exact mb_mod.
  - exact mb_bounded.
  - assert (U := roundoff_32). simpl. lra.
Qed.
Definition mb_d (k : nat) : R := match k with O => 1 / 1024 | _ => 0 end.
Lemma mb_moved : moved_grid mb_d (reg_axes lin_dims (map B2R lin_starts) (map B2R lin_steps)) mb_axes.
Proof.
  rewrite mb_grids_real, lin_starts_real, lin_steps_real.
  split; [reflexivity|]. intros k a b Ha Hb. destruct k as [|[|k]]; [| |destruct k; discriminate Ha]; injection Ha as <-; injection Hb as <-;
    (split; [reflexivity|]); simpl; intros i Hi.
  - assert (Ei : (i = 0 \/ i = 1 \/ i = 2)%Z) by lia. destruct Ei as [-> | [-> | ->]]; simpl; apply Rabs_le; lra.
  - assert (Ei : (i = 0 \/ i = 1)%Z) by lia. destruct Ei as [-> | ->]; simpl; apply Rabs_le; lra.
Qed.
Example C78_linear_float_ex : exists y y', number_of (mlr_interp_one F64Ops plain lin_s a_x) = Some y /\
  number_of (mb_eval a_x32) = Some y' /\ Rabs (y - y') <= 1 / 1024 + 19 / 1024 + 1 / 10000.
Proof.
  assert (I : SpecReal.inside_grid (reg_axes lin_dims (map B2R lin_starts) (map B2R lin_steps)) (map B2R a_x)) by (rewrite lin_starts_real, lin_steps_real, a_x_real; split; [reflexivity|]; each_axis2; lra).
  assert (I' : SpecReal.inside_grid mb_axes (map B2R a_x32)) by (rewrite mb_grids_real, a_x32_real; split; [reflexivity|]; each_axis2; lra).
  assert (R1 := l_run a_x ltac:(repeat (apply Forall_cons; [reflexivity|]); apply Forall_nil) I).
  assert (R2 := mb_run a_x32 ltac:(repeat (apply Forall_cons; [reflexivity|]); apply Forall_nil) I').
  assert (W : values_within (1 / 1024) (map B2R lin_vals) (map B2R mb_vals)).
  { rewrite lin_vals_real, mb_vals_real. repeat (apply Forall2_cons; [apply Rabs_le; lra|]). apply Forall2_nil. }
  destruct (C78_linear_float _ _ _ _ _ _ _ _ _ _ mb_d (1 / 1024) a_slopes R1 R2 mb_moved I I' W a_slopes_ok) as (y & y' & E & E' & B).
  exists y, y'. split; [exact E|]. split; [exact E'|]. assert (A := a_err). assert (B' := l_err).
  rewrite a_x_real, a_x32_real in B. match type of B with context [sum_upto ?n _] => change n with 2%nat in B end.
  unfold sum_upto, Rsum in B. cbn [seq map fold_right nth a_slopes mb_d] in B.
  assert (D1 : Rabs (6305039478318694 / 9007199254740992 - 11744051 / 16777216) <= / 10000000) by (apply Rabs_le; lra).
  assert (D2 : Rabs (4728779608739021 / 2251799813685248 - 8808038 / 4194304) <= / 1000000) by (apply Rabs_le; lra).
  lra.
Qed.
(** Cubic in f64: the first axis moved by 1, the point left where it is. *)
Lemma crun_moved lin : crun lin [[1; 3; 5; 7]; [0; 4; 8; 12; 16]]%Z cv [3; 7]%Z. Proof. is_crun. Qed.
Definition cm_d (k : nat) : R := match k with O => 1 | _ => 0 end.
Lemma cm_moved : moved_grid cm_d (iaxes cg) (iaxes [[1; 3; 5; 7]; [0; 4; 8; 12; 16]]%Z).
Proof.
  split; [reflexivity|]. intros k a b Ha Hb. destruct k as [|[|k]]; [| |destruct k; discriminate Ha]; injection Ha as <-; injection Hb as <-;
    (split; [reflexivity|]); intros i Hi; unfold zlen in Hi; simpl in Hi; unfold zlen in Hi; simpl in Hi.
  - assert (Ei : (i = 0 \/ i = 1 \/ i = 2 \/ i = 3)%Z) by lia. destruct Ei as [-> | [-> | [-> | ->]]]; simpl; apply Rabs_le; lra.
  - assert (Ei : (i = 0 \/ i = 1 \/ i = 2 \/ i = 3 \/ i = 4)%Z) by lia. destruct Ei as [-> | [-> | [-> | [-> | ->]]]]; simpl; apply Rabs_le; lra.
Qed.
Lemma cm_ratio a : In a (iaxes [[1; 3; 5; 7]; [0; 4; 8; 12; 16]]%Z) -> spacing_ratio_at_most a 1.
Proof.
  assert (Hr : Forall (fun a => spacing_ratio_at_most a 1) (iaxes [[1; 3; 5; 7]; [0; 4; 8; 12; 16]]%Z)) by even_ratio.
  rewrite Forall_forall in Hr. apply Hr.
Qed.
Example C78_cubic_float_ex lin : exists y y', number_of (cev lin cg cv [3; 7]%Z) = Some y /\
  number_of (cev lin [[1; 3; 5; 7]; [0; 4; 8; 12; 16]]%Z cv [3; 7]%Z) = Some y' /\ Rabs (y - y') <= 5 / 4 * (11 / 2 * 3) + / 10000000.
Proof.
  assert (E2 : cubic_gain 1 = 5 / 4) by (unfold cubic_gain; field).
  assert (E3 : cubic_move_gain 1 = 3) by (unfold cubic_move_gain; field).
  assert (H2 := cerr_small 2 (or_intror eq_refl)).
  destruct (C78_cubic_float lin (iaxes cg) (iaxes [[1; 3; 5; 7]; [0; 4; 8; 12; 16]]%Z) (map IZR cv) (map IZR cv) [3; 7] [3; 7] _ _ _ _
    cm_d 0 cv_slopes 1 (crun_v lin) (crun_moved lin) cm_moved) as (y & y' & E & E' & B).
  - split; [reflexivity|]; each_axis2; lra.
  - split; [reflexivity|]; each_axis2; lra.
  - unfold cv. simpl. repeat (apply Forall2_cons; [apply Rabs_le; lra|]). apply Forall2_nil.
  - exact cg_ratio.
  - exact cm_ratio.
  - intros k Hk. apply cv_slopes_ok. exact Hk.
  - exists y, y'. split; [exact E|]. split; [exact E'|]. change (length cg) with 2%nat in B.
    match type of B with context [cerr ?n + cerr ?m] => change n with 2%nat in B; change m with 2%nat in B end.
    rewrite E2, E3 in B. unfold sum_upto in B. simpl in B.
    replace (3 - 3) with 0 in B by lra. replace (7 - 7) with 0 in B by lra. rewrite Rabs_R0 in B. lra.
Qed.
Print Assumptions C78_linear_points.
Print Assumptions C78_cubic.
Print Assumptions C78_linear_float.
Print Assumptions C78_cubic_float.
