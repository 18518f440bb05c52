(** Implementations and number formats agree up to rounding (C73); in floating point the
    multilinear interpolant of monotone data is monotone up to rounding, and no steeper than the
    data up to rounding (C74). *)
From Coq Require Import Reals Lra PeanoNat Bool Lia List.
From Flocq Require Import Core.Core IEEE754.BinarySingleNaN.
From Verif Require Import Base Ops RInst FInst ModelCore ModelLinear ModelCubic Spec SpecOrder SpecIEEE SpecError SpecReal Interpolators.
From Verif Require Import SpecApprox SpecExtrap SpecReach SpecCubicError SpecCubicReach SpecAgree Approx AgreeProofs.
From Verif Require Import GenLemmas FLemmas FProofs FProofs2 FError2 RChar ExampleData ExampleReal.
From Verif Require Import PropertiesExact PropertiesFloat PropertiesError PropertiesApprox PropertiesReach PropertiesCubicError PropertiesCubicReach.
Import ListNotations.
Open Scope R_scope.
Unset Implicit Arguments.

(** * C73: two evaluations of the same grid data at the same point, by any two implementations
    (rectilinear or regular, flattened or recursive, fused or not) in any two number formats (exact,
    f64, f32, ...), both give a number, and the numbers differ by at most the sum of their error
    bounds. If the values of the two interpolators differ by up to [d], for instance because one
    set is rounded to a shorter format, that is added, magnified as in C60. *)
Theorem C73_linear :
  forall axes axes' vals vals' x e e' r r' d,
  linear_run axes vals x e r -> linear_run axes' vals' x e' r' -> same_grid axes axes' ->
  values_within d vals vals' ->
  exists y y', r = Some y /\ r' = Some y' /\ Rabs (y - y') <= e + e' + reach_factor axes x * d.
Proof. exact C73_proof_linear. Qed.
(** Inside the grid the point, too, may differ: every axis contributes the slope of the data times
    the distance of the points. *)
Theorem C73_linear_inside :
  forall axes axes' vals vals' x x' e e' r r' d L,
  linear_run axes vals x e r -> linear_run axes' vals' x' e' r' -> same_grid axes axes' ->
  SpecReal.inside_grid axes x -> SpecReal.inside_grid axes x' ->
  values_within d vals vals' -> (forall k, (k < length axes)%nat -> data_slope_at_most axes vals k (L k)) ->
  exists y y', r = Some y /\ r' = Some y' /\
  Rabs (y - y') <= e + e' + (d + sum_upto (length axes) (fun k => L k * Rabs (nth k x 0 - nth k x' 0))).
Proof. exact C73_proof_linear_inside. Qed.
Theorem C73_cubic :
  forall lin axes axes' vals vals' x e e' r r' d rho,
  cubic_run lin axes vals x e r -> cubic_run lin axes' vals' x e' r' -> same_grid axes axes' ->
  values_within d vals vals' -> (forall a, In a axes -> spacing_ratio_at_most a rho) ->
  exists y y', r = Some y /\ r' = Some y' /\
  Rabs (y - y') <= e + e' + prod_upto (length axes) (fun k => cubic_reach_gain lin rho (outside_by axes x k)) * d.
Proof. exact C73_proof_cubic. Qed.

(** * C74: along an axis on which the data never decreases, the computed result never decreases by
    more than the rounding errors; and it is no steeper than the data, up to the rounding errors. *)
Theorem C74_monotone :
  forall axes axes' vals x k t e e' r r',
  linear_run axes vals x e r -> linear_run axes' vals (upd x k t) e' r' -> same_grid axes axes' ->
  (k < length axes)%nat -> inside_except axes k x -> data_nondecreasing (map npts axes) vals k -> nth k x 0 <= t ->
  exists y y', r = Some y /\ r' = Some y' /\ y <= y' + (e + e').
Proof. exact C74_proof_monotone. Qed.
Theorem C74_slope :
  forall axes axes' vals x k t e e' r r' L,
  linear_run axes vals x e r -> linear_run axes' vals (upd x k t) e' r' -> same_grid axes axes' ->
  (k < length axes)%nat -> inside_except axes k x -> data_slope_at_most axes vals k L ->
  exists y y', r = Some y /\ r' = Some y' /\ Rabs (y' - y) <= L * Rabs (t - nth k x 0) + (e + e').
Proof. exact C74_proof_slope. Qed.

(** The 3 x 2 grid of the examples: regular in f64, rectilinear and recursive in f32. The point
    0.7, 2.1 is rounded differently in the two formats. *)
Definition z32 (n : Z) : f32 := f32_lit n 0.
Ltac real32 := unfold z32, f32_lit; simpl; unfold F2R; simpl; lra.
Definition a_grids : list (list f32) := [[z32 0; f32_lit 1 (-1); z32 1]; [z32 1; z32 3]].
Definition a_vals : list f32 := [z32 1; f32_lit 5 (-1); z32 4; z32 (-7); z32 11; f32_lit 3 (-3)].
Definition a_g : rectilinear f32 := mkRect a_grids [3%Z; 2%Z] a_vals.
Definition a_x : list f64 := [f64_lit 6305039478318694 (-53); f64_lit 4728779608739021 (-51)].
Definition a_x32 : list f32 := [f32_lit 11744051 (-24); f32_lit 8808038 (-22)].
Lemma a_grids_real : map (map B2R) a_grids = [[0; 1 / 2; 1]; [1; 3]].
Proof. unfold a_grids. cbn [map]. repeat (apply f_equal2); try reflexivity; real32. Qed.
Lemma a_vals_real : map B2R a_vals = map B2R lin_vals.
Proof. rewrite lin_vals_real. unfold a_vals. cbn [map]. repeat (apply f_equal2); try reflexivity; real32. Qed.
Lemma a_x_real : map B2R a_x = [6305039478318694 / 9007199254740992; 4728779608739021 / 2251799813685248].
Proof. unfold a_x. cbn [map]. repeat (apply f_equal2); try reflexivity; real_lit. Qed.
Lemma a_x32_real : map B2R a_x32 = [11744051 / 16777216; 8808038 / 4194304].
Proof. unfold a_x32. cbn [map]. repeat (apply f_equal2); try reflexivity; real32. Qed.
Lemma a_input : rect_input fused a_grids a_vals.
Proof. rect_ok. Qed.
Lemma a_new : mlcr_new F32Ops fused 8 a_grids a_vals = Ok a_g.
Proof.
  destruct (@is_ok_ex _ (mlcr_new F32Ops fused 8 a_grids a_vals)) as (s & E); [vm_compute; reflexivity|].
  rewrite E. destruct (mlcr_new_inv F32Ops _ a_input E) as (_ & -> & _). reflexivity.
Qed.
Definition a_eval := mlcr_interp_one F32Ops fused 8 a_g.
Lemma a_float : float_rectilinear Hp32 He32 fused a_grids a_vals a_eval.
Proof. apply float_rectilinear_recursive; [apply a_input|apply a_new]. Qed.
Lemma a_inc : Forall (increasing_grid F32Ops) a_grids.
Proof. repeat (constructor; [inc_grid|]). constructor. Qed.
Lemma moderate32 (v : f32) : is_finite v = true -> -1000 <= B2R v <= 1000 -> moderate v.
Proof.
  intros F B. split; [exact F|]. apply Rle_trans with (bpow radix2 10); [|apply bpow_le; vm_compute; discriminate].
  change (bpow radix2 10) with (IZR 1024). apply Rabs_le. lra.
Qed.
Lemma a_mod : Forall (Forall (@moderate 24 128)) a_grids.
Proof. unfold a_grids. repeat (apply Forall_cons; [repeat (apply Forall_cons; [apply moderate32; [reflexivity|real32]|]); apply Forall_nil|]). apply Forall_nil. Qed.
Lemma a_bounded : bounded_values 24 128 11 a_vals.
Proof.
  split.
  - split; [lra|]. apply Rle_trans with (bpow radix2 4); [simpl; lra|]. apply bpow_le. lia.
  - unfold a_vals. repeat (apply Forall_cons; [split; [reflexivity|apply Rabs_le; real32]|]). apply Forall_nil.
Qed.
Lemma roundoff_32 : roundoff 24 <= / 16777216.
Proof. unfold roundoff. simpl. lra. Qed.
Lemma underflow_32 : 0 <= underflow 24 128 <= roundoff 24 / 2.
Proof.
  split; [unfold underflow; assert (P := bpow_ge_0 radix2 (3 - 128 - 24)); lra|].
  unfold underflow, roundoff. assert (bpow radix2 (3 - 128 - 24) <= bpow radix2 (- (24))) by (apply bpow_le; lia). lra.
Qed.
Notation a_axes := (rect_axes (map (map B2R) a_grids)).
Notation l_axes := (reg_axes lin_dims (map B2R lin_starts) (map B2R lin_steps)).
Lemma a_same : same_grid l_axes a_axes.
Proof.
  rewrite a_grids_real, lin_starts_real, lin_steps_real. unfold lin_dims, rect_axes. simpl.
  apply Forall2_cons; [|apply Forall2_cons; [|apply Forall2_nil]]; (split; [reflexivity|]); intros i Hi; simpl in Hi |- *.
  - assert (Ei : (i = 0 \/ i = 1 \/ i = 2)%Z) by lia. destruct Ei as [-> | [-> | ->]]; simpl; lra.
  - assert (Ei : (i = 0 \/ i = 1)%Z) by lia. destruct Ei as [-> | ->]; simpl; lra.
Qed.
Lemma a_err : rectilinear_error 24 128 2 11 <= 3 / 100000.
Proof.
  assert (U := roundoff_32). assert (W := underflow_32). assert (0 <= roundoff 24) by apply bpow_ge_0.
  unfold rectilinear_error. simpl INR. lra.
Qed.
Lemma l_err : regular_error 53 1024 2 2 11 <= / 1000000000000.
Proof. unfold regular_error. simpl INR. assert (Q := err_small 2816 ltac:(lra)). lra. Qed.
Lemma a_run (x : list f32) : Forall (fun v => is_finite v = true) x -> SpecReal.inside_grid a_axes (map B2R x) ->
  linear_run a_axes (map B2R lin_vals) (map B2R x) (rectilinear_error 24 128 2 11) (number_of (a_eval x)).
Proof.
  intros Fx Hx. rewrite <- a_vals_real. apply (linear_run_rectilinear 24 128 Hp32 He32 fused a_grids a_vals a_eval x 11); auto.
  - exact a_float.
  - exact a_inc.
  - exact a_mod.
  - exact a_bounded.
  - assert (U := roundoff_32). simpl. lra.
Qed.
Lemma l_run (x : list f64) : Forall (fun v => is_finite v = true) x -> SpecReal.inside_grid l_axes (map B2R x) ->
  linear_run l_axes (map B2R lin_vals) (map B2R x) (regular_error 53 1024 2 2 11) (number_of (mlr_interp_one F64Ops plain lin_s x)).
Proof.
  intros Fx Hx. apply (linear_run_regular 53 1024 Hp64 He64 plain lin_dims lin_starts lin_steps lin_vals _ x 11 2); auto.
  - exact lin_freg.
  - exact lin_within.
  - exact lin_bounded.
  - assert (U := roundoff_64). simpl. lra.
  - lia.
Qed.
Lemma a_same_vals (l : list R) : values_within 0 l l.
Proof. induction l; constructor; auto. rewrite Rminus_diag_eq, Rabs_R0 by reflexivity. lra. Qed.
Lemma x34_real : map B2R [f32_lit 3 (-2); z32 2] = [3 / 4; 2].
Proof. cbn [map]. repeat (apply f_equal2); try reflexivity; real32. Qed.

(** The point (3/4, 2), which both formats represent. *)
Example C73_ex : exists y y', number_of (mlr_interp_one F64Ops plain lin_s err_x) = Some y /\
  number_of (a_eval [f32_lit 3 (-2); z32 2]) = Some y' /\ Rabs (y - y') <= 1 / 10000.
Proof.
  assert (R1 := l_run err_x fin_err_x reg_inside_ex).
  assert (R2 := a_run [f32_lit 3 (-2); z32 2] ltac:(repeat (apply Forall_cons; [reflexivity|]); apply Forall_nil)
    ltac:(rewrite a_grids_real, x34_real; split; [reflexivity|]; each_axis2; lra)).
  rewrite x34_real in R2. rewrite err_x_real in R1.
  destruct (C73_linear _ _ _ _ _ _ _ _ _ 0 R1 R2 a_same (a_same_vals _)) as (y & y' & E & E' & B).
  exists y, y'. split; [exact E|]. split; [exact E'|]. assert (A := a_err). assert (B' := l_err). lra.
Qed.
(** 0.7 and 2.1 in both formats. *)
Definition a_slopes (k : nat) : R := match k with O => 19 | _ => 11 / 2 end.
Lemma a_slopes_ok k : (k < 2)%nat -> data_slope_at_most l_axes (map B2R lin_vals) k (a_slopes k).
Proof.
  rewrite lin_starts_real, lin_steps_real, lin_vals_real.
  intros Hk idx Hi Hn. inversion Hi as [|? i ? ? Hi0 Hi']; subst. inversion Hi' as [|? j ? ? Hj0 Hj']; subst.
  inversion Hj'; subst. simpl in Hi0, Hj0. unfold next_along in *.
  assert (Ei : (i = 0 \/ i = 1 \/ i = 2)%Z) by lia. assert (Ej : (j = 0 \/ j = 1)%Z) by lia.
  destruct k as [|[|k]]; [| |lia]; simpl in Hn; inversion Hn as [|? ? ? ? Hn0 Hn']; subst;
    inversion Hn' as [|? ? ? ? Hn1 _]; subst; simpl in Hn0, Hn1;
  destruct Ei as [-> | [-> | ->]], Ej as [-> | ->]; try lia; unfold entry, spacing; simpl; apply Rabs_le; lra.
Qed.
Example C73_inside_ex : exists y y', number_of (mlr_interp_one F64Ops plain lin_s a_x) = Some y /\
  number_of (a_eval a_x32) = Some y' /\ Rabs (y - y') <= 1 / 10000.
Proof.
  assert (I : SpecReal.inside_grid l_axes (map B2R a_x)) by (rewrite lin_starts_real, lin_steps_real, a_x_real; split; [reflexivity|]; each_axis2; lra).
  assert (I' : SpecReal.inside_grid a_axes (map B2R a_x32)) by (rewrite a_grids_real, a_x32_real; split; [reflexivity|]; each_axis2; lra).
  assert (I2 : SpecReal.inside_grid l_axes (map B2R a_x32)) by (rewrite lin_starts_real, lin_steps_real, a_x32_real; split; [reflexivity|]; each_axis2; lra).
  assert (R1 := l_run a_x ltac:(repeat (apply Forall_cons; [reflexivity|]); apply Forall_nil) I).
  assert (R2 := a_run a_x32 ltac:(repeat (apply Forall_cons; [reflexivity|]); apply Forall_nil) I').
  destruct (C73_linear_inside _ _ _ _ _ _ _ _ _ _ 0 a_slopes R1 R2 a_same I I2 (a_same_vals _) a_slopes_ok) as (y & y' & E & E' & B).
  exists y, y'. split; [exact E|]. split; [exact E'|]. assert (A := a_err). assert (B' := l_err).
  rewrite a_x_real, a_x32_real in B. change (length l_axes) with 2%nat in B. unfold sum_upto, Rsum in B. cbn [seq map fold_right nth a_slopes] in B.
  assert (D1 : Rabs (6305039478318694 / 9007199254740992 - 11744051 / 16777216) <= / 10000000) by (apply Rabs_le; lra).
  assert (D2 : Rabs (4728779608739021 / 2251799813685248 - 8808038 / 4194304) <= / 1000000) by (apply Rabs_le; lra).
  lra.
Qed.

(** Cubic: f64, regular and flattened, against f32, rectilinear and recursive. *)
Definition ca_grids : list (list f32) := [[z32 0; z32 1; z32 2; z32 3]; [z32 (-1); z32 1; z32 3; z32 5; z32 7]].
Definition ca_vals : list f32 := flat_map (fun x => map (fun y => z32 (x * x * x + y * y)) [-1; 1; 3; 5; 7]%Z) [0; 1; 2; 3]%Z.
Definition ca lin : @cubic_rect f32 := mkCC (mkRect ca_grids [4%Z; 5%Z] ca_vals) lin.
Definition ca_x : list f32 := [f32_lit 5 (-1); z32 6].
Lemma ca_grids_real : map (map B2R) ca_grids = [[0; 1; 2; 3]; [-1; 1; 3; 5; 7]].
Proof. unfold ca_grids. cbn [map]. repeat (apply f_equal2); try reflexivity; real32. Qed.
Lemma ca_vals_real : map B2R ca_vals = map B2R ws_vals.
Proof. rewrite ws_vals_real. unfold ca_vals, ws_reals. cbn [map flat_map app]. repeat (apply f_equal2); try reflexivity; real32. Qed.
Lemma ca_x_real : map B2R ca_x = [5 / 2; 6].
Proof. unfold ca_x. cbn [map]. repeat (apply f_equal2); try reflexivity; real32. Qed.
Lemma ca_input : rect_input fused ca_grids ca_vals.
Proof. rect_ok. Qed.
Lemma ca_new lin : mccr_new F32Ops fused 8 ca_grids ca_vals lin = Ok (ca lin).
Proof.
  destruct (@is_ok_ex _ (mccr_new F32Ops fused 8 ca_grids ca_vals lin)) as (s & E); [destruct lin; vm_compute; reflexivity|].
  rewrite E. destruct (mccr_new_inv F32Ops _ lin ca_input E) as (_ & -> & _). reflexivity.
Qed.
Lemma ca_float lin : float_cubic_rectilinear Hp32 He32 fused lin ca_grids ca_vals (mccr_interp_one F32Ops fused 8 (ca lin)).
Proof. apply float_cubic_rectilinear_recursive; [apply ca_input|apply ca_new]. Qed.
Lemma ca_inc : Forall (increasing_grid F32Ops) ca_grids.
Proof. repeat (constructor; [inc_grid|]). constructor. Qed.
Lemma ca_mod : Forall (Forall (@moderate 24 128)) ca_grids.
Proof. unfold ca_grids. repeat (apply Forall_cons; [repeat (apply Forall_cons; [apply moderate32; [reflexivity|real32]|]); apply Forall_nil|]). apply Forall_nil. Qed.
Lemma ca_inside : SpecReal.inside_grid (rect_axes (map (map B2R) ca_grids)) (map B2R ca_x).
Proof. rewrite ca_grids_real, ca_x_real. split; [reflexivity|]. each_axis2; lra. Qed.
Lemma ca_ratio : Forall (fun a => spacing_ratio_at_most a 1) (rect_axes (map (map B2R) ca_grids)).
Proof.
  rewrite ca_grids_real. unfold rect_axes. cbn [map]. repeat (apply Forall_cons; [intros i Hi1 Hi2; unfold list_axis, spacing, zlen in *; simpl in Hi2|]); [| |apply Forall_nil].
  - assert (Ei : (i = 0 \/ i = 1)%Z) by lia. destruct Ei as [-> | ->]; simpl; lra.
  - assert (Ei : (i = 0 \/ i = 1 \/ i = 2)%Z) by lia. destruct Ei as [-> | [-> | ->]]; simpl; lra.
Qed.
Lemma ca_bounded : cubic_values 24 128 1 (cubic_gain 1) (rectilinear_gamma 24 1) 2 113 ca_vals.
Proof.
  split; [lra|]. split.
  - replace (cubic_gain 1) with (5 / 4) by (unfold cubic_gain; field).
    apply Rle_trans with (bpow radix2 13); [|apply bpow_le; lia]. unfold rectilinear_gamma.
    assert (U := roundoff_32). assert (0 <= roundoff 24) by apply bpow_ge_0.
    apply Rle_trans with (3 ^ 2 * (1 * (113 + 1))); [|simpl; lra].
    apply Rmult_le_compat_r; [lra|]. apply pow_incr. lra.
  - unfold ca_vals. cbn [map flat_map app]. repeat (apply Forall_cons; [split; [reflexivity|apply Rabs_le; real32]|]). apply Forall_nil.
Qed.
Lemma ca_err : cubic_error 24 128 (cubic_gain 1) (rectilinear_gamma 24 1) 2 113 <= 1 / 5.
Proof.
  replace (cubic_gain 1) with (5 / 4) by (unfold cubic_gain; field).
  assert (U := roundoff_32). assert (0 <= roundoff 24) by apply bpow_ge_0.
  assert (W : 0 <= underflow 24 128 <= / 16000000000 ).
  { split; [apply underflow_32|]. unfold underflow. assert (bpow radix2 (3 - 128 - 24) <= bpow radix2 (-34)) by (apply bpow_le; lia).
    assert (bpow radix2 (-34) <= / 16000000000) by (simpl; lra). lra. }
  unfold cubic_error, rectilinear_gamma. replace (INR 2) with 2 by (simpl; lra). replace (2 - 1)%nat with 1%nat by lia. rewrite pow_1.
  apply Rle_trans with (2 * (13 / 10) * (8400 / 16777216 * 113 + / 1000000)); [|lra].
  apply Rmult_le_compat; nra.
Qed.
Lemma ca_same : same_grid (reg_axes ws_dims (map B2R ws_starts) (map B2R ws_steps)) (rect_axes (map (map B2R) ca_grids)).
Proof.
  rewrite ca_grids_real, ws_starts_real, ws_steps_real. unfold ws_dims, rc_starts, rc_steps, rect_axes. simpl.
  apply Forall2_cons; [|apply Forall2_cons; [|apply Forall2_nil]]; (split; [reflexivity|]); intros i Hi; simpl in Hi |- *.
  - assert (Ei : (i = 0 \/ i = 1 \/ i = 2 \/ i = 3)%Z) by lia. destruct Ei as [-> | [-> | [-> | ->]]]; simpl; lra.
  - assert (Ei : (i = 0 \/ i = 1 \/ i = 2 \/ i = 3 \/ i = 4)%Z) by lia. destruct Ei as [-> | [-> | [-> | [-> | ->]]]]; simpl; lra.
Qed.
Lemma ws_ratio1 a : In a (reg_axes ws_dims (map B2R ws_starts) (map B2R ws_steps)) -> spacing_ratio_at_most a 1.
Proof. intros Ha. refine (reg_axes_ratio ws_dims (map B2R ws_starts) (map B2R ws_steps) _ _ a Ha); reflexivity. Qed.
Example C73_cubic_ex lin : exists y y', number_of (mcr_interp_one F64Ops plain (ws lin) w_x) = Some y /\
  number_of (mccr_interp_one F32Ops fused 8 (ca lin) ca_x) = Some y' /\ Rabs (y - y') <= 1 / 4.
Proof.
  assert (U := roundoff_64). assert (U' := roundoff_32).
  assert (R1 := cubic_run_regular lin 53 1024 Hp64 He64 plain ws_dims ws_starts ws_steps ws_vals _ w_x 113 4 (ws_float lin) w_fin ws_within ws_inside
    ws_bounded ltac:(simpl; lra) ltac:(lia)).
  assert (R2 := cubic_run_rectilinear lin 24 128 Hp32 He32 fused ca_grids ca_vals _ ca_x 113 1 (ca_float lin) ca_inc ca_mod
    ltac:(repeat (apply Forall_cons; [reflexivity|]); apply Forall_nil) ca_inside ltac:(lra) ca_ratio ca_bounded ltac:(simpl; lra)).
  rewrite ca_vals_real, ca_x_real in R2. rewrite w_x_real in R1.
  destruct (C73_cubic _ _ _ _ _ _ _ _ _ _ 0 1 R1 R2 ca_same (a_same_vals _) ws_ratio1) as (y & y' & E & E' & B).
  exists y, y'. split; [exact E|]. split; [exact E'|]. assert (A := ca_err). assert (A' := ws_err).
  change (length ca_grids) with 2%nat in B. change (length ws_dims) with 2%nat in B. lra.
Qed.

(** Outside the grid: f64 against exact arithmetic. *)
Lemma out_fits : cell_fits (isize_min + 1) rc_starts rc_steps [5; 9].
Proof. fits. Qed.
Example C73_cubic_out_ex lin : exists y y', number_of (mcr_interp_one F64Ops plain (ws lin) out_x) = Some y /\
  exact_of (ws_reval lin [5; 9]) = Some y' /\ Rabs (y - y') <= / 1000000.
Proof.
  assert (U := roundoff_64).
  assert (R1 := cubic_run_regular_any lin 53 1024 Hp64 He64 plain ws_dims ws_starts ws_steps ws_vals _ out_x 113 5 2 (ws_float lin) ws_within_5 eq_refl
    out_within out_reg_outside (out_reg_values lin) ltac:(simpl; lra) ltac:(lia)).
  assert (R2 := cubic_run_exact lin rplain ws_reals rc_axes (cell_fits (isize_min + 1) rc_starts rc_steps) (ws_reval lin) [5; 9] (ws_exact lin) eq_refl out_fits).
  rewrite out_x_real in R1. rewrite <- ws_vals_real in R2.
  assert (S : same_grid (reg_axes ws_dims (map B2R ws_starts) (map B2R ws_steps)) rc_axes)
    by (rewrite ws_starts_real, ws_steps_real; apply RProofs3.same_grid_refl).
  destruct (C73_cubic _ _ _ _ _ _ _ _ _ _ 0 1 R1 R2 S (a_same_vals _) ws_ratio1) as (y & y' & E & E' & B).
  exists y, y'. split; [exact E|]. split; [exact E'|]. assert (A := out_reg_err lin).
  change (length ws_dims) with 2%nat in B. lra.
Qed.

(** Data that increases along the first axis, in f64: from (1/4, 2) to (3/4, 2). *)
Definition up_vals : list f64 := [z64 1; z64 2; z64 3; z64 5; z64 8; z64 13].
Definition up_s : regular f64 := mkRegular lin_dims lin_starts lin_steps up_vals.
Lemma up_vals_real : map B2R up_vals = [1; 2; 3; 5; 8; 13].
Proof. unfold up_vals. cbn [map]. repeat (apply f_equal2); try reflexivity; real_lit. Qed.
Lemma up_input : reg_input plain lin_dims lin_starts lin_steps up_vals.
Proof. reg_ok. Qed.
Lemma up_new : mlr_new F64Ops plain lin_dims lin_starts lin_steps up_vals = Ok up_s.
Proof.
  destruct (@is_ok_ex _ (mlr_new F64Ops plain lin_dims lin_starts lin_steps up_vals)) as (s & E); [vm_compute; reflexivity|].
  rewrite E. destruct (mlr_new_inv F64Ops up_input E) as (_ & ->). reflexivity.
Qed.
Lemma up_float : float_regular Hp64 He64 plain lin_dims lin_starts lin_steps up_vals (mlr_interp_one F64Ops plain up_s).
Proof. apply float_regular_flat; [apply up_input|apply up_new]. Qed.
Lemma up_bounded : bounded_values 53 1024 13 up_vals.
Proof.
  split.
  - split; [lra|]. apply Rle_trans with (bpow radix2 4); [simpl; lra|]. apply bpow_le. lia.
  - unfold up_vals. repeat (apply Forall_cons; [split; [reflexivity|apply Rabs_le; real_lit]|]). apply Forall_nil.
Qed.
Lemma up_run (x : list f64) : Forall (fun v => is_finite v = true) x -> SpecReal.inside_grid l_axes (map B2R x) ->
  linear_run l_axes (map B2R up_vals) (map B2R x) (regular_error 53 1024 2 2 13) (number_of (mlr_interp_one F64Ops plain up_s x)).
Proof.
  intros Fx Hx. apply (linear_run_regular 53 1024 Hp64 He64 plain lin_dims lin_starts lin_steps up_vals _ x 13 2); auto.
  - exact up_float.
  - exact lin_within.
  - exact up_bounded.
  - assert (U := roundoff_64). simpl. lra.
  - lia.
Qed.
Ltac up_cases k := let Ei := fresh in let Ej := fresh in
  intros idx Hi Hn; inversion Hi as [|? i ? ? Hi0 Hi']; subst; inversion Hi' as [|? j ? ? Hj0 Hj']; subst;
  inversion Hj'; subst; simpl in Hi0, Hj0; unfold next_along in *;
  assert (Ei : (i = 0 \/ i = 1 \/ i = 2)%Z) by lia; assert (Ej : (j = 0 \/ j = 1)%Z) by lia;
  simpl in Hn; inversion Hn as [|? ? ? ? Hn0 Hn']; subst; simpl in Hn0;
  destruct Ei as [-> | [-> | ->]], Ej as [-> | ->]; try lia; unfold entry, spacing; simpl.
Lemma up_mono : data_nondecreasing (map npts l_axes) (map B2R up_vals) 0.
Proof. rewrite up_vals_real. up_cases 0%nat; lra. Qed.
Lemma up_slope : data_slope_at_most l_axes (map B2R up_vals) 0 16.
Proof. rewrite lin_starts_real, lin_steps_real, up_vals_real. up_cases 0%nat; apply Rabs_le; lra. Qed.
Lemma up_except : inside_except l_axes 0 [1 / 4; 2].
Proof.
  rewrite lin_starts_real, lin_steps_real. split; [reflexivity|]. intros [|[|k]] a Hk Ha; [congruence| |destruct k; discriminate].
  injection Ha as <-. simpl. lra.
Qed.
Example C74_ex : exists y y', number_of (mlr_interp_one F64Ops plain up_s [f64_lit 1 (-2); z64 2]) = Some y /\
  number_of (mlr_interp_one F64Ops plain up_s err_x) = Some y' /\ y <= y' + 1 / 1000000000 /\ Rabs (y' - y) <= 8 + 1 / 1000000000.
Proof.
  assert (X : map B2R [f64_lit 1 (-2); z64 2] = [1 / 4; 2]) by (cbn [map]; repeat (apply f_equal2); try reflexivity; real_lit).
  assert (R1 := up_run [f64_lit 1 (-2); z64 2] ltac:(repeat (apply Forall_cons; [reflexivity|]); apply Forall_nil)
    ltac:(rewrite X, lin_starts_real, lin_steps_real; split; [reflexivity|]; each_axis2; lra)).
  assert (R2 := up_run err_x fin_err_x reg_inside_ex). rewrite X in R1. rewrite err_x_real in R2.
  assert (S : same_grid l_axes l_axes) by (apply RProofs3.same_grid_refl).
  assert (Q : regular_error 53 1024 2 2 13 <= / 10000000000) by (unfold regular_error; simpl INR; assert (P := far_small 3328 6 ltac:(lra) ltac:(lra)); lra).
  change [3 / 4; 2] with (upd [1 / 4; 2] 0 (3 / 4)) in R2.
  destruct (C74_monotone _ _ _ _ _ _ _ _ _ _ R1 R2 S ltac:(simpl; lia) up_except up_mono ltac:(simpl; lra)) as (y & y' & E & E' & B).
  destruct (C74_slope _ _ _ _ _ _ _ _ _ _ 16 R1 R2 S ltac:(simpl; lia) up_except up_slope) as (z & z' & Ez & Ez' & B').
  rewrite E in Ez. injection Ez as <-. rewrite E' in Ez'. injection Ez' as <-.
  exists y, y'. split; [exact E|]. split; [exact E'|]. split; [lra|].
  cbn [nth] in B'. rewrite (Rabs_right (3 / 4 - 1 / 4)) in B' by lra. lra.
Qed.
Print Assumptions C73_linear.
Print Assumptions C73_linear_inside.
Print Assumptions C73_cubic.
Print Assumptions C74_monotone.
Print Assumptions C74_slope.
