(** Accuracy of floating-point multilinear interpolation: distance from the exact result (C45) and
    from the range of the corner values (C36). *)
From Coq Require Import Reals Lra PeanoNat Bool Lia List.
From Flocq Require Import Core.Core IEEE754.BinarySingleNaN.
From Verif Require Import Base Ops RInst FInst ModelCore ModelLinear Spec SpecOrder SpecIEEE SpecError SpecReal Interpolators.
From Verif Require Import GenLemmas FLemmas FProofs FProofs2 FError2 RChar ExampleData ExampleReal PropertiesFloat.
Import ListNotations.
Open Scope R_scope.
Unset Implicit Arguments.

(** * C45: inside the grid, the computed result differs from the multilinear formula evaluated in
    exact arithmetic on the same data by at most a small multiple of the unit roundoff times the
    largest value. *)
Theorem C45_rectilinear :
  forall prec emax (Hp : Prec_gt_0 prec) (He : Prec_lt_emax prec emax), let o := BOps Hp He in
  forall c (grids : list (list (binary_float prec emax))) vals eval x A, let axes := rect_axes (map (map B2R) grids) in
  float_rectilinear Hp He c grids vals eval ->
  Forall (increasing_grid o) grids -> Forall (Forall moderate) grids ->
  Forall (fun v => is_finite v = true) x -> SpecReal.inside_grid axes (map B2R x) ->
  bounded_values prec emax A vals -> 126 * INR (length grids) * roundoff prec <= 1 ->
  forall os, in_cells axes (map B2R x) os ->
  exists y, eval x = Ok y /\ is_finite y = true /\
  Rabs (B2R y - corner_sum (entry 0 (map npts axes) (map B2R vals)) os (local_coords axes (map B2R x) os))
    <= rectilinear_error prec emax (length grids) A.
Proof. intros prec emax Hp He o. exact (C45_proof_rectilinear prec emax Hp He). Qed.
(** On a regular grid the error also grows with the distance of the grid from zero, counted in
    steps, because the coordinates of the nodes are computed. *)
Theorem C45_regular :
  forall prec emax (Hp : Prec_gt_0 prec) (He : Prec_lt_emax prec emax),
  forall c dims (starts steps vals : list (binary_float prec emax)) eval x A kappa,
  let axes := reg_axes dims (map B2R starts) (map B2R steps) in
  float_regular Hp He c dims starts steps vals eval ->
  Forall (fun v => is_finite v = true) x -> axes_within prec emax kappa starts steps dims ->
  SpecReal.inside_grid axes (map B2R x) ->
  bounded_values prec emax A vals -> 504 * INR (length dims) * (roundoff prec * kappa) <= 1 -> (prec <= 64)%Z ->
  forall os, in_cells axes (map B2R x) os ->
  exists y, eval x = Ok y /\ is_finite y = true /\
  Rabs (B2R y - corner_sum (entry 0 (map npts axes) (map B2R vals)) os (local_coords axes (map B2R x) os))
    <= regular_error prec emax (length dims) kappa A.
Proof. exact C45_proof_regular. Qed.
(** The same distance from the result of the same library code run in exact arithmetic. *)
Theorem C45_rectilinear_exact :
  forall prec emax (Hp : Prec_gt_0 prec) (He : Prec_lt_emax prec emax), let o := BOps Hp He in
  forall c (grids : list (list (binary_float prec emax))) vals eval x A, let axes := rect_axes (map (map B2R) grids) in
  float_rectilinear Hp He c grids vals eval ->
  Forall (increasing_grid o) grids -> Forall (Forall moderate) grids ->
  Forall (fun v => is_finite v = true) x -> SpecReal.inside_grid axes (map B2R x) ->
  bounded_values prec emax A vals -> 126 * INR (length grids) * roundoff prec <= 1 ->
  forall c' dom eval', multilinear c' (map B2R vals) axes dom eval' ->
  exists y r, eval x = Ok y /\ is_finite y = true /\ eval' (map B2R x) = Ok r /\
  Rabs (B2R y - r) <= rectilinear_error prec emax (length grids) A.
Proof. intros prec emax Hp He o. exact (C45_proof_rectilinear_exact prec emax Hp He). Qed.
Theorem C45_regular_exact :
  forall prec emax (Hp : Prec_gt_0 prec) (He : Prec_lt_emax prec emax),
  forall c dims (starts steps vals : list (binary_float prec emax)) eval x A kappa,
  let axes := reg_axes dims (map B2R starts) (map B2R steps) in
  float_regular Hp He c dims starts steps vals eval ->
  Forall (fun v => is_finite v = true) x -> axes_within prec emax kappa starts steps dims ->
  SpecReal.inside_grid axes (map B2R x) ->
  bounded_values prec emax A vals -> 504 * INR (length dims) * (roundoff prec * kappa) <= 1 -> (prec <= 64)%Z ->
  forall c' dom eval', multilinear c' (map B2R vals) axes dom eval' ->
  exists y r, eval x = Ok y /\ is_finite y = true /\ eval' (map B2R x) = Ok r /\
  Rabs (B2R y - r) <= regular_error prec emax (length dims) kappa A.
Proof. exact C45_proof_regular_exact. Qed.

(** * C36: the result can leave the range of the corner values (C36_refuted), but by no more than
    that. *)
Theorem C36_rectilinear_partial :
  forall prec emax (Hp : Prec_gt_0 prec) (He : Prec_lt_emax prec emax), let o := BOps Hp He in
  forall c (grids : list (list (binary_float prec emax))) vals eval x A, let axes := rect_axes (map (map B2R) grids) in
  float_rectilinear Hp He c grids vals eval ->
  Forall (increasing_grid o) grids -> Forall (Forall moderate) grids ->
  Forall (fun v => is_finite v = true) x -> SpecReal.inside_grid axes (map B2R x) ->
  bounded_values prec emax A vals -> 126 * INR (length grids) * roundoff prec <= 1 ->
  forall os lo hi, in_cells axes (map B2R x) os ->
  (forall b, In b (corners (length os)) -> lo <= entry 0 (map npts axes) (map B2R vals) (corner_index os b) <= hi) ->
  let e := rectilinear_error prec emax (length grids) A in
  exists y, eval x = Ok y /\ is_finite y = true /\ lo - e <= B2R y <= hi + e.
Proof. intros prec emax Hp He o. exact (C36_proof_rectilinear prec emax Hp He). Qed.
Theorem C36_regular_partial :
  forall prec emax (Hp : Prec_gt_0 prec) (He : Prec_lt_emax prec emax),
  forall c dims (starts steps vals : list (binary_float prec emax)) eval x A kappa,
  let axes := reg_axes dims (map B2R starts) (map B2R steps) in
  float_regular Hp He c dims starts steps vals eval ->
  Forall (fun v => is_finite v = true) x -> axes_within prec emax kappa starts steps dims ->
  SpecReal.inside_grid axes (map B2R x) ->
  bounded_values prec emax A vals -> 504 * INR (length dims) * (roundoff prec * kappa) <= 1 -> (prec <= 64)%Z ->
  forall os lo hi, in_cells axes (map B2R x) os ->
  (forall b, In b (corners (length os)) -> lo <= entry 0 (map npts axes) (map B2R vals) (corner_index os b) <= hi) ->
  let e := regular_error prec emax (length dims) kappa A in
  exists y, eval x = Ok y /\ is_finite y = true /\ lo - e <= B2R y <= hi + e.
Proof. exact C36_proof_regular. Qed.

(** * C35: at a grid node the result can differ from the stored value (C35_rectilinear_refuted,
    C35_regular_refuted), but by no more than that. *)
Theorem C35_rectilinear_near_partial :
  forall prec emax (Hp : Prec_gt_0 prec) (He : Prec_lt_emax prec emax), let o := BOps Hp He in
  forall c (grids : list (list (binary_float prec emax))) vals eval x A, let axes := rect_axes (map (map B2R) grids) in
  float_rectilinear Hp He c grids vals eval ->
  Forall (increasing_grid o) grids -> Forall (Forall moderate) grids ->
  Forall (fun v => is_finite v = true) x -> SpecReal.inside_grid axes (map B2R x) ->
  bounded_values prec emax A vals -> 126 * INR (length grids) * roundoff prec <= 1 ->
  forall idx, in_shape (map npts axes) idx -> map B2R x = node_pos axes idx ->
  exists y, eval x = Ok y /\ is_finite y = true /\
  Rabs (B2R y - entry 0 (map npts axes) (map B2R vals) idx) <= rectilinear_error prec emax (length grids) A.
Proof. intros prec emax Hp He o. exact (C35_proof_rectilinear_near prec emax Hp He). Qed.
Theorem C35_regular_near_partial :
  forall prec emax (Hp : Prec_gt_0 prec) (He : Prec_lt_emax prec emax),
  forall c dims (starts steps vals : list (binary_float prec emax)) eval x A kappa,
  let axes := reg_axes dims (map B2R starts) (map B2R steps) in
  float_regular Hp He c dims starts steps vals eval ->
  Forall (fun v => is_finite v = true) x -> axes_within prec emax kappa starts steps dims ->
  SpecReal.inside_grid axes (map B2R x) ->
  bounded_values prec emax A vals -> 504 * INR (length dims) * (roundoff prec * kappa) <= 1 -> (prec <= 64)%Z ->
  forall idx, in_shape (map npts axes) idx -> map B2R x = node_pos axes idx ->
  exists y, eval x = Ok y /\ is_finite y = true /\
  Rabs (B2R y - entry 0 (map npts axes) (map B2R vals) idx) <= regular_error prec emax (length dims) kappa A.
Proof. exact C35_proof_regular_near. Qed.

(** f64: a point of the upper cell of a 3 x 2 grid, values up to 11. *)
Lemma lin_grids_real : map (map B2R) lin_grids = [[0; 1 / 2; 2]; [1; 3]].
Proof. unfold lin_grids. cbn [map]. repeat (apply f_equal2); try reflexivity; real_lit. Qed.
Lemma lin_starts_real : map B2R lin_starts = [0; 1].
Proof. unfold lin_starts. cbn [map]. repeat (apply f_equal2); try reflexivity; real_lit. Qed.
Lemma lin_steps_real : map B2R lin_steps = [1 / 2; 2].
Proof. unfold lin_steps. cbn [map]. repeat (apply f_equal2); try reflexivity; real_lit. Qed.
Lemma lin_vals_real : map B2R lin_vals = [1; 5 / 2; 4; -7; 11; 3 / 8].
Proof. unfold lin_vals. cbn [map]. repeat (apply f_equal2); try reflexivity; real_lit. Qed.
Definition err_x : list f64 := [f64_lit 3 (-2); z64 2].
Lemma err_x_real : map B2R err_x = [3 / 4; 2].
Proof. unfold err_x. cbn [map]. repeat (apply f_equal2); try reflexivity; real_lit. Qed.
Lemma roundoff_64 : roundoff 53 <= / 9007199254740992.
Proof. unfold roundoff. simpl. lra. Qed.
Lemma lin_bounded : bounded_values 53 1024 11 lin_vals.
Proof.
  split.
  - split; [lra|]. apply Rle_trans with (bpow radix2 4); [simpl; lra|]. apply bpow_le. lia.
  - unfold lin_vals. repeat (apply Forall_cons; [split; [reflexivity|apply Rabs_le; real_lit]|]). apply Forall_nil.
Qed.
Lemma err_small a : 0 <= a <= 3000 -> a * roundoff 53 + 6 * underflow 53 1024 <= / 1000000000000.
Proof.
  intros Ha. assert (U := roundoff_64).
  assert (W : underflow 53 1024 <= / 2 * roundoff 53).
  { unfold underflow, roundoff. apply Rmult_le_compat_l; [lra|]. apply bpow_le. lia. }
  assert (0 <= roundoff 53) by (apply bpow_ge_0). nra.
Qed.
Ltac each_axis2 := let k := fresh in let a := fresh in let Ha := fresh in
  intros k a Ha; destruct k as [|[|k]]; [injection Ha as <-|injection Ha as <-|destruct k; discriminate]; simpl.
Lemma rect_cells_ex : in_cells (rect_axes (map (map B2R) lin_grids)) (map B2R err_x) [1%Z; 0%Z].
Proof.
  rewrite lin_grids_real, err_x_real. split; [reflexivity|]. split; [reflexivity|].
  each_axis2; (split; [simpl; lia|split; [right|right]; simpl; lra]).
Qed.
Lemma rect_inside_ex : SpecReal.inside_grid (rect_axes (map (map B2R) lin_grids)) (map B2R err_x).
Proof. rewrite lin_grids_real, err_x_real. split; [reflexivity|]. each_axis2; lra. Qed.
Lemma reg_cells_ex : in_cells (reg_axes lin_dims (map B2R lin_starts) (map B2R lin_steps)) (map B2R err_x) [1%Z; 0%Z].
Proof.
  rewrite lin_starts_real, lin_steps_real, err_x_real. split; [reflexivity|]. split; [reflexivity|].
  each_axis2; (split; [simpl; lia|split; [right|right]; simpl; lra]).
Qed.
Lemma reg_inside_ex : SpecReal.inside_grid (reg_axes lin_dims (map B2R lin_starts) (map B2R lin_steps)) (map B2R err_x).
Proof. rewrite lin_starts_real, lin_steps_real, err_x_real. split; [reflexivity|]. each_axis2; lra. Qed.
Lemma lin_within : axes_within 53 1024 2 lin_starts lin_steps lin_dims.
Proof.
  intros k s h d Es Eh Ed. destruct k as [|[|k]]; [| |destruct k; discriminate];
    injection Es as <-; injection Eh as <-; injection Ed as <-;
    (split; [reflexivity|]; split; [reflexivity|]; split; [apply Rabs_le; real_lit|]; split; [apply Rabs_le; real_lit|]).
  - apply Rle_trans with (bpow radix2 4); [real_lit|]. apply bpow_le. lia.
  - apply Rle_trans with (bpow radix2 4); [real_lit|]. apply bpow_le. lia.
Qed.
Lemma fin_err_x : Forall (fun v : f64 => is_finite v = true) err_x.
Proof. repeat (apply Forall_cons; [reflexivity|]). apply Forall_nil. Qed.
Lemma lin_freg : float_regular Hp64 He64 plain lin_dims lin_starts lin_steps lin_vals (mlr_interp_one F64Ops plain lin_s).
Proof. apply float_regular_flat; [apply lin_input|apply lin_new]. Qed.

(** Exactly -29/96 on the uneven grid and 67/32 on the even one; computed to 12 digits. *)
Example C45_ex :
  (exists y, mlc_interp_one F64Ops plain lin_g err_x = Ok y /\ is_finite y = true /\ Rabs (B2R y - - (29 / 96)) <= / 1000000000000) /\
  (exists y, mlr_interp_one F64Ops plain lin_s err_x = Ok y /\ is_finite y = true /\ Rabs (B2R y - (67 / 32)) <= / 1000000000000).
Proof.
  split.
  - destruct (C45_rectilinear _ _ Hp64 He64 plain lin_grids lin_vals _ err_x 11 lin_frect lin_inc lin_mod fin_err_x rect_inside_ex lin_bounded
      ltac:(assert (U := roundoff_64); simpl; lra) _ rect_cells_ex) as (y & E & F & B).
    exists y. split; [exact E|]. split; [exact F|].
    rewrite lin_grids_real, err_x_real, lin_vals_real in B.
    replace (corner_sum _ _ _) with (- (29 / 96)) in B by (unfold corner_sum, Rsum, local_coord, entry; simpl; unfold local_coord; simpl; field).
    eapply Rle_trans; [exact B|]. unfold rectilinear_error. simpl length. simpl INR.
    assert (Q := err_small 352 ltac:(lra)). lra.
  - destruct (C45_regular _ _ Hp64 He64 plain lin_dims lin_starts lin_steps lin_vals _ err_x 11 2 lin_freg fin_err_x lin_within reg_inside_ex lin_bounded
      ltac:(assert (U := roundoff_64); simpl; lra) ltac:(lia) _ reg_cells_ex) as (y & E & F & B).
    exists y. split; [exact E|]. split; [exact F|].
    rewrite lin_starts_real, lin_steps_real, err_x_real, lin_vals_real in B.
    replace (corner_sum _ _ _) with (67 / 32) in B by (unfold corner_sum, Rsum, local_coord, entry; simpl; unfold local_coord; simpl; field).
    eapply Rle_trans; [exact B|]. unfold regular_error. simpl length. simpl INR.
    assert (Q := err_small 2816 ltac:(lra)). lra.
Qed.
(** The same library code over the real numbers. *)
Lemma lin_exact_rect : exists s, multilinear plain (map B2R lin_vals) (rect_axes (map (map B2R) lin_grids)) everywhere (mlc_interp_one ROps plain s).
Proof.
  rewrite lin_grids_real, lin_vals_real. eexists. apply multilinear_rectilinear.
  - rrect_ok.
  - repeat (apply Forall_cons; [sorted_ok|]). apply Forall_nil.
  - lazy -[Rltb IZR Rplus Rmult Rinv Ropp Rdiv]. rltb. reflexivity.
Qed.
Lemma lin_exact_reg : exists dom s, multilinear plain (map B2R lin_vals) (reg_axes lin_dims (map B2R lin_starts) (map B2R lin_steps)) dom (mlr_interp_one ROps plain s).
Proof.
  rewrite lin_starts_real, lin_steps_real, lin_vals_real. do 2 eexists. apply multilinear_regular.
  - rreg_ok.
  - lazy -[Rltb IZR Rplus Rmult Rinv Ropp Rdiv]. rltb. reflexivity.
Qed.
Example C45_exact_ex :
  (exists s y r, mlc_interp_one F64Ops plain lin_g err_x = Ok y /\ is_finite y = true /\
     mlc_interp_one ROps plain s (map B2R err_x) = Ok r /\ Rabs (B2R y - r) <= / 1000000000000) /\
  (exists s y r, mlr_interp_one F64Ops plain lin_s err_x = Ok y /\ is_finite y = true /\
     mlr_interp_one ROps plain s (map B2R err_x) = Ok r /\ Rabs (B2R y - r) <= / 1000000000000).
Proof.
  split.
  - destruct lin_exact_rect as (s & Hs).
    destruct (C45_rectilinear_exact _ _ Hp64 He64 plain lin_grids lin_vals _ err_x 11 lin_frect lin_inc lin_mod fin_err_x rect_inside_ex lin_bounded
      ltac:(assert (U := roundoff_64); simpl; lra) _ _ _ Hs) as (y & r & E & F & E' & B).
    exists s, y, r. split; [exact E|]. split; [exact F|]. split; [exact E'|].
    eapply Rle_trans; [exact B|]. unfold rectilinear_error. simpl length. simpl INR.
    assert (Q := err_small 352 ltac:(lra)). lra.
  - destruct lin_exact_reg as (dom & s & Hs).
    destruct (C45_regular_exact _ _ Hp64 He64 plain lin_dims lin_starts lin_steps lin_vals _ err_x 11 2 lin_freg fin_err_x lin_within reg_inside_ex lin_bounded
      ltac:(assert (U := roundoff_64); simpl; lra) ltac:(lia) _ _ _ Hs) as (y & r & E & F & E' & B).
    exists s, y, r. split; [exact E|]. split; [exact F|]. split; [exact E'|].
    eapply Rle_trans; [exact B|]. unfold regular_error. simpl length. simpl INR.
    assert (Q := err_small 2816 ltac:(lra)). lra.
Qed.
(** The corner values are 4, -7, 11 and 3/8. *)
Example C36_ex :
  (exists y, mlc_interp_one F64Ops plain lin_g err_x = Ok y /\ is_finite y = true /\
     -7 - / 1000000000000 <= B2R y <= 11 + / 1000000000000) /\
  (exists y, mlr_interp_one F64Ops plain lin_s err_x = Ok y /\ is_finite y = true /\
     -7 - / 1000000000000 <= B2R y <= 11 + / 1000000000000).
Proof.
  split.
  - destruct (C36_rectilinear_partial _ _ Hp64 He64 plain lin_grids lin_vals _ err_x 11 lin_frect lin_inc lin_mod fin_err_x rect_inside_ex lin_bounded
      ltac:(assert (U := roundoff_64); simpl; lra) _ (-7) 11 rect_cells_ex) as (y & E & F & B).
    { rewrite lin_grids_real, lin_vals_real. intros b Hb. simpl in Hb. unfold entry.
      destruct Hb as [<- | [<- | [<- | [<- | []]]]]; simpl; lra. }
    exists y. split; [exact E|]. split; [exact F|].
    assert (Q := err_small 352 ltac:(lra)). unfold rectilinear_error in B. simpl length in B. simpl INR in B. lra.
  - destruct (C36_regular_partial _ _ Hp64 He64 plain lin_dims lin_starts lin_steps lin_vals _ err_x 11 2 lin_freg fin_err_x lin_within reg_inside_ex lin_bounded
      ltac:(assert (U := roundoff_64); simpl; lra) ltac:(lia) _ (-7) 11 reg_cells_ex) as (y & E & F & B).
    { rewrite lin_starts_real, lin_steps_real, lin_vals_real. intros b Hb. simpl in Hb. unfold entry.
      destruct Hb as [<- | [<- | [<- | [<- | []]]]]; simpl; lra. }
    exists y. split; [exact E|]. split; [exact F|].
    assert (Q := err_small 2816 ltac:(lra)). unfold regular_error in B. simpl length in B. simpl INR in B. lra.
Qed.
(** At the node (2, 0) of the even grid, position (1, 1), value 11. *)
Example C35_near_ex : exists y, mlr_interp_one F64Ops plain lin_s [z64 1; z64 1] = Ok y /\ is_finite y = true /\
  Rabs (B2R y - 11) <= / 1000000000000.
Proof.
  assert (X : map B2R [z64 1; z64 1] = [1; 1]) by (cbn [map]; repeat (apply f_equal2); try reflexivity; real_lit).
  destruct (C35_regular_near_partial _ _ Hp64 He64 plain lin_dims lin_starts lin_steps lin_vals _ [z64 1; z64 1] 11 2 lin_freg
    ltac:(repeat (apply Forall_cons; [reflexivity|]); apply Forall_nil) lin_within
    ltac:(rewrite lin_starts_real, lin_steps_real, X; split; [reflexivity|]; each_axis2; lra) lin_bounded
    ltac:(assert (U := roundoff_64); simpl; lra) ltac:(lia) [2%Z; 0%Z]) as (y & E & F & B).
  - rewrite lin_starts_real, lin_steps_real. repeat (apply Forall2_cons; [simpl; lia|]). apply Forall2_nil.
  - rewrite lin_starts_real, lin_steps_real, X. simpl. repeat (apply f_equal2); try reflexivity; lra.
  - exists y. split; [exact E|]. split; [exact F|]. rewrite lin_starts_real, lin_steps_real, lin_vals_real in B.
    unfold entry in B. simpl nth in B. eapply Rle_trans; [exact B|].
    assert (Q := err_small 2816 ltac:(lra)). unfold regular_error. simpl length. simpl INR. lra.
Qed.
Print Assumptions C45_rectilinear.
Print Assumptions C45_regular.
Print Assumptions C45_rectilinear_exact.
Print Assumptions C45_regular_exact.
Print Assumptions C36_rectilinear_partial.
Print Assumptions C36_regular_partial.
Print Assumptions C35_rectilinear_near_partial.
Print Assumptions C35_regular_near_partial.
