(** Accuracy of floating-point multicubic interpolation: consequences of the error bounds. *)
From Coq Require Import Reals Lra Lia List Bool ZifyBool ZifyNat PeanoNat.
From Flocq Require Import Core.Core IEEE754.BinarySingleNaN.
From Verif Require Import Base Ops FInst ModelCore ModelLinear ModelCubic Spec SpecOrder SpecIEEE SpecError.
From Verif Require Import CoreLemmas MethodLemmas MethodChar GenLemmas FLemmas FProofs FProofs2 FError FError2.
From Verif Require Import RInst SpecReal RTensor R1D RChar Interpolators REval RProofs SpecApprox Approx1D Approx Shape FApprox.
From Verif Require Import SpecCubicError FCubicReg FCubicRect.
Import ListNotations.
Unset Implicit Arguments.
Open Scope list_scope.
Open Scope R_scope.

Lemma tenL_cubic_node lin axes V idx : Forall (good_axis 4) axes -> in_shape (map npts axes) idx ->
  tenL (ops1 (cub1 lin) axes (node_pos axes idx)) V = V idx.
Proof.
  intros G Hi. assert (Hn := node_inside (FP := 4) ltac:(lia) G Hi). assert (Lx := proj1 Hn).
  apply (tenL_select _ (good_cub lin _ Lx G)). apply ops1_select; auto.
  intros k a Hk i f Hr. destruct (good_nth _ G Hk) as (Ha & Hn2). apply cub1_node; auto.
Qed.

Lemma cub_near lin axes x vals f e rho : Forall (good_axis 4) axes -> SpecReal.inside_grid axes x ->
  (forall a, In a axes -> spacing_ratio_at_most a rho) -> samples_within e axes vals f ->
  Rabs (tenL (ops1 (cub1 lin) axes x) (entry 0 (map npts axes) vals)
    - tenL (ops1 (cub1 lin) axes x) (fun idx => f (node_pos axes idx))) <= cubic_gain rho ^ length axes * e.
Proof.
  intros G Hx Hr Hs. rewrite (tenL_minus _ _ _ _ (good_cub lin x (proj1 Hx) G)).
  apply tenL_norm; [apply cub_ops_norm; auto|]. intros idx Hi. apply Hs. auto.
Qed.

Lemma cubic_gain_1 : cubic_gain 1 = 5 / 4.
Proof. unfold cubic_gain. field. Qed.

Section B.
Variables prec emax : Z.
Context (Hp : Prec_gt_0 prec) (He : Prec_lt_emax prec emax).
Notation fl := (binary_float prec emax).
Notation o := (BOps Hp He).
Notation fin x := (is_finite x = true).

Section Rect.
Variables (c : cfg) (lin : bool) (grids : list (list fl)) (vals : list fl) (eval : list fl -> outcome fl) (x : list fl) (A rho : R).
Notation axes := (rect_axes (map (map B2R) grids)).
Notation xr := (map B2R x).
Notation V := (entry 0 (map npts axes) (map B2R vals)).
Notation err := (cubic_error prec emax (cubic_gain rho) (rectilinear_gamma prec rho) (length grids) A).
Hypothesis Hf : float_cubic_rectilinear Hp He c lin grids vals eval.
Hypothesis Hi : Forall (increasing_grid o) grids.
Hypothesis Hm : Forall (Forall (@moderate prec emax)) grids.
Hypothesis Fx : Forall (fun v => fin v) x.
Hypothesis Hx : SpecReal.inside_grid axes xr.
Hypothesis Hr1 : 1 <= rho.
Hypothesis Hr : Forall (fun a => spacing_ratio_at_most a rho) axes.
Hypothesis Hv : cubic_values prec emax rho (cubic_gain rho) (rectilinear_gamma prec rho) (length grids) A vals.
Hypothesis HN : 14000 * INR (length grids) * (roundoff prec * rho) <= 1.

Lemma crect_err : Forall (good_axis 4) axes /\ exists y, eval x = Ok y /\ fin y /\
  Rabs (B2R y - tenL (ops1 (cub1 lin) axes xr) V) <= err.
Proof using All. exact (cubic_error_rectilinear _ _ Hp He c lin grids vals eval x A rho Hf Hi Hm Fx Hx Hr1 Hr Hv HN). Qed.
Lemma crect_ratio : forall a, In a axes -> spacing_ratio_at_most a rho.
Proof using Hr. apply Forall_forall. exact Hr. Qed.
Theorem C58_proof_rectilinear c' dom eval' : multicubic c' lin (map B2R vals) axes dom eval' ->
  exists y r, eval x = Ok y /\ fin y /\ eval' xr = Ok r /\ Rabs (B2R y - r) <= err.
Proof using All.
  intros H. destruct crect_err as (G & y & E & F & R). destruct (multicubic_value H) as (_ & _ & E').
  exists y. eexists. split; [exact E|]. split; [exact F|]. split; [apply E'; [apply Hx|eapply multicubic_inside; eauto]|exact R].
Qed.
Theorem C58_proof_rectilinear_node idx : in_shape (map npts axes) idx -> xr = node_pos axes idx ->
  exists y, eval x = Ok y /\ fin y /\ Rabs (B2R y - V idx) <= err.
Proof using All.
  intros Hi' Ex. destruct crect_err as (G & y & E & F & R). exists y. rewrite Ex, (tenL_cubic_node lin _ _ _ G Hi') in R. auto.
Qed.
Theorem C59_proof_rectilinear f e M h :
  samples_within e axes (map B2R vals) f ->
  (forall k, (k < length axes)%nat -> third_derivative_at_most axes f k (M k)) ->
  (forall k a, nth_error axes k = Some a -> spacing_at_most a (h k)) ->
  exists y, eval x = Ok y /\ fin y /\
  Rabs (B2R y - f xr) <= err + cubic_gain rho ^ length axes * e
    + sum_upto (length axes) (fun k => cubic_gain rho ^ k * (7 / 48 * M k * h k ^ 3)).
Proof using All.
  intros Hs HM Hh. destruct crect_err as (G & y & E & F & R). exists y. split; auto. split; auto.
  exact (three_errors _ _ _ _ _ _ _ R (cub_near lin _ _ _ _ _ _ G Hx crect_ratio Hs)
    (cubic_approx_val lin axes f xr M h rho G Hx HM Hh crect_ratio)).
Qed.
End Rect.

Section Reg.
Variables (c : cfg) (lin : bool) (dims : list Z) (starts steps vals : list fl) (eval : list fl -> outcome fl) (x : list fl) (A kappa : R).
Notation axes := (reg_axes dims (map B2R starts) (map B2R steps)).
Notation xr := (map B2R x).
Notation V := (entry 0 (map npts axes) (map B2R vals)).
Notation err := (cubic_error prec emax (5 / 4) (regular_gamma prec kappa) (length dims) A).
Hypothesis Hf : float_cubic_regular Hp He c lin dims starts steps vals eval.
Hypothesis Fx : Forall (fun v => fin v) x.
Hypothesis Ha : axes_within prec emax kappa starts steps dims.
Hypothesis Hx : SpecReal.inside_grid axes xr.
Hypothesis Hv : cubic_values prec emax 1 (5 / 4) (regular_gamma prec kappa) (length dims) A vals.
Hypothesis HN : 2000 * INR (length dims) * (roundoff prec * kappa) <= 1.
Hypothesis Hpr : (prec <= 64)%Z.

Lemma creg_err : Forall (good_axis 4) axes /\ exists y, eval x = Ok y /\ fin y /\
  Rabs (B2R y - tenL (ops1 (cub1 lin) axes xr) V) <= err.
Proof using All. exact (cubic_error_regular _ _ Hp He c lin dims starts steps vals eval x A kappa Hf Fx Ha Hx Hv HN Hpr). Qed.
Theorem C58_proof_regular c' dom eval' : multicubic c' lin (map B2R vals) axes dom eval' ->
  exists y r, eval x = Ok y /\ fin y /\ eval' xr = Ok r /\ Rabs (B2R y - r) <= err.
Proof using All.
  intros H. destruct creg_err as (G & y & E & F & R). destruct (multicubic_value H) as (_ & _ & E').
  exists y. eexists. split; [exact E|]. split; [exact F|]. split; [apply E'; [apply Hx|eapply multicubic_inside; eauto]|exact R].
Qed.
Theorem C58_proof_regular_node idx : in_shape (map npts axes) idx -> xr = node_pos axes idx ->
  exists y, eval x = Ok y /\ fin y /\ Rabs (B2R y - V idx) <= err.
Proof using All.
  intros Hi' Ex. destruct creg_err as (G & y & E & F & R). exists y. rewrite Ex, (tenL_cubic_node lin _ _ _ G Hi') in R. auto.
Qed.
Theorem C59_proof_regular f e M :
  samples_within e axes (map B2R vals) f ->
  (forall k, (k < length axes)%nat -> third_derivative_at_most axes f k (M k)) ->
  exists y, eval x = Ok y /\ fin y /\
  Rabs (B2R y - f xr) <= err + (5 / 4) ^ length axes * e
    + sum_upto (length axes) (fun k => (5 / 4) ^ k * (7 / 48 * M k * B2R (nth k steps (fzero o)) ^ 3)).
Proof using All.
  intros Hs HM. destruct creg_err as (G & y & E & F & R). exists y. split; auto. split; auto.
  destruct (float_cubic_regular_inv _ _ _ _ _ _ _ _ _ _ _ Hf) as ((_ & W1 & W2 & _) & _). cbn [r_dims r_starts r_steps r_vals] in *.
  assert (L1 : length (map B2R starts) = length dims) by (rewrite map_length; auto).
  assert (L2 : length (map B2R steps) = length dims) by (rewrite map_length; auto).
  assert (Q := reg_axes_ratio dims (map B2R starts) (map B2R steps) L1 L2).
  rewrite <- cubic_gain_1.
  refine (three_errors _ _ _ _ _ _ _ _ (cub_near lin _ _ _ _ _ _ G Hx Q Hs)
    (cubic_approx_val lin axes f xr M _ 1 G Hx HM _ Q)); [rewrite cubic_gain_1; exact R|].
  intros k a Hk. assert (S := reg_axes_spacing dims (map B2R starts) (map B2R steps) L1 L2 k a Hk).
  change 0 with (@B2R prec emax (fzero o)) in S. rewrite map_nth in S. exact S.
Qed.
End Reg.
End B.
