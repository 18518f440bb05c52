(** Multicubic extrapolation in floating point: distance from the exact result, and from a smooth
    function. *)
From Coq Require Import Reals Lra Lia List Bool ZifyBool ZifyNat PeanoNat.
From Flocq Require Import Core.Core IEEE754.BinarySingleNaN.
From Verif Require Import Base Ops FInst ModelCore ModelLinear ModelCubic Spec SpecOrder SpecIEEE SpecError.
From Verif Require Import CoreLemmas MethodLemmas MethodChar GenLemmas FLemmas FProofs FProofs2 FError FError2.
From Verif Require Import RInst SpecReal RTensor R1D RChar Interpolators REval RProofs SpecApprox Approx1D Approx Shape FApprox.
From Verif Require Import SpecExtrap SpecReach Extrap1D Extrap FExtrap FExtrap2.
From Verif Require Import SpecCubicError FCubicReg FCubicRect FCubicApprox SpecCubicReach FCubicExtrap FCubicExtrap2.
Import ListNotations.
Unset Implicit Arguments.
Open Scope list_scope.
Open Scope R_scope.

Lemma cub_near_any lin axes x vals f e rho : Forall (good_axis 4) axes -> length x = length axes ->
  (forall a, In a axes -> spacing_ratio_at_most a rho) -> samples_within e axes vals f ->
  Rabs (tenL (ops1 (cub1 lin) axes x) (entry 0 (map npts axes) vals)
    - tenL (ops1 (cub1 lin) axes x) (fun idx => f (node_pos axes idx)))
  <= prod_upto (length axes) (fun k => cubic_reach_gain lin rho (outside_by axes x k)) * e.
Proof.
  intros G Hx Hr Hs. rewrite (tenL_minus _ _ _ _ (good_cub lin x Hx G)).
  apply (tenL_norm_any axes); [apply ops1_shape; auto| |intros idx Hi; apply Hs; auto].
  intros k a L0 Hk HkL. rewrite (ops1_nth_error _ _ _ _ _ _ Hx Hk HkL). clear L0 HkL.
  rewrite (outside_nth _ _ _ _ Hk). assert (Gk := good_nth _ G Hk).
  intros v B HB. apply cub1_norm_any; auto; try apply Gk. apply Hr. eapply nth_error_In; eauto.
Qed.

Section B.
Variables prec emax : Z.
Context (Hp : Prec_gt_0 prec) (He : Prec_lt_emax prec emax).
Notation fl := (binary_float prec emax).
Notation o := (BOps Hp He).
Notation fin x := (is_finite x = true).

Section Rect.
Variables (c : cfg) (lin : bool) (grids : list (list fl)) (vals : list fl) (eval : list fl -> outcome fl) (x : list fl) (A rho D : R).
Notation axes := (rect_axes (map (map B2R) grids)).
Notation xr := (map B2R x).
Notation V := (entry 0 (map npts axes) (map B2R vals)).
Notation gain := (cubic_reach_gain lin rho D).
Notation stretch := (cubic_stretch lin D).
Notation err := (cubic_reach_error prec emax gain (rectilinear_gamma prec rho) stretch (length grids) A).
Hypothesis Hf : float_cubic_rectilinear Hp He c lin grids vals eval.
Hypothesis Hi : Forall (increasing_grid o) grids.
Hypothesis Hm : Forall (Forall (@moderate prec emax)) grids.
Hypothesis Mx : Forall (@moderate prec emax) x.
Hypothesis Lx : length x = length grids.
Hypothesis HD : outside_at_most axes xr D.
Hypothesis Hr1 : 1 <= rho.
Hypothesis Hr : Forall (fun a => spacing_ratio_at_most a rho) axes.
Hypothesis Hv : cubic_reach_values prec emax rho gain (rectilinear_gamma prec rho) stretch (length grids) A vals.
Hypothesis HN : 14000 * INR (length grids) * (roundoff prec * rho) <= 1.

Lemma crect_any : Forall (good_axis 4) axes /\ exists y, eval x = Ok y /\ fin y /\
  Rabs (B2R y - tenL (ops1 (cub1 lin) axes xr) V) <= err.
Proof using All. exact (cubic_far_rectilinear _ _ Hp He c lin grids vals eval x A rho D Hf Hi Hm Lx Mx HD Hr1 Hr Hv HN). Qed.
Lemma crect_xr : length xr = length axes.
Proof using Lx. unfold rect_axes. rewrite !map_length. exact Lx. Qed.
Lemma crect_ratio_any : forall a, In a axes -> spacing_ratio_at_most a rho.
Proof using Hr. apply Forall_forall. exact Hr. Qed.
Theorem C75_proof_rectilinear c' dom eval' : multicubic c' lin (map B2R vals) axes dom eval' -> dom xr ->
  exists y r, eval x = Ok y /\ fin y /\ eval' xr = Ok r /\ Rabs (B2R y - r) <= err.
Proof using All.
  intros H Dx. destruct crect_any as (G & y & E & F & R). destruct (multicubic_value H) as (_ & _ & E').
  exists y. eexists. split; [exact E|]. split; [exact F|]. split; [apply E'; [apply crect_xr|exact Dx]|exact R].
Qed.
Theorem C76_proof_rectilinear f e M N h : samples_within e axes (map B2R vals) f ->
  (forall k, (k < length axes)%nat -> third_derivative_reaching axes xr f k (M k)) ->
  (lin = true -> forall k, (k < length axes)%nat -> second_derivative_reaching axes xr f k (N k)) ->
  (forall k a, nth_error axes k = Some a -> spacing_at_most a (h k)) ->
  exists y, eval x = Ok y /\ fin y /\
  Rabs (B2R y - f xr) <= err + prod_upto (length axes) (fun k => cubic_reach_gain lin rho (outside_by axes xr k)) * e
    + sum_upto (length axes) (fun k => prod_upto k (fun j => cubic_reach_gain lin rho (outside_by axes xr j))
        * cubic_reach_miss lin (M k) (N k) (h k) (outside_by axes xr k)).
Proof using All.
  intros Hs HM HN' Hh. destruct crect_any as (G & y & E & F & R). exists y. split; auto. split; auto.
  refine (three_errors _ _ _ _ _ _ _ R (cub_near_any lin _ _ _ _ _ _ G crect_xr crect_ratio_any Hs) _).
  destruct lin; cbn [cubic_reach_miss].
  - apply (cubic_approx_val_any_lin axes f xr M N h rho G crect_xr HM (HN' eq_refl) Hh crect_ratio_any).
  - apply (cubic_approx_val_any axes f xr M h rho G crect_xr HM Hh crect_ratio_any).
Qed.
End Rect.

Section Reg.
Variables (c : cfg) (lin : bool) (dims : list Z) (starts steps vals : list fl) (eval : list fl -> outcome fl) (x : list fl) (A kappa D : R).
Notation axes := (reg_axes dims (map B2R starts) (map B2R steps)).
Notation xr := (map B2R x).
Notation V := (entry 0 (map npts axes) (map B2R vals)).
Notation gain := (cubic_reach_gain lin 1 D).
Notation stretch := (cubic_stretch lin D).
Notation err := (cubic_reach_error prec emax gain (regular_gamma prec kappa) stretch (length dims) A).
Hypothesis Hf : float_cubic_regular Hp He c lin dims starts steps vals eval.
Hypothesis Ha : axes_within prec emax kappa starts steps dims.
Hypothesis Lx : length x = length dims.
Hypothesis Hx : point_within prec emax kappa steps x.
Hypothesis HD : outside_at_most axes xr D.
Hypothesis Hv : cubic_reach_values prec emax 1 gain (regular_gamma prec kappa) stretch (length dims) A vals.
Hypothesis HN : 2000 * INR (length dims) * (roundoff prec * kappa) <= 1.
Hypothesis Hprec : (prec <= 64)%Z.

Lemma creg_any : Forall (good_axis 4) axes /\ exists y, eval x = Ok y /\ fin y /\
  Rabs (B2R y - tenL (ops1 (cub1 lin) axes xr) V) <= err.
Proof using All. exact (cubic_far_regular _ _ Hp He c lin dims starts steps vals eval x A kappa D Hf Ha Lx Hx HD Hv HN Hprec). Qed.
Lemma creg_lens : length (map B2R starts) = length dims /\ length (map B2R steps) = length dims.
Proof using Hf.
  destruct (float_cubic_regular_inv _ _ _ _ _ _ _ _ _ _ _ Hf) as ((_ & W1 & W2 & _) & _). cbn [r_dims r_starts r_steps r_vals] in *.
  rewrite !map_length. auto.
Qed.
Lemma creg_xr : length xr = length axes.
Proof using Hf Lx. destruct creg_lens as (L1 & L2). rewrite (reg_axes_length _ _ _ L1 L2), map_length. exact Lx. Qed.
Theorem C75_proof_regular c' dom eval' : multicubic c' lin (map B2R vals) axes dom eval' -> dom xr ->
  exists y r, eval x = Ok y /\ fin y /\ eval' xr = Ok r /\ Rabs (B2R y - r) <= err.
Proof using All.
  intros H Dx. destruct creg_any as (G & y & E & F & R). destruct (multicubic_value H) as (_ & _ & E').
  exists y. eexists. split; [exact E|]. split; [exact F|]. split; [apply E'; [apply creg_xr|exact Dx]|exact R].
Qed.
Theorem C76_proof_regular f e M N : samples_within e axes (map B2R vals) f ->
  (forall k, (k < length axes)%nat -> third_derivative_reaching axes xr f k (M k)) ->
  (lin = true -> forall k, (k < length axes)%nat -> second_derivative_reaching axes xr f k (N k)) ->
  exists y, eval x = Ok y /\ fin y /\
  Rabs (B2R y - f xr) <= err + prod_upto (length axes) (fun k => cubic_reach_gain lin 1 (outside_by axes xr k)) * e
    + sum_upto (length axes) (fun k => prod_upto k (fun j => cubic_reach_gain lin 1 (outside_by axes xr j))
        * cubic_reach_miss lin (M k) (N k) (B2R (nth k steps (fzero o))) (outside_by axes xr k)).
Proof using All.
  intros Hs HM HN'. destruct creg_any as (G & y & E & F & R). exists y. split; auto. split; auto.
  destruct creg_lens as (L1 & L2). assert (Q := reg_axes_ratio dims (map B2R starts) (map B2R steps) L1 L2).
  assert (Hh : forall k a, nth_error axes k = Some a -> spacing_at_most a (B2R (nth k steps (fzero o)))).
  { intros k a Hk. assert (S := reg_axes_spacing dims (map B2R starts) (map B2R steps) L1 L2 k a Hk).
    change 0 with (@B2R prec emax (fzero o)) in S. rewrite map_nth in S. exact S. }
  assert (X := creg_xr).
  refine (three_errors _ _ _ _ _ _ _ R (cub_near_any lin _ _ _ _ _ _ G creg_xr Q Hs) _).
  destruct lin; cbn [cubic_reach_miss].
  - apply (cubic_approx_val_any_lin axes f xr M N (fun k => B2R (nth k steps (fzero o))) 1 G X HM (HN' eq_refl) Hh Q).
  - apply (cubic_approx_val_any axes f xr M (fun k => B2R (nth k steps (fzero o))) 1 G X HM Hh Q).
Qed.
End Reg.
End B.
