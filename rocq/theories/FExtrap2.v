(** Multilinear extrapolation in floating point: distance from the exact result, and from a
    smooth function. *)
From Coq Require Import Reals Lra Lia List Bool ZifyBool ZifyNat PeanoNat.
From Flocq Require Import Core.Core IEEE754.BinarySingleNaN.
From Verif Require Import Base Ops FInst ModelCore ModelLinear Spec SpecOrder SpecIEEE SpecError.
From Verif Require Import CoreLemmas MethodLemmas MethodChar GenLemmas FLemmas FProofs FProofs2 FError FError2.
From Verif Require Import RInst SpecReal RTensor R1D RChar Interpolators REval RProofs SpecApprox Approx1D Approx Shape FApprox.
From Verif Require Import SpecExtrap SpecReach Extrap1D Extrap FExtrap.
Import ListNotations.
Unset Implicit Arguments.
Open Scope list_scope.
Open Scope R_scope.

Lemma lin_near_any axes x vals f e : Forall (good_axis 2) axes -> length x = length axes ->
  samples_within e axes vals f ->
  Rabs (tenL (ops1 lin1 axes x) (entry 0 (map npts axes) vals)
    - tenL (ops1 lin1 axes x) (fun idx => f (node_pos axes idx))) <= reach_factor axes x * e.
Proof.
  intros G Hx Hs. rewrite (tenL_minus _ _ _ _ (good_lin x Hx G)).
  apply (tenL_norm_any axes); [apply ops1_shape; auto| |intros idx Hi; apply Hs; auto].
  intros k a L0 Hk HkL. rewrite (ops1_nth_error _ _ _ _ _ _ Hx Hk HkL). clear L0 HkL.
  rewrite (outside_nth _ _ _ _ Hk). assert (Gk := good_nth _ G Hk).
  intros v B HB. apply lin1_norm_any; auto; apply Gk.
Qed.

Section B.
Variables prec emax : Z.
Context (Hp : Prec_gt_0 prec) (He : Prec_lt_emax prec emax).
Notation fl := (binary_float prec emax).
Notation o := (BOps Hp He).
Notation fin x := (is_finite x = true).

Section Rect.
Variables (c : cfg) (grids : list (list fl)) (vals : list fl) (eval : list fl -> outcome fl) (x : list fl) (A : R).
Notation axes := (rect_axes (map (map B2R) grids)).
Notation xr := (map B2R x).
Notation V := (entry 0 (map npts axes) (map B2R vals)).
Notation err := (reach_factor axes xr * rectilinear_reach_error prec emax (length grids) A).
Hypothesis Hf : float_rectilinear Hp He c grids vals eval.
Hypothesis Hi : Forall (increasing_grid o) grids.
Hypothesis Hm : Forall (Forall (@moderate prec emax)) grids.
Hypothesis Mx : Forall (@moderate prec emax) x.
Hypothesis Lx : length x = length grids.
Hypothesis Hv : bounded_values prec emax A vals.
Hypothesis HP : reach_fits emax axes xr A.
Hypothesis HN : 144 * INR (length grids) * roundoff prec <= 1.

Lemma rect_any : Forall (good_axis 2) axes /\ exists y, eval x = Ok y /\ fin y /\
  Rabs (B2R y - tenL (ops1 lin1 axes xr) V) <= err.
Proof using All.
  destruct Hv as ((A0 & A1) & Hvs). exact (reach_rectilinear _ _ Hp He c grids vals eval x A Hf Hi Hm Mx Lx A0 Hvs HP HN).
Qed.
Lemma rect_xr : length xr = length axes.
Proof using Lx. unfold rect_axes. rewrite !map_length. exact Lx. Qed.
Theorem C62_proof_rectilinear os : in_cells axes xr os -> exists y, eval x = Ok y /\ fin y /\
  Rabs (B2R y - corner_sum V os (local_coords axes xr os)) <= err.
Proof using All.
  intros Hc. destruct rect_any as (G & y & E & F & R). exists y. rewrite <- (lin_corner_sum V G Hc). auto.
Qed.
Theorem C62_proof_rectilinear_exact c' dom eval' : multilinear c' (map B2R vals) axes dom eval' -> dom xr ->
  exists y r, eval x = Ok y /\ fin y /\ eval' xr = Ok r /\ Rabs (B2R y - r) <= err.
Proof using All.
  intros H Dx. destruct rect_any as (G & y & E & F & R). destruct (multilinear_value H) as (_ & _ & E').
  exists y. eexists. split; [exact E|]. split; [exact F|]. split; [apply E'; [apply rect_xr|exact Dx]|exact R].
Qed.
Theorem C63_proof_rectilinear f e M h : samples_within e axes (map B2R vals) f ->
  (forall k, (k < length axes)%nat -> second_derivative_reaching axes xr f k (M k)) ->
  (forall k a, nth_error axes k = Some a -> spacing_at_most a (h k)) ->
  exists y, eval x = Ok y /\ fin y /\
  Rabs (B2R y - f xr) <= err + reach_factor axes xr * e + sum_upto (length axes) (fun k =>
    prod_upto k (fun j => 1 + 2 * outside_by axes xr j) * (M k * h k ^ 2 * linear_miss (outside_by axes xr k))).
Proof using All.
  intros Hs HM Hh. destruct rect_any as (G & y & E & F & R). exists y. split; auto. split; auto.
  exact (three_errors _ _ _ _ _ _ _ R (lin_near_any _ _ _ _ _ G rect_xr Hs) (lin_approx_val_any _ _ _ _ _ G rect_xr HM Hh)).
Qed.
End Rect.

Section Reg.
Variables (c : cfg) (dims : list Z) (starts steps vals : list fl) (eval : list fl -> outcome fl) (x : list fl) (A kappa : R).
Notation axes := (reg_axes dims (map B2R starts) (map B2R steps)).
Notation xr := (map B2R x).
Notation V := (entry 0 (map npts axes) (map B2R vals)).
Notation err := (reach_factor axes xr * regular_error prec emax (length dims) kappa A).
Hypothesis Hf : float_regular Hp He c dims starts steps vals eval.
Hypothesis Ha : axes_within prec emax kappa starts steps dims.
Hypothesis Lx : length x = length dims.
Hypothesis Hx : point_within prec emax kappa steps x.
Hypothesis Hv : bounded_values prec emax A vals.
Hypothesis HP : reach_fits emax axes xr A.
Hypothesis HN : 504 * INR (length dims) * (roundoff prec * kappa) <= 1.
Hypothesis Hprec : (prec <= 64)%Z.

Lemma reg_any : Forall (good_axis 2) axes /\ exists y, eval x = Ok y /\ fin y /\
  Rabs (B2R y - tenL (ops1 lin1 axes xr) V) <= err.
Proof using All.
  destruct Hv as ((A0 & A1) & Hvs).
  exact (reach_regular _ _ Hp He c dims starts steps vals eval x A kappa Hf Ha Lx Hx A0 Hvs HP HN Hprec).
Qed.
Lemma reg_lens : length (map B2R starts) = length dims /\ length (map B2R steps) = length dims.
Proof using Hf.
  destruct (float_regular_inv _ _ _ _ _ _ _ _ _ _ Hf) as ((_ & W1 & W2 & _) & _). cbn [r_dims r_starts r_steps r_vals] in *.
  rewrite !map_length. auto.
Qed.
Lemma reg_xr : length xr = length axes.
Proof using Hf Lx. destruct reg_lens as (L1 & L2). rewrite (reg_axes_length _ _ _ L1 L2), map_length. exact Lx. Qed.
Theorem C62_proof_regular os : in_cells axes xr os -> exists y, eval x = Ok y /\ fin y /\
  Rabs (B2R y - corner_sum V os (local_coords axes xr os)) <= err.
Proof using All.
  intros Hc. destruct reg_any as (G & y & E & F & R). exists y. rewrite <- (lin_corner_sum V G Hc). auto.
Qed.
Theorem C62_proof_regular_exact c' dom eval' : multilinear c' (map B2R vals) axes dom eval' -> dom xr ->
  exists y r, eval x = Ok y /\ fin y /\ eval' xr = Ok r /\ Rabs (B2R y - r) <= err.
Proof using All.
  intros H Dx. destruct reg_any as (G & y & E & F & R). destruct (multilinear_value H) as (_ & _ & E').
  exists y. eexists. split; [exact E|]. split; [exact F|]. split; [apply E'; [apply reg_xr|exact Dx]|exact R].
Qed.
Theorem C63_proof_regular f e M : samples_within e axes (map B2R vals) f ->
  (forall k, (k < length axes)%nat -> second_derivative_reaching axes xr f k (M k)) ->
  exists y, eval x = Ok y /\ fin y /\
  Rabs (B2R y - f xr) <= err + reach_factor axes xr * e + sum_upto (length axes) (fun k =>
    prod_upto k (fun j => 1 + 2 * outside_by axes xr j)
      * (M k * B2R (nth k steps (fzero o)) ^ 2 * linear_miss (outside_by axes xr k))).
Proof using All.
  intros Hs HM. destruct reg_any as (G & y & E & F & R). destruct reg_lens as (L1 & L2). exists y. split; auto. split; auto.
  refine (three_errors _ _ _ _ _ _ _ R (lin_near_any _ _ _ _ _ G reg_xr Hs) (lin_approx_val_any _ _ _ _ _ G reg_xr HM _)).
  intros k a Hk. assert (Q := reg_axes_spacing dims (map B2R starts) (map B2R steps) L1 L2 k a Hk).
  change 0 with (@B2R prec emax (fzero o)) in Q. rewrite map_nth in Q. exact Q.
Qed.
End Reg.
End B.
