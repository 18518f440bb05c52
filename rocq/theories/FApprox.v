(** Floating-point multilinear interpolation of a smooth function: rounding error, error of
    the samples and interpolation error together. *)
From Coq Require Import Reals Lra Lia List Bool ZifyBool ZifyNat PeanoNat.
From Flocq Require Import Core.Core IEEE754.BinarySingleNaN.
From Verif Require Import Base Ops FInst ModelCore ModelLinear Spec SpecOrder SpecIEEE SpecError.
From Verif Require Import CoreLemmas MethodLemmas MethodChar GenLemmas FLemmas FProofs FProofs2 FError FError2.
From Verif Require Import RInst SpecReal RTensor R1D RChar Interpolators REval RProofs SpecApprox Approx1D Approx Shape.
Import ListNotations.
Unset Implicit Arguments.
Open Scope list_scope.
Open Scope R_scope.

Lemma lin_near axes x vals f e : Forall (good_axis 2) axes -> SpecReal.inside_grid axes x ->
  samples_within e axes vals f ->
  Rabs (tenL (ops1 lin1 axes x) (entry 0 (map npts axes) vals)
    - tenL (ops1 lin1 axes x) (fun idx => f (node_pos axes idx))) <= e.
Proof.
  intros G Hx Hs. rewrite (tenL_minus _ _ _ _ (good_lin x (proj1 Hx) G)).
  eapply Rle_trans; [apply (tenL_norm axes _ 1 _ e)|rewrite pow1; lra].
  - apply lin_ops_norm; auto.
  - intros idx Hi. apply Hs. auto.
Qed.

Lemma three_errors y r s t a b d : Rabs (y - r) <= a -> Rabs (r - s) <= b -> Rabs (s - t) <= d ->
  Rabs (y - t) <= a + b + d.
Proof. intros. apply Rabs_le_inv in H, H0, H1. apply Rabs_le. lra. Qed.

Section B.
Variables prec emax : Z.
Context (Hp : Prec_gt_0 prec) (He : Prec_lt_emax prec emax).
Notation fl := (binary_float prec emax).
Notation o := (BOps Hp He).
Notation fin x := (is_finite x = true).

Theorem C55_proof_rectilinear c (grids : list (list fl)) vals eval x A f e M h :
  let axes := rect_axes (map (map B2R) grids) in
  float_rectilinear Hp He c grids vals eval ->
  Forall (increasing_grid o) grids -> Forall (Forall moderate) grids ->
  Forall (fun v => fin v) x -> SpecReal.inside_grid axes (map B2R x) ->
  bounded_values prec emax A vals -> 126 * INR (length grids) * roundoff prec <= 1 ->
  samples_within e axes (map B2R vals) f ->
  (forall k, (k < length axes)%nat -> second_derivative_at_most axes f k (M k)) ->
  (forall k a, nth_error axes k = Some a -> spacing_at_most a (h k)) ->
  exists y, eval x = Ok y /\ fin y /\
  Rabs (B2R y - f (map B2R x)) <= rectilinear_error prec emax (length grids) A + e
    + sum_upto (length axes) (fun k => M k * h k ^ 2 / 8).
Proof.
  intros axes Hf Hi Hm Fx Hx Hv HN Hs HM Hh.
  destruct (rect_err prec emax Hp He c grids vals eval x A Hf Hi Hm Fx Hx Hv HN) as (G & y & E & F & R).
  exists y. split; auto. split; auto.
  exact (three_errors _ _ _ _ _ _ _ R (lin_near _ _ _ _ _ G Hx Hs) (lin_approx_val_grid _ _ _ _ _ G Hx HM Hh)).
Qed.

Theorem C55_proof_regular c dims (starts steps vals : list fl) eval x A kappa f e M :
  let axes := reg_axes dims (map B2R starts) (map B2R steps) in
  float_regular Hp He c dims starts steps vals eval ->
  Forall (fun v => fin v) x -> axes_within prec emax kappa starts steps dims ->
  SpecReal.inside_grid axes (map B2R x) ->
  bounded_values prec emax A vals -> 504 * INR (length dims) * (roundoff prec * kappa) <= 1 -> (prec <= 64)%Z ->
  samples_within e axes (map B2R vals) f ->
  (forall k, (k < length axes)%nat -> second_derivative_at_most axes f k (M k)) ->
  exists y, eval x = Ok y /\ fin y /\
  Rabs (B2R y - f (map B2R x)) <= regular_error prec emax (length dims) kappa A + e
    + sum_upto (length axes) (fun k => M k * B2R (nth k steps (fzero o)) ^ 2 / 8).
Proof.
  intros axes Hf Fx Ha Hx Hv HN Hpr Hs HM.
  destruct (reg_err prec emax Hp He c dims starts steps vals eval x A kappa Hf Fx Ha Hx Hv HN Hpr) as (G & y & E & F & R).
  exists y. split; auto. split; auto.
  destruct (float_regular_inv _ _ _ _ _ _ _ _ _ _ Hf) as ((_ & W1 & W2 & _) & _). cbn [r_dims r_starts r_steps r_vals] in *.
  refine (three_errors _ _ _ _ _ _ _ R (lin_near _ _ _ _ _ G Hx Hs) (lin_approx_val_grid _ _ _ _ _ G Hx HM _)).
  intros k a Hk.
  assert (Q := reg_axes_spacing dims (map B2R starts) (map B2R steps) ltac:(rewrite map_length; auto) ltac:(rewrite map_length; auto) k a Hk).
  change 0 with (@B2R prec emax (fzero o)) in Q. rewrite map_nth in Q. exact Q.
Qed.
End B.
