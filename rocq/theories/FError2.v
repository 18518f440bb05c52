(** Accuracy of floating-point multilinear interpolation: consequences of the error bounds. *)
From Coq Require Import Reals Lra Lia List Bool ZifyBool ZifyNat PeanoNat.
From Flocq Require Import Core.Core IEEE754.BinarySingleNaN.
From Verif Require Import Base Ops FInst ModelCore ModelLinear Spec SpecOrder SpecIEEE SpecError.
From Verif Require Import CoreLemmas MethodLemmas MethodChar GenLemmas FLemmas FProofs FProofs2 FError.
From Verif Require Import RInst SpecReal RTensor R1D RChar Interpolators REval RProofs.
Import ListNotations.
Unset Implicit Arguments.
Open Scope list_scope.
Open Scope R_scope.

Section B.
Variables prec emax : Z.
Context (Hp : Prec_gt_0 prec) (He : Prec_lt_emax prec emax).
Notation fl := (binary_float prec emax).
Notation o := (BOps Hp He).
Notation fin x := (is_finite x = true).

Lemma near_range y r m M e : Rabs (y - r) <= e -> m <= r <= M -> m - e <= y <= M + e.
Proof. intros H R. apply Rabs_le_inv in H. lra. Qed.

Lemma tenL_node axes V idx : Forall (good_axis 2) axes -> in_shape (map npts axes) idx ->
  tenL (ops1 lin1 axes (node_pos axes idx)) V = V idx.
Proof.
  intros G Hi. assert (Hn := node_inside (FP := 2) ltac:(lia) G Hi). assert (Lx := proj1 Hn).
  apply (tenL_select _ (good_lin _ Lx G)). apply ops1_select; auto.
  intros k a Hk i f Hr. destruct (good_nth _ G Hk) as (Ha & Hn2). apply lin1_node; auto.
Qed.

Section Rect.
Variables (c : cfg) (grids : list (list fl)) (vals : list fl) (eval : list fl -> outcome fl) (x : list fl) (A : R).
Notation axes := (rect_axes (map (map B2R) grids)).
Notation xr := (map B2R x).
Notation V := (entry 0 (map npts axes) (map B2R vals)).
Hypothesis Hf : float_rectilinear Hp He c grids vals eval.
Hypothesis Hi : Forall (increasing_grid o) grids.
Hypothesis Hm : Forall (Forall (@moderate prec emax)) grids.
Hypothesis Fx : Forall (fun v => fin v) x.
Hypothesis Hx : SpecReal.inside_grid axes xr.
Hypothesis Hv : bounded_values prec emax A vals.
Hypothesis HN : 126 * INR (length grids) * roundoff prec <= 1.

Lemma rect_err : Forall (good_axis 2) axes /\ exists y, eval x = Ok y /\ fin y /\
  Rabs (B2R y - tenL (ops1 lin1 axes xr) V) <= rectilinear_error prec emax (length grids) A.
Proof using All.
  destruct Hv as ((A0 & A1) & Hvs). exact (error_rectilinear _ _ Hp He c grids vals eval x A Hf Hi Hm Fx Hx A0 Hvs A1 HN).
Qed.
Theorem C45_proof_rectilinear os : in_cells axes xr os -> exists y, eval x = Ok y /\ fin y /\
  Rabs (B2R y - corner_sum V os (local_coords axes xr os)) <= rectilinear_error prec emax (length grids) A.
Proof using All.
  intros Hc. destruct rect_err as (G & y & E & F & R). exists y. rewrite <- (lin_corner_sum V G Hc). auto.
Qed.
Theorem C45_proof_rectilinear_exact c' dom eval' : multilinear c' (map B2R vals) axes dom eval' ->
  exists y r, eval x = Ok y /\ fin y /\ eval' xr = Ok r /\ Rabs (B2R y - r) <= rectilinear_error prec emax (length grids) A.
Proof using All.
  intros H. destruct rect_err as (G & y & E & F & R). destruct (multilinear_value H) as (_ & _ & E').
  exists y. eexists. split; [exact E|]. split; [exact F|]. split; [apply E'; [apply Hx|eapply multilinear_inside; eauto]|exact R].
Qed.
Theorem C36_proof_rectilinear os m M : in_cells axes xr os ->
  (forall b, In b (corners (length os)) -> m <= V (corner_index os b) <= M) ->
  exists y, eval x = Ok y /\ fin y /\
  m - rectilinear_error prec emax (length grids) A <= B2R y <= M + rectilinear_error prec emax (length grids) A.
Proof using All.
  intros Hc HV. destruct rect_err as (G & y & E & F & R). exists y. split; [exact E|]. split; [exact F|].
  apply (near_range _ _ _ _ _ R). apply (@lin_bounds axes xr os V m M G Hc); auto. apply in_cells_inside; auto.
Qed.
Theorem C35_proof_rectilinear_near idx : in_shape (map npts axes) idx -> xr = node_pos axes idx ->
  exists y, eval x = Ok y /\ fin y /\ Rabs (B2R y - V idx) <= rectilinear_error prec emax (length grids) A.
Proof using All.
  intros Hi' Ex. destruct rect_err as (G & y & E & F & R). exists y. rewrite Ex, (tenL_node _ _ _ G Hi') in R. auto.
Qed.
End Rect.

Section Reg.
Variables (c : cfg) (dims : list Z) (starts steps vals : list fl) (eval : list fl -> outcome fl) (x : list fl) (A kappa : R).
Notation axes := (reg_axes dims (map B2R starts) (map B2R steps)).
Notation xr := (map B2R x).
Notation V := (entry 0 (map npts axes) (map B2R vals)).
Hypothesis Hf : float_regular Hp He c dims starts steps vals eval.
Hypothesis Fx : Forall (fun v => fin v) x.
Hypothesis Ha : axes_within prec emax kappa starts steps dims.
Hypothesis Hx : SpecReal.inside_grid axes xr.
Hypothesis Hv : bounded_values prec emax A vals.
Hypothesis HN : 504 * INR (length dims) * (roundoff prec * kappa) <= 1.
Hypothesis Hprec : (prec <= 64)%Z.

Lemma reg_err : Forall (good_axis 2) axes /\ exists y, eval x = Ok y /\ fin y /\
  Rabs (B2R y - tenL (ops1 lin1 axes xr) V) <= regular_error prec emax (length dims) kappa A.
Proof using All.
  destruct Hv as ((A0 & A1) & Hvs).
  destruct (float_regular_inv _ _ _ _ _ _ _ _ _ _ Hf) as ((_ & W1 & W2 & _) & _). cbn [r_dims r_starts r_steps r_vals] in *.
  assert (K : forall k, (k < length dims)%nat -> axis_within prec emax kappa (nth k starts (fzero o)) (nth k steps (fzero o)) (nth k dims 0%Z)).
  { intros k Hk. apply (Ha k); apply nth_error_nth_some; lia. }
  apply (error_regular _ _ Hp He c dims starts steps vals eval x A kappa); auto.
  - apply Forall_nth. intros k d Hk. rewrite (nth_indep _ d (fzero o)) by auto. apply (K k). lia.
  - apply Forall_nth. intros k d Hk. rewrite (nth_indep _ d (fzero o)) by auto. apply (K k). lia.
  - intros k s h d E1 E2 E3. apply (Ha k s h d E1 E2 E3).
Qed.
Theorem C45_proof_regular os : in_cells axes xr os -> exists y, eval x = Ok y /\ fin y /\
  Rabs (B2R y - corner_sum V os (local_coords axes xr os)) <= regular_error prec emax (length dims) kappa A.
Proof using All.
  intros Hc. destruct reg_err as (G & y & E & F & R). exists y. rewrite <- (lin_corner_sum V G Hc). auto.
Qed.
Theorem C45_proof_regular_exact c' dom eval' : multilinear c' (map B2R vals) axes dom eval' ->
  exists y r, eval x = Ok y /\ fin y /\ eval' xr = Ok r /\ Rabs (B2R y - r) <= regular_error prec emax (length dims) kappa A.
Proof using All.
  intros H. destruct reg_err as (G & y & E & F & R). destruct (multilinear_value H) as (_ & _ & E').
  exists y. eexists. split; [exact E|]. split; [exact F|]. split; [apply E'; [apply Hx|eapply multilinear_inside; eauto]|exact R].
Qed.
Theorem C36_proof_regular os m M : in_cells axes xr os ->
  (forall b, In b (corners (length os)) -> m <= V (corner_index os b) <= M) ->
  exists y, eval x = Ok y /\ fin y /\
  m - regular_error prec emax (length dims) kappa A <= B2R y <= M + regular_error prec emax (length dims) kappa A.
Proof using All.
  intros Hc HV. destruct reg_err as (G & y & E & F & R). exists y. split; [exact E|]. split; [exact F|].
  apply (near_range _ _ _ _ _ R). apply (@lin_bounds axes xr os V m M G Hc); auto. apply in_cells_inside; auto.
Qed.
Theorem C35_proof_regular_near idx : in_shape (map npts axes) idx -> xr = node_pos axes idx ->
  exists y, eval x = Ok y /\ fin y /\ Rabs (B2R y - V idx) <= regular_error prec emax (length dims) kappa A.
Proof using All.
  intros Hi' Ex. destruct reg_err as (G & y & E & F & R). exists y. rewrite Ex, (tenL_node _ _ _ G Hi') in R. auto.
Qed.
End Reg.
End B.
