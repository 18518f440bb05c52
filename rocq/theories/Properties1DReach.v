(** Linear1D in floating point, inside or outside the grid: any two evaluations of the same data (C73),
    monotonicity and steepness of the computed results (C74), accuracy on smooth functions (C70). *)
From Coq Require Import Reals Lra Lia ZArith List Bool.
From Flocq Require Import Core.Core IEEE754.BinarySingleNaN.
From Verif Require Import Base Ops RInst FInst ModelCore ModelOneDim Spec SpecOrder SpecIEEE SpecError SpecReal SpecApprox SpecExtrap.
From Verif Require Import Spec1D Spec1DShape SpecFloat1D SpecAgree Spec1DRun Spec1DReach OneDimReach.
From Verif Require Import ExampleData ExampleReal PropertiesFloat PropertiesOneDim PropertiesError PropertiesFloat1D PropertiesFloat1DOut Properties1DSmooth.
Import ListNotations.
Unset Implicit Arguments.
Open Scope R_scope.

(** * C73: two evaluations at the same point, in any two number formats, differ by at most their
    rounding errors. *)
Theorem C73_one_dim_anywhere :
  forall a a' vals x e e' r r',
  line_reach a vals x e r -> line_reach a' vals x e' r' -> same_axis a a' ->
  exists y y', r = Some y /\ r' = Some y' /\ Rabs (y - y') <= e + e'.
Proof. exact line_reach_agree. Qed.

(** * C74: up to the rounding errors the computed result rises between two points at least m and at
    most M times their distance, when all slopes of the data lie between m and M. *)
Theorem C74_one_dim_anywhere :
  forall a vals x x' e e' r r' m M,
  line_reach a vals x e r -> line_reach a vals x' e' r' -> slopes_between a vals m M -> x <= x' ->
  exists y y', r = Some y /\ r' = Some y' /\ m * (x' - x) - (e + e') <= y' - y <= M * (x' - x) + (e + e').
Proof. exact line_reach_slopes. Qed.

(** * C70: samples of a smooth function up to an error d, at any point. *)
Theorem C70_anywhere :
  forall a vals x e r f f1 f2 d M h, line_reach a vals x e r ->
  (forall i, (0 <= i < npts a)%Z -> Rabs (val_at vals i - f (coord a i)) <= d) ->
  (forall t, Rmin (coord a 0) x <= t <= Rmax (coord a (npts a - 1)) x ->
     derivable_pt_lim f t (f1 t) /\ derivable_pt_lim f1 t (f2 t) /\ Rabs (f2 t) <= M) ->
  spacing_at_most a h ->
  exists y, r = Some y /\
    Rabs (y - f x) <= e + d * (1 + 2 * overshoot a x) + M * h ^ 2 * linear_miss (overshoot a x).
Proof. exact line_reach_smooth. Qed.

(** Linear1D in binary64 on the nodes 0, 1/2, 1 with the squares as values, at 3/2 and at 3/4. *)
Definition q_above_error : R := 3 * regular_line_error 53 1024 4 1 (1 / 2).
Lemma q_above_small : 0 <= q_above_error <= / 100000000000.
Proof.
  unfold q_above_error, regular_line_error. assert (Q := tiny_err 768 13.5 ltac:(lra) ltac:(lra)).
  assert (0 <= roundoff 53) by apply bpow_ge_0.
  assert (0 <= underflow 53 1024) by (unfold underflow; assert (P := bpow_ge_0 radix2 (3 - 1024 - 53)); lra).
  split; lra.
Qed.
Lemma q_above_run g : r1_new F64Ops plain (z64 0) (f64_lit 1 (-1)) q_rvals = Ok g ->
  line_reach q_ra (map B2R q_rvals) (3 / 2) q_above_error (number_of (linear1 F64Ops plain (r1_at F64Ops plain g) q_above)).
Proof.
  intros Hg.
  assert (R := line_reach_regular 53 1024 Hp64 He64 plain (z64 0) (f64_lit 1 (-1)) q_above q_rvals g 4 1 (3 / 2)
    ltac:(vm_compute; split; discriminate) ltac:(rewrite half_real; lra) q_within4 eq_refl
    ltac:(rewrite half_real, q_above_real, Rabs_pos_eq; lra)
    ltac:(right; change (coord q_ra (3 - 1) < B2R q_above); rewrite q_ra_real, q_above_real; simpl; lra)
    Hg q_rbounded q_rslopes ltac:(apply big_bound; [lia|lra])
    ltac:(change ((1 + 2 * overshoot q_ra (B2R q_above)) * 1 <= bpow radix2 (1024 - 4)); rewrite q_over; apply big_bound; [lia|lra])
    ltac:(assert (U := roundoff_64); lra) ltac:(lia)).
  change (line_reach q_ra (map B2R q_rvals) (B2R q_above)
    ((1 + 2 * overshoot q_ra (B2R q_above)) * regular_line_error 53 1024 4 1 (B2R (f64_lit 1 (-1))))
    (number_of (linear1 F64Ops plain (r1_at F64Ops plain g) q_above))) in R.
  rewrite q_over, half_real, q_above_real in R. unfold q_above_error. replace 3 with (1 + 2 * 1) at 2 by ring. exact R.
Qed.
Example C73_one_dim_anywhere_ex : exists g g' y y', r1_new F64Ops plain (z64 0) (f64_lit 1 (-1)) q_rvals = Ok g /\
  number_of (linear1 F64Ops plain (r1_at F64Ops plain g) q_above) = Some y /\
  linear1 ROps rplain (r1_at ROps rplain g') (3 / 2) = Ok y' /\ Rabs (y - y') <= / 100000000000.
Proof.
  destruct q_rexact_above as (g' & dom & H1 & Dx). destruct q_rnew as (g & Hg). rewrite q_above_real in Dx.
  destruct (C73_one_dim_anywhere _ _ _ _ _ _ _ _ (q_above_run g Hg) (line_reach_exact _ _ _ _ _ _ H1 Dx)) as (y & y' & E & E' & B).
  { split; auto. }
  exists g, g', y, y'. split; [exact Hg|]. split; [exact E|]. split.
  - destruct (linear1 ROps rplain _ _); try discriminate E'. injection E' as <-. reflexivity.
  - assert (Q := q_above_small). lra.
Qed.
(** From 3/4 to 3/2 the data rises at least 3/8 and at most 9/8. *)
Example C74_one_dim_anywhere_ex : exists g g' y y', r1_new F64Ops plain (z64 0) (f64_lit 1 (-1)) q_rvals = Ok g /\
  linear1 ROps rplain (r1_at ROps rplain g') (3 / 4) = Ok y /\
  number_of (linear1 F64Ops plain (r1_at F64Ops plain g) q_above) = Some y' /\ 37 / 100 <= y' - y <= 113 / 100.
Proof.
  destruct q_rexact as (g' & dom & H1 & Dx). destruct q_rnew as (g & Hg). rewrite q_in in Dx.
  destruct (C74_one_dim_anywhere _ _ _ _ _ _ _ _ (1 / 2) (3 / 2) (line_reach_exact _ _ _ _ _ _ H1 Dx) (q_above_run g Hg)) as (y & y' & E & E' & B).
  - rewrite q_rvals_real. cell01; rewrite !q_ra_real; unfold val_at; simpl; lra.
  - lra.
  - exists g, g', y, y'. split; [exact Hg|]. split.
    + destruct (linear1 ROps rplain _ _); try discriminate E. injection E as <-. reflexivity.
    + split; [exact E'|]. assert (Q := q_above_small). lra.
Qed.
(** One step outside the grid the square 9/4 is missed by at most 9/16. *)
Example C70_anywhere_ex : exists g y, r1_new F64Ops plain (z64 0) (f64_lit 1 (-1)) q_rvals = Ok g /\
  number_of (linear1 F64Ops plain (r1_at F64Ops plain g) q_above) = Some y /\ Rabs (y - 9 / 4) <= 57 / 100.
Proof.
  destruct q_rnew as (g & Hg).
  destruct (C70_anywhere _ _ _ _ _ (fun t => t * t) (fun t => 2 * t) (fun _ => 2) 0 2 (1 / 2) (q_above_run g Hg)) as (y & E & B).
  - intros i Hi. change (0 <= i < 3)%Z in Hi. rewrite q_rvals_real, q_ra_real.
    assert (i = 0 \/ i = 1 \/ i = 2)%Z as [-> |[-> | ->]] by lia; unfold val_at; simpl; apply Rabs_le; lra.
  - intros t _. apply sq_derivs.
  - cell01; unfold spacing; rewrite !q_ra_real; simpl; lra.
  - exists g, y. split; [exact Hg|]. split; [exact E|].
    assert (O := q_over). rewrite q_above_real in O. rewrite O in B. unfold linear_miss in B.
    assert (Q := q_above_small). replace (9 / 4) with (3 / 2 * (3 / 2)) by field. eapply Rle_trans; [exact B|]. lra.
Qed.

Print Assumptions C70_anywhere.
Print Assumptions C73_one_dim_anywhere.
Print Assumptions C74_one_dim_anywhere.
