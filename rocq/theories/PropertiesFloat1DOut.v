(** Linear1D and LinearHoldLast1D in floating point, outside a regular grid (C68). *)
From Coq Require Import Reals Lra PeanoNat Bool Lia List.
From Flocq Require Import Core.Core IEEE754.BinarySingleNaN.
From Verif Require Import Base Ops RInst FInst ModelCore ModelOneDim Spec SpecOrder SpecIEEE SpecError SpecReal Spec1D SpecFloat1D SpecApprox SpecExtrap.
From Verif Require Import GenLemmas FLemmas FProofs FProofs2 RChar R1D F1D F1D2 F1DOut ExampleData ExampleReal PropertiesFloat PropertiesOneDim PropertiesError PropertiesFloat1D.
Import ListNotations.
Open Scope R_scope.
Unset Implicit Arguments.

(** * C68 outside a regular grid. Linear1D: the error bound of the inside grows with the number of
    steps the point is outside. LinearHoldLast1D: below the grid the first value itself, above the
    grid the last value up to the error bound of the inside (the end of the grid is computed with a
    rounding error, so a point just above it can still count as inside). *)
Theorem C68_regular_outside :
  forall prec emax (Hp : Prec_gt_0 prec) (He : Prec_lt_emax prec emax), let o := BOps Hp He in
  forall c (start h x : binary_float prec emax) vals g kappa A S,
  let a := mkAxis (zlen vals) (fun i => B2R start + B2R h * IZR i) in
  (2 <= zlen vals <= isize_max)%Z -> 0 < B2R h -> axis_within prec emax kappa start h (zlen vals) -> is_finite x = true ->
  Rabs (B2R x) <= kappa * B2R h -> B2R x < coord a 0 \/ coord a (npts a - 1) < B2R x -> r1_new o c start h vals = Ok g ->
  bounded_values prec emax A vals -> slopes_within S a (map B2R vals) -> S <= bpow radix2 (emax - 3) ->
  (1 + 2 * overshoot a (B2R x)) * A <= bpow radix2 (emax - 4) ->
  504 * (roundoff prec * kappa) <= 1 -> (prec <= 64)%Z ->
  forall c' (dom : R -> Prop) at_, grid1 c' (map B2R vals) a dom at_ -> dom (B2R x) ->
  exists y z r v, linear1 o c (r1_at o c g) x = Ok y /\ hold_last1 o c (r1_at o c g) x = Ok z /\
    is_finite y = true /\ is_finite z = true /\
    linear1 ROps c' at_ (B2R x) = Ok r /\ hold_last1 ROps c' at_ (B2R x) = Ok v /\
    Rabs (B2R y - r) <= (1 + 2 * overshoot a (B2R x)) * regular_line_error prec emax kappa A (B2R h) /\
    Rabs (B2R z - v) <= regular_line_error prec emax kappa A (B2R h) /\
    (B2R x < coord a 0 -> nth_error vals 0 = Some z).
Proof. exact C68_proof_regular_outside. Qed.

(** One step above the even grid 0, 1/2, 1 with the values 0, 1/4, 1. *)
Definition q_above : f64 := f64_lit 3 (-1).
Lemma q_above_real : B2R q_above = 3 / 2.
Proof. unfold q_above. real_lit. Qed.
Lemma q_within4 : axis_within 53 1024 4 (z64 0) (f64_lit 1 (-1)) (zlen q_rvals).
Proof.
  split; [reflexivity|]. split; [reflexivity|]. change (zlen q_rvals) with 3%Z.
  split; [apply Rabs_le; real_lit|]. split; [apply Rabs_le; real_lit|].
  apply Rle_trans with (bpow radix2 4); [real_lit|]. apply bpow_le. lia.
Qed.
Lemma q_over : overshoot q_ra (B2R q_above) = 1.
Proof.
  unfold overshoot, spacing. change (npts q_ra) with 3%Z. rewrite !q_ra_real, q_above_real. simpl.
  replace ((1 / 2 * 0 - 3 / 2) / (1 / 2 * 1 - 1 / 2 * 0)) with (- 3) by field.
  replace ((3 / 2 - 1 / 2 * 2) / (1 / 2 * 2 - 1 / 2 * 1)) with 1 by field.
  rewrite (Rmax_right (- 3) 1), (Rmax_right 0 1) by lra. reflexivity.
Qed.
Lemma q_rexact_above : exists g dom, grid1 rplain (map B2R q_rvals) q_ra dom (r1_at ROps rplain g) /\ dom (B2R q_above).
Proof.
  assert (E : exists g, r1_new ROps rplain (B2R (z64 0)) (B2R (f64_lit 1 (-1))) (map B2R q_rvals) = Ok g).
  { eexists. reflexivity. }
  destruct E as (g & E). exists g. eexists. split.
  - apply (@grid1_regular rplain (map B2R q_rvals) (B2R (z64 0)) (B2R (f64_lit 1 (-1))) g); [vm_compute; split; discriminate|rewrite half_real; lra|exact E].
  - cbv beta. rewrite z0_real, half_real, q_above_real. unfold isize_min, isize_max. simpl. split; lra.
Qed.
Example C68_outside_ex : exists g g' y z r v, r1_new F64Ops plain (z64 0) (f64_lit 1 (-1)) q_rvals = Ok g /\
  linear1 F64Ops plain (r1_at F64Ops plain g) q_above = Ok y /\ hold_last1 F64Ops plain (r1_at F64Ops plain g) q_above = Ok z /\
  linear1 ROps rplain (r1_at ROps rplain g') (3 / 2) = Ok r /\ hold_last1 ROps rplain (r1_at ROps rplain g') (3 / 2) = Ok v /\
  Rabs (B2R y - r) <= / 100000000000 /\ Rabs (B2R z - v) <= / 100000000000.
Proof.
  destruct q_rexact_above as (g' & dom & H1 & Dx). destruct q_rnew as (g & Hg).
  destruct (C68_regular_outside _ _ Hp64 He64 plain (z64 0) (f64_lit 1 (-1)) q_above q_rvals g 4 1 (3 / 2)
    ltac:(vm_compute; split; discriminate) ltac:(rewrite half_real; lra) q_within4 eq_refl
    ltac:(rewrite half_real, q_above_real, Rabs_pos_eq; lra)
    ltac:(right; change (coord q_ra (3 - 1) < B2R q_above); rewrite q_ra_real, q_above_real; simpl; lra)
    Hg q_rbounded q_rslopes ltac:(apply big_bound; [lia|lra]) ltac:(change ((1 + 2 * overshoot q_ra (B2R q_above)) * 1 <= bpow radix2 (1024 - 4)); rewrite q_over; apply big_bound; [lia|lra])
    ltac:(assert (U := roundoff_64); lra) ltac:(lia) _ _ _ H1 Dx) as (y & z & r & v & E & Z & _ & _ & E' & Z' & B & B' & _).
  exists g, g', y, z, r, v. split; [exact Hg|]. split; [exact E|]. split; [exact Z|].
  split; [rewrite <- q_above_real; exact E'|]. split; [rewrite <- q_above_real; exact Z'|].
  change (Rabs (B2R y - r) <= (1 + 2 * overshoot q_ra (B2R q_above)) * regular_line_error 53 1024 4 1 (B2R (f64_lit 1 (-1)))) in B.
  rewrite q_over in B. unfold regular_line_error in B, B'. rewrite half_real in B, B'.
  assert (Q := tiny_err 768 14 ltac:(lra) ltac:(lra)). assert (Q' := tiny_err 256 5 ltac:(lra) ltac:(lra)).
  assert (0 <= underflow 53 1024) by (unfold underflow; assert (P := bpow_ge_0 radix2 (3 - 1024 - 53)); lra).
  split; [eapply Rle_trans; [exact B|]; lra|eapply Rle_trans; [exact B'|]; lra].
Qed.

Print Assumptions C68_regular_outside.
