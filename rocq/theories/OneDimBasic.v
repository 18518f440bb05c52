(** One dimension, exact arithmetic: the formula, affine data, the range inside a cell, continuity. *)
From Coq Require Import Reals Lra Lia ZArith List.
From Verif Require Import Base Ops RInst ModelLinear ModelOneDim Spec SpecReal SpecApprox Interpolators Spec1D Spec1DShape.
From Verif Require Import RChar RProofs OneDimProofs OneDimMaps OneDimShape OneDimBridge OneDimSmooth.
Import ListNotations.
Unset Implicit Arguments.
Open Scope R_scope.

Theorem formula_one_dim c vals a dom at_ x i : grid1 c vals a dom at_ -> dom x -> in_cell a x i ->
  linear1 ROps c at_ x = Ok ((1 - local_coord a x i) * val_at vals i + local_coord a x i * val_at vals (i + 1)).
Proof.
  intros H D C. rewrite (linear_line _ _ _ _ _ _ _ H D C). f_equal.
  destruct (find_cell _ _ _ _ _ _ H D) as (_ & G & _). assert (P := gap_pos a i G (proj1 C)).
  unfold line, local_coord. field. lra.
Qed.

Theorem affine_one_dim c vals a dom at_ p q x : grid1 c vals a dom at_ -> dom x ->
  (forall i, (0 <= i < npts a)%Z -> val_at vals i = p + q * coord a i) ->
  linear1 ROps c at_ x = Ok (p + q * x) /\ hold_last1 ROps c at_ x = Ok (p + q * clamp a x).
Proof.
  intros H D V.
  assert (K : forall y, dom y -> linear1 ROps c at_ y = Ok (p + q * y)).
  { intros y Dy. destruct (find_cell _ _ _ _ _ _ H Dy) as (N & G & i & C). rewrite (formula_one_dim _ _ _ _ _ _ _ H Dy C). f_equal.
    assert (P := gap_pos a i G (proj1 C)). destruct C as (Ri & _). rewrite !V by lia. unfold local_coord. field. lra. }
  split; [apply K; exact D|]. destruct (hold_is_clamped _ _ _ _ _ _ H D) as (Dc & ->). apply K. exact Dc.
Qed.

Theorem cell_range_one_dim c vals a dom at_ x i : grid1 c vals a dom at_ -> (0 <= i <= npts a - 2)%Z -> coord a i <= x <= coord a (i + 1) ->
  exists r, linear1 ROps c at_ x = Ok r /\ hold_last1 ROps c at_ x = Ok r /\ between (val_at vals i) (val_at vals (i + 1)) r.
Proof.
  intros H Ri Hx. destruct (grid1_facts _ _ _ _ _ H) as (N & G & _).
  assert (M : forall j k, (0 <= j <= k)%Z -> (k < npts a)%Z -> coord a j <= coord a k).
  { intros j k Hjk Hk. destruct (Z.eq_dec j k) as [->|Ne]; [lra|]. apply Rlt_le. apply G; lia. }
  assert (Hin : coord a 0 <= x <= coord a (npts a - 1)).
  { assert (M0 := M 0%Z i ltac:(lia) ltac:(lia)). assert (M1 := M (i + 1)%Z (npts a - 1)%Z ltac:(lia) ltac:(lia)). lra. }
  assert (D := dom_inside _ _ _ _ _ _ H Hin).
  assert (C : in_cell a x i) by (split; [exact Ri|]; split; right; lra).
  rewrite (@C30_proof_inside _ _ _ _ _ _ H D Hin). assert (E := formula_one_dim _ _ _ _ _ _ _ H D C).
  eexists. split; [exact E|]. split; [exact E|].
  assert (P := gap_pos a i G Ri).
  assert (T : 0 <= local_coord a x i <= 1).
  { unfold local_coord. split; [apply Rmult_le_pos; [lra|apply Rlt_le, Rinv_0_lt_compat; exact P]|].
    apply Rmult_le_reg_r with (coord a (i + 1) - coord a i); [exact P|]. unfold Rdiv. rewrite Rmult_assoc, Rinv_l by lra. lra. }
  set (u := val_at vals i). set (v := val_at vals (i + 1)). unfold between.
  destruct (Rle_dec u v) as [L|L]; [left|right]; nra.
Qed.

Theorem continuous_one_dim c vals a dom at_ : grid1 c vals a dom at_ ->
  exists F, (forall x, dom x -> linear1 ROps c at_ x = Ok (F x) /\ hold_last1 ROps c at_ x = Ok (F (clamp a x))) /\
    continuity F /\ continuity (fun x => F (clamp a x)).
Proof.
  intros H. destruct (bridge c c vals a dom at_ H) as (s & _ & Hm & S & E).
  destruct (@C05_proof _ _ _ _ _ Hm) as (F & EF & CF).
  assert (K : forall x, dom x -> linear1 ROps c at_ x = Ok (F [x])).
  { intros x D. rewrite (E x D). apply EF; [reflexivity|exact I]. }
  assert (C : forall x eps, 0 < eps -> exists d, 0 < d /\ forall y, Rabs (y - x) < d -> Rabs (F [y] - F [x]) < eps).
  { intros x eps He. destruct (CF [x] eq_refl eps He) as (d & Hd & Q). exists d. split; [exact Hd|]. intros y Hy. apply Q; [reflexivity|].
    intros k Hk. destruct k as [|k]; [exact Hy|simpl in Hk; lia]. }
  exists (fun x => F [x]). split; [|split].
  - intros x D. split; [apply K; exact D|]. destruct (hold_is_clamped _ _ _ _ _ _ H D) as (Dc & ->). apply K. exact Dc.
  - intros x eps He. destruct (C x eps He) as (d & Hd & Q). exists d. split; [exact Hd|]. intros y (_ & Hy). apply Q. exact Hy.
  - intros x eps He. destruct (C (clamp a x) eps He) as (d & Hd & Q). exists d. split; [exact Hd|]. intros y (_ & Hy). apply Q.
    eapply Rle_lt_trans; [apply (clamp_close a a 0); rewrite Rminus_diag_eq, Rabs_R0 by reflexivity; lra|].
    apply Rmax_lub_lt; [exact Hy|exact Hd].
Qed.
