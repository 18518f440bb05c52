(** One dimension, exact arithmetic: grid points, agreement of the two kinds of grids, and errors in
    the data. *)
From Coq Require Import Reals Lra Lia ZArith List.
From Flocq Require Import Core.Raux.
From Verif Require Import Base Ops RInst ModelOneDim Spec SpecReal SpecApprox Spec1D Spec1DMaps Spec1DShape.
From Verif Require Import RChar RProofs3 OneDimProofs OneDimMaps OneDimShape.
Import ListNotations.
Unset Implicit Arguments.
Open Scope R_scope.

Theorem nodes_one_dim c vals a dom at_ i : grid1 c vals a dom at_ -> (0 <= i < npts a)%Z ->
  linear1 ROps c at_ (coord a i) = Ok (val_at vals i) /\ hold_last1 ROps c at_ (coord a i) = Ok (val_at vals i) /\
  nearest1 ROps at_ (coord a i) = Ok (val_at vals i).
Proof.
  intros H Hi. destruct (grid1_sizes _ _ _ _ _ H) as (N & G).
  assert (M : forall i j, (0 <= i)%Z -> (i <= j)%Z -> (j < npts a)%Z -> coord a i <= coord a j).
  { intros p q P L Q. destruct (Z.eq_dec p q) as [->|]; [lra|]. left. apply (proj1 G); lia. }
  assert (I : coord a 0 <= coord a i <= coord a (npts a - 1)) by (split; apply M; lia).
  assert (D : dom (coord a i)) by (eapply dom_inside; eauto).
  assert (L := node_value _ _ _ _ _ i H Hi). split; [exact L|]. split; [rewrite (@C30_proof_inside _ _ _ _ _ _ H D I); exact L|].
  destruct (grid1_at _ H D) as (_ & _ & j & e & A & C & _).
  unfold nearest1. rewrite A. cbn [bind sx0 sy0 sx1 sy1]. f_equal. cbn [fle fabs fsub ROps].
  assert (E : i = j \/ i = (j + 1)%Z).
  { destruct C as (R & Lo & Up). destruct (Z.lt_trichotomy i j) as [Q|[Q|Q]]; [|lia|].
    - exfalso. destruct Lo as [->|Lo]; [lia|]. assert (coord a i < coord a j) by (apply (proj1 G); lia). lra.
    - destruct (Z.eq_dec i (j + 1)) as [|Q']; [lia|]. exfalso. destruct Up as [->|Up]; [lia|].
      assert (coord a (j + 1) < coord a i) by (apply (proj1 G); lia). lra. }
  assert (P := gap_pos a j G (proj1 C)). destruct (Rleb _ _) eqn:B.
  - apply Rleb_true in B. destruct E as [->| ->]; [reflexivity|]. exfalso.
    rewrite (Rabs_pos_eq (coord a (j + 1) - coord a j)) in B by lra. replace (coord a (j + 1) - coord a (j + 1)) with 0 in B by ring. rewrite Rabs_R0 in B. lra.
  - apply Rleb_false in B. destruct E as [->| ->]; [|reflexivity]. exfalso.
    replace (coord a j - coord a j) with 0 in B by ring. rewrite Rabs_R0 in B. assert (Q := Rabs_pos (coord a j - coord a (j + 1))). lra.
Qed.

Theorem agree_one_dim c c' vals a b dom dom' at_ at_' x : same_axis a b -> grid1 c vals a dom at_ -> grid1 c' vals b dom' at_' ->
  dom x -> dom' x ->
  linear1 ROps c at_ x = linear1 ROps c' at_' x /\ hold_last1 ROps c at_ x = hold_last1 ROps c' at_' x /\
  nearest1 ROps at_ x = nearest1 ROps at_' x /\
  (off_nodes a x -> left1 at_ x = left1 at_' x /\ right1 at_ x = right1 at_' x).
Proof.
  intros (Sn & Sc) Ha Hb D D'.
  assert (R : rescaled_axis (1, 0) a b).
  { split; [cbn; lra|]. split; [symmetry; exact Sn|]. intros i Hi. cbn [fst snd]. rewrite <- Sc by exact Hi. ring. }
  assert (E : 1 * x + 0 = x) by ring.
  destruct (rescaled_one_dim 1 0 a b c c' vals dom dom' at_ at_' x R Ha Hb D) as (A1 & A2 & A3 & A4); [rewrite E; exact D'|].
  rewrite E in *. split; [symmetry; exact A1|]. split; [symmetry; exact A2|]. split; [symmetry; exact A3|].
  intros O. destruct (A4 O) as (B1 & B2). split; symmetry; assumption.
Qed.

Lemma convex a x : good_axis 2 a -> coord a 0 <= x <= coord a (npts a - 1) -> forall i, in_cell a x i ->
  exists w, 0 <= w <= 1 /\ forall vals, line a vals x i = (1 - w) * val_at vals i + w * val_at vals (i + 1).
Proof.
  intros G (L0 & U0) i C. assert (P := gap_pos a i G (proj1 C)). destruct C as (Ri & L & U).
  assert (Li : coord a i <= x) by (destruct L as [->|L]; assumption).
  assert (Ui : x <= coord a (i + 1)).
  { destruct U as [->|U]; [replace (npts a - 2 + 1)%Z with (npts a - 1)%Z by lia|]; assumption. }
  exists ((x - coord a i) / (coord a (i + 1) - coord a i)). split.
  - split; [apply Rmult_le_pos; [lra|left; apply Rinv_0_lt_compat; exact P]|].
    apply Rmult_le_reg_r with (coord a (i + 1) - coord a i); [exact P|]. unfold Rdiv. rewrite Rmult_assoc, Rinv_l by lra. lra.
  - intros vals. unfold line. field. lra.
Qed.
Lemma within_at e u v i : values_within e u v -> (0 <= i < zlen u)%Z -> Rabs (val_at u i - val_at v i) <= e.
Proof.
  intros H Hi. unfold val_at. set (k := Z.to_nat i). assert (Hk : (k < length u)%nat) by (unfold zlen, k in *; lia). clearbody k. clear Hi i.
  revert k Hk. induction H as [|p q u v E H IH]; intros k Hk; [simpl in Hk; lia|]. destruct k as [|k]; [exact E|]. apply IH. simpl in Hk. lia.
Qed.
Theorem data_errors c c' u v a dom dom' at_ at_' e x : grid1 c u a dom at_ -> grid1 c' v a dom' at_' -> values_within e u v -> dom x -> dom' x ->
  (exists r r', hold_last1 ROps c at_ x = Ok r /\ hold_last1 ROps c' at_' x = Ok r' /\ Rabs (r - r') <= e) /\
  (coord a 0 <= x <= coord a (npts a - 1) ->
   exists r r', linear1 ROps c at_ x = Ok r /\ linear1 ROps c' at_' x = Ok r' /\ Rabs (r - r') <= e).
Proof.
  intros H H' W D D'. destruct (grid1_sizes _ _ _ _ _ H) as (N & G).
  assert (K : forall y, coord a 0 <= y <= coord a (npts a - 1) ->
    exists r r', linear1 ROps c at_ y = Ok r /\ linear1 ROps c' at_' y = Ok r' /\ Rabs (r - r') <= e).
  { intros y Hy. assert (Dy := dom_inside _ _ _ _ _ _ H Hy). assert (Dy' := dom_inside _ _ _ _ _ _ H' Hy).
    destruct (find_cell _ _ _ _ _ _ H Dy) as (_ & _ & i & C). destruct (convex a y G Hy i C) as (w & Hw & V).
    eexists _, _. split; [exact (linear_line _ _ _ _ _ _ i H Dy C)|]. split; [exact (linear_line _ _ _ _ _ _ i H' Dy' C)|].
    rewrite !V. assert (R := proj1 C).
    assert (E0 := within_at e u v i W ltac:(lia)). assert (E1 := within_at e u v (i + 1)%Z W ltac:(lia)).
    apply Rabs_le_inv in E0. apply Rabs_le_inv in E1. apply Rabs_le. split; nra. }
  split; [|apply K]. destruct (hold_is_clamped _ _ _ _ _ _ H D) as (_ & ->). destruct (hold_is_clamped _ _ _ _ _ _ H' D') as (_ & ->).
  apply K. apply clamp_inside. exact G.
Qed.
