(** One dimension, exact arithmetic: samples of a function with bounded slope, and the step
    interpolators on moved grids. *)
From Coq Require Import Reals Lra Lia ZArith List.
From Verif Require Import Base Ops RInst ModelOneDim Spec SpecReal SpecError SpecApprox SpecMoved Spec1D.
From Verif Require Import RChar RProofs3 Approx Moved OneDimProofs OneDimMaps OneDimShape OneDimBridge OneDimSmooth.
Import ListNotations.
Unset Implicit Arguments.
Open Scope R_scope.

Theorem slope_inside c vals a dom at_ f x L h : grid1 c vals a dom at_ ->
  (forall i, (0 <= i < npts a)%Z -> val_at vals i = f (coord a i)) ->
  coord a 0 <= x <= coord a (npts a - 1) ->
  (forall s t, coord a 0 <= s <= coord a (npts a - 1) -> coord a 0 <= t <= coord a (npts a - 1) -> Rabs (f s - f t) <= L * Rabs (s - t)) ->
  spacing_at_most a h ->
  exists r n u v, linear1 ROps c at_ x = Ok r /\ nearest1 ROps at_ x = Ok n /\ left1 at_ x = Ok u /\ right1 at_ x = Ok v /\
    Rabs (r - f x) <= L * h / 2 /\ Rabs (n - f x) <= L * h / 2 /\ Rabs (u - f x) <= L * h /\ Rabs (v - f x) <= L * h.
Proof.
  intros H V Hx HL Hh. assert (D := dom_inside _ _ _ _ _ _ H Hx).
  destruct (grid1_at _ H D) as (N & G & i & e & A & C & X).
  assert (Ci := C). destruct Ci as (Ri & C1 & C2).
  assert (M : forall j k, (0 <= j <= k)%Z -> (k < npts a)%Z -> coord a j <= coord a k).
  { intros j k Hjk Hk. destruct (Z.eq_dec j k) as [->|Ne]; [lra|]. apply Rlt_le. apply G; lia. }
  assert (I : forall j, (0 <= j < npts a)%Z -> coord a 0 <= coord a j <= coord a (npts a - 1)) by (intros j Hj; split; apply M; lia).
  assert (K : coord a i <= x <= coord a (i + 1)).
  { split; [destruct C1 as [->|]; lra|]. destruct C2 as [->|C2]; [replace (npts a - 2 + 1)%Z with (npts a - 1)%Z by lia|]; lra. }
  assert (P := gap_pos a i G Ri). assert (Hi := Hh i Ri). unfold spacing in Hi.
  assert (L0 : 0 <= L).
  { assert (Q := HL (coord a i) (coord a (i + 1)) (I i ltac:(lia)) (I (i + 1)%Z ltac:(lia))).
    assert (Q1 := Rabs_pos (f (coord a i) - f (coord a (i + 1)))). rewrite (Rabs_left (coord a i - coord a (i + 1))) in Q by lra. nra. }
  assert (B : forall j, (j = i \/ j = i + 1)%Z -> Rabs (val_at vals j - f x) <= L * h).
  { intros j Hj. assert (Rj : (0 <= j < npts a)%Z) by lia. rewrite (V j Rj). eapply Rle_trans; [apply HL; [apply I; exact Rj|exact Hx]|].
    apply Rmult_le_compat_l; [exact L0|]. apply Rabs_le. destruct Hj as [->| ->]; lra. }
  assert (Nn := @nearest_1d a x i G C). set (k := (i + _)%Z) in Nn. 
  destruct (bridge c c vals a dom at_ H) as (s & _ & Hm & S & E). destruct (same_ends _ _ S G) as (_ & E0 & E1).
  destruct (lin_approx_slope _ _ _ _ _ _ [x] (fun _ => L) (fun _ => h) Hm (same_samples _ _ S G _ f V) (same_inside _ _ S G x Hx)) as (r & Er & Br).
  { intros q Hq. destruct q as [|q]; [|simpl in Hq; lia]. intros y t (Ly & Hy) (Lt & Ht).
    destruct y as [|y [|]]; try discriminate Ly. specialize (Hy 0%nat _ eq_refl). specialize (Ht 0%nat _ eq_refl). cbn [upd nth] in *.
    rewrite E0, E1 in Hy, Ht. apply HL; assumption. }
  { exact (same_spacing_bound _ _ S G h Hh). }
  exists r, (val_at vals k). eexists. eexists.
  split; [rewrite (E x D); exact Er|]. split; [exact (@C31_proof_nearest _ _ _ _ _ _ k H D Nn)|].
  split; [unfold left1; rewrite A; reflexivity|]. split; [unfold right1; rewrite A; reflexivity|].
  split; [unfold sum_upto in Br; simpl in Br; lra|]. split.
  - rewrite V by apply Nn. assert (Q := nearest_distance a x k h G Hx Nn Hh).
    eapply Rle_trans; [apply HL; [apply I; apply Nn|exact Hx]|]. unfold Rdiv. rewrite Rmult_assoc. apply Rmult_le_compat_l; [exact L0|lra].
  - cbn [sextrap sy0 sy1]. split; destruct e; apply B; auto.
Qed.

Theorem moved_nearest1 c vals a a' dom at_ x d : grid1 c vals a' dom at_ -> nodes_within d a a' -> dom x ->
  exists i, nearest1 ROps at_ x = Ok (val_at vals i) /\ nearest_up_to (2 * d) a x i.
Proof.
  intros H W D. destruct (find_cell _ _ _ _ _ _ H D) as (N & G & i & C).
  assert (Nn := @nearest_1d a' x i G C). eexists. split; [exact (@C31_proof_nearest _ _ _ _ _ _ _ H D Nn)|].
  exact (nearest_moved d a a' x _ W Nn).
Qed.
