(** One dimension: any two evaluations of LinearHoldLast1D compared, inside or outside the grid. *)
From Coq Require Import Reals Lra Lia ZArith List Bool PeanoNat.
From Flocq Require Import Core.Core IEEE754.BinarySingleNaN.
From Verif Require Import Base Ops RInst FInst ModelCore ModelOneDim Spec SpecOrder SpecIEEE SpecError SpecReal SpecApprox SpecMoved.
From Verif Require Import Spec1D Spec1DShape SpecFloat1D SpecExtrap SpecAgree Spec1DRun Spec1DHold.
From Verif Require Import CoreLemmas R1D RChar GenLemmas OrderLemmas FLemmas FProofs FProofs2 FError FExtrap F1D F1D2 F1DOut OneDimProofs OneDimMaps OneDimShape OneDimAgree OneDimBridge OneDimSmooth OneDimRun OneDimReach.
Import ListNotations.
Unset Implicit Arguments.
Open Scope R_scope.

(** The same evaluation on a rectilinear grid, which accepts every point. *)
Lemma hold_to_points c vals a dom at_ x q : grid1 c vals a dom at_ -> dom x -> hold_last1 ROps c at_ x = Ok q ->
  exists at_', grid1 rcfg vals (list_axis (points_of a)) (fun _ => True) at_' /\ same_axis a (list_axis (points_of a)) /\
    hold_last1 ROps rcfg at_' x = Ok q.
Proof.
  intros G D Q. destruct (find_cell _ _ _ _ _ _ G D) as (_ & _ & i & Ci).
  destruct (to_points _ _ _ _ _ _ _ G D (linear_line _ _ _ _ _ _ _ G D Ci)) as (at' & G' & SA & _).
  exists at'. split; [exact G'|]. split; [exact SA|].
  rewrite <- (proj1 (proj2 (agree_one_dim _ _ _ _ _ _ _ _ _ _ SA G G' D I))). exact Q.
Qed.

Lemma hold_reach_near a vals x e r : hold_reach a vals x e r ->
  exists at_ y q, grid1 rcfg vals (list_axis (points_of a)) (fun _ => True) at_ /\ same_axis a (list_axis (points_of a)) /\
    r = Some y /\ hold_last1 ROps rcfg at_ x = Ok q /\ Rabs (y - q) <= e.
Proof.
  intros H. destruct H as [a vals x e r H
    |c vals a dom at_ x G D
    |prec emax Hp He c grid vals g x a Hn Hi Hm Fx Hg Fv Out
    |prec emax Hp He c start h x vals g kappa A S a Hn Ph Ha Fx Hx Out Hg Hv HS BS GA HE Hprec].
  - destruct (line_run_near _ _ _ _ _ H) as (c & dom & at_ & y & q & G & Hx & -> & Q & B).
    assert (D := dom_inside _ _ _ _ _ _ G Hx). rewrite <- (@C30_proof_inside _ _ _ _ _ _ G D Hx) in Q.
    destruct (hold_to_points _ _ _ _ _ _ _ G D Q) as (at' & G' & SA & Q').
    exists at', y, q. auto.
  - destruct (hold_is_clamped _ _ _ _ _ _ G D) as (Dx & E).
    destruct (find_cell _ _ _ _ _ _ G Dx) as (_ & _ & i & Ci).
    rewrite (linear_line _ _ _ _ _ _ _ G Dx Ci) in E.
    destruct (hold_to_points _ _ _ _ _ _ _ G D E) as (at' & G' & SA & Q').
    exists at'. eexists. eexists. rewrite E. split; [exact G'|]. split; [exact SA|]. split; [reflexivity|].
    split; [exact Q'|]. rewrite Rminus_diag_eq, Rabs_R0 by reflexivity. lra.
  - assert (Hl : (2 <= zlen grid)%Z /\ length grid = length vals).
    { unfold c1_new in Hg. destruct (_ || _) eqn:Ec; [discriminate|]. apply orb_false_iff in Ec. destruct Ec as (E1 & E2).
      apply negb_false_iff, Nat.eqb_eq in E1. apply Nat.ltb_ge in E2. unfold zlen. lia. }
    destruct Hl as (Hl & Le).
    destruct (rect1_axis prec emax Hp He grid Hi Hm) as (Ia & Na & Ca).
    assert (G : grid1 rcfg (map B2R vals) a (fun _ => True) (c1_at ROps rcfg (mkC1 (map B2R grid) (map B2R vals)))).
    { apply grid1_rectilinear; [unfold zlen in *; rewrite map_length; exact Hn|apply axis_sorted; exact Ia|].
      unfold c1_new. rewrite !map_length, Le, Nat.eqb_refl. replace (length vals <? 2)%nat with false; [reflexivity|].
      symmetry. apply Nat.ltb_ge. unfold zlen in Hl. lia. }
    set (d := fzero (BOps Hp He)) in *.
    destruct (@C30_proof_any _ (BOps Hp He) c grid vals g x d (@BOps_transitive _ _ Hp He) (@BOps_irreflexive _ _ Hp He) Hi Hn Hg) as (XL & XH).
    destruct (@C30_proof_outside _ _ _ _ _ (B2R x) G I) as (RL & RH).
    assert (Fg : forall k, (k < length grid)%nat -> is_finite (nth k grid d) = true).
    { intros k Hk. destruct (proj1 (Forall_forall _ _) Hm _ (nth_In grid d Hk)) as (F & _). exact F. }
    assert (Fw : forall k, (k < length vals)%nat -> is_finite (nth k vals d) = true).
    { intros k Hk. apply (proj1 (Forall_forall _ _) Fv), nth_In. exact Hk. }
    assert (VB : forall k, val_at (map B2R vals) k = B2R (nth (Z.to_nat k) vals d)) by (intros k; apply (nth_B2R prec emax Hp He)).
    unfold a in Out. rewrite !Ca, Na in Out. unfold zlen in Out, Hl.
    destruct Out as [L|L].
    + assert (L' : flt (BOps Hp He) x (nth 0 grid d) = true) by (apply (ltb_fin Hp He); auto; apply Fg; lia).
      assert (Q : hold_last1 ROps rcfg (c1_at ROps rcfg (mkC1 (map B2R grid) (map B2R vals))) (B2R x) = Ok (val_at (map B2R vals) 0)).
      { apply RL. unfold a. rewrite Ca. exact L. }
      destruct (hold_to_points _ _ _ _ _ _ _ G I Q) as (at' & G' & SA & Q').
      exists at'. eexists. eexists. split; [exact G'|]. split; [exact SA|].
      split; [rewrite (XL L'); simpl; rewrite Fw by lia; reflexivity|]. split; [exact Q'|].
      rewrite VB. change (Z.to_nat 0) with 0%nat. rewrite Rminus_diag_eq, Rabs_R0 by reflexivity. lra.
    + assert (L' : flt (BOps Hp He) (last grid d) x = true).
      { rewrite last_nth. replace (length grid - 1)%nat with (Z.to_nat (Z.of_nat (length grid) - 1)) by lia.
        apply (ltb_fin Hp He); auto. apply Fg. lia. }
      assert (Q : hold_last1 ROps rcfg (c1_at ROps rcfg (mkC1 (map B2R grid) (map B2R vals))) (B2R x) = Ok (val_at (map B2R vals) (zlen (map B2R vals) - 1))).
      { apply RH. unfold a. rewrite Na, Ca. exact L. }
      destruct (hold_to_points _ _ _ _ _ _ _ G I Q) as (at' & G' & SA & Q').
      exists at'. eexists. eexists. split; [exact G'|]. split; [exact SA|].
      split; [rewrite (XH L'), last_nth; simpl; rewrite Fw by lia; reflexivity|]. split; [exact Q'|].
      rewrite VB. unfold zlen. rewrite map_length. replace (Z.to_nat (Z.of_nat (length vals) - 1)) with (length vals - 1)%nat by lia.
      rewrite Rminus_diag_eq, Rabs_R0 by reflexivity. lra.
  - assert (ZL : zlen (map B2R vals) = zlen vals) by (unfold zlen; rewrite map_length; reflexivity).
    assert (R1 : exists g', r1_new ROps rcfg (B2R start) (B2R h) (map B2R vals) = Ok g').
    { unfold r1_new. rewrite ZL, usize_sub_ok by (unfold two64, isize_max in *; lia). simpl. eauto. }
    destruct R1 as (g' & R1).
    assert (G := @grid1_regular rcfg (map B2R vals) (B2R start) (B2R h) g' ltac:(rewrite ZL; exact Hn) Ph R1). rewrite ZL in G. fold a in G.
    assert (D : IZR isize_min <= (B2R x - B2R start) / B2R h < IZR (isize_max + 1)).
    { destruct Ha as (Fs & Fh & Hs & Ht & Hk).
      assert (T2 := T_size prec emax Hp He start h x (zlen vals) kappa Fs Fh Fx Ph ltac:(lia) Hs Ht Hk HE Hx Hprec).
      assert (SB := size_bound_any prec emax Hp He start h x (zlen vals) kappa Fs Fh Fx Ph ltac:(lia) Hs Ht Hk HE Hx Hprec).
      unfold reg_pos in T2. apply Rabs_def2_le in T2.
      assert (P : bpow radix2 prec <= bpow radix2 64) by (apply bpow_le; exact Hprec).
      change (bpow radix2 64) with (IZR (2 ^ 64)) in P. unfold isize_min, isize_max. simpl in P |- *. lra. }
    destruct (C68_proof_regular_outside prec emax Hp He c start h x vals g kappa A S Hn Ph Ha Fx Hx Out Hg Hv HS BS GA HE Hprec _ _ _ G D)
      as (y & z & q & v & _ & E & _ & F & _ & Q & _ & B & _).
    destruct (hold_to_points _ _ _ _ _ _ _ G D Q) as (at' & G' & SA & Q').
    exists at', (B2R z), v. split; [exact G'|]. split; [exact SA|]. split; [rewrite E; simpl; rewrite F; reflexivity|]. auto.
Qed.

Theorem hold_reach_agree a a' vals vals' x e e' r r' dv :
  hold_reach a vals x e r -> hold_reach a' vals' x e' r' -> same_axis a a' -> values_within dv vals vals' ->
  exists y y', r = Some y /\ r' = Some y' /\ Rabs (y - y') <= e + e' + dv.
Proof.
  intros H H' SA V.
  destruct (hold_reach_near _ _ _ _ _ H) as (at_ & y & q & G & S1 & -> & Q & B).
  destruct (hold_reach_near _ _ _ _ _ H') as (at_' & y' & q' & G' & S2 & -> & Q' & B').
  assert (S3 := same_axis_trans _ _ _ (same_axis_sym _ _ S1) (same_axis_trans _ _ _ SA S2)).
  assert (PE : points_of a = points_of a').
  { destruct S3 as (N & C). apply nth_ext with (d := 0) (d' := 0).
    - simpl in N. unfold zlen in N. lia.
    - intros k Hk. assert (E := C (Z.of_nat k) ltac:(simpl; unfold zlen; lia)). simpl in E. rewrite Nat2Z.id in E. exact E. }
  rewrite <- PE in G'.
  destruct (proj1 (data_errors _ _ _ _ _ _ _ _ _ _ x G G' V I I)) as (u & v & Eu & Ev & B2).
  rewrite Q in Eu. injection Eu as <-. rewrite Q' in Ev. injection Ev as <-.
  exists y, y'. split; [reflexivity|]. split; [reflexivity|].
  apply Rabs_def2_le in B. apply Rabs_def2_le in B'. apply Rabs_def2_le in B2. apply Rabs_le. lra.
Qed.

Theorem hold_reach_slopes a vals x x' e e' r r' m M :
  hold_reach a vals x e r -> hold_reach a vals x' e' r' -> slopes_between a vals m M -> x <= x' ->
  exists y y', r = Some y /\ r' = Some y' /\
    m * (clamp a x' - clamp a x) - (e + e') <= y' - y <= M * (clamp a x' - clamp a x) + (e + e').
Proof.
  intros H H' Sl Hxx.
  destruct (hold_reach_near _ _ _ _ _ H) as (at_ & y & q & G & (N1 & C1) & -> & Q & B).
  destruct (hold_reach_near _ _ _ _ _ H') as (at_' & y' & q' & G' & _ & -> & Q' & B').
  destruct (grid1_facts _ _ _ _ _ G) as (Nb & (Ib & Mb) & Hn).
  set (b := list_axis (points_of a)) in *.
  assert (SA : same_axis b b) by (split; auto).
  assert (E := proj1 (proj2 (agree_one_dim _ _ _ _ _ _ _ _ _ x' SA G' G I I))).
  assert (Sl' : slopes_between b vals m M).
  { intros i Hi. rewrite <- N1 in Hi. rewrite <- !C1 by lia. apply Sl. exact Hi. }
  assert (CL : forall z, clamp b z = clamp a z).
  { intros z. unfold clamp. rewrite <- N1, <- !C1 by lia. reflexivity. }
  destruct (slopes_hold _ _ _ _ _ _ _ _ _ G Sl' I I Hxx) as (u & v & Eu & Ev & B1). rewrite !CL in B1.
  rewrite Q in Eu. injection Eu as <-. rewrite <- E, Q' in Ev. injection Ev as <-.
  exists y, y'. split; [reflexivity|]. split; [reflexivity|].
  apply Rabs_def2_le in B. apply Rabs_def2_le in B'. lra.
Qed.

Theorem hold_reach_close a a' vals vals' x x' e e' r r' d dv L :
  hold_reach a vals x e r -> hold_reach a' vals' x' e' r' -> nodes_within d a a' -> values_within dv vals vals' ->
  slopes_between a vals (- L) L ->
  exists y y', r = Some y /\ r' = Some y' /\ Rabs (y - y') <= e + e' + (dv + L * (Rmax (Rabs (x - x')) d + d)).
Proof.
  intros H H' (Nn & W) V Sl.
  destruct (hold_reach_near _ _ _ _ _ H) as (at_ & y & q & G & (N1 & C1) & -> & Q & B).
  destruct (hold_reach_near _ _ _ _ _ H') as (at_' & y' & q' & G' & (N2 & C2) & -> & Q' & B').
  destruct (grid1_facts _ _ _ _ _ G) as (Nb & (Ib & Mb) & Hn).
  destruct (grid1_facts _ _ _ _ _ G') as (Nb' & (Ib' & Mb') & Hn').
  set (b := list_axis (points_of a)) in *. 
  assert (W' : nodes_within d b (list_axis (points_of a'))).
  { split; [congruence|]. intros i Hi. rewrite <- N1 in Hi. rewrite <- C1 by lia. rewrite <- C2 by lia. apply W. exact Hi. }
  assert (Sl' : slopes_between b vals (- L) L).
  { intros i Hi. rewrite <- N1 in Hi. rewrite <- !C1 by lia. apply Sl. exact Hi. }
  assert (G2 : grid1 rcfg vals (list_axis (points_of a')) (fun _ => True) (c1_at ROps rcfg (mkC1 (points_of a') vals))).
  { apply grid1_rectilinear; [exact Hn|apply points_sorted; intros i j Hi Hj; rewrite !C2 by lia; apply Ib'; lia|].
    assert (LV := within_len _ _ _ V). unfold c1_new. simpl in Nb'. unfold zlen in *.
    replace (length (points_of a')) with (length vals) by lia. rewrite Nat.eqb_refl.
    replace (length vals <? 2)%nat with false; [reflexivity|]. symmetry. apply Nat.ltb_ge. lia. }
  destruct (moved_points_hold _ _ _ _ _ _ _ _ _ x x' d L G G2 W' Sl' I I) as (u & v & Eu & Ev & B1).
  destruct (proj1 (data_errors _ _ _ _ _ _ _ _ _ _ x' G2 G' V I I)) as (v2 & w & Ev2 & Ew & B2).
  rewrite Q in Eu. injection Eu as <-. rewrite Ev in Ev2. injection Ev2 as <-. rewrite Q' in Ew. injection Ew as <-.
  exists y, y'. split; [reflexivity|]. split; [reflexivity|].
  apply Rabs_def2_le in B. apply Rabs_def2_le in B'. apply Rabs_def2_le in B1. apply Rabs_def2_le in B2. apply Rabs_le. lra.
Qed.
