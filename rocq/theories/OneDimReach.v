(** One dimension: any two evaluations of Linear1D compared, inside or outside the grid. *)
From Coq Require Import Reals Lra Lia ZArith List Bool PeanoNat.
From Flocq Require Import Core.Core IEEE754.BinarySingleNaN.
From Verif Require Import Base Ops RInst FInst ModelCore ModelOneDim Spec SpecOrder SpecIEEE SpecError SpecReal SpecApprox.
From Verif Require Import Spec1D Spec1DShape SpecFloat1D SpecExtrap SpecAgree Spec1DRun Spec1DReach.
From Verif Require Import CoreLemmas R1D RChar GenLemmas FLemmas FError FExtrap F1D F1D2 F1DOut OneDimProofs OneDimMaps OneDimShape OneDimAgree OneDimBridge OneDimSmooth OneDimRun.
Import ListNotations.
Unset Implicit Arguments.
Open Scope R_scope.

(** The same evaluation on a rectilinear grid, which accepts every point. *)
Lemma to_points c vals a dom at_ x q : grid1 c vals a dom at_ -> dom x -> linear1 ROps c at_ x = Ok q ->
  exists at_', grid1 rcfg vals (list_axis (points_of a)) (fun _ => True) at_' /\ same_axis a (list_axis (points_of a)) /\
    linear1 ROps rcfg at_' x = Ok q.
Proof.
  intros G D Q. destruct (grid1_facts _ _ _ _ _ G) as (N & (Ia & Na) & Hn).
  assert (SA := points_same a ltac:(lia)). assert (PL := points_len a ltac:(lia)).
  assert (G' : grid1 rcfg vals (list_axis (points_of a)) (fun _ => True) (c1_at ROps rcfg (mkC1 (points_of a) vals))).
  { apply grid1_rectilinear; [exact Hn|apply points_sorted; exact Ia|]. unfold c1_new, zlen in *.
    replace (length (points_of a)) with (length vals) by lia. rewrite Nat.eqb_refl.
    replace (length vals <? 2)%nat with false; [reflexivity|]. symmetry. apply Nat.ltb_ge. lia. }
  eexists. split; [exact G'|]. split; [exact SA|].
  rewrite <- (proj1 (agree_one_dim _ _ _ _ _ _ _ _ _ _ SA G G' D I)). exact Q.
Qed.

Lemma line_reach_near a vals x e r : line_reach a vals x e r ->
  exists at_ y q, grid1 rcfg vals (list_axis (points_of a)) (fun _ => True) at_ /\ same_axis a (list_axis (points_of a)) /\
    r = Some y /\ linear1 ROps rcfg at_ x = Ok q /\ Rabs (y - q) <= e.
Proof.
  intros H. destruct H as [a vals x e r H
    |c vals a dom at_ x G D
    |prec emax Hp He c grid vals g x A S W rho Hu Hn Hi Hm Sx Hg Hv HS HW R0 Hx BS BA
    |prec emax Hp He c start h x vals g kappa A S a Hn Ph Ha Fx Hx Out Hg Hv HS BS GA HE Hprec].
  - destruct (line_run_near _ _ _ _ _ H) as (c & dom & at_ & y & q & G & Hx & -> & Q & B).
    destruct (to_points _ _ _ _ _ _ _ G (dom_inside _ _ _ _ _ _ G Hx) Q) as (at' & G' & SA & Q').
    exists at', y, q. auto.
  - destruct (find_cell _ _ _ _ _ _ G D) as (_ & _ & i & Ci).
    assert (E := linear_line _ _ _ _ _ _ _ G D Ci).
    destruct (to_points _ _ _ _ _ _ _ G D E) as (at' & G' & SA & Q').
    exists at', (line a vals x i), (line a vals x i). rewrite E. split; [exact G'|]. split; [exact SA|]. split; [reflexivity|].
    split; [exact Q'|]. rewrite Rminus_diag_eq, Rabs_R0 by reflexivity. lra.
  - assert (Hl : (2 <= zlen grid)%Z /\ length grid = length vals).
    { unfold c1_new in Hg. destruct (_ || _) eqn:Ec; [discriminate|]. apply orb_false_iff in Ec. destruct Ec as (E1 & E2).
      apply negb_false_iff, Nat.eqb_eq in E1. apply Nat.ltb_ge in E2. unfold zlen. lia. }
    destruct Hl as (Hl & Le).
    destruct (rect1_axis prec emax Hp He grid Hi Hm) as (Ia & Na & Ca).
    assert (G : grid1 rcfg (map B2R vals) (list_axis (map B2R grid)) (fun _ => True)
      (c1_at ROps rcfg (mkC1 (map B2R grid) (map B2R vals)))).
    { apply grid1_rectilinear; [unfold zlen in *; rewrite map_length; exact Hn|apply axis_sorted; exact Ia|].
      unfold c1_new. rewrite !map_length, Le, Nat.eqb_refl. replace (length vals <? 2)%nat with false; [reflexivity|].
      symmetry. apply Nat.ltb_ge. unfold zlen in Hl. lia. }
    destruct (C68_proof_rectilinear prec emax Hp He c grid vals g x A S W rho Hu Hn Hi Hm Sx Hg Hv HS HW R0 Hx BS BA _ _ _ G I)
      as (y & q & E & F & E' & B).
    destruct (to_points _ _ _ _ _ _ _ G I E') as (at' & G' & SA & Q').
    exists at', (B2R y), q. split; [exact G'|]. split; [exact SA|]. split; [rewrite E; simpl; rewrite F; reflexivity|]. auto.
  - assert (ZL : zlen (map B2R vals) = zlen vals) by (unfold zlen; rewrite map_length; reflexivity).
    assert (R1 : exists g', r1_new ROps rcfg (B2R start) (B2R h) (map B2R vals) = Ok g').
    { unfold r1_new. rewrite ZL, usize_sub_ok by (unfold two64, isize_max in *; lia). simpl. eauto. }
    destruct R1 as (g' & R1).
    assert (G := @grid1_regular rcfg (map B2R vals) (B2R start) (B2R h) g' ltac:(rewrite ZL; exact Hn) Ph R1). rewrite ZL in G. fold a in G.
    assert (D : IZR isize_min <= (B2R x - B2R start) / B2R h < IZR (isize_max + 1)).
    { destruct Ha as (Fs & Fh & Hs & Ht & Hk).
      assert (T2 := T_size prec emax Hp He start h x (zlen vals) kappa Fs Fh Fx Ph ltac:(lia) Hs Ht Hk HE Hx Hprec).
      assert (SB := size_bound_any prec emax Hp He start h x (zlen vals) kappa Fs Fh Fx Ph ltac:(lia) Hs Ht Hk HE Hx Hprec).
      unfold reg_pos in T2. apply Rabs_def2_le in T2.
      assert (P : bpow radix2 prec <= bpow radix2 64) by (apply bpow_le; exact Hprec).
      change (bpow radix2 64) with (IZR (2 ^ 64)) in P. unfold isize_min, isize_max. simpl in P |- *. lra. }
    destruct (C68_proof_regular_outside prec emax Hp He c start h x vals g kappa A S Hn Ph Ha Fx Hx Out Hg Hv HS BS GA HE Hprec _ _ _ G D)
      as (y & z & q & v & E & _ & F & _ & Q & _ & B & _).
    destruct (to_points _ _ _ _ _ _ _ G D Q) as (at' & G' & SA & Q').
    exists at', (B2R y), q. split; [exact G'|]. split; [exact SA|]. split; [rewrite E; simpl; rewrite F; reflexivity|]. auto.
Qed.

Lemma same_axis_sym a b : same_axis a b -> same_axis b a.
Proof. intros (N & C). split; [auto|]. intros i Hi. symmetry. apply C. rewrite N. exact Hi. Qed.
Lemma same_axis_trans a b d : same_axis a b -> same_axis b d -> same_axis a d.
Proof. intros (N & C) (N' & C'). split; [congruence|]. intros i Hi. rewrite C by exact Hi. apply C'. rewrite <- N. exact Hi. Qed.

Theorem line_reach_agree a a' vals x e e' r r' :
  line_reach a vals x e r -> line_reach a' vals x e' r' -> same_axis a a' ->
  exists y y', r = Some y /\ r' = Some y' /\ Rabs (y - y') <= e + e'.
Proof.
  intros H H' SA.
  destruct (line_reach_near _ _ _ _ _ H) as (at_ & y & q & G & S1 & -> & Q & B).
  destruct (line_reach_near _ _ _ _ _ H') as (at_' & y' & q' & G' & S2 & -> & Q' & B').
  assert (S3 := same_axis_trans _ _ _ (same_axis_sym _ _ S1) (same_axis_trans _ _ _ SA S2)).
  assert (E := proj1 (agree_one_dim _ _ _ _ _ _ _ _ _ x S3 G G' I I)). rewrite Q, Q' in E. injection E as <-.
  exists y, y'. split; [reflexivity|]. split; [reflexivity|].
  apply Rabs_def2_le in B. apply Rabs_def2_le in B'. apply Rabs_le. lra.
Qed.

Theorem line_reach_slopes a vals x x' e e' r r' m M :
  line_reach a vals x e r -> line_reach a vals x' e' r' -> slopes_between a vals m M -> x <= x' ->
  exists y y', r = Some y /\ r' = Some y' /\ m * (x' - x) - (e + e') <= y' - y <= M * (x' - x) + (e + e').
Proof.
  intros H H' Sl Hxx.
  destruct (line_reach_near _ _ _ _ _ H) as (at_ & y & q & G & (N1 & C1) & -> & Q & B).
  destruct (line_reach_near _ _ _ _ _ H') as (at_' & y' & q' & G' & _ & -> & Q' & B').
  assert (SA : same_axis (list_axis (points_of a)) (list_axis (points_of a))) by (split; auto).
  assert (E := proj1 (agree_one_dim _ _ _ _ _ _ _ _ _ x' SA G' G I I)).
  assert (Sl' : slopes_between (list_axis (points_of a)) vals m M).
  { intros i Hi. rewrite <- N1 in Hi. rewrite <- !C1 by lia. apply Sl. exact Hi. }
  destruct (slopes_linear _ _ _ _ _ _ _ _ _ G Sl' I I Hxx) as (u & v & Eu & Ev & B1).
  rewrite Q in Eu. injection Eu as <-. rewrite <- E, Q' in Ev. injection Ev as <-.
  exists y, y'. split; [reflexivity|]. split; [reflexivity|].
  apply Rabs_def2_le in B. apply Rabs_def2_le in B'. lra.
Qed.

(** Samples of a smooth function, with errors. *)
Theorem line_reach_smooth a vals x e r f f1 f2 d M h : line_reach a vals x e r ->
  (forall i, (0 <= i < npts a)%Z -> Rabs (val_at vals i - f (coord a i)) <= d) ->
  (forall t, Rmin (coord a 0) x <= t <= Rmax (coord a (npts a - 1)) x ->
     derivable_pt_lim f t (f1 t) /\ derivable_pt_lim f1 t (f2 t) /\ Rabs (f2 t) <= M) ->
  spacing_at_most a h ->
  exists y, r = Some y /\
    Rabs (y - f x) <= e + d * (1 + 2 * overshoot a x) + M * h ^ 2 * linear_miss (overshoot a x).
Proof.
  intros H V D Hh.
  destruct (line_reach_near _ _ _ _ _ H) as (at_ & y & q & G & SA & -> & Q & B).
  set (b := list_axis (points_of a)) in *. destruct SA as (N & C).
  destruct (grid1_facts _ _ _ _ _ G) as (Nb & (Ib & Mb) & Hn).
  assert (C0 : coord b 0 = coord a 0) by (rewrite C by lia; reflexivity).
  assert (Cn : coord b (npts b - 1) = coord a (npts a - 1)) by (rewrite N, C by lia; reflexivity).
  assert (Ov : overshoot b x = overshoot a x).
  { unfold overshoot, spacing. rewrite C0, Cn. rewrite <- !C, <- N by lia. reflexivity. }
  assert (Lp : length (map f (points_of a)) = length vals).
  { rewrite map_length. unfold b in Nb. simpl in Nb. unfold zlen in Nb. lia. }
  assert (VE : forall i, (0 <= i < npts b)%Z -> val_at (map f (points_of a)) i = f (coord b i)).
  { intros i Hi. unfold val_at. rewrite nth_indep with (d' := f 0) by (rewrite Lp; unfold zlen in *; lia). rewrite map_nth. reflexivity. }
  assert (G3 : grid1 rcfg (map f (points_of a)) b (fun _ => True) (c1_at ROps rcfg (mkC1 (points_of a) (map f (points_of a))))).
  { apply grid1_rectilinear; [unfold zlen in *; lia|apply points_sorted|].
    - intros i j Hi Hj. rewrite !C by lia. apply Ib; lia.
    - unfold c1_new. rewrite Lp. rewrite map_length in Lp. rewrite Lp, Nat.eqb_refl.
      replace (length vals <? 2)%nat with false; [reflexivity|]. symmetry. apply Nat.ltb_ge. unfold zlen in Nb. lia. }
  destruct (smooth_anywhere _ _ _ _ _ f f1 f2 x M h G3 VE I) as (s & Es & Bs).
  - intros t Ht. apply D. rewrite C0, Cn in Ht. exact Ht.
  - intros i Hi. unfold spacing. rewrite <- !C by lia. apply Hh. lia.
  - rewrite Ov in Bs. exists y. split; [reflexivity|].
    destruct (find_cell _ _ _ _ _ x G I) as (_ & _ & i & Ci).
    rewrite (grid1_linear _ _ _ _ _ x G I) in Q. rewrite (grid1_linear _ _ _ _ _ x G3 I) in Es.
    injection Q as Q. injection Es as Es.
    rewrite (@lin1_weights b Ib Mb x _ i Ci) in Q. rewrite (@lin1_weights b Ib Mb x _ i Ci) in Es.
    destruct (local_any _ _ _ Ib Mb Ci) as (_ & T2). rewrite Ov in T2.
    set (t := local_coord b x i) in *.
    assert (W : forall j, (0 <= j < npts b)%Z -> Rabs (val_at vals j - val_at (map f (points_of a)) j) <= d).
    { intros j Hj. rewrite VE by exact Hj. rewrite <- C by lia. apply V. lia. }
    assert (Ri := proj1 Ci). assert (W0 := W i ltac:(lia)). assert (W1 := W (i + 1)%Z ltac:(lia)).
    assert (QS : Rabs (q - s) <= d * (1 + 2 * overshoot a x)).
    { rewrite <- Q, <- Es.
      match goal with |- Rabs ?z <= _ => replace z with ((1 - t) * (val_at vals i - val_at (map f (points_of a)) i)
        + t * (val_at vals (i + 1) - val_at (map f (points_of a)) (i + 1))) by ring end.
      eapply Rle_trans; [apply Rabs_triang|]. rewrite !Rabs_mult.
      assert (P0 := Rabs_pos (1 - t)). assert (P1 := Rabs_pos t).
      assert (Z0 : Rabs (1 - t) * Rabs (val_at vals i - val_at (map f (points_of a)) i) <= Rabs (1 - t) * d) by (apply Rmult_le_compat_l; auto).
      assert (Z1 : Rabs t * Rabs (val_at vals (i + 1) - val_at (map f (points_of a)) (i + 1)) <= Rabs t * d) by (apply Rmult_le_compat_l; auto).
      assert (d0 : 0 <= d) by (eapply Rle_trans; [apply Rabs_pos|exact W0]).
      assert (d * (Rabs (1 - t) + Rabs t) <= d * (1 + 2 * overshoot a x)) by (apply Rmult_le_compat_l; auto). lra. }
    apply Rabs_def2_le in B. apply Rabs_def2_le in QS. apply Rabs_def2_le in Bs. apply Rabs_le. lra.
Qed.
