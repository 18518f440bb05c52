(** One dimension: any two evaluations compared. *)
From Coq Require Import Reals Lra Lia ZArith List Bool.
From Flocq Require Import Core.Core IEEE754.BinarySingleNaN.
From Verif Require Import Base Ops RInst FInst ModelCore ModelOneDim Spec SpecOrder SpecIEEE SpecError SpecReal SpecApprox SpecMoved.
From Verif Require Import Spec1D Spec1DShape SpecFloat1D SpecAgree Spec1DRun.
From Verif Require Import CoreLemmas RChar GenLemmas FLemmas F1D F1D2 OneDimProofs OneDimMaps OneDimShape OneDimAgree OneDimBridge OneDimSmooth.
Import ListNotations.
Unset Implicit Arguments.
Open Scope R_scope.

Lemma points_back g : points_of (list_axis g) = g.
Proof.
  apply nth_ext with (d := 0) (d' := 0).
  - assert (E := points_len (list_axis g) ltac:(simpl; unfold zlen; lia)). simpl in E. unfold zlen in E. lia.
  - intros i Hi. rewrite <- (Nat2Z.id i) at 1. rewrite points_nth; [simpl; rewrite Nat2Z.id; reflexivity|].
    assert (E := points_len (list_axis g) ltac:(simpl; unfold zlen; lia)). unfold zlen in E. lia.
Qed.
Lemma axis_sorted g : increasing_axis (list_axis g) -> strictly_increasing g.
Proof. intros H. rewrite <- points_back. apply points_sorted. exact H. Qed.

Definition rcfg : cfg := mkCfg false true.

Lemma line_run_near a vals x e r : line_run a vals x e r ->
  exists c dom at_ y q, grid1 c vals a dom at_ /\ coord a 0 <= x <= coord a (npts a - 1) /\ r = Some y /\
    linear1 ROps c at_ x = Ok q /\ Rabs (y - q) <= e.
Proof.
  intros H. destruct H as [hold c vals a dom at_ x G Hx
    |hold prec emax Hp He c grid vals g x A S W Hu Hn Hi Hm Fx Hg Hx Hv HS HW BS
    |hold prec emax Hp He c start h x vals g kappa A S Hn Ph Ha Fx Hx Hg Hv HS BS HE Hprec].
  - assert (D := dom_inside _ _ _ _ _ _ G Hx). destruct (find_cell _ _ _ _ _ _ G D) as (_ & _ & i & Ci).
    assert (E := linear_line _ _ _ _ _ _ _ G D Ci).
    exists c, dom, at_. eexists. eexists. split; [exact G|]. split; [exact Hx|].
    assert (E' : line1 hold ROps c at_ x = Ok (line a vals x i)).
    { destruct hold; simpl; [rewrite (@C30_proof_inside _ _ _ _ _ _ G D Hx)|]; exact E. }
    rewrite E'. split; [reflexivity|]. split; [exact E|]. rewrite Rminus_diag_eq, Rabs_R0 by reflexivity. lra.
  - assert (Hl : (2 <= zlen grid)%Z /\ length grid = length vals).
    { unfold c1_new in Hg. destruct (_ || _) eqn:Ec; [discriminate|]. apply orb_false_iff in Ec. destruct Ec as (E1 & E2).
      apply negb_false_iff, Nat.eqb_eq in E1. apply Nat.ltb_ge in E2. unfold zlen. lia. }
    destruct Hl as (Hl & Le).
    destruct (rect1_axis prec emax Hp He grid Hi Hm) as (Ia & Na & Ca).
    assert (G : grid1 rcfg (map B2R vals) (list_axis (map B2R grid)) (fun _ => True)
      (c1_at ROps rcfg (mkC1 (map B2R grid) (map B2R vals)))).
    { apply grid1_rectilinear; [unfold zlen in *; rewrite map_length; exact Hn|apply axis_sorted; exact Ia|].
      unfold c1_new. rewrite !map_length, Le, Nat.eqb_refl. replace (length vals <? 2)%nat with false; [reflexivity|].
      symmetry. apply Nat.ltb_ge. unfold zlen in Hl. lia. }
    assert (Sx : moderate x).
    { split; auto. rewrite !Ca in Hx. rewrite Na in Hx. unfold zlen in Hx, Hl.
      assert (B0 : moderate (nth (Z.to_nat 0) grid (fzero (BOps Hp He)))) by (apply (proj1 (Forall_forall _ _) Hm), nth_In; lia). destruct B0 as (_ & B0).
      assert (B1 : moderate (nth (Z.to_nat (Z.of_nat (length grid) - 1)) grid (fzero (BOps Hp He)))) by (apply (proj1 (Forall_forall _ _) Hm), nth_In; lia). destruct B1 as (_ & B1).
      apply Rabs_def2_le in B0. apply Rabs_def2_le in B1. apply Rabs_le. lra. }
    assert (X2 : bpow radix2 (emax - 2) = 4 * bpow radix2 (emax - 4)).
    { replace (emax - 2)%Z with (2 + (emax - 4))%Z by lia. rewrite bpow_plus. reflexivity. }
    assert (A1 : 0 <= A <= bpow radix2 (emax - 4)) by apply Hv.
    destruct (C68_proof_rectilinear prec emax Hp He c grid vals g x A S W 0 Hu Hn Hi Hm Sx Hg Hv HS HW ltac:(lra)
      ltac:(unfold near_axis; lra) BS ltac:(lra) _ _ _ G I) as (y & q & E & F & E' & B).
    assert (E2 : line1 hold (BOps Hp He) c (c1_at (BOps Hp He) c g) x = Ok y).
    { destruct hold; simpl; [rewrite (hold1_rect_inside prec emax Hp He c grid vals g x Hn Hi Hm Fx Hg Hx)|]; exact E. }
    exists rcfg, (fun _ => True), (c1_at ROps rcfg (mkC1 (map B2R grid) (map B2R vals))), (B2R y), q.
    split; [exact G|]. split; [exact Hx|]. split; [rewrite E2; simpl; rewrite F; reflexivity|]. split; [exact E'|exact B].
  - assert (ZL : zlen (map B2R vals) = zlen vals) by (unfold zlen; rewrite map_length; reflexivity).
    assert (R1 : exists g', r1_new ROps rcfg (B2R start) (B2R h) (map B2R vals) = Ok g').
    { unfold r1_new. rewrite ZL, usize_sub_ok by (unfold two64, isize_max in *; lia). simpl. eauto. }
    destruct R1 as (g' & R1).
    assert (G := @grid1_regular rcfg (map B2R vals) (B2R start) (B2R h) g' ltac:(rewrite ZL; exact Hn) Ph R1). rewrite ZL in G.
    assert (Hx' : coord (mkAxis (zlen vals) (fun i => B2R start + B2R h * IZR i)) 0 <= B2R x
      <= coord (mkAxis (zlen vals) (fun i => B2R start + B2R h * IZR i)) (npts (mkAxis (zlen vals) (fun i => B2R start + B2R h * IZR i)) - 1))
      by (simpl; exact Hx).
    assert (D := dom_inside _ _ _ _ _ _ G Hx').
    destruct (C68_proof_regular prec emax Hp He c start h x vals g kappa A S Hn Ph Ha Fx Hx' Hg Hv HS BS HE Hprec _ _ _ G D)
      as (y & z & q & E & E' & F & F' & Q & B & B').
    exists rcfg. eexists. exists (r1_at ROps rcfg g'). exists (if hold then B2R z else B2R y), q.
    split; [exact G|]. split; [exact Hx'|].
    split; [destruct hold; simpl; rewrite ?E, ?E'; simpl; rewrite ?F, ?F'; reflexivity|].
    split; [exact Q|]. destruct hold; assumption.
Qed.

Lemma within_len e u v : values_within e u v -> length u = length v.
Proof. induction 1; simpl; auto. Qed.
Lemma other_values c vals vals' a dom at_ : grid1 c vals' a dom at_ -> length vals = length vals' ->
  exists dom' at_', grid1 c vals a dom' at_'.
Proof.
  intros H L. assert (ZL : zlen vals = zlen vals') by (unfold zlen; rewrite L; reflexivity).
  destruct H as [start step g Hn Hs Hg|grid g Hn Hs Hg].
  - assert (R1 : exists g', r1_new ROps c start step vals = Ok g').
    { unfold r1_new in *. rewrite ZL. destruct (usize_sub c (zlen vals') 1); try discriminate. simpl in *. eauto. }
    destruct R1 as (g' & R1). eexists. exists (r1_at ROps c g'). rewrite <- ZL.
    apply grid1_regular; [rewrite ZL; exact Hn|exact Hs|exact R1].
  - eexists. exists (c1_at ROps c (mkC1 grid vals)). apply grid1_rectilinear; [rewrite ZL; exact Hn|exact Hs|].
    unfold c1_new in *. rewrite L. destruct (_ || _); [discriminate|reflexivity].
Qed.

(** The same grid data up to small changes of grid points, values and point. *)
Theorem line_runs_close a a' vals vals' x x' e e' r r' d dv L :
  line_run a vals x e r -> line_run a' vals' x' e' r' -> nodes_within d a a' -> values_within dv vals vals' ->
  slopes_between a vals (- L) L ->
  exists y y', r = Some y /\ r' = Some y' /\ Rabs (y - y') <= e + e' + (dv + L * (Rabs (x - x') + d)).
Proof.
  intros H H' W V Sl.
  destruct (line_run_near _ _ _ _ _ H) as (c & dom & at_ & y & q & G & Hx & -> & Q & B).
  destruct (line_run_near _ _ _ _ _ H') as (c' & dom' & at_' & y' & q' & G' & Hx' & -> & Q' & B').
  destruct (other_values c' vals vals' a' dom' at_' G' (within_len _ _ _ V)) as (dom2 & at2 & G2).
  destruct (moved_points _ _ _ _ _ _ _ _ _ _ _ _ _ G G2 W Sl Hx Hx') as (u & v & Eu & Ev & B1).
  destruct (data_errors _ _ _ _ _ _ _ _ _ _ _ G2 G' V (dom_inside _ _ _ _ _ _ G2 Hx') (dom_inside _ _ _ _ _ _ G' Hx')) as (_ & K).
  destruct (K Hx') as (v2 & w & Ev2 & Ew & B2).
  rewrite Q in Eu. injection Eu as <-. rewrite Ev in Ev2. injection Ev2 as <-. rewrite Q' in Ew. injection Ew as <-.
  exists y, y'. split; [reflexivity|]. split; [reflexivity|].
  apply Rabs_def2_le in B. apply Rabs_def2_le in B'. apply Rabs_def2_le in B1. apply Rabs_def2_le in B2. apply Rabs_le. lra.
Qed.

(** On data that never decreases the result never decreases by more than the rounding errors. *)
Theorem line_runs_monotone a vals x x' e e' r r' m M :
  line_run a vals x e r -> line_run a vals x' e' r' -> slopes_between a vals m M -> x <= x' ->
  exists y y', r = Some y /\ r' = Some y' /\ m * (x' - x) - (e + e') <= y' - y <= M * (x' - x) + (e + e').
Proof.
  intros H H' Sl Hxx.
  destruct (line_run_near _ _ _ _ _ H) as (c & dom & at_ & y & q & G & Hx & -> & Q & B).
  destruct (line_run_near _ _ _ _ _ H') as (c' & dom' & at_' & y' & q' & G' & Hx' & -> & Q' & B').
  assert (SA : same_axis a a) by (split; auto).
  assert (D := dom_inside _ _ _ _ _ _ G Hx). assert (D1 := dom_inside _ _ _ _ _ _ G Hx'). assert (D' := dom_inside _ _ _ _ _ _ G' Hx').
  assert (Eq := proj1 (agree_one_dim _ _ _ _ _ _ _ _ _ _ SA G G' D1 D')).
  destruct (slopes_linear _ _ _ _ _ _ _ _ _ G Sl D D1 Hxx) as (u & v & Eu & Ev & B1).
  rewrite Q in Eu. injection Eu as <-. rewrite Eq, Q' in Ev. injection Ev as <-.
  exists y, y'. split; [reflexivity|]. split; [reflexivity|].
  apply Rabs_def2_le in B. apply Rabs_def2_le in B'. lra.
Qed.

(** The same grid and the same point. *)
Theorem line_runs_agree a a' vals vals' x e e' r r' dv :
  line_run a vals x e r -> line_run a' vals' x e' r' -> same_axis a a' -> values_within dv vals vals' ->
  exists y y', r = Some y /\ r' = Some y' /\ Rabs (y - y') <= e + e' + dv.
Proof.
  intros H H' SA V.
  destruct (line_run_near _ _ _ _ _ H) as (c & dom & at_ & y & q & G & Hx & -> & Q & B).
  destruct (line_run_near _ _ _ _ _ H') as (c' & dom' & at_' & y' & q' & G' & Hx' & -> & Q' & B').
  destruct (other_values c' vals vals' a' dom' at_' G' (within_len _ _ _ V)) as (dom2 & at2 & G2).
  assert (D2 := dom_inside _ _ _ _ _ _ G2 Hx').
  assert (Eq := proj1 (agree_one_dim _ _ _ _ _ _ _ _ _ _ SA G G2 (dom_inside _ _ _ _ _ _ G Hx) D2)).
  destruct (data_errors _ _ _ _ _ _ _ _ _ _ _ G2 G' V D2 (dom_inside _ _ _ _ _ _ G' Hx')) as (_ & K).
  destruct (K Hx') as (v & w & Ev & Ew & B2).
  rewrite <- Eq, Q in Ev. injection Ev as <-. rewrite Q' in Ew. injection Ew as <-.
  exists y, y'. split; [reflexivity|]. split; [reflexivity|].
  apply Rabs_def2_le in B. apply Rabs_def2_le in B'. apply Rabs_def2_le in B2. apply Rabs_le. lra.
Qed.
