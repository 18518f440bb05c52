(** Results leave the range of the data around the cell by at most a stated fraction of that range. *)
From Coq Require Import Reals Lra PeanoNat Bool ZifyBool ZifyNat.
From Verif Require Import Base Ops Spec CoreLemmas TensorLemmas SpecReal RTensor R1D RChar Interpolators REval RProofs RProofs2 RProofs3.
From Verif Require Import SpecApprox Approx1D Approx Shape Moved SpecExtrap Extrap1D Extrap SpecReach Split SpecMissing SpecAgree AgreeProofs FSymmetry SpecOvershoot.
Unset Implicit Arguments.
Open Scope R_scope.

(** ** One axis: only the values near the cell matter *)
Lemma lin1_local a x j f g : good_axis 2 a -> in_cell a x j ->
  (forall i, (0 <= i < npts a)%Z -> (j - 0 <= i <= j + 1 + 0)%Z -> f i = g i) -> lin1 a x f = lin1 a x g.
Proof.
  intros (Ha & Hn) Hj H. assert (J := proj1 Hj).
  rewrite (@lin1_eq a Ha Hn x f j Hj), (@lin1_eq a Ha Hn x g j Hj). unfold lin_piece, dd. rewrite !H by lia. reflexivity.
Qed.

Lemma mid_local g u v i : u (i - 1)%Z = v (i - 1)%Z -> u i = v i -> u (i + 1)%Z = v (i + 1)%Z -> mid_slope g u i = mid_slope g v i.
Proof. intros A B C. unfold mid_slope, dd. replace (i - 1 + 1)%Z with i by lia. rewrite A, B, C. reflexivity. Qed.
Lemma slope_local a f g j i : (4 <= npts a)%Z -> (0 <= j <= npts a - 2)%Z -> (i = j \/ i = j + 1)%Z ->
  (forall i, (0 <= i < npts a)%Z -> (j - 1 <= i <= j + 1 + 1)%Z -> f i = g i) -> slope a f i = slope a g i.
Proof.
  intros Hn Hj Hi H. unfold slope. destruct (Z.eqb_spec i 0) as [->|N0]; [|destruct (Z.eqb_spec i (npts a - 1)) as [->|N1]].
  - rewrite (mid_local _ f g 1) by (apply H; lia). unfold dd. rewrite !H by lia. reflexivity.
  - rewrite (mid_local _ f g (npts a - 2)) by (apply H; lia). unfold dd. rewrite !H by lia. reflexivity.
  - apply mid_local; apply H; lia.
Qed.
Lemma cub1_local lin a x j f g : good_axis 4 a -> in_cell a x j ->
  (forall i, (0 <= i < npts a)%Z -> (j - 1 <= i <= j + 1 + 1)%Z -> f i = g i) -> cub1 lin a x f = cub1 lin a x g.
Proof.
  intros (Ha & Hn) Hj H. assert (J := proj1 Hj).
  assert (Hout : (lin = true /\ x < coord a 0) \/ (lin = true /\ coord a (npts a - 1) < x) \/
                 (coord a 0 <= x <= coord a (npts a - 1) \/ lin = false)).
  { destruct lin; auto. destruct (Rlt_le_dec x (coord a 0)); auto. destruct (Rlt_le_dec (coord a (npts a - 1)) x); auto. }
  destruct Hout as [(El & Hx)|[(El & Hx)|Hin]].
  - assert (j = 0%Z). { destruct Hj as (_ & [|Q] & _); auto. assert (R := axis_range a j Ha ltac:(lia)). lra. }
    subst j. rewrite (@cub1_low a Ha Hn lin f x El), (@cub1_low a Ha Hn lin g x El) by lra.
    rewrite (slope_local a f g 0 0) by (auto; lia). rewrite H by lia. reflexivity.
  - assert (j = npts a - 2)%Z. { destruct Hj as (_ & _ & [|Q]); auto. assert (R := axis_range a (j + 1) Ha ltac:(lia)). lra. }
    subst j. rewrite (@cub1_high a Ha Hn lin f x El), (@cub1_high a Ha Hn lin g x El) by lra.
    rewrite (slope_local a f g (npts a - 2) (npts a - 1)) by (auto; lia). rewrite H by lia. reflexivity.
  - rewrite (@cub1_herm a Ha Hn lin f x j Hj Hin), (@cub1_herm a Ha Hn lin g x j Hj Hin). unfold herm_piece, dd.
    rewrite (slope_local a f g j j), (slope_local a f g j (j + 1)) by (auto; lia). rewrite !H by lia. reflexivity.
Qed.

(** ** All axes *)
Section Method.
Variables (FP w : Z) (op1 : axis -> R -> (Z -> R) -> R).
Hypothesis Hw : (0 <= w)%Z.
Hypothesis Hlocal : forall a x j f g, good_axis FP a -> in_cell a x j ->
  (forall i, (0 <= i < npts a)%Z -> (j - w <= i <= j + 1 + w)%Z -> f i = g i) -> op1 a x f = op1 a x g.

Lemma tenL_norm_near axes : Forall (good_axis FP) axes -> forall x os (g : nat -> R) V E, in_cells axes x os ->
  (forall k a, nth_error axes k = Some a -> forall v B, (forall i, (0 <= i < npts a)%Z -> Rabs (v i) <= B) ->
    Rabs (op1 a (nth k x 0) v) <= g k * B) ->
  (forall idx, in_shape (map npts axes) idx -> Forall2 (fun j i => (j - w <= i <= j + 1 + w)%Z) os idx -> Rabs (V idx) <= E) ->
  Rabs (tenL (ops1 op1 axes x) V) <= prod_upto (length axes) g * E.
Proof using Hw Hlocal.
  induction 1 as [|a axes Ga G IH]; intros x os g V E (Lx & Lo & Hc) Hg HV.
  - destruct x; [|discriminate]. destruct os; [|discriminate]. unfold prod_upto. simpl. rewrite Rmult_1_l. apply HV; constructor.
  - destruct x as [|x0 x]; [discriminate|]. destruct os as [|j os]; [discriminate|].
    assert (Hj := Hc 0%nat a eq_refl). simpl in Hj. assert (J := proj1 Hj).
    assert (Hc' : in_cells axes x os).
    { split; [simpl in Lx; lia|]. split; [simpl in Lo; lia|]. intros k b Hk. apply (Hc (S k) b Hk). }
    unfold ops1. cbn [combine map tenL fst snd length]. fold (ops1 op1 axes x). rewrite prod_upto_S, Rmult_assoc.
    set (v := fun i => tenL (ops1 op1 axes x) (fun idx => V (i :: idx))). set (B := prod_upto (length axes) (fun k => g (S k)) * E).
    assert (Near : forall i, (0 <= i < npts a)%Z -> (j - w <= i <= j + 1 + w)%Z -> Rabs (v i) <= B).
    { intros i H1 H2. apply (IH x os (fun k => g (S k))); auto.
      - intros k b Hk. apply (Hg (S k) b Hk).
      - intros idx Hs Hn. apply HV; [apply in_shape_cons; auto|constructor; auto]. }
    assert (B0 : 0 <= B) by (eapply Rle_trans; [apply Rabs_pos|apply (Near j); lia]).
    set (v' := fun i => if ((j - w <=? i) && (i <=? j + 1 + w))%Z then v i else 0).
    rewrite (Hlocal a x0 j v v' Ga Hj).
    + apply (Hg 0%nat a eq_refl). intros i Hi. unfold v'.
      destruct ((j - w <=? i) && (i <=? j + 1 + w))%Z eqn:Q; [apply Near; lia|rewrite Rabs_R0; exact B0].
    + intros i H1 H2. unfold v'. replace ((j - w <=? i) && (i <=? j + 1 + w))%Z with true by lia. reflexivity.
Qed.

Hypothesis Hlf : forall axes x, length x = length axes -> Forall (good_axis FP) axes -> lfs (map npts axes) (ops1 op1 axes x).
Hypothesis Hmass : forall axes x, length x = length axes -> Forall (good_axis FP) axes -> Forall mass1 (ops1 op1 axes x).

Lemma overshoot_val axes x os g V lo hi : Forall (good_axis FP) axes -> in_cells axes x os ->
  (forall k a, nth_error axes k = Some a -> forall v B, (forall i, (0 <= i < npts a)%Z -> Rabs (v i) <= B) ->
    Rabs (op1 a (nth k x 0) v) <= g k * B) ->
  (forall idx, in_shape (map npts axes) idx -> Forall2 (fun j i => (j - w <= i <= j + 1 + w)%Z) os idx -> lo <= V idx <= hi) ->
  leaves_by_at_most ((prod_upto (length axes) g - 1) / 2) lo hi (tenL (ops1 op1 axes x) V).
Proof using All.
  intros G Hc Hg HV. assert (Lx := proj1 Hc). set (m := (lo + hi) / 2).
  assert (B := tenL_norm_near axes G x os g (fun idx => V idx - m) ((hi - lo) / 2) Hc Hg).
  assert (E : tenL (ops1 op1 axes x) V - m = tenL (ops1 op1 axes x) (fun idx => V idx - m)).
  { rewrite <- (tenL_const _ _ m (Hlf axes x Lx G) (Hmass axes x Lx G)) at 1. apply (tenL_minus _ _ _ _ (Hlf axes x Lx G)). }
  rewrite <- E in B. assert (Q : Rabs (tenL (ops1 op1 axes x) V - m) <= prod_upto (length axes) g * ((hi - lo) / 2)).
  { apply B. intros idx Hs Hn. specialize (HV idx Hs Hn). apply Rabs_le. unfold m. lra. }
  apply Rabs_le_inv in Q. unfold leaves_by_at_most. unfold m in Q. lra.
Qed.
End Method.

Lemma mass_all FP (op1 : axis -> R -> (Z -> R) -> R) : (forall a t, good_axis FP a -> mass1 (op1 a t)) ->
  forall axes x, length x = length axes -> Forall (good_axis FP) axes -> Forall mass1 (ops1 op1 axes x).
Proof.
  intros H axes x L G. revert x L. induction G as [|a axes Ga G IH]; intros [|x0 x] L; try discriminate; [constructor|].
  unfold ops1. cbn [combine map fst snd]. constructor; [apply H; auto|apply IH; simpl in L; lia].
Qed.

Lemma Forall2_weaken (P Q : Z -> Z -> Prop) l m : (forall j i, P j i -> Q j i) -> Forall2 P l m -> Forall2 Q l m.
Proof. intros H. induction 1; constructor; auto. Qed.

Lemma lin_overshoot axes x os V lo hi : Forall (good_axis 2) axes -> in_cells axes x os ->
  (forall idx, corner os idx -> lo <= V idx <= hi) ->
  leaves_by_at_most ((reach_factor axes x - 1) / 2) lo hi (tenL (ops1 lin1 axes x) V).
Proof.
  intros G Hc HV. unfold reach_factor.
  apply (overshoot_val 2 0 lin1 ltac:(lia) lin1_local (fun axes x L H => good_lin x L H) (mass_all 2 lin1 lin_mass) axes x os); auto.
  - intros k a Hk v B HB. rewrite (outside_nth _ _ _ _ Hk). assert (Gk := good_nth _ G Hk). apply lin1_norm_any; auto; apply Gk.
  - intros idx Hs Hn. apply HV. eapply Forall2_weaken; [|exact Hn]. simpl. intros; lia.
Qed.
Lemma cub_overshoot lin rho axes x os V lo hi : Forall (good_axis 4) axes -> in_cells axes x os ->
  (forall a, In a axes -> spacing_ratio_at_most a rho) ->
  (forall idx, around (map npts axes) os idx -> lo <= V idx <= hi) ->
  leaves_by_at_most ((prod_upto (length axes) (fun k => cubic_reach_gain lin rho (outside_by axes x k)) - 1) / 2) lo hi
    (tenL (ops1 (cub1 lin) axes x) V).
Proof.
  intros G Hc Hr HV.
  apply (overshoot_val 4 1 (cub1 lin) ltac:(lia) (cub1_local lin) (fun axes x L H => good_cub lin x L H) (mass_all 4 _ (cub_mass lin)) axes x os); auto.
  - intros k a Hk v B HB. rewrite (outside_nth _ _ _ _ Hk). assert (Gk := good_nth _ G Hk).
    apply cub1_norm_any; auto; try apply Gk. apply Hr. eapply nth_error_In; eauto.
  - intros idx Hs Hn. apply HV. split; auto. eapply Forall2_weaken; [|exact Hn]. simpl. intros; lia.
Qed.

Lemma cub_gain_inside lin rho axes x : Forall (good_axis 4) axes -> inside_grid axes x ->
  prod_upto (length axes) (fun k => cubic_reach_gain lin rho (outside_by axes x k)) = cubic_gain rho ^ length axes.
Proof.
  intros G Hx. transitivity (prod_upto (length axes) (fun _ => cubic_gain rho)).
  - apply Moved.prod_upto_ext. intros k Hk. assert (Ek := nth_error_nth' axes no_axis Hk). rewrite (outside_nth _ _ _ _ Ek).
    assert (Gk := good_nth _ G Ek). rewrite (overshoot_inside _ _ (proj1 Gk) ltac:(destruct Gk; lia) (proj2 Hx k _ Ek)).
    unfold cubic_reach_gain. destruct lin; ring.
  - clear. generalize (length axes). intros n. induction n as [|n IH]; [reflexivity|]. rewrite prod_upto_S, IH. reflexivity.
Qed.

(** ** Interpolators *)
Theorem overshoot_linear c vals axes (dom : list R -> Prop) eval x os lo hi :
  multilinear c vals axes dom eval -> dom x -> in_cells axes x os ->
  (forall idx, corner os idx -> lo <= entry 0 (map npts axes) vals idx <= hi) ->
  exists r, eval x = Ok r /\ leaves_by_at_most ((reach_factor axes x - 1) / 2) lo hi r.
Proof.
  intros H Dx Hc HV. destruct (multilinear_value H) as (G & Lv & E). eexists. split; [apply E; [apply Hc|exact Dx]|].
  apply (lin_overshoot axes x os); auto.
Qed.
Theorem overshoot_cubic c lin vals axes (dom : list R -> Prop) eval x os lo hi rho :
  multicubic c lin vals axes dom eval -> dom x -> in_cells axes x os ->
  (forall a, In a axes -> spacing_ratio_at_most a rho) ->
  (forall idx, around (map npts axes) os idx -> lo <= entry 0 (map npts axes) vals idx <= hi) ->
  exists r, eval x = Ok r /\
    leaves_by_at_most ((prod_upto (length axes) (fun k => cubic_reach_gain lin rho (outside_by axes x k)) - 1) / 2) lo hi r.
Proof.
  intros H Dx Hc Hr HV. destruct (multicubic_value H) as (G & Lv & E). eexists. split; [apply E; [apply Hc|exact Dx]|].
  apply (cub_overshoot lin rho axes x os); auto.
Qed.
Theorem overshoot_cubic_inside c lin vals axes dom eval x os lo hi rho :
  multicubic c lin vals axes dom eval -> inside_grid axes x -> in_cells axes x os ->
  (forall a, In a axes -> spacing_ratio_at_most a rho) ->
  (forall idx, around (map npts axes) os idx -> lo <= entry 0 (map npts axes) vals idx <= hi) ->
  exists r, eval x = Ok r /\ leaves_by_at_most ((cubic_gain rho ^ length axes - 1) / 2) lo hi r.
Proof.
  intros H Hx Hc Hr HV. destruct (overshoot_cubic c lin vals axes dom eval x os lo hi rho H ltac:(eapply multicubic_inside; eauto) Hc Hr HV) as (r & E & B).
  exists r. split; auto. rewrite (cub_gain_inside lin rho axes x (proj1 (multicubic_value H)) Hx) in B. exact B.
Qed.

(** ** Floating point *)
Lemma leaves_near q lo hi r y e : leaves_by_at_most q lo hi r -> Rabs (y - r) <= e -> lo - q * (hi - lo) - e <= y <= hi + q * (hi - lo) + e.
Proof. intros (A & B) H. apply Rabs_le_inv in H. lra. Qed.
Theorem overshoot_linear_float axes vals x os e r lo hi : linear_run axes vals x e r -> in_cells axes x os ->
  (forall idx, corner os idx -> lo <= entry 0 (map npts axes) vals idx <= hi) ->
  exists y, r = Some y /\ lo - (reach_factor axes x - 1) / 2 * (hi - lo) - e <= y <= hi + (reach_factor axes x - 1) / 2 * (hi - lo) + e.
Proof.
  intros H Hc HV. destruct (linear_run_value _ _ _ _ _ H) as (G & Lx & Lv & y & E & B). exists y. split; auto.
  apply (leaves_near _ _ _ _ _ _ (lin_overshoot axes x os (entry 0 (map npts axes) vals) lo hi G Hc HV) B).
Qed.
Theorem overshoot_cubic_float lin axes vals x os e r lo hi rho : cubic_run lin axes vals x e r -> in_cells axes x os ->
  (forall a, In a axes -> spacing_ratio_at_most a rho) ->
  (forall idx, around (map npts axes) os idx -> lo <= entry 0 (map npts axes) vals idx <= hi) ->
  let q := (prod_upto (length axes) (fun k => cubic_reach_gain lin rho (outside_by axes x k)) - 1) / 2 in
  exists y, r = Some y /\ lo - q * (hi - lo) - e <= y <= hi + q * (hi - lo) + e.
Proof.
  intros H Hc Hr HV q. destruct (cubic_run_value _ _ _ _ _ _ H) as (G & Lx & Lv & y & E & B). exists y. split; auto.
  apply (leaves_near _ _ _ _ _ _ (cub_overshoot lin rho axes x os (entry 0 (map npts axes) vals) lo hi G Hc Hr HV) B).
Qed.
