(** One dimension, exact arithmetic: smooth functions inside and outside the grid, moved grids. *)
From Coq Require Import Reals Lra Lia ZArith List.
From Verif Require Import Base Ops RInst ModelLinear ModelOneDim Spec SpecReal SpecApprox SpecExtrap SpecMoved Interpolators Spec1D Spec1DShape.
From Verif Require Import RChar RProofs Approx Extrap CubicMoved OneDimProofs OneDimMaps OneDimShape OneDimBridge.
Import ListNotations.
Unset Implicit Arguments.
Open Scope R_scope.

Lemma shape1 n idx : in_shape [n] idx -> exists i, idx = [i] /\ (0 <= i < n)%Z.
Proof. intros H. inversion H as [|? i ? l Hi Hl]; subst. inversion Hl; subst. eauto. Qed.
Lemma entry1 n vals i : (0 <= i < n)%Z -> entry 0 [n] vals [i] = val_at vals i.
Proof. intros H. unfold entry, val_at. simpl. f_equal. f_equal. lia. Qed.
Lemma one_axis (P : nat -> axis -> Prop) a : P 0%nat a -> forall k b, nth_error [a] k = Some b -> P k b.
Proof. intros H [|[|k]] b E; inversion E; subst; auto. Qed.

Section Bridge.
Variables (a b : axis).
Hypothesis S : same_axis a b.
Hypothesis G : good_axis 2 a.
Lemma same_ends : npts b = npts a /\ coord b 0 = coord a 0 /\ coord b (npts b - 1) = coord a (npts a - 1).
Proof using All.
  destruct S as (N & C). destruct G as (_ & G2). split; [auto|]. split; [symmetry; apply C; lia|].
  rewrite <- N. symmetry. apply C. lia.
Qed.
Lemma same_spacing o : (0 <= o <= npts a - 2)%Z -> spacing b o = spacing a o.
Proof using All. intros Ho. destruct S as (N & C). unfold spacing. rewrite !C by lia. reflexivity. Qed.
Lemma same_overshoot x : overshoot b x = overshoot a x.
Proof using All.
  destruct same_ends as (N & E0 & E1). unfold overshoot. rewrite E0, E1, N.
  rewrite !same_spacing by (destruct G; lia). reflexivity.
Qed.
Lemma same_inside x : coord a 0 <= x <= coord a (npts a - 1) -> inside_grid [b] [x].
Proof using All.
  intros H. destruct same_ends as (N & E0 & E1). split; [reflexivity|].
  apply one_axis. rewrite E0, E1. exact H.
Qed.
Lemma same_samples vals f : (forall i, (0 <= i < npts a)%Z -> val_at vals i = f (coord a i)) ->
  samples [b] vals (fun p => f (nth 0 p 0)).
Proof using All.
  intros H idx Hi. destruct S as (N & C). simpl in Hi. destruct (shape1 _ _ Hi) as (i & -> & Hb).
  simpl map. rewrite entry1 by auto. simpl. rewrite <- C by lia. apply H. lia.
Qed.
Lemma same_slopes vals L : slopes_between a vals (- L) L -> data_slope_at_most [b] vals 0 L.
Proof using All.
  intros H idx Hi Hn. destruct S as (N & C). simpl in Hi. destruct (shape1 _ _ Hi) as (i & -> & Hb).
  simpl in Hn. destruct (shape1 _ _ Hn) as (j & Ej & Hj). unfold next_along in Ej. simpl in Ej. injection Ej as <-.
  unfold next_along. simpl upd. simpl map. rewrite !entry1 by auto. simpl nth.
  rewrite same_spacing by lia. unfold spacing.
  specialize (H i ltac:(lia)). apply Rabs_le. lra.
Qed.
Lemma same_spacing_bound h : spacing_at_most a h -> forall (k : nat) e, nth_error [b] k = Some e -> spacing_at_most e h.
Proof using All.
  intros H. apply (one_axis (fun _ e => spacing_at_most e h)). intros o Ho. destruct S as (N & C).
  rewrite same_spacing by lia. apply H. lia.
Qed.
End Bridge.

Theorem smooth_inside c vals a dom at_ f f1 f2 x M h : grid1 c vals a dom at_ ->
  (forall i, (0 <= i < npts a)%Z -> val_at vals i = f (coord a i)) ->
  coord a 0 <= x <= coord a (npts a - 1) ->
  (forall t, coord a 0 <= t <= coord a (npts a - 1) ->
     derivable_pt_lim f t (f1 t) /\ derivable_pt_lim f1 t (f2 t) /\ Rabs (f2 t) <= M) ->
  spacing_at_most a h ->
  exists r, linear1 ROps c at_ x = Ok r /\ hold_last1 ROps c at_ x = Ok r /\ Rabs (r - f x) <= M * h ^ 2 / 8.
Proof.
  intros H V Hx D Hh. destruct (grid1_facts _ _ _ _ _ H) as (N & G & L).
  destruct (bridge c c vals a dom at_ H) as (s & _ & Hm & S & E). assert (Dx := dom_inside _ _ _ _ _ _ H Hx).
  destruct (same_ends _ _ S G) as (_ & E0 & E1).
  destruct (lin_approx_grid _ _ _ _ _ _ [x] (fun _ => M) (fun _ => h) Hm (same_samples _ _ S G _ f V) (same_inside _ _ S G x Hx)) as (r & Er & B).
  - intros k Hk. destruct k as [|k]; [|simpl in Hk; lia].
    exists (fun p => f1 (nth 0 p 0)), (fun p => f2 (nth 0 p 0)). intros y (Ly & Hy).
    destruct y as [|t [|]]; try discriminate Ly. specialize (Hy 0%nat _ eq_refl). cbn [nth] in Hy. rewrite E0, E1 in Hy.
    unfold partial_derivative. simpl. apply D. exact Hy.
  - exact (same_spacing_bound _ _ S G h Hh).
  - exists r. rewrite (@C30_proof_inside _ _ _ _ _ _ H Dx Hx), (E x Dx). split; [exact Er|]. split; [exact Er|].
    unfold sum_upto in B. simpl in B. simpl. lra.
Qed.

Theorem smooth_anywhere c vals a dom at_ f f1 f2 x M h : grid1 c vals a dom at_ ->
  (forall i, (0 <= i < npts a)%Z -> val_at vals i = f (coord a i)) -> dom x ->
  (forall t, Rmin (coord a 0) x <= t <= Rmax (coord a (npts a - 1)) x ->
     derivable_pt_lim f t (f1 t) /\ derivable_pt_lim f1 t (f2 t) /\ Rabs (f2 t) <= M) ->
  spacing_at_most a h ->
  exists r, linear1 ROps c at_ x = Ok r /\ Rabs (r - f x) <= M * h ^ 2 * linear_miss (overshoot a x).
Proof.
  intros H V Dx D Hh. destruct (grid1_facts _ _ _ _ _ H) as (N & G & L).
  destruct (bridge c c vals a dom at_ H) as (s & _ & Hm & S & E).
  destruct (same_ends _ _ S G) as (_ & E0 & E1).
  destruct (lin_approx_any _ _ _ _ _ _ [x] (fun _ => M) (fun _ => h) Hm (same_samples _ _ S G _ f V) eq_refl I) as (r & Er & B).
  - intros k Hk. destruct k as [|k]; [|simpl in Hk; lia].
    exists (fun p => f1 (nth 0 p 0)), (fun p => f2 (nth 0 p 0)). intros y (Ly & Hy).
    destruct y as [|t [|]]; try discriminate Ly. specialize (Hy 0%nat _ eq_refl). cbn [nth] in Hy. rewrite E0, E1 in Hy.
    unfold partial_derivative. simpl. apply D. exact Hy.
  - exact (same_spacing_bound _ _ S G h Hh).
  - exists r. rewrite (E x Dx). split; [exact Er|].
    unfold sum_upto, prod_upto, outside_by in B. cbn [length map seq Rsum fold_right nth] in B.
    rewrite (same_overshoot _ _ S G) in B. unfold Rsum in B. cbn [fold_right] in B. lra.
Qed.

Theorem moved_points c c' vals a a' dom dom' at_ at_' x x' d L : grid1 c vals a dom at_ -> grid1 c' vals a' dom' at_' ->
  nodes_within d a a' -> slopes_between a vals (- L) L ->
  coord a 0 <= x <= coord a (npts a - 1) -> coord a' 0 <= x' <= coord a' (npts a' - 1) ->
  exists r r', linear1 ROps c at_ x = Ok r /\ linear1 ROps c' at_' x' = Ok r' /\ Rabs (r - r') <= L * (Rabs (x - x') + d).
Proof.
  intros H H' (Wn & Wc) Sl Hx Hx'.
  destruct (grid1_facts _ _ _ _ _ H) as (N & G & _). destruct (grid1_facts _ _ _ _ _ H') as (N' & G' & _).
  destruct (bridge c c vals a dom at_ H) as (s & _ & Hm & S & E). assert (Dx := dom_inside _ _ _ _ _ _ H Hx).
  destruct (bridge c' c' vals a' dom' at_' H') as (s' & _ & Hm' & S' & E'). assert (Dx' := dom_inside _ _ _ _ _ _ H' Hx').
  destruct (moved_grid_linear_points _ _ _ _ _ _ _ _ _ [x] [x'] (fun _ => d) (fun _ => L) Hm Hm') as (r & r' & Er & Er' & B).
  - split; [reflexivity|]. destruct S as (Sn & Sc). destruct S' as (Sn' & Sc').
    intros [|[|k]] u v Eu Ev; inversion Eu; inversion Ev; subst u v. split; [congruence|].
    intros i Hi. rewrite <- Sc, <- Sc' by lia. apply Wc. lia.
  - exact (same_inside _ _ S G x Hx).
  - exact (same_inside _ _ S' G' x' Hx').
  - intros k Hk. destruct k as [|k]; [|simpl in Hk; lia]. exact (same_slopes _ _ S G vals L Sl).
  - exists r, r'. rewrite (E x Dx), (E' x' Dx'). split; [exact Er|]. split; [exact Er'|].
    unfold sum_upto in B. simpl in B. lra.
Qed.

Lemma Rabs_def2_le u e : Rabs u <= e -> - e <= u <= e.
Proof. intros H. assert (A := Rle_abs u). assert (B := Rle_abs (- u)). rewrite Rabs_Ropp in B. lra. Qed.
Lemma clamp_close a a' d x x' : Rabs (coord a 0 - coord a' 0) <= d ->
  Rabs (coord a (npts a - 1) - coord a' (npts a' - 1)) <= d ->
  Rabs (clamp a x - clamp a' x') <= Rmax (Rabs (x - x')) d.
Proof.
  intros H0 H1. unfold clamp. set (m := Rmax (Rabs (x - x')) d).
  assert (M0 : Rabs (x - x') <= m) by apply Rmax_l. assert (M1 : d <= m) by apply Rmax_r. clearbody m.
  assert (K0 := Rle_trans _ _ _ H0 M1). assert (K1 := Rle_trans _ _ _ H1 M1).
  apply Rabs_def2_le in M0. apply Rabs_def2_le in K0. apply Rabs_def2_le in K1. apply Rabs_le.
  assert (MX : forall u v, (Rmax u v = u /\ v <= u) \/ (Rmax u v = v /\ u <= v))
    by (intros u v; destruct (Rle_dec v u); [left; rewrite Rmax_left|right; rewrite Rmax_right]; lra).
  assert (MN : forall u v, (Rmin u v = u /\ u <= v) \/ (Rmin u v = v /\ v <= u))
    by (intros u v; destruct (Rle_dec u v); [left; rewrite Rmin_left|right; rewrite Rmin_right]; lra).
  destruct (MX x (coord a 0)) as [(-> & ?)|(-> & ?)]; destruct (MX x' (coord a' 0)) as [(-> & ?)|(-> & ?)];
    match goal with |- _ <= Rmin ?u ?v - Rmin ?p ?q <= _ => destruct (MN u v) as [(-> & ?)|(-> & ?)]; destruct (MN p q) as [(-> & ?)|(-> & ?)] end; lra.
Qed.

Theorem moved_points_hold c c' vals a a' dom dom' at_ at_' x x' d L : grid1 c vals a dom at_ -> grid1 c' vals a' dom' at_' ->
  nodes_within d a a' -> slopes_between a vals (- L) L -> dom x -> dom' x' ->
  exists r r', hold_last1 ROps c at_ x = Ok r /\ hold_last1 ROps c' at_' x' = Ok r' /\
    Rabs (r - r') <= L * (Rmax (Rabs (x - x')) d + d).
Proof.
  intros H H' W Sl D D'.
  destruct (grid1_facts _ _ _ _ _ H) as (N & G & _). destruct (grid1_facts _ _ _ _ _ H') as (N' & G' & _).
  destruct (hold_is_clamped _ _ _ _ _ _ H D) as (_ & ->). destruct (hold_is_clamped _ _ _ _ _ _ H' D') as (_ & ->).
  destruct (moved_points _ _ _ _ _ _ _ _ _ _ _ _ _ H H' W Sl (clamp_inside _ x G) (clamp_inside _ x' G')) as (r & r' & E & E' & B).
  exists r, r'. split; [exact E|]. split; [exact E'|]. eapply Rle_trans; [exact B|].
  assert (L0 : 0 <= L).
  { specialize (Sl 0%Z ltac:(destruct G; lia)). assert (P := gap_pos a 0 G ltac:(destruct G; lia)). nra. }
  apply Rmult_le_compat_l; [exact L0|]. apply Rplus_le_compat_r.
  destruct W as (Wn & Wc). apply clamp_close; [apply Wc; destruct G; lia|].
  rewrite <- Wn. apply Wc. destruct G; lia.
Qed.
