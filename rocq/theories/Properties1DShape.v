(** Shape of the one-dimensional linear interpolants, in exact arithmetic (C106). *)
From Coq Require Import Reals Lra Lia ZArith List.
From Verif Require Import Base Ops RInst ModelOneDim Spec SpecReal Spec1D Spec1DShape OneDimShape.
From Verif Require Import ExampleData ExampleReal PropertiesOneDim Properties1DMaps.
Import ListNotations.
Unset Implicit Arguments.
Open Scope R_scope.

(** * C106: Linear1D is exactly as steep as the data, inside and outside the grid: the slopes
    between neighbouring data points lie between [m] and [M] if and only if all difference
    quotients of the interpolant do. *)
Theorem C106_linear :
  forall c vals a dom at_ m M, grid1 c vals a dom at_ ->
  slopes_between a vals m M <->
  (forall x y, dom x -> dom y -> x <= y -> exists r r', linear1 ROps c at_ x = Ok r /\ linear1 ROps c at_ y = Ok r' /\
     m * (y - x) <= r' - r <= M * (y - x)).
Proof. exact slopes_iff. Qed.

(** LinearHoldLast1D is Linear1D at the point of the grid interval nearest to the observation. *)
Theorem C106_clamped :
  forall c vals a dom at_ x, grid1 c vals a dom at_ -> dom x ->
  dom (clamp a x) /\ hold_last1 ROps c at_ x = linear1 ROps c at_ (clamp a x).
Proof. exact hold_is_clamped. Qed.

(** Its steepness, and its range: no observation gives a value outside the range of the data. *)
Theorem C106_hold_last :
  forall c vals a dom at_ m M x y, grid1 c vals a dom at_ -> slopes_between a vals m M -> dom x -> dom y -> x <= y ->
  exists r r', hold_last1 ROps c at_ x = Ok r /\ hold_last1 ROps c at_ y = Ok r' /\
    m * (clamp a y - clamp a x) <= r' - r <= M * (clamp a y - clamp a x).
Proof. exact slopes_hold. Qed.
Theorem C106_range :
  forall c vals a dom at_ lo hi x, grid1 c vals a dom at_ -> dom x ->
  (forall i, (0 <= i < npts a)%Z -> lo <= val_at vals i <= hi) ->
  exists r, hold_last1 ROps c at_ x = Ok r /\ lo <= r <= hi.
Proof. exact hold_range. Qed.

(** Every value between two data values is the result at some point between their grid points. *)
Theorem C106_attained :
  forall c vals a dom at_ i j t, grid1 c vals a dom at_ -> (0 <= i < j)%Z -> (j < npts a)%Z ->
  between (val_at vals i) (val_at vals j) t ->
  exists x, coord a i <= x <= coord a j /\ dom x /\ linear1 ROps c at_ x = Ok t /\ hold_last1 ROps c at_ x = Ok t.
Proof. exact attains. Qed.

(** On increasing data it is the result at one point only. *)
Theorem C106_unique :
  forall c vals a dom at_ m M x y t, grid1 c vals a dom at_ -> slopes_between a vals m M -> 0 < m ->
  dom x -> dom y -> linear1 ROps c at_ x = Ok t -> linear1 ROps c at_ y = Ok t -> x = y.
Proof. exact strictly_monotone_inverse. Qed.

(** Values 10, 20, 50: slopes 10 and 10 over 0, 1, 4, slopes 5 and 15 over 0, 2, 4. *)
Lemma e1_slopes : slopes_between (mkAxis 3 (fun i => 0 + 2 * IZR i)) e1_vals 5 15.
Proof.
  intros i Hi. cbn [npts] in Hi. assert (E : i = 0%Z \/ i = 1%Z) by lia.
  destruct E as [->| ->]; unfold val_at; node_ok.
Qed.
Example C106_linear_ex : exists r r', linear1 ROps rplain (r1_at ROps rplain e1_reg) (-1) = Ok r /\
  linear1 ROps rplain (r1_at ROps rplain e1_reg) 9 = Ok r' /\ 5 * (9 - -1) <= r' - r <= 15 * (9 - -1).
Proof. apply (proj1 (C106_linear _ _ _ _ _ 5 15 e1_reg_ok) e1_slopes); [fits1|fits1|lra]. Qed.
Lemma e1_clamp : clamp (mkAxis 3 (fun i => 0 + 2 * IZR i)) 9 = 4.
Proof. unfold clamp. cbn [coord npts]. rewrite Rmax_left by (simpl; lra). rewrite Rmin_right by (simpl; lra). simpl. lra. Qed.
Example C106_clamped_ex : hold_last1 ROps rplain (r1_at ROps rplain e1_reg) 9 = linear1 ROps rplain (r1_at ROps rplain e1_reg) 4.
Proof. rewrite <- e1_clamp. apply (C106_clamped _ _ _ _ _ 9 e1_reg_ok). fits1. Qed.
Example C106_hold_last_ex : exists r r', hold_last1 ROps rplain (r1_at ROps rplain e1_reg) 9 = Ok r /\
  hold_last1 ROps rplain (r1_at ROps rplain e1_reg) 9 = Ok r' /\ r = r'.
Proof.
  destruct (C106_hold_last _ _ _ _ _ 5 15 9 9 e1_reg_ok e1_slopes) as (r & r' & H & H' & B); [fits1|fits1|lra|].
  exists r, r'. split; [exact H|]. split; [exact H'|]. lra.
Qed.
Lemma e1_vals_range i : (0 <= i < 3)%Z -> 10 <= val_at e1_vals i <= 50.
Proof. intros Hi. destruct (three i Hi) as [->|[->| ->]]; unfold val_at; node_ok. Qed.
Example C106_range_ex : exists r, hold_last1 ROps rplain (r1_at ROps rplain e1_reg) 1000 = Ok r /\ 10 <= r <= 50.
Proof. apply (C106_range _ _ _ _ _ 10 50 1000 e1_reg_ok); [fits1|]. exact e1_vals_range. Qed.
Example C106_attained_ex : exists x, linear1 ROps rplain (r1_at ROps rplain e1_reg) x = Ok 33.
Proof.
  destruct (C106_attained _ _ _ _ _ 0 2 33 e1_reg_ok) as (x & _ & _ & H & _); [lia|simpl; lia| |exists x; exact H].
  left. unfold val_at. node_ok.
Qed.
Example C106_unique_ex : forall x y, 0 <= x <= 4 -> 0 <= y <= 4 ->
  linear1 ROps rplain (r1_at ROps rplain e1_reg) x = Ok 33 -> linear1 ROps rplain (r1_at ROps rplain e1_reg) y = Ok 33 -> x = y.
Proof. intros x y Hx Hy. apply (C106_unique _ _ _ _ _ 5 15 x y 33 e1_reg_ok e1_slopes); [lra|fits1|fits1]. Qed.

Print Assumptions C106_linear.
Print Assumptions C106_clamped.
Print Assumptions C106_hold_last.
Print Assumptions C106_range.
Print Assumptions C106_attained.
Print Assumptions C106_unique.
