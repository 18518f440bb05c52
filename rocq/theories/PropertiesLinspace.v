(** linspace in floating point (C77). *)
From Coq Require Import Reals Lra PeanoNat Bool Lia List.
From Flocq Require Import Core.Core IEEE754.BinarySingleNaN.
From Verif Require Import Base Ops FInst ModelCore ModelLinear ModelCubic ModelUtils Spec SpecOrder SpecError SpecLinspace.
From Verif Require Import FLinspace ExampleData PropertiesFloat.
Import ListNotations.
Open Scope R_scope.
Unset Implicit Arguments.

(** * C77: linspace(a, b, n) in any IEEE format. The first point is a, every point is within
    [linspace_error] of the evenly spaced one, the points are in order, and they are strictly
    increasing as soon as the spacing exceeds two error bounds. *)
Theorem C77_points :
  forall prec emax (Hp : Prec_gt_0 prec) (He : Prec_lt_emax prec emax) c (a b : binary_float prec emax) n,
  roundoff prec <= / 64 -> (8 <= emax)%Z ->
  (2 <= n)%nat -> (Z.of_nat n < two64)%Z -> (Z.of_nat n <= 2 ^ prec)%Z ->
  is_finite a = true -> is_finite b = true ->
  Rabs (B2R a) <= bpow radix2 (emax - 5) -> Rabs (B2R b) <= bpow radix2 (emax - 5) ->
  let e := linspace_error a b n in let zero := B754_zero false in
  exists l, linspace (BOps Hp He) c a b n = Ok l /\ length l = n /\ Forall (fun v => is_finite v = true) l /\
    B2R (nth 0 l zero) = B2R a /\
    (forall i, (i < n)%nat -> Rabs (B2R (nth i l zero) - (B2R a + INR i * (B2R b - B2R a) / INR (n - 1))) <= e) /\
    (B2R a <= B2R b -> forall i j, (i <= j < n)%nat -> B2R (nth i l zero) <= B2R (nth j l zero)) /\
    (2 * e < (B2R b - B2R a) / INR (n - 1) -> increasing_grid (BOps Hp He) l).
Proof. exact linspace_ieee. Qed.
(** A grid whose axes are made by linspace is accepted. *)
Theorem C77_accepted :
  forall prec emax (Hp : Prec_gt_0 prec) (He : Prec_lt_emax prec emax) c (grids : list (list (binary_float prec emax))) vals,
  roundoff prec <= / 64 -> (8 <= emax)%Z ->
  prefix_products_fit (map zlen grids) -> zlen vals = zprod (map zlen grids) -> Forall (linspaced Hp He c) grids ->
  Forall (increasing_grid (BOps Hp He)) grids /\
  mlc_new (BOps Hp He) c grids vals = Ok (mkRect grids (map zlen grids) vals) /\
  (Forall (fun g => (4 <= zlen g)%Z) grids ->
   forall lin, mcc_new (BOps Hp He) c grids vals lin = Ok (mkCC (mkRect grids (map zlen grids) vals) lin)).
Proof. exact linspaced_accepted. Qed.

Definition lin_vals5 : list f64 := [z64 1; z64 2; z64 4; z64 8; z64 16].

(** The condition on the spacing and the error bound are there for a reason. With ends that are
    two roundoffs apart the first two points are equal, and the grid is refused. *)
Theorem C77_spacing_needed :
  exists a b l, is_finite a = true /\ is_finite b = true /\ flt F64Ops a b = true /\
    linspace F64Ops plain a b 5 = Ok l /\ mlc_new F64Ops plain [l] lin_vals5 = Err msg_mono.
Proof.
  exists (z64 1), (f64_lit 4503599627370497 (-52)).
  destruct (@is_ok_ex _ (linspace F64Ops plain (z64 1) (f64_lit 4503599627370497 (-52)) 5)) as (l & E); [vm_compute; reflexivity|].
  exists l. split; [reflexivity|]. split; [reflexivity|]. split; [vm_compute; reflexivity|]. split; [exact E|].
  assert (Q : match linspace F64Ops plain (z64 1) (f64_lit 4503599627370497 (-52)) 5 with
    | Ok l => mlc_new F64Ops plain [l] lin_vals5 | _ => Panic end = Err msg_mono) by (vm_compute; reflexivity).
  rewrite E in Q. exact Q.
Qed.
(** The last point need not be b. *)
Theorem C77_last_point_not_exact :
  exists a b n l, is_finite a = true /\ is_finite b = true /\ (2 <= n)%nat /\
    linspace F64Ops plain a b n = Ok l /\ flt F64Ops (last l a) b = true.
Proof.
  exists (z64 0), (z64 1), 50%nat.
  destruct (@is_ok_ex _ (linspace F64Ops plain (z64 0) (z64 1) 50)) as (l & E); [vm_compute; reflexivity|].
  exists l. split; [reflexivity|]. split; [reflexivity|]. split; [lia|]. split; [exact E|].
  assert (Q : match linspace F64Ops plain (z64 0) (z64 1) 50 with
    | Ok l => flt F64Ops (last l (z64 0)) (z64 1) | _ => false end = true) by (vm_compute; reflexivity).
  rewrite E in Q. exact Q.
Qed.

(** linspace(0, 1, 50): the last point is within the bound of 1, and the grid is accepted. *)
Lemma ls_bound (v : f64) : -4 <= B2R v <= 4 -> Rabs (B2R v) <= bpow radix2 (1024 - 5).
Proof.
  intros H. apply Rle_trans with (bpow radix2 2); [|apply bpow_le; lia]. change (bpow radix2 2) with 4. apply Rabs_le. lra.
Qed.
Lemma ls_unit : roundoff 53 <= / 64.
Proof. unfold roundoff. change (/ 64) with (bpow radix2 (-6)). apply bpow_le. lia. Qed.
Lemma ls_error n : (n <= 64)%nat -> linspace_error (z64 0) (z64 1) n <= bpow radix2 (-40).
Proof.
  intros Hn. unfold linspace_error, roundoff, underflow.
  replace (B2R (z64 0)) with 0 by real_lit. replace (B2R (z64 1)) with 1 by real_lit.
  rewrite Rabs_R0, Rabs_R1, Rmax_right by lra.
  assert (N : 0 <= INR n <= 64) by (split; [apply pos_INR|rewrite INR_IZR_INZ; apply IZR_le; lia]).
  assert (B : bpow radix2 (3 - 1024 - 53) <= bpow radix2 (-53)) by (apply bpow_le; lia).
  assert (P := bpow_ge_0 radix2 (3 - 1024 - 53)).
  assert (M : INR n * bpow radix2 (3 - 1024 - 53) <= 64 * bpow radix2 (-53)) by (apply Rmult_le_compat; lra).
  assert (E : bpow radix2 (-53) = bpow radix2 (-40) * / 8192).
  { change (/ 8192) with (bpow radix2 (-13)). rewrite <- bpow_plus. reflexivity. }
  assert (Q := bpow_ge_0 radix2 (-40)). change (- (53))%Z with (-53)%Z. change (- 53)%Z with (-53)%Z.
  replace (2 * INR n * (/ 2 * bpow radix2 (3 - 1024 - 53))) with (INR n * bpow radix2 (3 - 1024 - 53)) by field. lra.
Qed.
Example C77_points_ex : exists l, linspace F64Ops plain (z64 0) (z64 1) 50 = Ok l /\
  Rabs (B2R (nth 49 l (z64 0)) - 1) <= bpow radix2 (-40) /\ increasing_grid F64Ops l.
Proof.
  destruct (C77_points 53 1024 Hp64 He64 plain (z64 0) (z64 1) 50) as (l & E & _ & _ & _ & W & _ & I);
    [apply ls_unit|lia|lia|reflexivity|lia|reflexivity|reflexivity|apply ls_bound; real_lit|apply ls_bound; real_lit|].
  exists l. split; [exact E|]. assert (X := ls_error 50 ltac:(lia)). split.
  - assert (W1 := W 49%nat ltac:(lia)). change (50 - 1)%nat with 49%nat in W1.
    replace (B2R (z64 0) + INR 49 * (B2R (z64 1) - B2R (z64 0)) / INR 49) with 1 in W1.
    + eapply Rle_trans; [exact W1|exact X].
    + replace (B2R (z64 0)) with 0 by real_lit. replace (B2R (z64 1)) with 1 by real_lit. simpl. lra.
  - apply I. replace (B2R (z64 0)) with 0 by real_lit. replace (B2R (z64 1)) with 1 by real_lit.
    change (50 - 1)%nat with 49%nat. apply Rle_lt_trans with (2 * bpow radix2 (-40)); [lra|].
    apply Rle_lt_trans with (2 * bpow radix2 (-10)); [apply Rmult_le_compat_l; [lra|apply bpow_le; lia]|].
    change (bpow radix2 (-10)) with (/ 1024). simpl. lra.
Qed.
Example C77_accepted_ex : exists l, linspace F64Ops plain (z64 0) (z64 1) 5 = Ok l /\
  mlc_new F64Ops plain [l] lin_vals5 = Ok (mkRect [l] [5%Z] lin_vals5).
Proof.
  destruct (@is_ok_ex _ (linspace F64Ops plain (z64 0) (z64 1) 5)) as (l & E); [vm_compute; reflexivity|].
  exists l. split; [exact E|].
  assert (L : zlen l = 5%Z).
  { assert (Q : match linspace F64Ops plain (z64 0) (z64 1) 5 with Ok l => zlen l | _ => 0%Z end = 5%Z) by (vm_compute; reflexivity).
    rewrite E in Q. exact Q. }
  destruct (C77_accepted 53 1024 Hp64 He64 plain [l] lin_vals5) as (_ & H & _).
  - apply ls_unit.
  - lia.
  - change (prefix_products_fit [@zlen f64 l]). rewrite L. intros [|[|k]]; vm_compute; split; congruence.
  - change (zlen lin_vals5 = zprod [@zlen f64 l]). rewrite L. reflexivity.
  - apply Forall_cons; [|apply Forall_nil]. exists (z64 0), (z64 1), 5%nat.
    split; [lia|]. split; [reflexivity|]. split; [lia|]. split; [reflexivity|]. split; [reflexivity|].
    split; [apply ls_bound; real_lit|]. split; [apply ls_bound; real_lit|]. split; [|exact E].
    assert (X := ls_error 5 ltac:(lia)).
    replace (B2R (z64 0)) with 0 in * by real_lit. replace (B2R (z64 1)) with 1 by real_lit.
    change (5 - 1)%nat with 4%nat. apply Rle_lt_trans with (2 * bpow radix2 (-40)); [lra|].
    apply Rle_lt_trans with (2 * bpow radix2 (-10)); [apply Rmult_le_compat_l; [lra|apply bpow_le; lia]|].
    change (bpow radix2 (-10)) with (/ 1024). simpl. lra.
  - rewrite <- L. exact H.
Qed.
Print Assumptions C77_points.
Print Assumptions C77_accepted.
Print Assumptions C77_spacing_needed.
Print Assumptions C77_last_point_not_exact.
