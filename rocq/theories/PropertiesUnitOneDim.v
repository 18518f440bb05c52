(** Changes of units of one-dimensional grids (C71), in floating point. *)
From Coq Require Import Reals Lra PeanoNat Bool Lia List.
From Flocq Require Import Core.Core IEEE754.BinarySingleNaN.
From Verif Require Import Base Ops RInst FInst ModelCore ModelOneDim Spec SpecIEEE SpecUnits SpecUnitOneDim UnitOneDim.
From Verif Require Import ExampleData PropertiesFloat PropertiesUnits PropertiesDyadic.
Import ListNotations.
Open Scope R_scope.
Unset Implicit Arguments.

(** * C71: the one-dimensional interpolators. Measuring the axis in a unit that differs by a power of
    two changes no bit of a result of Left1D, Right1D and Nearest1D, nor of Linear1D and
    LinearHoldLast1D if no slope of the data overflows or is subnormal. *)
Theorem C71_one_dim_rectilinear :
  forall prec emax (Hp : Prec_gt_0 prec) (He : Prec_lt_emax prec emax), let o := BOps Hp He in
  forall k c (grid grid' vals : list (binary_float prec emax)) g g' x x', (3 <= emax)%Z ->
  Forall2 (rescaled k) grid grid' -> Forall moderate grid -> Forall moderate grid' ->
  rescaled k x x' -> moderate x -> moderate x' -> c1_new grid vals = Ok g -> c1_new grid' vals = Ok g' ->
  (left1 (c1_at o c g') x' = left1 (c1_at o c g) x /\ right1 (c1_at o c g') x' = right1 (c1_at o c g) x /\
   nearest1 o (c1_at o c g') x' = nearest1 o (c1_at o c g) x) /\
  (normal_slopes Hp He grid vals -> normal_slopes Hp He grid' vals -> (zlen vals < two64)%Z ->
   linear1 o c (c1_at o c g') x' = linear1 o c (c1_at o c g) x /\ hold_last1 o c (c1_at o c g') x' = hold_last1 o c (c1_at o c g) x).
Proof. intros prec emax Hp He o. exact (unit_rect prec emax Hp He). Qed.
Theorem C71_one_dim_regular :
  forall prec emax (Hp : Prec_gt_0 prec) (He : Prec_lt_emax prec emax), let o := BOps Hp He in
  forall k c start step start' step' (vals : list (binary_float prec emax)) g g' x x', (64 < emax)%Z -> (2 <= zlen vals <= isize_max)%Z ->
  rescaled k start start' -> rescaled k step step' -> rescaled k x x' ->
  wide_axis start step (zlen vals) -> wide_axis start' step' (zlen vals) -> wide x -> wide x' ->
  r1_new o c start step vals = Ok g -> r1_new o c start' step' vals = Ok g' ->
  (left1 (r1_at o c g') x' = left1 (r1_at o c g) x /\ right1 (r1_at o c g') x' = right1 (r1_at o c g) x /\
   nearest1 o (r1_at o c g') x' = nearest1 o (r1_at o c g) x) /\
  (normal_slopes_regular Hp He start step vals -> normal_slopes_regular Hp He start' step' vals ->
   linear1 o c (r1_at o c g') x' = linear1 o c (r1_at o c g) x /\ hold_last1 o c (r1_at o c g') x' = hold_last1 o c (r1_at o c g) x).
Proof. intros prec emax Hp He o. exact (unit_reg prec emax Hp He). Qed.

(** A grid in units of 8. *)
Definition ud_grid : list f64 := [z64 1; z64 2; z64 4].
Definition ud_grid' : list f64 := [f64_lit 1 (-3); f64_lit 1 (-2); f64_lit 1 (-1)].
Definition ud_vals : list f64 := [z64 5; z64 7; z64 6].
Definition ud_x : f64 := z64 3.
Definition ud_x' : f64 := f64_lit 3 (-3).
Lemma slope_4096 (x0 y0 x1 y1 : f64) rx ry : let o := BOps Hp64 He64 in
  is_finite y0 = true -> is_finite y1 = true -> is_finite (fsub o y1 y0) = true ->
  B2R (fsub o x1 x0) = rx -> B2R (fsub o y1 y0) = ry -> rx <> 0 -> 1 / 4096 <= Rabs (ry / rx) <= 4096 ->
  normal_slope Hp64 He64 x0 y0 x1 y1.
Proof.
  intros o F0 F1 Fd Ex Ey N (L & U). split; [exact F0|]. split; [exact F1|]. split; [exact Fd|]. cbv zeta.
  fold o. rewrite Ex, Ey. split; [exact N|]. right. split.
  - apply Rle_trans with (2 := L). apply Rle_trans with (bpow radix2 (-12)); [apply bpow_le; lia|]. cbn; lra.
  - apply Rle_trans with (1 := U). apply Rle_trans with (bpow radix2 12); [cbn; lra|apply bpow_le; lia].
Qed.
Ltac slope v w := eapply slope_4096;
  [reflexivity|reflexivity|vm_compute; reflexivity
  |apply (lit_value _ v); [vm_compute; reflexivity|reflexivity|vm_compute; reflexivity|reflexivity]
  |apply (lit_value _ w); [vm_compute; reflexivity|reflexivity|vm_compute; reflexivity|reflexivity]
  |real_lit|].
Lemma some_inj (a b : f64) : Some a = Some b -> b = a.
Proof. congruence. Qed.
Lemma ratio_ok (v w : f64) r s : B2R w = s -> B2R v = r -> 1 / 4096 <= Rabs (s / r) <= 4096 -> 1 / 4096 <= Rabs (B2R w / B2R v) <= 4096.
Proof. intros -> ->. auto. Qed.
Ltac ratio u t := apply (ratio_ok _ _ u t); [real_lit|real_lit|unfold Rabs; destruct (Rcase_abs _); lra].
Lemma ud_slopes : normal_slopes Hp64 He64 ud_grid ud_vals.
Proof.
  intros i x0 y0 x1 y1 E0 E1 E2 E3. destruct i as [|[|[|i]]].
  - apply some_inj in E0, E1, E2, E3. rewrite E0, E1, E2, E3. slope (z64 1) (z64 2). ratio 1 2.
  - apply some_inj in E0, E1, E2, E3. rewrite E0, E1, E2, E3. slope (z64 2) (z64 (-1)). ratio 2 (-1).
  - discriminate E1.
  - destruct i; discriminate E1.
Qed.
Lemma ud_slopes' : normal_slopes Hp64 He64 ud_grid' ud_vals.
Proof.
  intros i x0 y0 x1 y1 E0 E1 E2 E3. destruct i as [|[|[|i]]].
  - apply some_inj in E0, E1, E2, E3. rewrite E0, E1, E2, E3. slope (f64_lit 1 (-3)) (z64 2). ratio (1 / 8) 2.
  - apply some_inj in E0, E1, E2, E3. rewrite E0, E1, E2, E3. slope (f64_lit 1 (-2)) (z64 (-1)). ratio (1 / 4) (-1).
  - discriminate E1.
  - destruct i; discriminate E1.
Qed.
Example C71_one_dim_ex :
  linear1 F64Ops plain (c1_at F64Ops plain (mkC1 ud_grid' ud_vals)) ud_x' = linear1 F64Ops plain (c1_at F64Ops plain (mkC1 ud_grid ud_vals)) ud_x /\
  nearest1 F64Ops (c1_at F64Ops plain (mkC1 ud_grid' ud_vals)) ud_x' = nearest1 F64Ops (c1_at F64Ops plain (mkC1 ud_grid ud_vals)) ud_x /\
  ok_is (linear1 F64Ops plain (c1_at F64Ops plain (mkC1 ud_grid ud_vals)) ud_x) (f64_lit 13 (-1)) = true.
Proof.
  destruct (C71_one_dim_rectilinear 53 1024 Hp64 He64 (-3) plain ud_grid ud_grid' ud_vals (mkC1 ud_grid ud_vals) (mkC1 ud_grid' ud_vals) ud_x ud_x')
    as ((_ & _ & H) & K); [lia| | | | | | |reflexivity|reflexivity|].
  - repeat (apply Forall2_cons; [rescaled_lit|]). apply Forall2_nil.
  - repeat (apply Forall_cons; [mod4|]). apply Forall_nil.
  - repeat (apply Forall_cons; [mod4|]). apply Forall_nil.
  - rescaled_lit.
  - mod4.
  - mod4.
  - destruct K as (K & _); [exact ud_slopes|exact ud_slopes'|reflexivity|].
    split; [exact K|]. split; [exact H|vm_compute; reflexivity].
Qed.
(** The condition on the slopes is needed: here the slope is subnormal in the new unit. *)
Theorem C71_one_dim_slope_refuted :
  let vals := [z64 0; f64_lit 3 (-1074)] in
  let g := mkC1 [z64 0; z64 1] vals in let g' := mkC1 [z64 0; z64 2] vals in
  c1_new (c1_grid g) vals = Ok g /\ c1_new (c1_grid g') vals = Ok g' /\
  ok_is (linear1 F64Ops plain (c1_at F64Ops plain g) (z64 1)) (f64_lit 3 (-1074)) = true /\
  ok_is (linear1 F64Ops plain (c1_at F64Ops plain g') (z64 2)) (f64_lit 4 (-1074)) = true.
Proof. split; [reflexivity|]. split; [reflexivity|]. split; vm_compute; reflexivity. Qed.

(** A regular grid 1, 3/2, 2 in units of 8. *)
Lemma wide_8192 (v : f64) : -8192 <= B2R v <= 8192 -> wide v.
Proof.
  intros H. unfold wide. apply Rle_trans with (bpow radix2 13); [|apply bpow_le; lia]. cbn. apply Rabs_le. lra.
Qed.
Lemma ud_wide (a h : f64) : 0 <= B2R a <= 8 -> 0 <= B2R h <= 8 -> wide_axis a h (zlen ud_vals).
Proof.
  intros A H. split.
  - apply Rle_trans with (bpow radix2 13); [|apply bpow_le; lia]. cbn. apply Rabs_le. lra.
  - change (zlen ud_vals) with 3%Z. rewrite Rabs_pos_eq by lra. apply Rle_trans with (bpow radix2 13); [|apply bpow_le; lia]. cbn. lra.
Qed.
Definition ud_start : f64 := z64 1.
Definition ud_step : f64 := f64_lit 1 (-1).
Definition ud_start' : f64 := f64_lit 1 (-3).
Definition ud_step' : f64 := f64_lit 1 (-4).
Lemma usize_lit i (v n : f64) : (exists u, of_usize F64Ops (Z.of_nat i) = Some u /\ u = v) -> of_usize F64Ops (Z.of_nat i) = Some n -> n = v.
Proof. intros (u & E & <-). congruence. Qed.
Lemma ud_reg_slopes (a h : f64) u : is_finite a = true -> is_finite h = true ->
  (forall n : f64, n = z64 0 \/ n = z64 1 -> let x0 := fadd F64Ops a (fmul F64Ops h n) in
     is_finite (fsub F64Ops (fadd F64Ops x0 h) x0) = true /\ B2R (fsub F64Ops (fadd F64Ops x0 h) x0) = u) ->
  1 / 16 <= u <= 1 -> normal_slopes_regular Hp64 He64 a h ud_vals.
Proof.
  intros Fa Fh X Hu i n y0 y1 E E0 E1. cbv zeta.
  assert (W : 1 <= / u <= 16).
  { split; [rewrite <- Rinv_1; apply Rinv_le_contravar; lra|].
    replace 16 with (/ (1 / 16)) by field. apply Rinv_le_contravar; lra. }
  destruct i as [|[|[|i]]].
  - apply some_inj in E0, E1. rewrite E0, E1.
    assert (N : n = z64 0) by (apply (usize_lit 0); [eexists; split; [reflexivity|apply B2SF_inj; vm_compute; reflexivity]|exact E]).
    destruct (X n (or_introl N)) as (_ & XV). cbv zeta in XV.
    eapply slope_4096; [reflexivity|reflexivity|vm_compute; reflexivity|exact XV
      |apply (lit_value _ (z64 2)); [vm_compute; reflexivity|reflexivity|vm_compute; reflexivity|reflexivity]|lra|].
    replace (B2R (z64 2)) with 2 by (symmetry; real_lit). rewrite Rabs_pos_eq by (apply Rmult_le_pos; [lra|apply Rlt_le, Rinv_0_lt_compat; lra]).
    unfold Rdiv in *. lra.
  - apply some_inj in E0, E1. rewrite E0, E1.
    assert (N : n = z64 1) by (apply (usize_lit 1); [eexists; split; [reflexivity|apply B2SF_inj; vm_compute; reflexivity]|exact E]).
    destruct (X n (or_intror N)) as (_ & XV). cbv zeta in XV.
    eapply slope_4096; [reflexivity|reflexivity|vm_compute; reflexivity|exact XV
      |apply (lit_value _ (z64 (-1))); [vm_compute; reflexivity|reflexivity|vm_compute; reflexivity|reflexivity]|lra|].
    replace (B2R (z64 (-1))) with (-1) by (symmetry; real_lit). rewrite <- Rabs_Ropp. replace (- (-1 / u)) with (1 / u) by (field; lra).
    rewrite Rabs_pos_eq by (apply Rmult_le_pos; [lra|apply Rlt_le, Rinv_0_lt_compat; lra]).
    unfold Rdiv in *. lra.
  - discriminate E1.
  - destruct i; discriminate E1.
Qed.
Example C71_one_dim_regular_ex : exists g g', r1_new F64Ops plain ud_start ud_step ud_vals = Ok g /\
  r1_new F64Ops plain ud_start' ud_step' ud_vals = Ok g' /\
  linear1 F64Ops plain (r1_at F64Ops plain g') ud_x' = linear1 F64Ops plain (r1_at F64Ops plain g) ud_x /\
  right1 (r1_at F64Ops plain g') ud_x' = right1 (r1_at F64Ops plain g) ud_x.
Proof.
  destruct (@is_ok_ex _ (r1_new F64Ops plain ud_start ud_step ud_vals)) as (g & E); [vm_compute; reflexivity|].
  destruct (@is_ok_ex _ (r1_new F64Ops plain ud_start' ud_step' ud_vals)) as (g' & E'); [vm_compute; reflexivity|].
  exists g, g'. split; [exact E|]. split; [exact E'|].
  destruct (C71_one_dim_regular 53 1024 Hp64 He64 (-3) plain ud_start ud_step ud_start' ud_step' ud_vals g g' ud_x ud_x')
    as ((_ & H & _) & K).
  - lia.
  - vm_compute; split; discriminate.
  - unfold ud_start, ud_start'. rescaled_lit.
  - unfold ud_step, ud_step'. rescaled_lit.
  - unfold ud_x, ud_x'. rescaled_lit.
  - unfold ud_start, ud_step. apply ud_wide; real_lit.
  - unfold ud_start', ud_step'. apply ud_wide; real_lit.
  - unfold ud_x. apply wide_8192; real_lit.
  - unfold ud_x'. apply wide_8192; real_lit.
  - exact E.
  - exact E'.
  - destruct K as (K & _).
    + apply ud_reg_slopes with (1 / 2); [reflexivity|reflexivity| |lra].
      intros n [->| ->]; (split; [vm_compute; reflexivity|apply (lit_value _ (f64_lit 1 (-1))); [vm_compute; reflexivity|reflexivity|vm_compute; reflexivity|real_lit]]).
    + apply ud_reg_slopes with (1 / 16); [reflexivity|reflexivity| |lra].
      intros n [->| ->]; (split; [vm_compute; reflexivity|apply (lit_value _ (f64_lit 1 (-4))); [vm_compute; reflexivity|reflexivity|vm_compute; reflexivity|real_lit]]).
    + split; [exact K|exact H].
Qed.

Print Assumptions C71_one_dim_rectilinear.
Print Assumptions C71_one_dim_regular.
