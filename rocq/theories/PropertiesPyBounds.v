(** Bounds checks of the Python interface on IEEE floats of any precision (C43, C47). *)
From Coq Require Import Reals Lra PeanoNat Bool Lia List String.
From Flocq Require Import Core.Core IEEE754.BinarySingleNaN.
From Verif Require Import Base Ops FInst ModelCore ModelLinear ModelUtils ModelPython Spec SpecReal SpecPython.
From Verif Require Import PyBounds ExampleData PropertiesFloat PropertiesPython.
Import ListNotations.
Unset Implicit Arguments.
Open Scope string_scope.
Open Scope list_scope.
Open Scope R_scope.

(** * C43, one axis: interpn(..., check_bounds=True) raises ValueError when an observation is at least
    atol outside the grid, and is the call without the check when all observations are inside it.
    First when the grid is not evenly spaced. *)
Theorem C43_ieee_rectilinear_partial :
  forall prec emax (Hp : Prec_gt_0 prec) (He : Prec_lt_emax prec emax), let o := BOps Hp He in
  forall c (x g vals : ndarray (binary_float prec emax)) method lin atol,
  (2 <= length (nd_data g))%nat -> (zlen (nd_data g) < two64)%Z -> ~ evenly_spaced o (nd_data g) ->
  Forall (fun v => is_finite v = true) (nd_data g) -> Forall (fun v => is_finite v = true) (nd_data x) -> is_finite atol = true ->
  let call cb := py_interpn o c [x] [g] vals method None lin false cb atol in
  let lo := B2R (nth 0 (nd_data g) (B754_zero false)) in let hi := B2R (last (nd_data g) (B754_zero false)) in
  (beyond lo hi (B2R atol) (map B2R (nd_data x)) -> fst (call true) = Raise ValueError) /\
  (0 < B2R atol -> Forall (fun v => lo <= B2R v <= hi) (nd_data x) -> call true = call false).
Proof. intros prec emax Hp He o. exact (bounds_ieee_rect prec emax Hp He). Qed.
(** Evenly spaced, or the caller says so: the last point is the one the library computes. *)
Theorem C43_ieee_regular_partial :
  forall prec emax (Hp : Prec_gt_0 prec) (He : Prec_lt_emax prec emax), let o := BOps Hp He in
  forall c (x g vals : ndarray (binary_float prec emax)) method lin assume atol,
  (2 <= length (nd_data g))%nat -> (zlen (nd_data g) < two64)%Z -> assume = true \/ evenly_spaced o (nd_data g) ->
  Forall (fun v => is_finite v = true) (nd_data x) -> is_finite atol = true ->
  let call cb := py_interpn o c [x] [g] vals method None lin assume cb atol in
  exists m, of_usize o (zlen (nd_data g) - 1) = Some m /\
  let first := nth 0 (nd_data g) (B754_zero false) in
  let lst := fadd o first (fmul o (fsub o (nth 1 (nd_data g) (B754_zero false)) first) m) in
  is_finite first = true -> is_finite lst = true ->
  let lo := Rmin (B2R first) (B2R lst) in let hi := Rmax (B2R first) (B2R lst) in
  (beyond lo hi (B2R atol) (map B2R (nd_data x)) -> fst (call true) = Raise ValueError) /\
  (0 < B2R atol -> Forall (fun v => lo <= B2R v <= hi) (nd_data x) -> call true = call false).
Proof. intros prec emax Hp He o. exact (bounds_ieee_reg prec emax Hp He). Qed.

(** * C47, check_bounds of the wrapper classes *)
Theorem C47_check_bounds_regular_ieee :
  forall prec emax (Hp : Prec_gt_0 prec) (He : Prec_lt_emax prec emax), let o := BOps Hp He in
  forall c maxd dims (starts steps vals : list (binary_float prec emax)) obs atol,
  class_regular_ok o maxd dims starts steps vals = true -> (maxd <= 8)%nat ->
  Forall (fun d => (1 <= d < two64)%Z) dims -> length obs = length dims -> is_finite atol = true ->
  Forall (Forall (fun x => is_finite x = true)) obs ->
  exists flags, class_check_bounds (length dims) (raw_check_bounds_regular o c dims starts steps) obs atol = Ret flags /\
    length flags = length dims /\ forall k, (k < length dims)%nat ->
    exists m, of_usize o (nth k dims 0 - 1)%Z = Some m /\
      let first := nth k starts (B754_zero false) in let lst := fadd o first (fmul o (nth k steps (B754_zero false)) m) in
      is_finite first = true -> is_finite lst = true ->
      let lo := Rmin (B2R first) (B2R lst) in let hi := Rmax (B2R first) (B2R lst) in
      (beyond lo hi (B2R atol) (map B2R (nth k obs [])) -> nth k flags false = true) /\
      (0 < B2R atol -> Forall (fun x => lo <= B2R x <= hi) (nth k obs []) -> nth k flags false = false).
Proof. intros prec emax Hp He o. exact (class_bounds_reg_ieee prec emax Hp He). Qed.
Theorem C47_check_bounds_rectilinear_ieee :
  forall prec emax (Hp : Prec_gt_0 prec) (He : Prec_lt_emax prec emax), let o := BOps Hp He in
  forall maxd (grids : list (list (binary_float prec emax))) vals obs atol,
  class_rectilinear_ok o maxd grids vals = true -> (maxd <= 8)%nat ->
  Forall (fun g => (1 <= length g)%nat) grids -> length obs = length grids -> is_finite atol = true ->
  Forall (Forall (fun x => is_finite x = true)) grids -> Forall (Forall (fun x => is_finite x = true)) obs ->
  exists flags, class_check_bounds (length grids) (raw_check_bounds_rectilinear o grids) obs atol = Ret flags /\
    length flags = length grids /\ forall k, (k < length grids)%nat -> let g := nth k grids [] in
      let lo := B2R (nth 0 g (B754_zero false)) in let hi := B2R (last g (B754_zero false)) in
      (beyond lo hi (B2R atol) (map B2R (nth k obs [])) -> nth k flags false = true) /\
      (0 < B2R atol -> Forall (fun x => lo <= B2R x <= hi) (nth k obs []) -> nth k flags false = false).
Proof. intros prec emax Hp He o. exact (class_bounds_rect_ieee prec emax Hp He). Qed.

Definition b_line : ndarray f64 := arr [z64 0; z64 1; z64 3; z64 4].
Definition b_even : ndarray f64 := arr [z64 0; z64 1; z64 2; z64 3].
Definition b_vals : ndarray f64 := arr [z64 1; z64 2; z64 3; z64 4].
Ltac all_fin := repeat (apply Forall_cons; [reflexivity|]); apply Forall_nil.
Example C43_ieee_ex :
  let call cb x := py_interpn F64Ops plain [arr x] [b_line] b_vals "linear" None true false cb (f64_lit 1 (-2)) in
  fst (call true [z64 2; z64 5]) = Raise ValueError /\ call true [z64 2; z64 4] = call false [z64 2; z64 4].
Proof.
  intros call.
  assert (Ev : ~ evenly_spaced F64Ops (nd_data b_line)).
  { intros H. destruct (H 1%nat (z64 0) (z64 1) (z64 1) (z64 3) eq_refl eq_refl eq_refl eq_refl) as (Q & _).
    vm_compute in Q. discriminate Q. }
  split.
  - destruct (C43_ieee_rectilinear_partial _ _ Hp64 He64 plain (arr [z64 2; z64 5]) b_line b_vals "linear" true (f64_lit 1 (-2))) as (H & _);
      [le_ok|reflexivity|exact Ev|all_fin|all_fin|reflexivity|].
    apply H. exists (B2R (z64 5)). split; [right; left; reflexivity|]. right. cbn [b_line arr nd_data nth last]. real_lit.
  - destruct (C43_ieee_rectilinear_partial _ _ Hp64 He64 plain (arr [z64 2; z64 4]) b_line b_vals "linear" true (f64_lit 1 (-2))) as (_ & H);
      [le_ok|reflexivity|exact Ev|all_fin|all_fin|reflexivity|].
    apply H; [real_lit|].
    cbn [b_line arr nd_data nth last]. repeat (apply Forall_cons; [real_lit|]). apply Forall_nil.
Qed.
Example C43_ieee_regular_ex :
  let call cb x := py_interpn F64Ops plain [arr x] [b_even] b_vals "linear" None true true cb (f64_lit 1 (-2)) in
  fst (call true [z64 2; z64 5]) = Raise ValueError.
Proof.
  intros call.
  destruct (C43_ieee_regular_partial _ _ Hp64 He64 plain (arr [z64 2; z64 5]) b_even b_vals "linear" true true (f64_lit 1 (-2)))
    as (m & Em & H); [le_ok|vm_compute; reflexivity|left; reflexivity|all_fin|reflexivity|].
  assert (m = z64 3) as ->.
  { assert (E : of_usize F64Ops (zlen (nd_data b_even) - 1) = Some (z64 3)).
    { assert (S : forall a b : f64, B2SF a = B2SF b -> Some a = Some b) by (intros a b E; f_equal; apply B2SF_inj; exact E).
      apply S. vm_compute. reflexivity. }
    assert (Q : Some (z64 3) = Some m) by exact (eq_trans (eq_sym E) Em). congruence. }
  assert (L : let o := BOps Hp64 He64 in fadd o (z64 0) (fmul o (fsub o (z64 1) (z64 0)) (z64 3)) = z64 3) by (apply B2SF_inj; vm_compute; reflexivity).
  cbv zeta in H. cbn [b_even arr nd_data nth] in H. cbv zeta in L. rewrite L in H.
  destruct (H eq_refl eq_refl) as (H1 & _). apply H1. clear H H1.
  exists (B2R (z64 5)). split; [right; left; reflexivity|]. right. rewrite Rmax_right by real_lit. real_lit.
Qed.
Example C47_check_bounds_ieee_ex : exists flags,
  class_check_bounds 2 (raw_check_bounds_rectilinear F64Ops lin_grids) [[z64 1; z64 2]; [z64 2; z64 4]] (f64_lit 1 (-2)) = Ret flags /\
  nth 0 flags false = false /\ nth 1 flags false = true.
Proof.
  destruct (C47_check_bounds_rectilinear_ieee _ _ Hp64 He64 6 lin_grids lin_vals [[z64 1; z64 2]; [z64 2; z64 4]] (f64_lit 1 (-2)))
    as (flags & E & L & H); [exact lin_class_rect|le_ok|repeat constructor|reflexivity|reflexivity| | |].
  - repeat (apply Forall_cons; [all_fin|]). apply Forall_nil.
  - repeat (apply Forall_cons; [all_fin|]). apply Forall_nil.
  - exists flags. split; [exact E|]. split.
    + destruct (H 0%nat ltac:(cbn; lia)) as (_ & H0). apply H0; [real_lit|]. cbn [lin_grids nth last]. repeat (apply Forall_cons; [real_lit|]). apply Forall_nil.
    + destruct (H 1%nat ltac:(cbn; lia)) as (H0 & _). apply H0. exists (B2R (z64 4)). split; [right; left; reflexivity|]. right. cbn [lin_grids nth last]. real_lit.
Qed.
Example C47_check_bounds_regular_ieee_ex : exists flags,
  class_check_bounds 2 (raw_check_bounds_regular F64Ops plain lin_dims lin_starts lin_steps) [[z64 1]; [z64 2]] (f64_lit 1 (-2)) = Ret flags /\
  length flags = 2%nat.
Proof.
  destruct (C47_check_bounds_regular_ieee _ _ Hp64 He64 plain 8 lin_dims lin_starts lin_steps lin_vals [[z64 1]; [z64 2]] (f64_lit 1 (-2)))
    as (flags & E & L & H); [exact lin_class_reg|le_ok| |reflexivity|reflexivity| |].
  - repeat (apply Forall_cons; [vm_compute; split; reflexivity || discriminate|]). apply Forall_nil.
  - repeat (apply Forall_cons; [all_fin|]). apply Forall_nil.
  - exists flags. split; [exact E|exact L].
Qed.
Print Assumptions C43_ieee_rectilinear_partial.
Print Assumptions C43_ieee_regular_partial.
Print Assumptions C47_check_bounds_regular_ieee.
Print Assumptions C47_check_bounds_rectilinear_ieee.
