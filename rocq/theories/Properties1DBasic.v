(** One dimension, exact arithmetic: the formula of the cell (C01), affine data (C02), the range of
    the results in a cell (C04), continuity (C05). *)
From Coq Require Import Reals Lra Lia ZArith List.
From Verif Require Import Base Ops RInst ModelOneDim Spec SpecReal Spec1D Spec1DShape OneDimBasic.
From Verif Require Import ExampleData ExampleReal PropertiesOneDim.
Import ListNotations.
Unset Implicit Arguments.
Open Scope R_scope.

(** * C01: Linear1D is the line through the two values of the cell, outside the grid that of the
    outermost cell. *)
Theorem C01_one_dim :
  forall c vals a dom at_ x i, grid1 c vals a dom at_ -> dom x -> in_cell a x i ->
  linear1 ROps c at_ x = Ok ((1 - local_coord a x i) * val_at vals i + local_coord a x i * val_at vals (i + 1)).
Proof. exact formula_one_dim. Qed.

(** * C02: samples of p + q x are reproduced, by LinearHoldLast1D with x moved into the grid. *)
Theorem C02_one_dim :
  forall c vals a dom at_ p q x, grid1 c vals a dom at_ -> dom x ->
  (forall i, (0 <= i < npts a)%Z -> val_at vals i = p + q * coord a i) ->
  linear1 ROps c at_ x = Ok (p + q * x) /\ hold_last1 ROps c at_ x = Ok (p + q * clamp a x).
Proof. exact affine_one_dim. Qed.

(** * C04: between two neighbouring grid points the result lies between their values. *)
Theorem C04_one_dim :
  forall c vals a dom at_ x i, grid1 c vals a dom at_ -> (0 <= i <= npts a - 2)%Z -> coord a i <= x <= coord a (i + 1) ->
  exists r, linear1 ROps c at_ x = Ok r /\ hold_last1 ROps c at_ x = Ok r /\ between (val_at vals i) (val_at vals (i + 1)) r.
Proof. exact cell_range_one_dim. Qed.

(** * C05: both interpolants are continuous everywhere. *)
Theorem C05_one_dim :
  forall c vals a dom at_, grid1 c vals a dom at_ ->
  exists F, (forall x, dom x -> linear1 ROps c at_ x = Ok (F x) /\ hold_last1 ROps c at_ x = Ok (F (clamp a x))) /\
    continuity F /\ continuity (fun x => F (clamp a x)).
Proof. exact continuous_one_dim. Qed.

(** Values 10, 20, 50 over 0, 1, 4: the slope is 10 throughout. *)
Example C01_one_dim_ex : linear1 ROps rplain (c1_at ROps rplain e1_rect) 7 = Ok 80.
Proof.
  rewrite (C01_one_dim _ _ _ _ _ 7 1 e1_rect_ok I).
  - f_equal. unfold local_coord, val_at. simpl. lra.
  - split; [vm_compute; split; discriminate|]. split; [right; simpl; lra|left; reflexivity].
Qed.
Example C02_one_dim_ex : linear1 ROps rplain (c1_at ROps rplain e1_rect) (-3) = Ok (10 + 10 * -3) /\
  hold_last1 ROps rplain (c1_at ROps rplain e1_rect) (-3) = Ok (10 + 10 * clamp (list_axis e1_grid) (-3)).
Proof.
  apply (C02_one_dim _ _ _ _ _ 10 10 (-3) e1_rect_ok I). intros i Hi. change (npts (list_axis e1_grid)) with 3%Z in Hi.
  assert (E : (i = 0 \/ i = 1 \/ i = 2)%Z) by lia. destruct E as [->|[->| ->]]; unfold val_at; simpl; lra.
Qed.
Example C04_one_dim_ex : exists r, linear1 ROps rplain (c1_at ROps rplain e1_rect) 3 = Ok r /\
  hold_last1 ROps rplain (c1_at ROps rplain e1_rect) 3 = Ok r /\ between 20 50 r.
Proof. apply (C04_one_dim _ _ _ _ _ 3 1 e1_rect_ok); [vm_compute; split; discriminate|simpl; lra]. Qed.
Example C05_one_dim_ex : exists F, (forall x, linear1 ROps rplain (c1_at ROps rplain e1_rect) x = Ok (F x)) /\ continuity F.
Proof.
  destruct (C05_one_dim _ _ _ _ _ e1_rect_ok) as (F & E & C & _). exists F. split; [|exact C]. intros x. exact (proj1 (E x I)).
Qed.

Print Assumptions C01_one_dim.
Print Assumptions C02_one_dim.
Print Assumptions C04_one_dim.
Print Assumptions C05_one_dim.
