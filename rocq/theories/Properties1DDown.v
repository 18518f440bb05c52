(** Regular one-dimensional grids whose step is not positive (C107). RegularGrid1D::new accepts
    them. *)
From Coq Require Import Reals Lra Lia ZArith List.
From Flocq Require Import Core.Core IEEE754.BinarySingleNaN.
From Verif Require Import Base Ops RInst FInst ModelOneDim Spec SpecReal Spec1D Spec1DMaps SpecTotal1D OneDimDown.
From Verif Require Import ExampleData ExampleReal PropertiesFloat PropertiesOneDim Properties1DMaps.
Import ListNotations.
Unset Implicit Arguments.
Open Scope R_scope.

(** * C107: with a negative step Linear1D is right, and Nearest1D except halfway between grid points:
    the results are those of the increasing grid with the values reversed. *)
Theorem C107_linear :
  forall c start step vals, (2 <= zlen vals <= isize_max)%Z -> step < 0 ->
  forall c' g g' x, let stop := start + step * IZR (zlen vals - 1) in
  r1_new ROps c start step vals = Ok g -> r1_new ROps c' stop (- step) (rev vals) = Ok g' ->
  IZR isize_min <= (x - start) / step < IZR (isize_max + 1) -> IZR isize_min <= (x - stop) / - step < IZR (isize_max + 1) ->
  linear1 ROps c (r1_at ROps c g) x = linear1 ROps c' (r1_at ROps c' g') x /\
  (no_tie (mkAxis (zlen vals) (fun i => stop + - step * IZR i)) x ->
   nearest1 ROps (r1_at ROps c g) x = nearest1 ROps (r1_at ROps c' g') x).
Proof. exact down_linear. Qed.

(** LinearHoldLast1D, Left1D and Right1D are not: the three return the same, a stored value, and
    outside the grid not the value at its end. *)
Theorem C107_hold_last :
  forall c start step vals, (2 <= zlen vals <= isize_max)%Z -> step < 0 ->
  forall g ev x, r1_new ROps c start step vals = Ok g ->
  ev = hold_last1 ROps c (r1_at ROps c g) \/ ev = left1 (r1_at ROps c g) \/ ev = right1 (r1_at ROps c g) ->
  IZR isize_min <= (x - start) / step < IZR (isize_max + 1) ->
  (start < x -> ev x = Ok (val_at vals 1)) /\
  (forall i, (0 <= i <= zlen vals - 2)%Z -> start + step * IZR (i + 1) < x <= start + step * IZR i -> ev x = Ok (val_at vals (i + 1))) /\
  (x <= start + step * IZR (zlen vals - 1) -> ev x = Ok (val_at vals (zlen vals - 2))).
Proof. exact down_holds. Qed.

(** With a step that is zero or NaN every evaluation returns an error. *)
Theorem C107_no_step :
  forall prec emax (Hp : Prec_gt_0 prec) (He : Prec_lt_emax prec emax), let o := BOps Hp He in
  forall c (start step : binary_float prec emax) vals g ev x,
  flt o (fzero o) step = false -> flt o step (fzero o) = false ->
  r1_new o c start step vals = Ok g -> method_1d o c (r1_at o c g) ev -> ev x = Err msg_num.
Proof. exact @flat_err. Qed.

(** The grid 4, 2, 0 with values 10, 20, 50, in f64, at 3: Linear1D returns 15, LinearHoldLast1D 20;
    at 5, Left1D returns 20 and not 10. *)
Theorem C107_hold_last_refuted :
  match r1_new F64Ops plain (z64 4) (z64 (-2)) [z64 10; z64 20; z64 50] with
  | Ok g => ok_is (linear1 F64Ops plain (r1_at F64Ops plain g) (z64 3)) (z64 15) &&
            ok_is (hold_last1 F64Ops plain (r1_at F64Ops plain g) (z64 3)) (z64 20) &&
            ok_is (left1 (r1_at F64Ops plain g) (z64 5)) (z64 20)
  | _ => false end = true.
Proof. vm_compute. reflexivity. Qed.

Definition d1_down := mkR1 4 (4 + -2 * 2) (-2) e1_vals.
Definition d1_up := mkR1 (4 + -2 * IZR 2) (4 + -2 * IZR 2 + - -2 * 2) (- -2) (rev e1_vals).
Example C107_linear_ex : linear1 ROps rplain (r1_at ROps rplain d1_down) 3 = linear1 ROps rplain (r1_at ROps rplain d1_up) 3.
Proof.
  apply (C107_linear rplain 4 (-2) e1_vals); [vm_compute; split; discriminate|lra|reflexivity|reflexivity| |].
  - fits1.
  - change (zlen e1_vals - 1)%Z with 2%Z. replace ((3 - (4 + -2 * 2)) / - -2) with (3 / 2) by (field; lra). fits1.
Qed.
Example C107_hold_last_ex : hold_last1 ROps rplain (r1_at ROps rplain d1_down) 3 = Ok (val_at e1_vals 1) /\
  left1 (r1_at ROps rplain d1_down) 5 = Ok (val_at e1_vals 1).
Proof.
  split.
  - apply (C107_hold_last rplain 4 (-2) e1_vals ltac:(vm_compute; split; discriminate) ltac:(lra) d1_down _ 3 eq_refl (or_introl eq_refl) ltac:(fits1) ) with (i := 0%Z);
      [vm_compute; split; discriminate|simpl; lra].
  - apply (proj1 (C107_hold_last rplain 4 (-2) e1_vals ltac:(vm_compute; split; discriminate) ltac:(lra) d1_down _ 5 eq_refl (or_intror (or_introl eq_refl)) ltac:(fits1))). lra.
Qed.
Example C107_no_step_ex : exists g, r1_new F64Ops plain (z64 1) (z64 0) [z64 10; z64 20] = Ok g /\
  linear1 F64Ops plain (r1_at F64Ops plain g) (z64 1) = Err msg_num.
Proof.
  assert (G : exists g, r1_new F64Ops plain (z64 1) (z64 0) [z64 10; z64 20] = Ok g) by (apply is_ok_ex; vm_compute; reflexivity).
  destruct G as (g & Hg). exists g. split; [exact Hg|].
  apply (C107_no_step _ _ Hp64 He64 plain (z64 1) (z64 0) [z64 10; z64 20] g); [vm_compute; reflexivity|vm_compute; reflexivity|exact Hg|constructor].
Qed.

Print Assumptions C107_linear.
Print Assumptions C107_hold_last.
Print Assumptions C107_no_step.
Print Assumptions C107_hold_last_refuted.
