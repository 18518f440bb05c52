(** Property C95: what the constructors of the one-dimensional grids accept, and which evaluations
    can panic. *)
From Coq Require Import Reals Lra PeanoNat Bool Lia List String ZArith.
From Flocq Require Import Core.Core IEEE754.BinarySingleNaN.
From Verif Require Import Base Ops FInst ModelCore ModelOneDim Spec SpecTotal1D.
From Verif Require Import Total1D ExampleData PropertiesFloat.
Import ListNotations.
Open Scope string_scope.
Open Scope Z_scope.
Unset Implicit Arguments.

(** * C95: an accepted one-dimensional interpolator never panics. *)

(** Rectilinear grids: exactly the documented inputs are accepted, and every evaluation of an
    accepted interpolator returns a number, whatever the coordinates (sorted or not), the values and
    the observation are. *)
Theorem C95_rectilinear_accepts :
  forall F (grid vals : list F),
  (length grid = length vals /\ (2 <= length grid)%nat -> c1_new grid vals = Ok (mkC1 grid vals)) /\
  (~ (length grid = length vals /\ (2 <= length grid)%nat) -> c1_new grid vals = Err "Length mismatch").
Proof. intros F. exact c1_new_exact. Qed.
Theorem C95_rectilinear :
  forall F (o : Ops F) c grid vals g eval x,
  zlen vals <= isize_max -> c1_new grid vals = Ok g -> method_1d o c (c1_at o c g) eval ->
  exists r, eval x = Ok r.
Proof. intros F o c. exact (rectilinear_total o c). Qed.

(** Regular grids. The full claim: *)
Definition regular_never_panics : Prop :=
  forall c start step (vals : list f64) g eval x,
  zlen vals <= isize_max -> r1_new F64Ops c start step vals = Ok g -> method_1d F64Ops c (r1_at F64Ops c g) eval ->
  eval x <> Panic.
(** It is false: the constructor accepts a single value, and then every observation whose cell number
    can be represented panics. The same holds for no values at all in a build without overflow checks;
    with them the constructor itself panics. *)
Theorem C95_regular_short :
  forall prec emax (Hp : Prec_gt_0 prec) (He : Prec_lt_emax prec emax), let o := BOps Hp He in
  forall c (start step : binary_float prec emax) vals g eval x,
  zlen vals < 2 -> r1_new o c start step vals = Ok g -> method_1d o c (r1_at o c g) eval ->
  steps_fit Hp He start step x -> eval x = Panic.
Proof. exact regular_short. Qed.
Theorem C95_regular_accepts :
  forall prec emax (Hp : Prec_gt_0 prec) (He : Prec_lt_emax prec emax), let o := BOps Hp He in
  forall c (start step : binary_float prec emax) vals,
  (vals <> [] -> zlen vals <= isize_max -> exists g, r1_new o c start step vals = Ok g) /\
  (vals = [] -> if ovf_checks c then r1_new o c start step vals = Panic else exists g, r1_new o c start step vals = Ok g).
Proof. exact r1_new_ieee. Qed.
Theorem C95_regular_refuted : ~ regular_never_panics.
Proof.
  intros H.
  destruct (proj1 (C95_regular_accepts 53 1024 Hp64 He64 plain (z64 0) (z64 1) [z64 5])) as (g & E);
    [discriminate|vm_compute; discriminate|].
  assert (E' : r1_new F64Ops plain (z64 0) (z64 1) [z64 5] = Ok g) by exact E.
  apply (H plain (z64 0) (z64 1) [z64 5] g _ (z64 0) ltac:(vm_compute; discriminate) E' (m1_left _ _ _)).
  apply (C95_regular_short 53 1024 Hp64 He64 plain (z64 0) (z64 1) [z64 5] g (left1 (r1_at F64Ops plain g)) (z64 0));
    [reflexivity|exact E|exact (m1_left F64Ops plain _)|].
  split; [vm_compute; reflexivity|].
  assert (Z0 : B2R (Bdiv mode_NE (Bminus mode_NE (z64 0) (z64 0)) (z64 1)) = 0%R).
  { replace (Bdiv mode_NE (Bminus mode_NE (z64 0) (z64 0)) (z64 1)) with (z64 0); [reflexivity|].
    apply B2SF_inj. vm_compute. reflexivity. }
  unfold f64 in *. rewrite Z0. split; [rewrite <- opp_IZR; apply IZR_le|apply IZR_lt]; vm_compute; congruence.
Qed.
(** What holds: with at least two values no evaluation panics, for every number type and whatever the
    numbers are. *)
Theorem C95_regular_partial :
  forall F (o : Ops F) c start step vals g eval x,
  2 <= zlen vals <= isize_max -> r1_new o c start step vals = Ok g -> method_1d o c (r1_at o c g) eval ->
  (exists r, eval x = Ok r) \/ eval x = Err "Unrepresentable number".
Proof. intros F o c. exact (regular_total o c). Qed.
(** On IEEE floats the error is returned exactly when the computed number of steps from the start is
    not a number that fits in isize. *)
Theorem C95_regular_ieee_partial :
  forall prec emax (Hp : Prec_gt_0 prec) (He : Prec_lt_emax prec emax), let o := BOps Hp He in
  forall c (start step : binary_float prec emax) vals g eval x,
  2 <= zlen vals <= isize_max -> r1_new o c start step vals = Ok g -> method_1d o c (r1_at o c g) eval ->
  (steps_fit Hp He start step x -> exists r, eval x = Ok r) /\
  (~ steps_fit Hp He start step x -> eval x = Err "Unrepresentable number").
Proof. exact regular_ieee. Qed.
(** Batches panic only if the evaluation of one of their points does. *)
Theorem C95_batch :
  forall F (o : Ops F) (one : F -> outcome F) locs out,
  (forall x, In x locs -> one x <> Panic) -> fst (eval1 one locs out) <> Panic /\ eval1_alloc o one locs <> Panic.
Proof. intros F o. exact (batch_1d o). Qed.

(** Examples: an unsorted grid with NaN coordinates; a step of zero; one value in a release build. *)
Example C95_rectilinear_ex : exists r,
  hold_last1 F64Ops plain (c1_at F64Ops plain (mkC1 [z64 3; nan64; z64 1] [z64 1; z64 2; inf64])) nan64 = Ok r.
Proof.
  apply (C95_rectilinear _ F64Ops plain [z64 3; nan64; z64 1] [z64 1; z64 2; inf64] (mkC1 [z64 3; nan64; z64 1] [z64 1; z64 2; inf64]));
    [vm_compute; discriminate|reflexivity|constructor].
Qed.
Example C95_accepts_ex : c1_new [z64 1; z64 2] [z64 5] = Err "Length mismatch" /\ c1_new [z64 1] [z64 5] = Err "Length mismatch".
Proof. split; apply C95_rectilinear_accepts; simpl; lia. Qed.
Example C95_regular_ex : exists g, r1_new F64Ops plain (z64 1) (z64 0) [z64 4; z64 5] = Ok g /\
  nearest1 F64Ops (r1_at F64Ops plain g) (z64 2) = Err "Unrepresentable number".
Proof.
  destruct (proj1 (C95_regular_accepts 53 1024 Hp64 He64 plain (z64 1) (z64 0) [z64 4; z64 5])) as (g & E);
    [discriminate|vm_compute; discriminate|].
  exists g. split; [exact E|].
  apply (C95_regular_ieee_partial 53 1024 Hp64 He64 plain (z64 1) (z64 0) [z64 4; z64 5] g (nearest1 F64Ops (r1_at F64Ops plain g)) (z64 2));
    [vm_compute; split; discriminate|exact E|exact (m1_nearest F64Ops plain _)|].
  intros (Q & _). vm_compute in Q. discriminate.
Qed.
Example C95_batch_ex : eval1_alloc F64Ops
  (linear1 F64Ops plain (c1_at F64Ops plain (mkC1 [z64 1; z64 2] [z64 5; z64 6]))) [z64 7; nan64] <> Panic.
Proof.
  apply (C95_batch _ F64Ops _ [z64 7; nan64] []). intros x _.
  destruct (C95_rectilinear _ F64Ops plain [z64 1; z64 2] [z64 5; z64 6] (mkC1 [z64 1; z64 2] [z64 5; z64 6])
    (linear1 F64Ops plain (c1_at F64Ops plain (mkC1 [z64 1; z64 2] [z64 5; z64 6]))) x) as (r & E);
    [vm_compute; discriminate|reflexivity|constructor|]. rewrite E. discriminate.
Qed.
Print Assumptions C95_rectilinear_accepts.
Print Assumptions C95_rectilinear.
Print Assumptions C95_regular_short.
Print Assumptions C95_regular_accepts.
Print Assumptions C95_regular_refuted.
Print Assumptions C95_regular_partial.
Print Assumptions C95_regular_ieee_partial.
Print Assumptions C95_batch.
