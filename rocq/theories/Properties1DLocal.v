(** The one-dimensional interpolators read two neighbouring stored values (C19). *)
From Coq Require Import Reals Lia ZArith List.
From Verif Require Import Base Ops RInst FInst ModelOneDim Spec1DLocal OneDimLocal ExampleData ExampleReal PropertiesOneDim.
Import ListNotations.
Unset Implicit Arguments.

(** * C19 for src/one_dim, for every number type and every observation, NaN included: which two
    values are read depends on the grid and the observation only. *)
Theorem C19_one_dim_regular :
  forall F (o : Ops F) c start step n x, (2 <= Z.of_nat n <= isize_max)%Z ->
  exists i, (i + 1 < n)%nat /\ forall vals vals' g g', length vals = n -> length vals' = n ->
  r1_new o c start step vals = Ok g -> r1_new o c start step vals' = Ok g' -> same_pair i vals vals' ->
  same_results o c (r1_at o c g) (r1_at o c g') x.
Proof. exact @local_regular. Qed.
Theorem C19_one_dim_rectilinear :
  forall F (o : Ops F) c grid x, (2 <= zlen grid <= isize_max)%Z ->
  exists i, (i + 1 < length grid)%nat /\ forall vals vals' g g',
  c1_new grid vals = Ok g -> c1_new grid vals' = Ok g' -> same_pair i vals vals' ->
  same_results o c (c1_at o c g) (c1_at o c g') x.
Proof. exact @local_rectilinear. Qed.

(** At every observation the last or the first of three values can be changed. *)
Definition l1_high : list R := [10; 20; 99]%R.
Definition l1_low : list R := [-7; 20; 50]%R.
Example C19_one_dim_rectilinear_ex : forall x : R,
  same_results ROps rplain (c1_at ROps rplain (mkC1 e1_grid e1_vals)) (c1_at ROps rplain (mkC1 e1_grid l1_high)) x \/
  same_results ROps rplain (c1_at ROps rplain (mkC1 e1_grid e1_vals)) (c1_at ROps rplain (mkC1 e1_grid l1_low)) x.
Proof.
  intros x. destruct (C19_one_dim_rectilinear R ROps rplain e1_grid x) as (i & Hi & H); [vm_compute; split; discriminate|].
  cbn in Hi. assert (E : i = 0%nat \/ i = 1%nat) by lia. destruct E as [->| ->].
  - left. apply (H e1_vals l1_high); [reflexivity|reflexivity|split; reflexivity].
  - right. apply (H e1_vals l1_low); [reflexivity|reflexivity|split; reflexivity].
Qed.
Example C19_one_dim_regular_ex : forall x : R,
  same_results ROps rplain (r1_at ROps rplain e1_reg) (r1_at ROps rplain (mkR1 0 (0 + 2 * 2) 2 l1_high)%R) x \/
  same_results ROps rplain (r1_at ROps rplain e1_reg) (r1_at ROps rplain (mkR1 0 (0 + 2 * 2) 2 l1_low)%R) x.
Proof.
  intros x. destruct (C19_one_dim_regular R ROps rplain 0%R 2%R 3 x) as (i & Hi & H); [vm_compute; split; discriminate|].
  assert (E : i = 0%nat \/ i = 1%nat) by lia. destruct E as [->| ->].
  - left. apply (H e1_vals l1_high); [reflexivity|reflexivity|reflexivity|reflexivity|split; reflexivity].
  - right. apply (H e1_vals l1_low); [reflexivity|reflexivity|reflexivity|reflexivity|split; reflexivity].
Qed.

Print Assumptions C19_one_dim_regular.
Print Assumptions C19_one_dim_rectilinear.
