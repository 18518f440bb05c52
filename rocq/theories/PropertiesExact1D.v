(** Property C89 in one dimension: on dyadic data Linear1D and LinearHoldLast1D make no rounding
    error. *)
From Coq Require Import Reals Lra PeanoNat Bool Lia List.
From Flocq Require Import Core.Core IEEE754.BinarySingleNaN.
From Verif Require Import Base Ops RInst FInst ModelCore ModelOneDim Spec SpecOrder SpecIEEE SpecReal Spec1D SpecExact.
From Verif Require Import FExact1D ExampleData ExampleReal PropertiesExact PropertiesFloat PropertiesError PropertiesDyadic.
Import ListNotations.
Open Scope R_scope.
Unset Implicit Arguments.

(** * C89: rectilinear grids whose spacings are powers of two between 2^lo and 2^hi, a point inside
    the grid. The last two conditions keep the slopes of the data from overflow and underflow. *)
Theorem C89_one_dim_rectilinear :
  forall prec emax (Hp : Prec_gt_0 prec) (He : Prec_lt_emax prec emax), let o := BOps Hp He in
  forall c (grid vals : list (binary_float prec emax)) gr x a b g lo hi, let ax := list_axis (map B2R grid) in
  (zlen vals <= isize_max)%Z -> increasing_grid o grid -> Forall moderate grid -> is_finite x = true ->
  c1_new grid vals = Ok gr -> coord ax 0 <= B2R x <= coord ax (npts ax - 1) ->
  (0 <= a)%Z -> (0 <= b)%Z -> dyadic_grid prec emax b grid x -> dyadic_values prec emax a g vals ->
  (forall i, (0 <= i <= npts ax - 2)%Z -> bpow radix2 lo <= coord ax (i + 1) - coord ax i <= bpow radix2 hi) ->
  (a + 1 + b <= prec)%Z -> (3 - emax - prec <= g - b)%Z -> (g + a + 1 < emax)%Z ->
  (3 - emax - prec <= g - hi)%Z -> (g + a + 1 - lo < emax)%Z ->
  forall c' (dom : R -> Prop) at_, grid1 c' (map B2R vals) ax dom at_ -> dom (B2R x) ->
  exists y, linear1 o c (c1_at o c gr) x = Ok y /\ hold_last1 o c (c1_at o c gr) x = Ok y /\ is_finite y = true /\
    linear1 ROps c' at_ (B2R x) = Ok (B2R y).
Proof. intros prec emax Hp He o. exact (exact_one_dim prec emax Hp He). Qed.

(** Regular grids whose step is 2^e. *)
Theorem C89_one_dim_regular :
  forall prec emax (Hp : Prec_gt_0 prec) (He : Prec_lt_emax prec emax), let o := BOps Hp He in
  forall c (start h x : binary_float prec emax) vals gr a b g e, let ax := mkAxis (zlen vals) (fun i => B2R start + B2R h * IZR i) in
  (2 <= prec <= 62)%Z -> (2 <= zlen vals <= isize_max)%Z -> r1_new o c start h vals = Ok gr ->
  (0 <= a)%Z -> (0 <= b)%Z -> dyadic_axis prec emax b start h x (zlen vals) -> dyadic_values prec emax a g vals -> B2R h = bpow radix2 e ->
  (a + 1 + b <= prec)%Z -> (3 - emax - prec <= g - b)%Z -> (g + a + 1 < emax)%Z -> (3 - emax - prec <= g - e)%Z -> (g + a + 1 - e < emax)%Z ->
  forall c' (dom : R -> Prop) at_, grid1 c' (map B2R vals) ax dom at_ -> dom (B2R x) ->
  exists y, linear1 o c (r1_at o c gr) x = Ok y /\ hold_last1 o c (r1_at o c gr) x = Ok y /\ is_finite y = true /\
    linear1 ROps c' at_ (B2R x) = Ok (B2R y).
Proof. intros prec emax Hp He o. exact (exact_one_dim_regular prec emax Hp He). Qed.

(** The condition on the slopes is needed: grid 0, 2^-1060 and values 0, 1, at 0. Only the slope
    overflows; every number given has one binary digit. *)
Theorem C89_one_dim_slope_needed :
  match c1_new [z64 0; f64_lit 1 (-1060)] [z64 0; z64 1] with
  | Ok g => match linear1 F64Ops plain (c1_at F64Ops plain g) (z64 0) with Ok y => is_nan y | _ => false end
  | _ => false end = true.
Proof. vm_compute. reflexivity. Qed.

Definition x1_grid : list f64 := [z64 0; f64_lit 1 (-1); f64_lit 5 (-1)].
Definition x1_vals : list f64 := [z64 1; z64 3; z64 7].
Lemma x1_real : map B2R x1_grid = [0; 1 / 2; 5 / 2].
Proof. unfold x1_grid. cbn [map]. repeat (apply f_equal2); try reflexivity; real_lit. Qed.
Lemma x1_vals_real : map B2R x1_vals = [1; 3; 7].
Proof. unfold x1_vals. cbn [map]. repeat (apply f_equal2); try reflexivity; real_lit. Qed.
Lemma x1_point : B2R (f64_lit 3 (-2)) = 3 / 4.
Proof. real_lit. Qed.
Lemma x1_dyadic : dyadic_values 53 1024 3 0 x1_vals.
Proof.
  unfold dyadic_values, x1_vals. repeat (apply Forall_cons; [split; [reflexivity|]|]); [| | |apply Forall_nil]; split.
  - whole_by 1%Z. - simpl bpow. apply Rabs_le; real_lit.
  - whole_by 3%Z. - simpl bpow. apply Rabs_le; real_lit.
  - whole_by 7%Z. - simpl bpow. apply Rabs_le; real_lit.
Qed.
(** Values 1, 3, 7 over 0, 1/2, 5/2, at 3/4: exactly 7/2. *)
Example C89_one_dim_rectilinear_ex : exists y, linear1 F64Ops fused (c1_at F64Ops fused (mkC1 x1_grid x1_vals)) (f64_lit 3 (-2)) = Ok y /\
  linear1 ROps rplain (c1_at ROps rplain (mkC1 [0; 1 / 2; 5 / 2] [1; 3; 7])) (3 / 4) = Ok (B2R y).
Proof.
  assert (D := dy_dyadic). unfold dy_grids in D. fold x1_grid in D.
  assert (D1 : dyadic_grid 53 1024 3 x1_grid (f64_lit 3 (-2))) by (inversion D; assumption).
  assert (M := Forall_inv dy_mod). fold x1_grid in M. assert (I' := Forall_inv dy_inc). fold x1_grid in I'.
  destruct (C89_one_dim_rectilinear _ _ Hp64 He64 fused x1_grid x1_vals (mkC1 x1_grid x1_vals) (f64_lit 3 (-2)) 3 3 0 (-1) 1)
    with (c' := rplain) (dom := fun _ : R => True) (at_ := c1_at ROps rplain (mkC1 [0; 1 / 2; 5 / 2] [1; 3; 7])) as (y & E & _ & _ & R); try lia.
  - vm_compute. discriminate.
  - exact I'.
  - exact M.
  - reflexivity.
  - reflexivity.
  - rewrite x1_real, x1_point. simpl. lra.
  - exact D1.
  - exact x1_dyadic.
  - intros i Hi. rewrite x1_real in *. unfold list_axis in Hi. cbn [npts] in Hi. unfold zlen in Hi. simpl in Hi.
    assert (E : i = 0%Z \/ i = 1%Z) by lia. destruct E as [->| ->]; simpl; lra.
  - rewrite x1_real, x1_vals_real. apply (@grid1_rectilinear rplain [1; 3; 7] [0; 1 / 2; 5 / 2] (mkC1 [0; 1 / 2; 5 / 2] [1; 3; 7]));
      [vm_compute; discriminate|sorted_ok|reflexivity].
  - exists y. rewrite x1_point in R. split; [exact E|exact R].
Qed.

(** Over 0, 1/2, 1, at 3/4: exactly 5. *)
Example C89_one_dim_regular_ex : exists g y, r1_new F64Ops plain (z64 0) (f64_lit 1 (-1)) x1_vals = Ok g /\
  linear1 F64Ops plain (r1_at F64Ops plain g) (f64_lit 3 (-2)) = Ok y /\ B2R y = 5.
Proof.
  destruct (@is_ok_ex _ (r1_new F64Ops plain (z64 0) (f64_lit 1 (-1)) x1_vals)) as (g & Eg); [vm_compute; reflexivity|].
  assert (Vh : B2R (f64_lit 1 (-1)) = bpow radix2 (-1)) by (simpl bpow; real_lit).
  assert (Ph : 0 < B2R (f64_lit 1 (-1))) by (rewrite Vh; apply bpow_gt_0).
  destruct (r1_new ROps rplain (B2R (z64 0)) (B2R (f64_lit 1 (-1))) (map B2R x1_vals)) as [gr| |] eqn:E1; [|discriminate E1..].
  assert (G := @grid1_regular rplain (map B2R x1_vals) (B2R (z64 0)) (B2R (f64_lit 1 (-1))) gr ltac:(vm_compute; split; discriminate) Ph E1).
  assert (S0 : B2R (z64 0) = 0) by real_lit.
  destruct (C89_one_dim_regular _ _ Hp64 He64 plain (z64 0) (f64_lit 1 (-1)) (f64_lit 3 (-2)) x1_vals g 3 1 0 (-1) ltac:(lia) ltac:(vm_compute; split; discriminate)
    Eg ltac:(lia) ltac:(lia) axis0_dyadic x1_dyadic Vh ltac:(lia) ltac:(lia) ltac:(lia) ltac:(lia) ltac:(lia) _ _ _ G) as (y & E & _ & F & _).
  { rewrite x1_point, Vh, S0. unfold isize_min, isize_max. simpl. split; lra. }
  exists g, y. split; [exact Eg|]. split; [exact E|].
  assert (Q : match r1_new F64Ops plain (z64 0) (f64_lit 1 (-1)) x1_vals with Ok g => ok_is (linear1 F64Ops plain (r1_at F64Ops plain g) (f64_lit 3 (-2))) (z64 5) | _ => false end = true) by (vm_compute; reflexivity).
  rewrite Eg in Q. assert (E' : linear1 F64Ops plain (r1_at F64Ops plain g) (f64_lit 3 (-2)) = Ok y) by exact E. rewrite E' in Q.
  apply (lit_value y (z64 5)); [exact F|reflexivity|exact Q|real_lit].
Qed.

Print Assumptions C89_one_dim_rectilinear.
Print Assumptions C89_one_dim_regular.
Print Assumptions C89_one_dim_slope_needed.
