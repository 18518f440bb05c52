(** Property C100: ranges that floating-point multilinear interpolation does not leave. *)
From Coq Require Import Reals Lra PeanoNat Bool Lia List String.
From Flocq Require Import Core.Core IEEE754.BinarySingleNaN.
From Verif Require Import Base Ops FInst ModelCore ModelLinear ModelCubic ModelOneDim ModelPython Spec SpecOrder SpecIEEE SpecCubicError SpecPython SpecDetect SpecPixel SpecMonotone SpecMissing SpecRange.
From Verif Require Import GenLemmas FLemmas FProofs FProofs2 FSign FMissing FRange ExampleData.
From Verif Require Import PropertiesExact PropertiesFloat PropertiesFloat1D PropertiesError PropertiesPython PropertiesDetect PropertiesSign PropertiesMonotone PropertiesMissing.
Import ListNotations.
Unset Implicit Arguments.
Open Scope string_scope.
Open Scope R_scope.

(** * C100: if the values at the corners of the cell are in a safe range, so is the result; there is no
    rounding error beyond the ends of the range. *)
Theorem C100_rectilinear :
  forall prec emax (Hp : Prec_gt_0 prec) (He : Prec_lt_emax prec emax), let o := BOps Hp He in
  forall c grids vals eval (x : list (binary_float prec emax)) cells (lo hi : binary_float prec emax),
  float_rectilinear Hp He c grids vals eval ->
  Forall (increasing_grid o) grids -> Forall (Forall moderate) grids -> Forall2 (SpecIEEE.inside_grid Hp He) grids x ->
  rectilinear_cells o grids x cells -> safe_range lo hi ->
  (forall idx, corner cells idx -> let v := entry (fzero o) (map zlen grids) vals idx in is_finite v = true /\ B2R lo <= B2R v <= B2R hi) ->
  exists v, eval x = Ok v /\ is_finite v = true /\ B2R lo <= B2R v <= B2R hi.
Proof. exact rectilinear_range. Qed.
(** Regular grids that start at 0 and have steps that are powers of two. *)
Theorem C100_regular :
  forall prec emax (Hp : Prec_gt_0 prec) (He : Prec_lt_emax prec emax), let o := BOps Hp He in
  forall c dims starts steps vals eval (x : list (binary_float prec emax)) cells (lo hi : binary_float prec emax),
  float_regular Hp He c dims starts steps vals eval -> (2 <= prec <= 63)%Z -> regular_cells Hp He dims starts steps x cells ->
  (forall k start step d xk, nth_error starts k = Some start -> nth_error steps k = Some step -> nth_error dims k = Some d ->
     nth_error x k = Some xk ->
     pixel_axis prec emax start step d /\ is_finite xk = true /\ 0 <= B2R xk <= B2R step * IZR (d - 1)) ->
  safe_range lo hi ->
  (forall idx, corner cells idx -> let v := entry (fzero o) dims vals idx in is_finite v = true /\ B2R lo <= B2R v <= B2R hi) ->
  exists v, eval x = Ok v /\ is_finite v = true /\ B2R lo <= B2R v <= B2R hi.
Proof. exact pixel_range. Qed.
(** The Python function interpn with method "linear", if the grids are not all evenly spaced, and if all are
    and start at 0 with a step that is a power of two. *)
Theorem C100_python :
  forall prec emax (Hp : Prec_gt_0 prec) (He : Prec_lt_emax prec emax), let o := BOps Hp He in
  forall c obs grids vals o0 lin assume atol (lo hi : binary_float prec emax),
  let gs := map nd_data grids in let xs := map nd_data obs in
  good_call 2 o0 obs grids vals -> (1 <= length grids <= 8)%nat -> Forall (increasing_grid o) gs ->
  assume = false -> ~ Forall (evenly_spaced o) gs -> Forall (Forall moderate) gs ->
  (forall j, (j < length (nd_data o0))%nat -> Forall2 (SpecIEEE.inside_grid Hp He) gs (point_of (fzero o) xs j)) ->
  safe_range lo hi -> Forall (fun v => is_finite v = true /\ B2R lo <= B2R v <= B2R hi) (nd_data vals) ->
  exists r, fst (py_interpn o c obs grids vals "linear" None lin assume false atol) = Ret r /\
  nd_shape r = nd_shape o0 /\ length (nd_data r) = length (nd_data o0) /\
  Forall (fun y => is_finite y = true /\ B2R lo <= B2R y <= B2R hi) (nd_data r).
Proof.
  intros prec emax Hp He o c obs grids vals o0 lin assume atol lo hi gs xs Hc Hn Hi Ha Hne Hm Hx HS V.
  exact (python_kept prec emax Hp He c obs grids vals o0 lin assume atol _ _ Hc Hn Hi Ha Hne Hm Hx (safe_kept prec emax Hp He lo hi HS) V).
Qed.
Theorem C100_python_regular :
  forall prec emax (Hp : Prec_gt_0 prec) (He : Prec_lt_emax prec emax), let o := BOps Hp He in
  forall c obs grids vals o0 lin assume atol (lo hi : binary_float prec emax),
  let gs := map nd_data grids in let xs := map nd_data obs in
  good_call 2 o0 obs grids vals -> (1 <= length grids <= 8)%nat -> assume = true \/ Forall (evenly_spaced o) gs ->
  Forall (fun g => pixel_axis prec emax (nth 0 g (fzero o)) (first_step prec emax Hp He g) (zlen g)) gs ->
  (forall j, (j < length (nd_data o0))%nat ->
     Forall2 (fun g x => is_finite x = true /\ 0 <= B2R x <= B2R (first_step prec emax Hp He g) * IZR (zlen g - 1)) gs (point_of (fzero o) xs j)) ->
  (2 <= prec <= 63)%Z -> safe_range lo hi -> Forall (fun v => is_finite v = true /\ B2R lo <= B2R v <= B2R hi) (nd_data vals) ->
  exists r, fst (py_interpn o c obs grids vals "linear" None lin assume false atol) = Ret r /\
  nd_shape r = nd_shape o0 /\ length (nd_data r) = length (nd_data o0) /\
  Forall (fun y => is_finite y = true /\ B2R lo <= B2R y <= B2R hi) (nd_data r).
Proof.
  intros prec emax Hp He o c obs grids vals o0 lin assume atol lo hi gs xs Hc Hn Ha Hg Hx P2 HS V.
  exact (python_pixel_kept prec emax Hp He c obs grids vals o0 lin assume atol _ _ Hc Hn Ha Hg Hx P2 (safe_kept prec emax Hp He lo hi HS) V).
Qed.
(** In a cell whose corners have the same value, the result is that value. *)
Theorem C100_constant_cell :
  forall prec emax (Hp : Prec_gt_0 prec) (He : Prec_lt_emax prec emax), let o := BOps Hp He in
  forall c grids vals eval (x : list (binary_float prec emax)) cells (w : binary_float prec emax),
  float_rectilinear Hp He c grids vals eval ->
  Forall (increasing_grid o) grids -> Forall (Forall moderate) grids -> Forall2 (SpecIEEE.inside_grid Hp He) grids x ->
  rectilinear_cells o grids x cells -> is_finite w = true ->
  (forall idx, corner cells idx -> entry (fzero o) (map zlen grids) vals idx = w) ->
  exists v, eval x = Ok v /\ is_real v (B2R w).
Proof. exact constant_cell. Qed.
(** If all values are in a range of the second kind, grid points get their stored value. *)
Theorem C100_nodes :
  forall prec emax (Hp : Prec_gt_0 prec) (He : Prec_lt_emax prec emax), let o := BOps Hp He in
  forall c grids vals eval idx (lo hi : binary_float prec emax), float_rectilinear Hp He c grids vals eval ->
  Forall (increasing_grid o) grids -> Forall (Forall (@moderate prec emax)) grids ->
  safe_range lo hi -> B2R lo <> 0 -> B2R hi <> 0 -> Forall (fun v => is_finite v = true /\ B2R lo <= B2R v <= B2R hi) vals ->
  in_shape (map zlen grids) idx ->
  exists v, eval (grid_point (fzero o) grids idx) = Ok v /\ is_real v (B2R (entry (fzero o) (map zlen grids) vals idx)).
Proof.
  intros prec emax Hp He o c grids vals eval idx lo hi H I S HS N0 N1 HV Hi.
  apply (C35_rectilinear_partial prec emax Hp He c grids vals eval idx H I S); auto.
  - eapply Forall_impl; [|exact HV]. intros v (F & _). exact F.
  - exact (double_differences prec emax Hp He lo hi vals HS N0 N1 HV).
Qed.
(** In f64, integers below 2^52 are short, and so is every f32 number. *)
Theorem C100_short_integers :
  forall (v : f64) k, B2R v = IZR k -> (Z.abs k < 2 ^ 52)%Z -> short_number v.
Proof. intros v k V H. exists k, 0%Z. split; [exact H|]. split; [lia|]. rewrite V. cbn [bpow]. ring. Qed.
Theorem C100_short_single :
  forall (v : f64) (u : f32), is_finite u = true -> B2R v = B2R u -> short_number v.
Proof. exact short_single. Qed.

(** ** Examples: temperatures in kelvin; the values outside the cell are missing or out of range. *)
Definition kt_vals : list f64 := [z64 273; f64_lit 2251 (-3); z64 300; z64 290; nan64; z64 (-7)].
Lemma kt_safe : @safe_range 53 1024 (z64 273) (z64 300).
Proof.
  assert (A : B2R (z64 273) = 273) by real_lit. assert (B : B2R (z64 300) = 300) by real_lit.
  split; [reflexivity|]. split; [reflexivity|]. rewrite A, B. split; [lra|]. right. right. left. lra.
Qed.
Lemma kt_cells : rectilinear_cells F64Ops lin_grids [tenth; z64 2] [0; 0]%Z.
Proof.
  apply cells_two.
  - apply (bracket_by [z64 0; f64_lit 1 (-1); z64 2] tenth 0 (z64 0) (f64_lit 1 (-1))); [vm_compute; split; discriminate|reflexivity|reflexivity|vm_compute; reflexivity|vm_compute; reflexivity].
  - apply (bracket_by [z64 1; z64 3] (z64 2) 0 (z64 1) (z64 3)); [vm_compute; split; discriminate|reflexivity|reflexivity|vm_compute; reflexivity|vm_compute; reflexivity].
Qed.
Ltac corner_cases := let idx := fresh in let A := fresh in intros idx A; apply corner_pair in A as (? & ? & -> & ? & ?);
  repeat match goal with H : (0 <= ?i <= 0 + 1)%Z |- _ => assert (i = 0 \/ i = 1)%Z as [-> | ->] by lia; clear H end.
Example C100_rectilinear_ex : exists s v, mlc_new F64Ops plain lin_grids kt_vals = Ok s /\
  mlc_interp_one F64Ops plain s [tenth; z64 2] = Ok v /\ is_finite v = true /\ 273 <= B2R v <= 300.
Proof.
  destruct (@is_ok_ex _ (mlc_new F64Ops plain lin_grids kt_vals)) as (s & E); [vm_compute; reflexivity|].
  assert (I : rect_input plain lin_grids kt_vals) by rect_ok.
  assert (A : B2R (z64 273) = 273) by real_lit. assert (B : B2R (z64 300) = 300) by real_lit. rewrite <- A, <- B.
  destruct (C100_rectilinear _ _ Hp64 He64 plain lin_grids kt_vals (mlc_interp_one F64Ops plain s) [tenth; z64 2] [0; 0]%Z (z64 273) (z64 300)) as (v & H1 & H2).
  - apply float_rectilinear_flat; assumption.
  - exact lin_inc.
  - exact lin_mod.
  - inside_ok.
  - exact kt_cells.
  - exact kt_safe.
  - rewrite A, B. corner_cases; (split; [reflexivity|]).
    + change (273 <= B2R (z64 273) <= 300). real_lit.
    + change (273 <= B2R (z64 300) <= 300). real_lit.
    + change (273 <= B2R (f64_lit 2251 (-3)) <= 300). real_lit.
    + change (273 <= B2R (z64 290) <= 300). real_lit.
  - exists s, v. auto.
Qed.
(** The cell of four equal values, next to a NaN. *)
Definition flat_vals : list f64 := [tenth; tenth; tenth; tenth; nan64; z64 (-7)].
Example C100_constant_cell_ex : exists s v, mlc_new F64Ops fused lin_grids flat_vals = Ok s /\
  mlc_interp_one F64Ops fused s [tenth; z64 2] = Ok v /\ is_real v (B2R tenth).
Proof.
  destruct (@is_ok_ex _ (mlc_new F64Ops fused lin_grids flat_vals)) as (s & E); [vm_compute; reflexivity|].
  assert (I : rect_input fused lin_grids flat_vals) by rect_ok.
  destruct (C100_constant_cell _ _ Hp64 He64 fused lin_grids flat_vals (mlc_interp_one F64Ops fused s) [tenth; z64 2] [0; 0]%Z tenth) as (v & H1 & H2).
  - apply float_rectilinear_flat; assumption.
  - exact lin_inc.
  - exact lin_mod.
  - inside_ok.
  - exact kt_cells.
  - reflexivity.
  - corner_cases; reflexivity.
  - exists s, v. auto.
Qed.
(** Grey levels from 0 to 255. *)
Lemma grey_safe : @safe_range 53 1024 (z64 0) (z64 255).
Proof.
  assert (A : B2R (z64 0) = 0) by real_lit. assert (B : B2R (z64 255) = 255) by real_lit.
  split; [reflexivity|]. split; [reflexivity|]. rewrite A, B. split; [lra|]. left. split; [lra|]. apply (C100_short_integers _ 255 B). reflexivity.
Qed.
Example C100_short_single_ex : @short_number 53 1024 (f64_lit 13421773 (-27)) /\ @short_number 53 1024 (z64 (-4503599627370495)).
Proof.
  split.
  - apply (C100_short_single _ (f32_lit 13421773 (-27)) eq_refl). unfold f64_lit, f32_lit. simpl. unfold F2R. simpl. lra.
  - apply (C100_short_integers _ (-4503599627370495)); [real_lit|reflexivity].
Qed.
Definition grey_vals : list f64 := [z64 255; tenth; z64 0; z64 17; z64 128; f64_lit 1019 (-2)].
Lemma grey_ok : Forall (fun v : f64 => is_finite v = true /\ B2R (z64 0) <= B2R v <= B2R (z64 255)) grey_vals.
Proof.
  assert (A : B2R (z64 0) = 0) by real_lit. assert (B : B2R (z64 255) = 255) by real_lit. rewrite A, B.
  unfold grey_vals, tenth. repeat (apply Forall_cons; [split; [reflexivity|real_lit]|]). apply Forall_nil.
Qed.
Example C100_regular_ex : exists s v, mlr_new F64Ops plain [4]%Z [z64 0] [half] [z64 9; z64 255; tenth; nan64] = Ok s /\
  mlr_interp_one F64Ops plain s [f64_lit 5 (-3)] = Ok v /\ is_finite v = true /\ 0 <= B2R v <= 255.
Proof.
  destruct (@is_ok_ex _ (mlr_new F64Ops plain [4]%Z [z64 0] [half] [z64 9; z64 255; tenth; nan64])) as (s & E); [vm_compute; reflexivity|].
  assert (I : reg_input plain [4]%Z [z64 0] [half] [z64 9; z64 255; tenth; nan64]) by reg_ok.
  assert (A : B2R (z64 0) = 0) by real_lit. assert (B : B2R (z64 255) = 255) by real_lit.
  destruct (C100_regular _ _ Hp64 He64 plain [4]%Z [z64 0] [half] [z64 9; z64 255; tenth; nan64] (mlr_interp_one F64Ops plain s) [f64_lit 5 (-3)] [1]%Z (z64 0) (z64 255)
    (float_regular_flat Hp64 He64 I E) ltac:(lia) (half_cells 4 ltac:(lia))) as (v & H1 & H2 & H3).
  - intros k start step d xk E1 E2 E3 E4. destruct k as [|k]; cbn [nth_error] in *; [|destruct k; discriminate E3].
    apply (f_equal (fun q => match q with Some v => v | None => z64 1 end)) in E1, E2, E4. injection E3 as <-. rewrite <- E1, <- E2, <- E4.
    assert (H : B2R half = / 2) by (unfold half; real_lit).
    split; [|split; [reflexivity|rewrite H; change (IZR (4 - 1)) with 3; split; real_lit]].
    split; [reflexivity|]. split; [real_lit|]. split; [reflexivity|]. split; [|lia]. exists (-1)%Z. split; [|lia]. rewrite H. reflexivity.
  - exact grey_safe.
  - rewrite A, B. intros idx Q. inversion Q as [|a i l l' Qi Ql]; subst. inversion Ql; subst.
    assert (i = 1 \/ i = 2)%Z as [-> | ->] by lia; (split; [reflexivity|]).
    + change (0 <= B2R (z64 255) <= 255). rewrite B. lra.
    + change (0 <= B2R tenth <= 255). unfold tenth. real_lit.
  - rewrite A, B in H3. exists s, v. auto.
Qed.
Example C100_python_ex : exists r,
  fst (py_interpn F64Ops plain u_obs uneven_grids (arr grey_vals) "linear" None true false false (z64 0)) = Ret r /\
  nd_shape r = [1]%nat /\ Forall (fun y : f64 => is_finite y = true /\ B2R (z64 0) <= B2R y <= B2R (z64 255)) (nd_data r).
Proof.
  destruct (C100_python 53 1024 Hp64 He64 plain u_obs uneven_grids (arr grey_vals) _ true false (z64 0) (z64 0) (z64 255) (u_call grey_vals eq_refl) ltac:(simpl; lia) lin_inc
    eq_refl uneven_ok lin_mod) as (r & E & S & _ & H).
  - intros j Hj. destruct j as [|j]; [|simpl in Hj; lia]. inside_ok.
  - exact grey_safe.
  - exact grey_ok.
  - exists r. split; [exact E|]. split; [exact S|]. exact H.
Qed.
Example C100_python_regular_ex : exists r,
  fst (py_interpn F64Ops plain px_obs px_grids (arr grey_vals) "linear" None true true false (z64 0)) = Ret r /\
  nd_shape r = [1]%nat /\ Forall (fun y : f64 => is_finite y = true /\ B2R (z64 0) <= B2R y <= B2R (z64 255)) (nd_data r).
Proof.
  assert (S0 : first_step 53 1024 Hp64 He64 [z64 0; f64_lit 1 (-1); z64 1] = f64_lit 1 (-1)) by (apply B2SF_inj; vm_compute; reflexivity).
  assert (S1 : first_step 53 1024 Hp64 He64 [z64 0; z64 1] = z64 1) by (apply B2SF_inj; vm_compute; reflexivity).
  assert (C : good_call 2 (mkNd [1]%nat [tenth]) px_obs px_grids (arr grey_vals)).
  { split; [reflexivity|]. split; [reflexivity|]. split; [repeat constructor|]. split; [repeat constructor|]. split; [reflexivity|vm_compute; discriminate]. }
  destruct (C100_python_regular 53 1024 Hp64 He64 plain px_obs px_grids (arr grey_vals) _ true true (z64 0) (z64 0) (z64 255) C ltac:(simpl; lia) (or_introl eq_refl))
    as (r & E & S & _ & H).
  - apply Forall_cons; [|apply Forall_cons; [|apply Forall_nil]]; cbn [nd_data arr].
    + rewrite S0. exact half_step.
    + rewrite S1. exact unit_step.
  - intros j Hj. destruct j as [|j]; [|simpl in Hj; lia]. unfold px_obs. cbn [map nd_data point_of nth].
    apply Forall2_cons; [|apply Forall2_cons; [|apply Forall2_nil]]; cbn [nd_data arr].
    + rewrite S0. exact (proj2 (pixel_ok 0 _ _ 3 tenth eq_refl eq_refl eq_refl eq_refl)).
    + rewrite S1. exact (proj2 (pixel_ok 1 _ _ 2 _ eq_refl eq_refl eq_refl eq_refl)).
  - lia.
  - exact grey_safe.
  - exact grey_ok.
  - exists r. split; [exact E|]. split; [exact S|]. exact H.
Qed.
(** Values from 1/10 to 1/5 at the grid point (2, 3), index (2, 1). *)
Definition fifth : f64 := fdiv F64Ops (z64 1) (z64 5).
Definition near_vals : list f64 := [tenth; fifth; tenth; f64_lit 1 (-3); fifth; f64_lit 3 (-4)].
Example C100_nodes_ex : exists s v, mlc_new F64Ops plain lin_grids near_vals = Ok s /\
  mlc_interp_one F64Ops plain s (grid_point (fzero F64Ops) lin_grids [2; 1]%Z) = Ok v /\ is_real v (B2R (f64_lit 3 (-4))).
Proof.
  destruct (@is_ok_ex _ (mlc_new F64Ops plain lin_grids near_vals)) as (s & E); [vm_compute; reflexivity|].
  assert (I : rect_input plain lin_grids near_vals) by rect_ok.
  assert (L : 0 < B2R tenth < / 8 /\ / 16 < B2R tenth) by (unfold tenth; split; [split|]; real_lit).
  assert (D : B2R fifth = 2 * B2R tenth).
  { replace fifth with (f64_lit 3602879701896397 (-54)) by (apply B2SF_inj; vm_compute; reflexivity).
    replace tenth with (f64_lit 3602879701896397 (-55)) by (apply B2SF_inj; vm_compute; reflexivity).
    assert (A : B2R (f64_lit 3602879701896397 (-54)) = 3602879701896397 * / 18014398509481984) by real_lit.
    assert (B : B2R (f64_lit 3602879701896397 (-55)) = 3602879701896397 * / 36028797018963968) by real_lit. rewrite A, B. lra. }
  assert (E8 : B2R (f64_lit 1 (-3)) = / 8) by real_lit. assert (E3 : B2R (f64_lit 3 (-4)) = 3 / 16) by real_lit.
  assert (T : / 16 * 3 / 2 < B2R tenth) by (unfold tenth; real_lit).
  destruct (C100_nodes _ _ Hp64 He64 plain lin_grids near_vals (mlc_interp_one F64Ops plain s) [2; 1]%Z tenth fifth) as (v & H1 & H2).
  - apply float_rectilinear_flat; assumption.
  - exact lin_inc.
  - exact lin_mod.
  - split; [reflexivity|]. split; [vm_compute; reflexivity|]. rewrite D. split; [lra|]. right. right. left. lra.
  - lra.
  - lra.
  - unfold near_vals. repeat (apply Forall_cons; [split; [vm_compute; reflexivity|]|]); [..|apply Forall_nil]; rewrite ?D, ?E8, ?E3; lra.
  - repeat constructor; vm_compute; (discriminate || reflexivity).
  - exists s, v. auto.
Qed.

(** ** Where it does not hold
    The top of the range has 53 significant bits: between 3/2 and 2^52 + 3, the result at the grid point with
    the value 2^52 + 3 is 2^52 + 4. Both ends are positive and the top is ten times the bottom: between 1/10
    and 1, the result at the grid point with the value 1/10 is below 1/10. *)
Theorem C100_refuted :
  (exists s, mlc_new F64Ops plain [[z64 0; z64 1]] [f64_lit 3 (-1); z64 4503599627370499] = Ok s /\
   ok_is (mlc_interp_one F64Ops plain s [z64 1]) (z64 4503599627370500) = true) /\
  (exists s, mlc_new F64Ops plain [[z64 0; z64 1]] [z64 1; tenth] = Ok s /\
   match mlc_interp_one F64Ops plain s [z64 1] with Ok v => Bltb v tenth | _ => false end = true).
Proof. split; eexists; (split; [reflexivity|]); vm_compute; reflexivity. Qed.
Print Assumptions C100_rectilinear.
Print Assumptions C100_regular.
Print Assumptions C100_python.
Print Assumptions C100_python_regular.
Print Assumptions C100_constant_cell.
Print Assumptions C100_nodes.
Print Assumptions C100_short_integers.
Print Assumptions C100_short_single.
Print Assumptions C100_refuted.
