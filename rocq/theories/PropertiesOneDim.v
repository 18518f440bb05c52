(** The search on rectilinear grids (C27) and the one-dimensional interpolators (C29-C32). *)
From Coq Require Import Reals Lra PeanoNat Bool.
From Flocq Require Import IEEE754.BinarySingleNaN.
From Verif Require Import Base Ops RInst FInst ModelCore ModelLinear ModelNearest ModelCubic ModelOneDim.
From Verif Require Import Spec SpecReal SpecOrder Spec1D Interpolators.
From Verif Require Import OrderLemmas OrderProofs OneDimProofs F1D ExampleData ExampleReal.
Open Scope Z_scope.
Unset Implicit Arguments.

(** * C27: the cell search on a rectilinear grid, for every number type with a transitive <.
    [bracketing_cell], [increasing_grid], [count_below] are in SpecOrder.v. *)
Theorem C27_linear :
  forall F (o : Ops F) c grids vals s k g x,
  lt_transitive o -> rect_input c grids vals -> mlc_new o c grids vals = Ok s ->
  nth_error grids k = Some g -> increasing_grid o g ->
  exists i, rect_get_loc o c s x k = Ok i /\ bracketing_cell o x g i /\
    i = Z.min (Z.max (count_below o x g - 1) 0) (zlen g - 2).
Proof. intros F o c grids vals s k g x. exact (@C27_proof_linear F o c grids vals s k g x). Qed.
Theorem C27_linear_recursive :
  forall F (o : Ops F) c m grids vals s k g x,
  lt_transitive o -> rect_input c grids vals -> mlcr_new o c m grids vals = Ok s ->
  nth_error grids k = Some g -> increasing_grid o g ->
  exists i, rect_get_loc o c s x k = Ok i /\ bracketing_cell o x g i /\
    i = Z.min (Z.max (count_below o x g - 1) 0) (zlen g - 2).
Proof. intros F o c m grids vals s k g x. exact (@C27_proof_linear_recursive F o c m grids vals s k g x). Qed.
(** The four-node footprint of the cubic method is inside the grid and contains the bracketing
    cell; the saturation flag tells on which side of the grid the observation is. *)
Theorem C27_cubic :
  forall F (o : Ops F) c grids vals lin s k g x,
  lt_transitive o -> rect_input c grids vals -> mcc_new o c grids vals lin = Ok s ->
  nth_error grids k = Some g -> increasing_grid o g ->
  exists origin sat, crect_get_loc o c (cc_base s) x k = Ok (origin, sat) /\ 0 <= origin <= zlen g - 4 /\
    bracketing_cell o x g (footprint_cell origin sat) /\
    (sat = OutsideHigh <-> above_grid o x g) /\ (sat = OutsideLow <-> not_above_first o x g).
Proof. intros F o c grids vals lin s k g x. exact (@C27_proof_cubic F o c grids vals lin s k g x). Qed.
Theorem C27_one_dim :
  forall F (o : Ops F) c grid vals g x,
  lt_transitive o -> increasing_grid o grid -> zlen vals <= isize_max -> c1_new grid vals = Ok g ->
  exists i e, c1_index o c g x = Ok (i, e) /\ bracketing_cell o x grid i /\
    i = Z.min (Z.max (count_below o x grid - 1) 0) (zlen grid - 2).
Proof. intros F o c grid vals g x. exact (@C27_proof_one_dim F o c grid vals g x). Qed.
(** The search makes ceil(log2 n) + 1 comparisons. *)
Theorem C27_comparisons :
  forall F (o : Ops F) (g : list F) x, g <> [] ->
  exists k, partition_point_cnt (fun v => flt o v x) g = Ok (k, S (Nat.log2_up (length g))).
Proof. intros F o g x. exact (@search_comparisons F o g x). Qed.
(** The number types of interest satisfy the hypothesis. *)
Theorem C27_number_types : lt_transitive F64Ops /\ lt_transitive F32Ops /\ lt_transitive ROps.
Proof.
  split; [apply (BOps_transitive Hp64 He64)|split; [apply (BOps_transitive Hp32 He32)|apply ROps_transitive]].
Qed.
Ltac inc_grid := let i := fresh in let j := fresh in intros [|[|[|[|[|i]]]]] [|[|[|[|[|j]]]]] ? ? ? Ha Hb;
  try lia; simpl in Ha, Hb; try (destruct i; discriminate); try (destruct j; discriminate);
  inversion Ha; inversion Hb; subst; vm_compute; reflexivity.
Example C27_ex : exists i, rect_get_loc F64Ops plain lin_g (f64_lit 3 (-1)) 0 = Ok i /\
  bracketing_cell F64Ops (f64_lit 3 (-1)) [z64 0; f64_lit 1 (-1); z64 2] i /\ i = 1.
Proof.
  destruct (C27_linear _ F64Ops plain lin_grids lin_vals lin_g 0 [z64 0; f64_lit 1 (-1); z64 2] (f64_lit 3 (-1)))
    as (i & H1 & H2 & H3).
  - apply C27_number_types.
  - apply lin_rinput.
  - apply lin_gnew.
  - reflexivity.
  - inc_grid.
  - exists i. split; [exact H1|split; [exact H2|]]. rewrite H3. vm_compute. reflexivity.
Qed.
Example C27_cubic_ex : exists origin sat, crect_get_loc F64Ops plain (cc_base (cub_g true)) (z64 8) 1 = Ok (origin, sat)
  /\ sat = OutsideHigh.
Proof.
  destruct (C27_cubic _ F64Ops plain cub_grids cub_vals true (cub_g true) 1
    [z64 (-1); z64 0; z64 1; f64_lit 3 (-1); z64 7] (z64 8)) as (i & sat & H1 & H2 & H3 & H4 & H5).
  - apply C27_number_types.
  - apply cub_rinput.
  - apply cub_gnew.
  - reflexivity.
  - inc_grid.
  - exists i, sat. split; auto. apply H4. intros a [<-|[<-|[<-|[<-|[<-|[]]]]]]; vm_compute; reflexivity.
Qed.
Example C27_comparisons_ex : exists k, partition_point_cnt (fun v => flt F64Ops v (z64 8)) cub_vals = Ok (k, 6%nat).
Proof. apply (C27_comparisons _ F64Ops cub_vals). discriminate. Qed.
Print Assumptions C27_linear.
Print Assumptions C27_linear_recursive.
Print Assumptions C27_cubic.
Print Assumptions C27_one_dim.
Print Assumptions C27_comparisons.
Print Assumptions C27_number_types.

Open Scope R_scope.

(** Example grids: three points, evenly and unevenly spaced. *)
Definition e1_vals : list R := [10; 20; 50].
Definition e1_reg := mkR1 0 (0 + 2 * 2) 2 e1_vals.
Definition e1_grid : list R := [0; 1; 4].
Definition e1_rect := mkC1 e1_grid e1_vals.
Lemma e1_reg_new : r1_new ROps rplain 0 2 e1_vals = Ok e1_reg.
Proof. reflexivity. Qed.
Lemma e1_reg_ok : grid1 rplain e1_vals (mkAxis 3 (fun i => 0 + 2 * IZR i))
  (fun x => IZR isize_min <= (x - 0) / 2 < IZR (isize_max + 1)) (r1_at ROps rplain e1_reg).
Proof. apply (@grid1_regular rplain e1_vals 0 2 e1_reg); [vm_compute; split; discriminate|lra|apply e1_reg_new]. Qed.
Lemma e1_rect_ok : grid1 rplain e1_vals (list_axis e1_grid) (fun _ => True) (c1_at ROps rplain e1_rect).
Proof. apply (@grid1_rectilinear rplain e1_vals e1_grid e1_rect); [vm_compute; discriminate|sorted_ok|reflexivity]. Qed.
Ltac fits1 := unfold isize_min, isize_max; simpl; split; lra.

(** * C29: agreement with the N-dimensional interpolators *)
Theorem C29_linear :
  forall c c' vals a a' dom dom' at_ eval x,
  grid1 c vals a dom at_ -> multilinear c' vals [a'] dom' eval -> same_axis a a' ->
  dom x -> dom' [x] -> linear1 ROps c at_ x = eval [x].
Proof. exact C29_proof. Qed.
Example C29_ex :
  linear1 ROps rplain (c1_at ROps rplain e1_rect) 7
  = mlc_interp_one ROps rplain (mkRect [e1_grid] [3%Z] e1_vals) [7].
Proof.
  apply (C29_linear rplain rplain e1_vals (list_axis e1_grid) (list_axis e1_grid) (fun _ => True) everywhere).
  - exact e1_rect_ok.
  - apply (@multilinear_rectilinear rplain e1_vals [e1_grid]); [rrect_ok|sorted_ok|].
    unfold e1_vals, e1_grid. lazy -[Rltb IZR]. rltb. reflexivity.
  - split; auto.
  - exact I.
  - exact I.
Qed.
Print Assumptions C29_linear.

(** * C30: hold-last *)
Theorem C30_inside :
  forall c vals a dom at_ x, grid1 c vals a dom at_ -> dom x ->
  coord a 0 <= x <= coord a (npts a - 1) -> hold_last1 ROps c at_ x = linear1 ROps c at_ x.
Proof. exact C30_proof_inside. Qed.
Theorem C30_outside :
  forall c vals a dom at_ x, grid1 c vals a dom at_ -> dom x ->
  (x < coord a 0 -> hold_last1 ROps c at_ x = Ok (val_at vals 0)) /\
  (coord a (npts a - 1) < x -> hold_last1 ROps c at_ x = Ok (val_at vals (zlen vals - 1))).
Proof. exact C30_proof_outside. Qed.
(** Rectilinear grids, every number type, bit for bit. *)
Theorem C30_outside_any_number_type :
  forall F (o : Ops F) c grid vals g x d,
  lt_transitive o -> lt_irreflexive o -> increasing_grid o grid ->
  (zlen vals <= isize_max)%Z -> c1_new grid vals = Ok g ->
  (flt o x (nth 0 grid d) = true -> hold_last1 o c (c1_at o c g) x = Ok (nth 0 vals d)) /\
  (flt o (last grid d) x = true -> hold_last1 o c (c1_at o c g) x = Ok (last vals d)).
Proof. intros F o c grid vals g x d. exact (@C30_proof_any F o c grid vals g x d). Qed.
Example C30_ex :
  hold_last1 ROps rplain (r1_at ROps rplain e1_reg) (-3) = Ok 10 /\
  hold_last1 ROps rplain (c1_at ROps rplain e1_rect) 9 = Ok 50.
Proof.
  split.
  - apply (C30_outside _ _ _ _ _ (-3) e1_reg_ok); [fits1|simpl; lra].
  - apply (C30_outside _ _ _ _ _ 9 e1_rect_ok); [exact I|simpl; lra].
Qed.
Example C30_any_ex :
  hold_last1 F64Ops fused (c1_at F64Ops fused (mkC1 [z64 0; z64 1; z64 3] [z64 5; z64 7; z64 9])) (z64 4) = Ok (z64 9).
Proof.
  apply (C30_outside_any_number_type _ F64Ops fused [z64 0; z64 1; z64 3] [z64 5; z64 7; z64 9]
    (mkC1 [z64 0; z64 1; z64 3] [z64 5; z64 7; z64 9]) (z64 4) (z64 0)).
  - apply C27_number_types.
  - apply (BOps_irreflexive Hp64 He64).
  - inc_grid.
  - vm_compute; discriminate.
  - reflexivity.
  - vm_compute; reflexivity.
Qed.
Print Assumptions C30_inside.
Print Assumptions C30_outside.
Print Assumptions C30_outside_any_number_type.

(** * C31: left, right, nearest *)
Theorem C31_between :
  forall c vals a dom at_ x i, grid1 c vals a dom at_ -> dom x ->
  (0 <= i <= npts a - 2)%Z -> coord a i < x < coord a (i + 1) ->
  left1 at_ x = Ok (val_at vals i) /\ right1 at_ x = Ok (val_at vals (i + 1)).
Proof. exact C31_proof_between. Qed.
Theorem C31_outside :
  forall c vals a dom at_ x, grid1 c vals a dom at_ -> dom x ->
  (x < coord a 0 -> left1 at_ x = Ok (val_at vals 0) /\ right1 at_ x = Ok (val_at vals 0)
     /\ nearest1 ROps at_ x = Ok (val_at vals 0)) /\
  (coord a (npts a - 1) < x -> left1 at_ x = Ok (val_at vals (zlen vals - 1))
     /\ right1 at_ x = Ok (val_at vals (zlen vals - 1)) /\ nearest1 ROps at_ x = Ok (val_at vals (zlen vals - 1))).
Proof. exact C31_proof_outside. Qed.
(** [nearest_node]: node i is closest to x, the lower one on ties. *)
Theorem C31_nearest :
  forall c vals a dom at_ x i, grid1 c vals a dom at_ -> dom x ->
  nearest_node a x i -> nearest1 ROps at_ x = Ok (val_at vals i).
Proof. exact C31_proof_nearest. Qed.
Theorem C31_stored_value_regular :
  forall F (o : Ops F) c start step vals g x r, r1_new o c start step vals = Ok g ->
  left1 (r1_at o c g) x = Ok r \/ right1 (r1_at o c g) x = Ok r \/ nearest1 o (r1_at o c g) x = Ok r -> In r vals.
Proof. intros F o c start step vals g x r. apply C31_proof_stored_regular. Qed.
Theorem C31_stored_value_rectilinear :
  forall F (o : Ops F) c grid vals g x r, c1_new grid vals = Ok g ->
  left1 (c1_at o c g) x = Ok r \/ right1 (c1_at o c g) x = Ok r \/ nearest1 o (c1_at o c g) x = Ok r -> In r vals.
Proof. intros F o c grid vals g x r. apply C31_proof_stored_rectilinear. Qed.
(** Rectilinear grids, every number type (floats included): the choice of the node is exact. *)
Theorem C31_between_any_number_type :
  forall F (o : Ops F) c grid vals g x i d, lt_transitive o -> lt_irreflexive o -> increasing_grid o grid ->
  (zlen vals <= isize_max)%Z -> c1_new grid vals = Ok g -> (0 <= i <= zlen grid - 2)%Z ->
  flt o (nth (Z.to_nat i) grid d) x = true -> flt o x (nth (Z.to_nat (i + 1)) grid d) = true ->
  left1 (c1_at o c g) x = Ok (nth (Z.to_nat i) vals d) /\ right1 (c1_at o c g) x = Ok (nth (Z.to_nat (i + 1)) vals d).
Proof. intros F o c grid vals g x i d. exact (@hold_between F o c grid vals g x i d). Qed.
Theorem C31_outside_any_number_type :
  forall F (o : Ops F) c grid vals g x d, lt_transitive o -> lt_irreflexive o -> increasing_grid o grid ->
  (zlen vals <= isize_max)%Z -> c1_new grid vals = Ok g ->
  (flt o x (nth 0 grid d) = true ->
     left1 (c1_at o c g) x = Ok (nth 0 vals d) /\ right1 (c1_at o c g) x = Ok (nth 0 vals d)) /\
  (flt o (last grid d) x = true ->
     left1 (c1_at o c g) x = Ok (last vals d) /\ right1 (c1_at o c g) x = Ok (last vals d)).
Proof. intros F o c grid vals g x d. exact (@hold_outside F o c grid vals g x d). Qed.
Definition i64_grid : list f64 := [z64 0; f64_lit 1 (-1); z64 2].
Definition i64_vals : list f64 := [z64 10; z64 20; z64 30].
Lemma i64_types : lt_transitive F64Ops /\ lt_irreflexive F64Ops.
Proof. split; [apply (BOps_transitive Hp64 He64)|apply (BOps_irreflexive Hp64 He64)]. Qed.
Lemma i64_inc : increasing_grid F64Ops i64_grid.
Proof. inc_grid. Qed.
Example C31_any_ex :
  left1 (c1_at F64Ops plain (mkC1 i64_grid i64_vals)) (f64_lit 1 (-60)) = Ok (z64 10) /\
  right1 (c1_at F64Ops plain (mkC1 i64_grid i64_vals)) (z64 (-1)) = Ok (z64 10).
Proof.
  split.
  - apply (C31_between_any_number_type _ F64Ops plain i64_grid i64_vals (mkC1 i64_grid i64_vals) (f64_lit 1 (-60)) 0 (z64 0) (proj1 i64_types) (proj2 i64_types) i64_inc);
      [vm_compute; discriminate|reflexivity|vm_compute; split; discriminate|vm_compute; reflexivity|vm_compute; reflexivity].
  - apply (C31_outside_any_number_type _ F64Ops plain i64_grid i64_vals (mkC1 i64_grid i64_vals) (z64 (-1)) (z64 0) (proj1 i64_types) (proj2 i64_types) i64_inc);
      [vm_compute; discriminate|reflexivity|vm_compute; reflexivity].
Qed.
Example C31_ex :
  left1 (c1_at ROps rplain e1_rect) 3 = Ok 20 /\ right1 (r1_at ROps rplain e1_reg) 1 = Ok 20 /\
  nearest1 ROps (r1_at ROps rplain e1_reg) 3 = Ok 20 /\ right1 (r1_at ROps rplain e1_reg) (-3) = Ok 10.
Proof.
  split; [|split; [|split]].
  - apply (C31_between _ _ _ _ _ 3 1%Z e1_rect_ok); [exact I|vm_compute; split; discriminate|simpl; lra].
  - apply (C31_between _ _ _ _ _ 1 0%Z e1_reg_ok); [fits1|vm_compute; split; discriminate|simpl; lra].
  - apply (C31_nearest _ _ _ _ _ 3 1%Z e1_reg_ok); [fits1|].
    split; [vm_compute; split; [discriminate|reflexivity]|]. cbn [npts coord]. intros j Hj.
    assert (E : (j = 0 \/ j = 1 \/ j = 2)%Z) by lia.
    destruct E as [-> | [-> | ->]]; cbn [IZR]; unfold Rabs; repeat destruct Rcase_abs; split; intros; try lra; lia.
  - apply (C31_outside _ _ _ _ _ (-3) e1_reg_ok); [fits1|simpl; lra].
Qed.
Example C31_stored_ex : exists r, left1 (c1_at F64Ops plain (mkC1 lin_vals lin_vals)) (z64 3) = Ok r /\ In r lin_vals.
Proof.
  destruct (@is_ok_ex _ (left1 (c1_at F64Ops plain (mkC1 lin_vals lin_vals)) (z64 3))) as (r & E);
    [vm_compute; reflexivity|].
  exists r. split; auto. 
  apply (C31_stored_value_rectilinear _ F64Ops plain lin_vals lin_vals (mkC1 lin_vals lin_vals) (z64 3) r); [reflexivity|auto].
Qed.
Print Assumptions C31_between.
Print Assumptions C31_outside.
Print Assumptions C31_between_any_number_type.
Print Assumptions C31_outside_any_number_type.
Print Assumptions C31_nearest.
Print Assumptions C31_stored_value_regular.
Print Assumptions C31_stored_value_rectilinear.

(** * C32: at grid points.
    The full claim: at grid point i both methods return the value of grid point i. It is
    false: on a regular grid Right1D returns the next value at every point but the last, and
    Left1D the previous value at the last point; on a rectilinear grid Left1D returns the
    previous value at every point but the first, and Right1D the next value at the first. *)
Definition returns_node_value (right : bool) : Prop :=
  forall c vals a dom at_ i, grid1 c vals a dom at_ -> (0 <= i < npts a)%Z -> dom (coord a i) ->
  (if right then right1 at_ (coord a i) else left1 at_ (coord a i)) = Ok (val_at vals i).
Theorem C32_right_refuted : ~ returns_node_value true.
Proof.
  intros H. specialize (H _ _ _ _ _ 1%Z e1_reg_ok). cbn [npts coord] in H.
  assert (E : right1 (r1_at ROps rplain e1_reg) (0 + 2 * 1) = Ok 50).
  { destruct (@C32_proof_regular rplain e1_vals 0 2 e1_reg 1) as (_ & E); [vm_compute; split; discriminate|lra|
      apply e1_reg_new|vm_compute; split; [discriminate|reflexivity]|]. exact E. }
  rewrite E in H. assert (D : @Ok R 50 = Ok (val_at e1_vals 1)) by (apply H; [lia|fits1]).
  inversion D. unfold val_at in *. simpl in *. lra.
Qed.
Theorem C32_left_refuted : ~ returns_node_value false.
Proof.
  intros H. specialize (H _ _ _ _ _ 1%Z e1_rect_ok).
  assert (E : left1 (c1_at ROps rplain e1_rect) (nth (Z.to_nat 1) e1_grid 0) = Ok 10).
  { destruct (@C32_proof_rectilinear rplain e1_grid e1_vals e1_rect 1) as (E & _); [vm_compute; discriminate|sorted_ok|
      reflexivity|vm_compute; split; [discriminate|reflexivity]|]. exact E. }
  cbn [coord list_axis] in H. rewrite E in H.
  assert (D : @Ok R 10 = Ok (val_at e1_vals 1)) by (apply H; [vm_compute; split; [discriminate|reflexivity]|exact I]).
  inversion D. unfold val_at in *. simpl in *. lra.
Qed.
(** The same on binary64: at 1.0 on the grid 0, 1, 2 Right1D returns the value of 2, and on the
    rectilinear grid Left1D returns the value of 0. *)
Theorem C32_binary64_refuted :
  let vals := [z64 10; z64 20; z64 50] in
  (exists r, r1_new F64Ops plain (z64 0) (z64 1) vals = Ok r /\
     ok_is (right1 (r1_at F64Ops plain r) (z64 1)) (z64 50) = true /\
     ok_is (left1 (r1_at F64Ops plain r) (z64 2)) (z64 20) = true) /\
  (exists r, c1_new [z64 0; z64 1; z64 2] vals = Ok r /\
     ok_is (left1 (c1_at F64Ops plain r) (z64 1)) (z64 10) = true /\
     ok_is (right1 (c1_at F64Ops plain r) (z64 0)) (z64 20) = true).
Proof.
  cbv zeta. split.
  - eexists. split; [reflexivity|]. split; vm_compute; reflexivity.
  - eexists. split; [reflexivity|]. split; vm_compute; reflexivity.
Qed.
(** What is returned at grid point i, exactly. *)
Theorem C32_regular_partial :
  forall c vals start step g i, (2 <= zlen vals <= isize_max)%Z -> 0 < step ->
  r1_new ROps c start step vals = Ok g -> (0 <= i < zlen vals)%Z ->
  left1 (r1_at ROps c g) (start + step * IZR i) = Ok (val_at vals (Z.min i (zlen vals - 2))) /\
  right1 (r1_at ROps c g) (start + step * IZR i) = Ok (val_at vals (Z.min i (zlen vals - 2) + 1)).
Proof. exact C32_proof_regular. Qed.
Theorem C32_rectilinear_partial :
  forall c grid vals g i, (zlen vals <= isize_max)%Z -> strictly_increasing grid ->
  c1_new grid vals = Ok g -> (0 <= i < zlen vals)%Z ->
  left1 (c1_at ROps c g) (nth (Z.to_nat i) grid 0) = Ok (val_at vals (Z.max (i - 1) 0)) /\
  right1 (c1_at ROps c g) (nth (Z.to_nat i) grid 0) = Ok (val_at vals (Z.max (i - 1) 0 + 1)).
Proof. exact C32_proof_rectilinear. Qed.
(** Rectilinear grids, every number type: at an interior node Left1D returns the value of the node
    before it and Right1D the node's own. *)
Theorem C32_rectilinear_any_number_type_partial :
  forall F (o : Ops F) c grid vals g i d, lt_transitive o -> lt_irreflexive o -> increasing_grid o grid ->
  (zlen vals <= isize_max)%Z -> c1_new grid vals = Ok g -> (0 <= i < zlen grid)%Z ->
  left1 (c1_at o c g) (nth (Z.to_nat i) grid d) = Ok (nth (Z.to_nat (Z.max (i - 1) 0)) vals d) /\
  right1 (c1_at o c g) (nth (Z.to_nat i) grid d) = Ok (nth (Z.to_nat (Z.max (i - 1) 0 + 1)) vals d).
Proof. intros F o c grid vals g i d. exact (@hold_at_node F o c grid vals g i d). Qed.
Example C32_any_ex : left1 (c1_at F64Ops plain (mkC1 i64_grid i64_vals)) (f64_lit 1 (-1)) = Ok (z64 10) /\
  right1 (c1_at F64Ops plain (mkC1 i64_grid i64_vals)) (f64_lit 1 (-1)) = Ok (z64 20).
Proof.
  apply (C32_rectilinear_any_number_type_partial _ F64Ops plain i64_grid i64_vals (mkC1 i64_grid i64_vals) 1 (z64 0) (proj1 i64_types) (proj2 i64_types) i64_inc);
    [vm_compute; discriminate|reflexivity|vm_compute; split; reflexivity || discriminate].
Qed.
Example C32_ex : left1 (r1_at ROps rplain e1_reg) (0 + 2 * IZR 1) = Ok 20 /\
  right1 (c1_at ROps rplain e1_rect) 4 = Ok 50.
Proof.
  split.
  - apply (C32_regular_partial rplain e1_vals 0 2 e1_reg 1); [vm_compute; split; discriminate|lra|
      apply e1_reg_new|vm_compute; split; [discriminate|reflexivity]].
  - apply (C32_rectilinear_partial rplain e1_grid e1_vals e1_rect 2); [vm_compute; discriminate|sorted_ok|
      reflexivity|vm_compute; split; [discriminate|reflexivity]].
Qed.
Print Assumptions C32_right_refuted.
Print Assumptions C32_left_refuted.
Print Assumptions C32_binary64_refuted.
Print Assumptions C32_regular_partial.
Print Assumptions C32_rectilinear_partial.
Print Assumptions C32_rectilinear_any_number_type_partial.
