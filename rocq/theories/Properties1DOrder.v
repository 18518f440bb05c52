(** One-dimensional interpolation: monotone data (C53), finer grids (C66), parts of the grid (C67).
    Exact arithmetic, regular and rectilinear grids. *)
From Coq Require Import Reals Lra Lia ZArith List.
From Verif Require Import Base Ops RInst ModelOneDim Spec SpecReal SpecSplit Spec1D Spec1DMaps SpecTotal1D OneDimOrder.
From Verif Require Import ExampleReal PropertiesOneDim Properties1DMaps.
Import ListNotations.
Unset Implicit Arguments.
Open Scope R_scope.

(** * C53: if the values never decrease, no one-dimensional interpolator ever decreases, inside or
    outside the grid. *)
Theorem C53_one_dim :
  forall c vals a dom at_, grid1 c vals a dom at_ ->
  (forall i, (0 <= i <= npts a - 2)%Z -> val_at vals i <= val_at vals (i + 1)) ->
  forall ev x y, method_1d ROps c at_ ev -> dom x -> dom y -> x <= y ->
  exists r r', ev x = Ok r /\ ev y = Ok r' /\ r <= r'.
Proof. exact monotone_methods. Qed.

(** * C66: Linear1D on a finer grid filled with results of Linear1D is the same function; so is
    LinearHoldLast1D if the two grids have the same ends. *)
Theorem C66_one_dim :
  forall a b c c' vals vals' dom dom' at_ at_' x, refines a b -> grid1 c vals a dom at_ -> grid1 c' vals' b dom' at_' ->
  (forall j, (0 <= j < npts b)%Z -> dom (coord b j) /\ linear1 ROps c at_ (coord b j) = Ok (val_at vals' j)) ->
  dom x -> dom' x ->
  linear1 ROps c' at_' x = linear1 ROps c at_ x /\
  (coord b 0 = coord a 0 -> coord b (npts b - 1) = coord a (npts a - 1) -> hold_last1 ROps c' at_' x = hold_last1 ROps c at_ x).
Proof. exact refine_one_dim. Qed.

(** * C67: on a part of the grid, with the data of that part, the results are the same at every
    point that is not outside the part on a side where the grid was cut. Left1D and Right1D: at
    points that are no grid points. *)
Theorem C67_one_dim :
  forall lo a b c c' vals vals' dom dom' at_ at_' x, crop_axis lo a b ->
  (forall j, (0 <= j < npts b)%Z -> val_at vals' j = val_at vals (lo + j)) ->
  grid1 c vals a dom at_ -> grid1 c' vals' b dom' at_' ->
  lo = 0%Z \/ coord b 0 <= x -> (lo + npts b)%Z = npts a \/ x <= coord b (npts b - 1) -> dom x -> dom' x ->
  linear1 ROps c' at_' x = linear1 ROps c at_ x /\ hold_last1 ROps c' at_' x = hold_last1 ROps c at_ x /\
  nearest1 ROps at_' x = nearest1 ROps at_ x /\
  (off_nodes a x -> left1 at_' x = left1 at_ x /\ right1 at_' x = right1 at_ x).
Proof. exact crop_one_dim. Qed.

Lemma o1_ok (grid vals : list R) : length vals = length grid -> (2 <= length grid)%nat -> (zlen vals <= isize_max)%Z -> strictly_increasing grid ->
  grid1 rplain vals (list_axis grid) (fun _ => True) (c1_at ROps rplain (mkC1 grid vals)).
Proof.
  intros L G M S. apply (@grid1_rectilinear rplain vals grid (mkC1 grid vals)); [exact M|exact S|].
  unfold c1_new. rewrite L, Nat.eqb_refl. destruct (Nat.ltb_spec (length grid) 2); [lia|reflexivity].
Qed.
Ltac o1 := apply o1_ok; [reflexivity|simpl; lia|vm_compute; discriminate|sorted_ok].

Example C53_one_dim_ex : exists r r', right1 (c1_at ROps rplain e1_rect) 1 = Ok r /\ right1 (c1_at ROps rplain e1_rect) 9 = Ok r' /\ r <= r'.
Proof.
  apply (C53_one_dim _ _ _ _ _ e1_rect_ok); [|constructor|exact I|exact I|lra].
  intros i Hi. change (npts (list_axis e1_grid) - 2)%Z with 1%Z in Hi. assert (E : i = 0%Z \/ i = 1%Z) by lia.
  destruct E as [->| ->]; unfold val_at; node_ok.
Qed.

Definition p1_grid : list R := [1; 4].
Definition f1_grid : list R := [0; 1; 2; 4].
(** 0, 1, 4 with values 10, 20, 50, and its part 1, 4. *)
Example C67_one_dim_ex :
  linear1 ROps rplain (c1_at ROps rplain (mkC1 p1_grid [20; 50])) 7 = linear1 ROps rplain (c1_at ROps rplain e1_rect) 7 /\
  left1 (c1_at ROps rplain (mkC1 p1_grid [20; 50])) 3 = left1 (c1_at ROps rplain e1_rect) 3.
Proof.
  assert (Cr : crop_axis 1 (list_axis e1_grid) (list_axis p1_grid)).
  { split; [lia|]. split; [vm_compute; discriminate|]. intros j Hj. change (npts (list_axis p1_grid)) with 2%Z in Hj.
    assert (E : j = 0%Z \/ j = 1%Z) by lia. destruct E as [->| ->]; reflexivity. }
  assert (V : forall j, (0 <= j < npts (list_axis p1_grid))%Z -> val_at [20; 50] j = val_at e1_vals (1 + j)).
  { intros j Hj. change (npts (list_axis p1_grid)) with 2%Z in Hj.
    assert (E : j = 0%Z \/ j = 1%Z) by lia. destruct E as [->| ->]; reflexivity. }
  assert (B : grid1 rplain [20; 50] (list_axis p1_grid) (fun _ => True) (c1_at ROps rplain (mkC1 p1_grid [20; 50]))) by o1.
  split.
  - refine (proj1 (C67_one_dim _ _ _ _ _ _ _ _ _ _ _ 7 Cr V e1_rect_ok B _ _ I I)); [right; simpl; lra|left; reflexivity].
  - refine (proj1 (proj2 (proj2 (proj2 (C67_one_dim _ _ _ _ _ _ _ _ _ _ _ 3 Cr V e1_rect_ok B _ _ I I))) _)); [right; simpl; lra|left; reflexivity|].
    intros i Hi. change (npts (list_axis e1_grid)) with 3%Z in Hi. destruct (three i Hi) as [->|[->| ->]]; simpl; lra.
Qed.

(** The same grid with a further grid point 2. *)
Example C66_one_dim_ex :
  hold_last1 ROps rplain (c1_at ROps rplain (mkC1 f1_grid [10; 20; 30; 50])) 7 = hold_last1 ROps rplain (c1_at ROps rplain e1_rect) 7.
Proof.
  assert (B : grid1 rplain [10; 20; 30; 50] (list_axis f1_grid) (fun _ => True) (c1_at ROps rplain (mkC1 f1_grid [10; 20; 30; 50]))) by o1.
  refine (proj2 (C66_one_dim (list_axis e1_grid) (list_axis f1_grid) _ _ _ _ _ _ _ _ 7 _ e1_rect_ok B _ I I) _ _).
  - intros i Hi. change (npts (list_axis e1_grid)) with 3%Z in Hi. assert (i = 1%Z) by lia. subst i. exists 1%Z. split; [vm_compute; split; reflexivity|reflexivity].
  - intros j Hj. split; [exact I|]. change (npts (list_axis f1_grid)) with 4%Z in Hj.
    assert (E : j = 0%Z \/ j = 1%Z \/ j = 2%Z \/ j = 3%Z) by lia.
    assert (L : forall x i, in_cell (list_axis e1_grid) x i -> linear1 ROps rplain (c1_at ROps rplain e1_rect) x = Ok (OneDimMaps.line (list_axis e1_grid) e1_vals x i)).
    { intros x i C. exact (OneDimMaps.linear_line _ _ _ _ _ _ i e1_rect_ok I C). }
    destruct E as [->|[->|[->| ->]]]; [rewrite (L _ 0%Z)|rewrite (L _ 0%Z)|rewrite (L _ 1%Z)|rewrite (L _ 1%Z)];
      try (f_equal; unfold OneDimMaps.line, val_at; simpl; field);
      (split; [vm_compute; split; discriminate|]; simpl; split; [lra || (right; lra) || auto|lra || (right; lra) || auto]).
  - reflexivity.
  - reflexivity.
Qed.

Print Assumptions C53_one_dim.
Print Assumptions C66_one_dim.
Print Assumptions C67_one_dim.
