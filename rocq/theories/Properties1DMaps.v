(** One-dimensional interpolation under changes of the axis and of the data, in exact arithmetic
    (C20, C21, C23). *)
From Coq Require Import Reals Lra Lia ZArith List.
From Verif Require Import Base Ops RInst ModelOneDim Spec SpecReal Spec1D Spec1DMaps OneDimMaps.
From Verif Require Import ExampleData ExampleReal PropertiesExact PropertiesOneDim.
Import ListNotations.
Unset Implicit Arguments.
Open Scope R_scope.

(** * C20: Linear1D and LinearHoldLast1D are linear in the values. *)
Theorem C20_one_dim :
  forall p q u v a c c1 c2 dom dom1 dom2 at_ at1 at2 x, grid1 c1 u a dom1 at1 -> grid1 c2 v a dom2 at2 ->
  grid1 c (combination p q u v) a dom at_ -> dom1 x -> dom2 x -> dom x ->
  (exists r1 r2, linear1 ROps c1 at1 x = Ok r1 /\ linear1 ROps c2 at2 x = Ok r2 /\ linear1 ROps c at_ x = Ok (p * r1 + q * r2)) /\
  (exists r1 r2, hold_last1 ROps c1 at1 x = Ok r1 /\ hold_last1 ROps c2 at2 x = Ok r2 /\ hold_last1 ROps c at_ x = Ok (p * r1 + q * r2)).
Proof. exact combined. Qed.

(** * C21: in other units, and with another origin, the one-dimensional interpolators return the
    same, Left1D and Right1D at least off the grid points (at a grid point it depends on the kind
    of grid which cell is used, see C32). *)
Theorem C21_one_dim :
  forall s t a b c c' vals dom dom' at_ at_' x, rescaled_axis (s, t) a b ->
  grid1 c vals a dom at_ -> grid1 c' vals b dom' at_' -> dom x -> dom' (s * x + t) ->
  linear1 ROps c' at_' (s * x + t) = linear1 ROps c at_ x /\ hold_last1 ROps c' at_' (s * x + t) = hold_last1 ROps c at_ x /\
  nearest1 ROps at_' (s * x + t) = nearest1 ROps at_ x /\
  (off_nodes a x -> left1 at_' (s * x + t) = left1 at_ x /\ right1 at_' (s * x + t) = right1 at_ x).
Proof. exact rescaled_one_dim. Qed.

(** * C23: on the reversed axis the linear interpolators return the same, Left1D what Right1D
    returned and Right1D what Left1D returned. *)
Theorem C23_one_dim :
  forall a b c c' vals dom dom' at_ at_' x, reflected_axis a b ->
  grid1 c vals a dom at_ -> grid1 c' (rev vals) b dom' at_' -> dom x -> dom' (- x) ->
  linear1 ROps c' at_' (- x) = linear1 ROps c at_ x /\ hold_last1 ROps c' at_' (- x) = hold_last1 ROps c at_ x /\
  (no_tie a x -> nearest1 ROps at_' (- x) = nearest1 ROps at_ x) /\
  (off_nodes a x -> left1 at_' (- x) = right1 at_ x /\ right1 at_' (- x) = left1 at_ x).
Proof. exact reflected_one_dim. Qed.

(** The grid 0, 1, 4 with values 10, 20, 50 at 3; reversed; and in units of 1/2, moved by 1. *)
Definition m1_grid : list R := [1; 3; 9].
Lemma m1_ok : grid1 rplain e1_vals (list_axis m1_grid) (fun _ => True) (c1_at ROps rplain (mkC1 m1_grid e1_vals)).
Proof. apply (@grid1_rectilinear rplain e1_vals m1_grid (mkC1 m1_grid e1_vals)); [vm_compute; discriminate|sorted_ok|reflexivity]. Qed.
Ltac node_ok := cbn; repeat (match goal with |- context [Pos.to_nat ?n] =>
  let m := eval vm_compute in (Pos.to_nat n) in change (Pos.to_nat n) with m end; cbn); lra.
Lemma three i : (0 <= i < 3)%Z -> i = 0%Z \/ i = 1%Z \/ i = 2%Z.
Proof. lia. Qed.
Lemma e1_off : off_nodes (list_axis e1_grid) 3.
Proof. intros i Hi. cbn [npts list_axis] in Hi. destruct (three i Hi) as [->|[->| ->]]; node_ok. Qed.
Lemma e1_no_tie : no_tie (list_axis e1_grid) 3.
Proof.
  intros i Hi. cbn [npts list_axis] in Hi. change (zlen e1_grid) with 3%Z in Hi.
  assert (E : i = 0%Z \/ i = 1%Z) by lia. destruct E as [->| ->]; node_ok.
Qed.
Example C21_one_dim_ex :
  linear1 ROps rplain (c1_at ROps rplain (mkC1 m1_grid e1_vals)) (2 * 3 + 1) = linear1 ROps rplain (c1_at ROps rplain e1_rect) 3 /\
  left1 (c1_at ROps rplain (mkC1 m1_grid e1_vals)) (2 * 3 + 1) = left1 (c1_at ROps rplain e1_rect) 3.
Proof.
  destruct (C21_one_dim 2 1 (list_axis e1_grid) (list_axis m1_grid) rplain rplain e1_vals (fun _ => True) (fun _ => True)
    (c1_at ROps rplain e1_rect) (c1_at ROps rplain (mkC1 m1_grid e1_vals)) 3) as (H & _ & _ & K).
  - split; [cbn; lra|]. split; [reflexivity|]. intros i Hi. cbn [npts list_axis] in Hi. destruct (three i Hi) as [->|[->| ->]]; node_ok.
  - exact e1_rect_ok.
  - exact m1_ok.
  - exact I.
  - exact I.
  - split; [exact H|exact (proj1 (K e1_off))].
Qed.
Definition f1_grid : list R := [-4; -1; 0].
Lemma f1_ok : grid1 rplain (rev e1_vals) (list_axis f1_grid) (fun _ => True) (c1_at ROps rplain (mkC1 f1_grid (rev e1_vals))).
Proof. apply (@grid1_rectilinear rplain (rev e1_vals) f1_grid (mkC1 f1_grid (rev e1_vals))); [vm_compute; discriminate|sorted_ok|reflexivity]. Qed.
Example C23_one_dim_ex :
  left1 (c1_at ROps rplain (mkC1 f1_grid (rev e1_vals))) (- (3)) = right1 (c1_at ROps rplain e1_rect) 3 /\
  nearest1 ROps (c1_at ROps rplain (mkC1 f1_grid (rev e1_vals))) (- (3)) = nearest1 ROps (c1_at ROps rplain e1_rect) 3.
Proof.
  destruct (C23_one_dim (list_axis e1_grid) (list_axis f1_grid) rplain rplain e1_vals (fun _ => True) (fun _ => True)
    (c1_at ROps rplain e1_rect) (c1_at ROps rplain (mkC1 f1_grid (rev e1_vals))) 3) as (_ & _ & H & K).
  - split; [reflexivity|]. intros i Hi. cbn [npts list_axis] in Hi. destruct (three i Hi) as [->|[->| ->]]; node_ok.
  - exact e1_rect_ok.
  - exact f1_ok.
  - exact I.
  - exact I.
  - split; [exact (proj1 (K e1_off))|exact (H e1_no_tie)].
Qed.
Definition g1_vals : list R := [1; 0; 2].
Lemma g1_ok (vals : list R) : length vals = 3%nat -> grid1 rplain vals (list_axis e1_grid) (fun _ => True) (c1_at ROps rplain (mkC1 e1_grid vals)).
Proof.
  intros L. apply (@grid1_rectilinear rplain vals e1_grid (mkC1 e1_grid vals)); [unfold zlen; rewrite L; vm_compute; discriminate|sorted_ok|].
  unfold c1_new. rewrite L. reflexivity.
Qed.
Example C20_one_dim_ex : exists r1 r2, linear1 ROps rplain (c1_at ROps rplain (mkC1 e1_grid e1_vals)) 3 = Ok r1 /\
  linear1 ROps rplain (c1_at ROps rplain (mkC1 e1_grid g1_vals)) 3 = Ok r2 /\
  linear1 ROps rplain (c1_at ROps rplain (mkC1 e1_grid (combination 3 (-1) e1_vals g1_vals))) 3 = Ok (3 * r1 + -1 * r2).
Proof.
  apply (C20_one_dim 3 (-1) e1_vals g1_vals (list_axis e1_grid) rplain rplain rplain (fun _ => True) (fun _ => True) (fun _ => True));
    try exact I; apply g1_ok; reflexivity.
Qed.

Print Assumptions C20_one_dim.
Print Assumptions C21_one_dim.
Print Assumptions C23_one_dim.
