(** One dimension, exact arithmetic: grid points (C03), agreement of regular and rectilinear grids
    (C10), errors in the data (C52). *)
From Coq Require Import Reals Lra Lia ZArith List.
From Verif Require Import Base Ops RInst ModelOneDim Spec SpecReal SpecApprox Spec1D Spec1DMaps OneDimAgree.
From Verif Require Import ExampleData ExampleReal PropertiesOneDim Properties1DMaps.
Import ListNotations.
Unset Implicit Arguments.
Open Scope R_scope.

(** * C03: at the grid points Linear1D, LinearHoldLast1D and Nearest1D return the stored values
    (for Left1D and Right1D see C32). *)
Theorem C03_one_dim :
  forall c vals a dom at_ i, grid1 c vals a dom at_ -> (0 <= i < npts a)%Z ->
  linear1 ROps c at_ (coord a i) = Ok (val_at vals i) /\ hold_last1 ROps c at_ (coord a i) = Ok (val_at vals i) /\
  nearest1 ROps at_ (coord a i) = Ok (val_at vals i).
Proof. exact nodes_one_dim. Qed.

(** * C10: a regular and a rectilinear grid with the same coordinates give the same results. *)
Theorem C10_one_dim :
  forall c c' vals a b dom dom' at_ at_' x, same_axis a b -> grid1 c vals a dom at_ -> grid1 c' vals b dom' at_' ->
  dom x -> dom' x ->
  linear1 ROps c at_ x = linear1 ROps c' at_' x /\ hold_last1 ROps c at_ x = hold_last1 ROps c' at_' x /\
  nearest1 ROps at_ x = nearest1 ROps at_' x /\
  (off_nodes a x -> left1 at_ x = left1 at_' x /\ right1 at_ x = right1 at_' x).
Proof. exact agree_one_dim. Qed.

(** * C52: errors in the data are not amplified: by LinearHoldLast1D nowhere, by Linear1D not inside
    the grid. *)
Theorem C52_one_dim :
  forall c c' u v a dom dom' at_ at_' e x, grid1 c u a dom at_ -> grid1 c' v a dom' at_' -> values_within e u v -> dom x -> dom' x ->
  (exists r r', hold_last1 ROps c at_ x = Ok r /\ hold_last1 ROps c' at_' x = Ok r' /\ Rabs (r - r') <= e) /\
  (coord a 0 <= x <= coord a (npts a - 1) ->
   exists r r', linear1 ROps c at_ x = Ok r /\ linear1 ROps c' at_' x = Ok r' /\ Rabs (r - r') <= e).
Proof. exact data_errors. Qed.

Example C03_one_dim_ex : nearest1 ROps (c1_at ROps rplain e1_rect) 4 = Ok 50.
Proof. apply (C03_one_dim _ _ _ _ _ 2 e1_rect_ok). vm_compute. split; [discriminate|reflexivity]. Qed.
Definition w1_grid : list R := [0; 2; 4].
Lemma w1_ok (vals : list R) : length vals = 3%nat -> grid1 rplain vals (list_axis w1_grid) (fun _ => True) (c1_at ROps rplain (mkC1 w1_grid vals)).
Proof.
  intros L. apply (@grid1_rectilinear rplain vals w1_grid (mkC1 w1_grid vals)); [unfold zlen; rewrite L; vm_compute; discriminate|sorted_ok|].
  unfold c1_new. rewrite L. reflexivity.
Qed.
Example C10_one_dim_ex : hold_last1 ROps rplain (r1_at ROps rplain e1_reg) 7 = hold_last1 ROps rplain (c1_at ROps rplain (mkC1 w1_grid e1_vals)) 7.
Proof.
  destruct (C10_one_dim rplain rplain e1_vals (mkAxis 3 (fun i => 0 + 2 * IZR i)) (list_axis w1_grid)
    (fun x => IZR isize_min <= (x - 0) / 2 < IZR (isize_max + 1)) (fun _ => True)
    (r1_at ROps rplain e1_reg) (c1_at ROps rplain (mkC1 w1_grid e1_vals)) 7) as (_ & H & _);
    [|exact e1_reg_ok|apply w1_ok; reflexivity|fits1|exact I|exact H].
  split; [reflexivity|]. intros i Hi. cbn [npts] in Hi. destruct (three i Hi) as [->|[->| ->]]; node_ok.
Qed.
Example C52_one_dim_ex : exists r r', hold_last1 ROps rplain (c1_at ROps rplain (mkC1 w1_grid [10; 20; 50])) (-9) = Ok r /\
  hold_last1 ROps rplain (c1_at ROps rplain (mkC1 w1_grid [11; 19; 50])) (-9) = Ok r' /\ Rabs (r - r') <= 1.
Proof.
  apply (C52_one_dim rplain rplain [10; 20; 50] [11; 19; 50] (list_axis w1_grid) (fun _ => True) (fun _ => True) _ _ 1 (-9));
    [apply w1_ok; reflexivity|apply w1_ok; reflexivity| |exact I|exact I].
  repeat (apply Forall2_cons; [apply Rabs_le; lra|]). apply Forall2_nil.
Qed.

Print Assumptions C03_one_dim.
Print Assumptions C10_one_dim.
Print Assumptions C52_one_dim.
