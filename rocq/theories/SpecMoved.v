(** Two grids whose nodes are close to each other: a small specification. *)
From Coq Require Import Reals List.
From Verif Require Import Base Spec SpecReal SpecApprox SpecExtrap.
Open Scope R_scope.

(** Corresponding points of the two axes are at most d apart. *)
Definition nodes_within (d : R) (a b : axis) : Prop :=
  npts a = npts b /\ forall i, (0 <= i < npts a)%Z -> Rabs (coord a i - coord b i) <= d.

(** The nodes of the two grids differ by at most d k along axis k. *)
Definition moved_grid (d : nat -> R) (axes axes' : list axis) : Prop :=
  length axes = length axes' /\
  forall k a b, nth_error axes k = Some a -> nth_error axes' k = Some b -> nodes_within (d k) a b.

(** 1 plus 2 for each cell width that x lies outside the grid (the grid where it lies further
    outside), multiplied over the axes. 1 inside both grids. *)
Definition moved_factor (axes axes' : list axis) (x : list R) : R :=
  prod_upto (length axes) (fun k => 1 + 2 * Rmax (outside_by axes x k) (outside_by axes' x k)).
