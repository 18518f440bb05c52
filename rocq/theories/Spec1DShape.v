(** Small specification for the shape of one-dimensional interpolants: the slopes of the data, and
    the point of the grid interval nearest to an observation. *)
From Coq Require Import Reals.
From Verif Require Import Base Spec SpecReal Spec1D.
Open Scope R_scope.

(** Every slope between neighbouring data points is at least [m] and at most [M]. *)
Definition slopes_between (a : axis) (vals : list R) (m M : R) : Prop :=
  forall i, (0 <= i <= npts a - 2)%Z ->
  m * (coord a (i + 1) - coord a i) <= val_at vals (i + 1) - val_at vals i <= M * (coord a (i + 1) - coord a i).

Definition clamp (a : axis) (x : R) : R := Rmin (Rmax x (coord a 0)) (coord a (npts a - 1)).

(** [t] lies between [u] and [v], in either order. *)
Definition between (u v t : R) : Prop := u <= t <= v \/ v <= t <= u.
