(** Small specification for one-dimensional grids: points that are no grid points, and points that
    are not halfway between two grid points. *)
From Coq Require Import Reals.
From Verif Require Import Base SpecReal.
Open Scope R_scope.

Definition off_nodes (a : axis) (x : R) : Prop := forall i, (0 <= i < npts a)%Z -> x <> coord a i.
Definition no_tie (a : axis) (x : R) : Prop := forall i, (0 <= i <= npts a - 2)%Z -> 2 * x <> coord a i + coord a (i + 1).
