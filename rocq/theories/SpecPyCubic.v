(** A box around a grid: a small specification. *)
From Coq Require Import Reals List ZArith.
From Verif Require Import Base SpecReal.
Open Scope R_scope.

(** Along axis k the box reaches at least [d k] beyond both ends of the grid. *)
Definition box_around (d : nat -> R) (axes box : list axis) : Prop :=
  length box = length axes /\
  forall k a b, nth_error axes k = Some a -> nth_error box k = Some b ->
    coord b 0 <= coord a 0 - d k /\ coord a (npts a - 1) + d k <= coord b (npts b - 1).
