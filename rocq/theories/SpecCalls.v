(** Whole calls of interpn: which arguments are valid. *)
From Coq Require Import ZArith List.
From Verif Require Import Base Ops Spec.
Import ListNotations.
Unset Implicit Arguments.
Open Scope Z_scope.

(** Arguments of a rectilinear interpn: 1 to [axes] axes of at least [size] coordinates of which the
    first two increase, one value for each grid point, one observation array per axis, each with [m]
    observations. *)
Definition valid_rectilinear {F} (o : Ops F) (size : Z) (axes : nat) (grids : list (list F)) (vals : list F)
  (obs : list (list F)) (m : nat) : Prop :=
  (1 <= length grids <= axes)%nat /\ length obs = length grids /\ Forall (fun xs => length xs = m) obs /\
  zlen vals = zprod (map zlen grids) /\ Forall (fun g => size <= zlen g) grids /\ Forall (first_two_increase o) grids.

(** The same for a regular interpn: one start and one positive step per axis. *)
Definition valid_regular {F} (o : Ops F) (size : Z) (axes : nat) (dims : list Z) (starts steps vals : list F)
  (obs : list (list F)) (m : nat) : Prop :=
  (1 <= length dims <= axes)%nat /\ length starts = length dims /\ length steps = length dims /\
  length obs = length dims /\ Forall (fun xs => length xs = m) obs /\
  zlen vals = zprod dims /\ Forall (fun d => size <= d) dims /\ Forall (fun h => flt o (fzero o) h = true) steps.

(** The number of whole steps from [start] to [x], as computed, if it fits in isize. *)
Definition whole_steps {F} (o : Ops F) (start step x : F) : option Z :=
  to_isize o (ffloor o (fdiv o (fsub o x start) step)).

(** Every observation has one. *)
Definition observations_fit {F} (o : Ops F) (starts steps : list F) (obs : list (list F)) (m : nat) : Prop :=
  forall j k, (j < m)%nat -> (k < length starts)%nat ->
  whole_steps o (nth k starts (fzero o)) (nth k steps (fzero o)) (nth k (point_of (fzero o) obs j) (fzero o)) <> None.

(** The call succeeds: every output has been written. *)
Definition succeeds {F} (out : list F) (r : outcome unit * list F) : Prop :=
  fst r = Ok tt /\ length (snd r) = length out.
(** The call returns an error and has not touched the output. *)
Definition refused {F} (out : list F) (r : outcome unit * list F) : Prop := exists e, r = (Err e, out).
(** The call returns the error [e] after writing some outputs. *)
Definition stopped {F} (e : string) (out : list F) (r : outcome unit * list F) : Prop :=
  fst r = Err e /\ length (snd r) = length out.
(** No observation is 2^63 or more whole steps below the start (see C13). *)
Definition above_lowest {F} (o : Ops F) (starts steps : list F) (obs : list (list F)) (m : nat) : Prop :=
  forall j k i, (j < m)%nat -> (k < length starts)%nat ->
  whole_steps o (nth k starts (fzero o)) (nth k steps (fzero o)) (nth k (point_of (fzero o) obs j) (fzero o)) = Some i ->
  isize_min < i <= isize_max.
