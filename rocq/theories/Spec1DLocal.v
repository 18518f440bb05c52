(** Small specification: two one-dimensional grids, given by their methods `at`, give the same
    result with each of the five interpolators at the observation [x]. *)
From Verif Require Import Base Ops ModelOneDim.

Definition same_results {F} (o : Ops F) (c : cfg) (at_ at' : F -> outcome (grid_sample F)) (x : F) : Prop :=
  linear1 o c at_ x = linear1 o c at' x /\ hold_last1 o c at_ x = hold_last1 o c at' x /\
  left1 at_ x = left1 at' x /\ right1 at_ x = right1 at' x /\ nearest1 o at_ x = nearest1 o at' x.

(** Two arrays hold the same at positions [i] and [i + 1]. *)
Definition same_pair {F} (i : nat) (vals vals' : list F) : Prop :=
  nth_error vals i = nth_error vals' i /\ nth_error vals (S i) = nth_error vals' (S i).
