(** How far a result may leave a range of values: a small specification. *)
From Coq Require Import Reals.
From Verif Require Import Base.
Open Scope R_scope.

(** [r] is at most the fraction [q] of the width of the range [lo, hi] below or above it. *)
Definition leaves_by_at_most (q lo hi r : R) : Prop := lo - q * (hi - lo) <= r <= hi + q * (hi - lo).
