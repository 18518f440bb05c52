(** Specification vocabulary: how much steeper than the data a cubic interpolant may be. *)
From Coq Require Import Reals.
Open Scope R_scope.

(** Each grid cell of an axis is at most [rho] times as wide as its neighbours. Along that axis the
    cubic interpolant is at most [cubic_slope_gain rho] times as steep as the steepest segment
    between neighbouring data points: twice as steep when the spacing is even, and less than
    three times as steep however uneven it is. *)
Definition cubic_slope_gain (rho : R) : R := (1 + 3 * rho) / (1 + rho).

(** The factor for moving the nodes of a grid instead of the point; 3 when the spacing is even. *)
Definition cubic_move_gain (rho : R) : R := (2 + 9 * rho + rho * rho) / (2 * (1 + rho)).
