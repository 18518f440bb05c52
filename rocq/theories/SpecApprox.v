(** How well an interpolator approximates a function it has been given samples of:
    a small specification, independent of the model's code. *)
From Coq Require Import Reals.
From Verif Require Import Base Spec SpecReal.
Open Scope R_scope.

(** The distance between the neighbouring points o and o+1 of an axis. *)
Definition spacing (a : axis) (o : Z) : R := coord a (o + 1) - coord a o.

(** No two neighbouring points of the axis are further apart than h. *)
Definition spacing_at_most (a : axis) (h : R) : Prop :=
  forall o, (0 <= o <= npts a - 2)%Z -> spacing a o <= h.

(** Neighbouring spacings of the axis differ at most by the factor rho. *)
Definition spacing_ratio_at_most (a : axis) (rho : R) : Prop :=
  forall o, (0 <= o)%Z -> (o + 1 <= npts a - 2)%Z ->
    spacing a o <= rho * spacing a (o + 1) /\ spacing a (o + 1) <= rho * spacing a o.

(** Inside the grid, moving along axis k changes f at most L times the distance. *)
Definition slope_at_most (axes : list axis) (f : list R -> R) (k : nat) (L : R) : Prop :=
  forall x t, inside_grid axes x -> inside_grid axes (upd x k t) ->
    Rabs (f (upd x k t) - f x) <= L * Rabs (t - nth k x 0).

(** Inside the grid, the second partial derivative of f along axis k exists and is
    bounded by M. *)
Definition second_derivative_at_most (axes : list axis) (f : list R -> R) (k : nat) (M : R) : Prop :=
  exists D1 D2 : list R -> R, forall x, inside_grid axes x ->
    partial_derivative f k x (D1 x) /\ partial_derivative D1 k x (D2 x) /\ Rabs (D2 x) <= M.

(** The same for the third partial derivative. *)
Definition third_derivative_at_most (axes : list axis) (f : list R -> R) (k : nat) (M : R) : Prop :=
  exists D1 D2 D3 : list R -> R, forall x, inside_grid axes x ->
    partial_derivative f k x (D1 x) /\ partial_derivative D1 k x (D2 x) /\
    partial_derivative D2 k x (D3 x) /\ Rabs (D3 x) <= M.

(** e 0 + e 1 + ... + e (n-1) *)
Definition sum_upto (n : nat) (e : nat -> R) : R := Rsum (map e (seq 0 n)).

(** How far a cubic interpolant on one axis may leave the range of the data, as a factor,
    when neighbouring spacings differ at most by the factor rho: 5/4 on even spacings. *)
Definition cubic_gain (rho : R) : R := 1 + rho * rho / (2 * (1 + rho)).

(** No two corresponding values of the arrays differ by more than e. *)
Definition values_within (e : R) (u v : list R) : Prop := Forall2 (fun a b => Rabs (a - b) <= e) u v.

(** The next grid node along axis k. *)
Definition next_along (k : nat) (idx : list Z) : list Z := upd idx k (nth k idx 0%Z + 1)%Z.

(** The data never decreases from one node to the next along axis k. *)
Definition data_nondecreasing (dims : list Z) (vals : list R) (k : nat) : Prop :=
  forall idx, in_shape dims idx -> in_shape dims (next_along k idx) ->
    entry 0 dims vals idx <= entry 0 dims vals (next_along k idx).

(** From one node to the next along axis k, the data changes by at most L times the
    distance of the nodes. *)
Definition data_slope_at_most (axes : list axis) (vals : list R) (k : nat) (L : R) : Prop :=
  forall idx, in_shape (map npts axes) idx -> in_shape (map npts axes) (next_along k idx) ->
    Rabs (entry 0 (map npts axes) vals (next_along k idx) - entry 0 (map npts axes) vals idx)
    <= L * spacing (nth k axes no_axis) (nth k idx 0%Z).

(** All coordinates of x except coordinate k are inside the grid. *)
Definition inside_except (axes : list axis) (k : nat) (x : list R) : Prop :=
  length x = length axes /\
  forall j a, j <> k -> nth_error axes j = Some a -> coord a 0 <= nth j x 0 <= coord a (npts a - 1).

(** The values are those of f at the grid nodes, up to e. *)
Definition samples_within (e : R) (axes : list axis) (vals : list R) (f : list R -> R) : Prop :=
  forall idx, in_shape (map npts axes) idx -> Rabs (entry 0 (map npts axes) vals idx - f (node_pos axes idx)) <= e.
