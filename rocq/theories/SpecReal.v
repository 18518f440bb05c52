(** Small specifications over the real numbers, independent of the model's code. *)
From Coq Require Import Reals Sorted.
From Verif Require Import Base Spec.
Open Scope R_scope.

(** ** Grids *)

(** One axis of a grid: its number of points and the coordinate of each point. *)
Record axis := mkAxis { npts : Z; coord : Z -> R }.

(** The axes of a regular grid: point i of an axis is at start + step * i. *)
Fixpoint reg_axes (dims : list Z) (starts steps : list R) : list axis :=
  match dims, starts, steps with
  | d :: ds, a :: az, h :: hs => mkAxis d (fun i => a + h * IZR i) :: reg_axes ds az hs
  | _, _, _ => []
  end.

(** The axes of a rectilinear grid: the coordinates are listed. *)
Definition list_axis (g : list R) : axis := mkAxis (zlen g) (fun i => nth (Z.to_nat i) g 0).
Definition rect_axes (grids : list (list R)) : list axis := map list_axis grids.

Definition strictly_increasing (g : list R) : Prop := StronglySorted Rlt g.

Definition increasing_axis (a : axis) : Prop :=
  forall i j, (0 <= i < j)%Z -> (j < npts a)%Z -> coord a i < coord a j.

(** The position of the grid node with multi-index [idx]. *)
Fixpoint node_pos (axes : list axis) (idx : list Z) : list R :=
  match axes, idx with
  | a :: l, i :: is => coord a i :: node_pos l is
  | _, _ => []
  end.

(** ** Cells *)

(** Cell [o] of an axis is the interval between points o and o+1; the first and the
    last cell extend to minus and plus infinity. *)
Definition in_cell (a : axis) (x : R) (o : Z) : Prop :=
  (0 <= o <= npts a - 2)%Z /\
  (o = 0%Z \/ coord a o <= x) /\
  (o = (npts a - 2)%Z \/ x <= coord a (o + 1)).

(** [os] is a cell of the grid that contains the point [x]. *)
Definition in_cells (axes : list axis) (x : list R) (os : list Z) : Prop :=
  length x = length axes /\ length os = length axes /\
  forall k a, nth_error axes k = Some a -> in_cell a (nth k x 0) (nth k os 0%Z).

(** The point is inside the grid. *)
Definition inside_grid (axes : list axis) (x : list R) : Prop :=
  length x = length axes /\
  forall k a, nth_error axes k = Some a ->
    coord a 0 <= nth k x 0 <= coord a (npts a - 1).

(** Local coordinate in cell [o]: 0 at its lower and 1 at its upper point. *)
Definition local_coord (a : axis) (x : R) (o : Z) : R :=
  (x - coord a o) / (coord a (o + 1) - coord a o).

Fixpoint local_coords (axes : list axis) (x : list R) (os : list Z) : list R :=
  match axes, x, os with
  | a :: l, v :: vs, o :: os' => local_coord a v o :: local_coords l vs os'
  | _, _, _ => []
  end.

(** ** The multilinear formula: a sum over the 2^N corners of a cell *)
Fixpoint corners (n : nat) : list (list bool) :=
  match n with
  | O => [[]]
  | S m => map (cons false) (corners m) ++ map (cons true) (corners m)
  end.

Fixpoint corner_weight (ts : list R) (b : list bool) : R :=
  match ts, b with
  | t :: ts', hi :: b' => (if hi then t else 1 - t) * corner_weight ts' b'
  | _, _ => 1
  end.

Fixpoint corner_index (os : list Z) (b : list bool) : list Z :=
  match os, b with
  | o :: os', hi :: b' => ((if hi then o + 1 else o)%Z) :: corner_index os' b'
  | _, _ => []
  end.

Definition Rsum (l : list R) : R := fold_right Rplus 0 l.

Definition corner_sum (V : list Z -> R) (os : list Z) (ts : list R) : R :=
  Rsum (map (fun b => corner_weight ts b * V (corner_index os b)) (corners (length os))).

(** ** Classes of functions *)

(** [f] restricted to any line parallel to an axis is a polynomial of degree <= 1. *)
Definition affine_in_each (n : nat) (f : list R -> R) : Prop :=
  forall k x, (k < n)%nat -> length x = n ->
  exists a b, forall t, f (upd x k t) = a + b * t.

Definition quadratic_in_each (n : nat) (f : list R -> R) : Prop :=
  forall k x, (k < n)%nat -> length x = n ->
  exists a b c, forall t, f (upd x k t) = a + b * t + c * t * t.

(** The value array holds the samples of [f] at the grid nodes. *)
Definition samples (axes : list axis) (vals : list R) (f : list R -> R) : Prop :=
  forall idx, in_shape (map npts axes) idx ->
  entry 0 (map npts axes) vals idx = f (node_pos axes idx).

(** ** Continuity in all variables together *)
Definition continuous_at (n : nat) (F : list R -> R) (x : list R) : Prop :=
  forall eps, 0 < eps -> exists delta, 0 < delta /\
  forall y, length y = n -> (forall k, (k < n)%nat -> Rabs (nth k y 0 - nth k x 0) < delta) ->
  Rabs (F y - F x) < eps.

(** [F] has a partial derivative along axis k at x with value D. *)
Definition partial_derivative (F : list R -> R) (k : nat) (x : list R) (D : R) : Prop :=
  derivable_pt_lim (fun t => F (upd x k t)) (nth k x 0) D.

(** Continuously differentiable: all partial derivatives exist everywhere and are
    continuous. *)
Definition continuously_differentiable (n : nat) (F : list R -> R) : Prop :=
  exists D : nat -> list R -> R,
  forall k, (k < n)%nat ->
    (forall x, length x = n -> partial_derivative F k x (D k x)) /\
    (forall x, length x = n -> continuous_at n (D k) x).

(** ** Regular grids: the cell number of every coordinate is an isize
    (otherwise evaluation returns an error). [lo] is the smallest allowed cell number. *)
Definition cell_fits (lo : Z) (starts steps x : list R) : Prop :=
  forall k, (k < length x)%nat ->
    IZR lo <= (nth k x 0 - nth k starts 0) / nth k steps 0 < IZR (isize_max + 1).

(** ** Relations between grids *)

(** Two descriptions of the same axis. *)
Definition same_axis (a b : axis) : Prop :=
  npts a = npts b /\ forall i, (0 <= i < npts a)%Z -> coord a i = coord b i.
Definition same_grid (axes axes' : list axis) : Prop := Forall2 same_axis axes axes'.

(** Axis b is axis a in other units: scaled by s > 0 and shifted by t. *)
Definition rescaled_axis (st : R * R) (a b : axis) : Prop :=
  0 < fst st /\ npts b = npts a /\
  forall i, (0 <= i < npts a)%Z -> coord b i = fst st * coord a i + snd st.

Fixpoint rescaled_grid (st : list (R * R)) (axes axes' : list axis) (x x' : list R) : Prop :=
  match st, axes, axes', x, x' with
  | [], [], [], [], [] => True
  | p :: st, a :: l, b :: l', v :: x, v' :: x' =>
      rescaled_axis p a b /\ v' = fst p * v + snd p /\ rescaled_grid st l l' x x'
  | _, _, _, _, _ => False
  end.

(** Axis b is axis a reversed: the coordinates negated, in the opposite order. *)
Definition reflected_axis (a b : axis) : Prop :=
  npts b = npts a /\ forall i, (0 <= i < npts a)%Z -> coord b i = - coord a (npts a - 1 - i).

Definition reflect_index (flip : bool) (n i : Z) : Z := if flip then (n - 1 - i)%Z else i.

(** The axes k with flips[k] = true are reversed, the others are unchanged. *)
Fixpoint reflected_grid (flips : list bool) (axes axes' : list axis) (x x' : list R) : Prop :=
  match flips, axes, axes', x, x' with
  | [], [], [], [], [] => True
  | f :: fs, a :: l, b :: l', v :: x, v' :: x' =>
      (if f then reflected_axis a b /\ v' = - v else same_axis a b /\ v' = v) /\
      reflected_grid fs l l' x x'
  | _, _, _, _, _ => False
  end.

Fixpoint reflect_indices (flips : list bool) (dims idx : list Z) : list Z :=
  match flips, dims, idx with
  | f :: fs, n :: ds, i :: is => reflect_index f n i :: reflect_indices fs ds is
  | _, _, _ => []
  end.

(** [permute p l] is the list l[p0], l[p1], ... *)
Definition permute {A} (d : A) (p : list nat) (l : list A) : list A := map (fun k => nth k l d) p.

Definition no_axis : axis := mkAxis 0 (fun _ => 0).

(** Node i of an axis is nearest to x, the lower one on a tie. *)
Definition nearest_node (a : axis) (x : R) (i : Z) : Prop :=
  (0 <= i < npts a)%Z /\ forall j, (0 <= j < npts a)%Z ->
    Rabs (x - coord a i) <= Rabs (x - coord a j) /\
    (Rabs (x - coord a i) = Rabs (x - coord a j) -> (i <= j)%Z).

Definition nearest_nodes (axes : list axis) (x : list R) (idx : list Z) : Prop :=
  length x = length axes /\ length idx = length axes /\
  forall k a, nth_error axes k = Some a -> nearest_node a (nth k x 0) (nth k idx 0%Z).

(** Entry-wise a*u + b*v. *)
Definition combination (a b : R) (u v : list R) : list R :=
  map (fun p => a * fst p + b * snd p) (combine u v).

(** ** Bounds checks *)

(** Some observation is at least [atol] outside the interval from [lo] to [hi]. *)
Definition beyond (lo hi atol : R) (xs : list R) : Prop :=
  exists x, In x xs /\ (x <= lo - atol \/ hi + atol <= x).
