(** Relations between value arrays and grids, used in the statements about data that is a product
    or a sum, about slices, and about refined and cropped grids. *)
From Coq Require Import Reals.
From Verif Require Import Base Spec SpecReal.
Unset Implicit Arguments.
Open Scope R_scope.

(** An index into an array of shape dims1 ++ dims2 is i ++ j. The array [w] holds, at i ++ j, the
    product of entry i of [u] and entry j of [v]. *)
Definition product_data (dims1 dims2 : list Z) (u v w : list R) : Prop :=
  forall i j, in_shape dims1 i -> in_shape dims2 j ->
    entry 0 (dims1 ++ dims2) w (i ++ j) = entry 0 dims1 u i * entry 0 dims2 v j.

(** The same with the sum. *)
Definition sum_data (dims1 dims2 : list Z) (u v w : list R) : Prop :=
  forall i j, in_shape dims1 i -> in_shape dims2 j ->
    entry 0 (dims1 ++ dims2) w (i ++ j) = entry 0 dims1 u i + entry 0 dims2 v j.

(** [s] is the slice of [w] at position [m] of the axis between dims1 and dims2. *)
Definition slice_data (dims1 : list Z) (d : Z) (dims2 : list Z) (m : Z) (w s : list R) : Prop :=
  forall i j, in_shape dims1 i -> in_shape dims2 j ->
    entry 0 (dims1 ++ dims2) s (i ++ j) = entry 0 (dims1 ++ d :: dims2) w (i ++ m :: j).

(** [u] holds the entries i ++ j of [w], for one j. *)
Definition block_data (dims1 dims2 : list Z) (j : list Z) (w u : list R) : Prop :=
  forall i, in_shape dims1 i -> entry 0 dims1 u i = entry 0 (dims1 ++ dims2) w (i ++ j).

(** Every inner node of axis [a] is an inner node of axis [b]. *)
Definition refines (a b : axis) : Prop :=
  forall i, (0 < i < npts a - 1)%Z -> exists j, (0 < j < npts b - 1)%Z /\ coord b j = coord a i.

(** Axis [b] consists of the nodes lo, lo + 1, ... of axis [a]. *)
Definition crop_axis (lo : Z) (a b : axis) : Prop :=
  (0 <= lo)%Z /\ (lo + npts b <= npts a)%Z /\
  forall j, (0 <= j < npts b)%Z -> coord b j = coord a (lo + j).

Definition crop_grid (los : list Z) (axes axes' : list axis) : Prop :=
  length los = length axes /\ length axes' = length axes /\
  forall k a b, nth_error axes k = Some a -> nth_error axes' k = Some b -> crop_axis (nth k los 0%Z) a b.

(** [s] is the part of [w] that starts at the multi-index [los]. *)
Definition crop_data (los dims dims' : list Z) (w s : list R) : Prop :=
  forall idx, in_shape dims' idx ->
    entry 0 dims' s idx = entry 0 dims w (map (fun p => (fst p + snd p)%Z) (combine los idx)).

(** The point is, along every axis, at least [m] cells inside the cropped grid, or on the side
    where nothing was cut off. *)
Definition inside_crop (m : Z) (los : list Z) (axes axes' : list axis) (x : list R) : Prop :=
  length x = length axes' /\
  forall k a b, nth_error axes k = Some a -> nth_error axes' k = Some b ->
    (nth k los 0%Z = 0%Z \/ coord b m <= nth k x 0) /\
    ((nth k los 0 + npts b)%Z = npts a \/ nth k x 0 <= coord b (npts b - 1 - m)).
