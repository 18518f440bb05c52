(** Small specifications about comparisons of grid points, for any number type. *)
From Verif Require Import Base Ops.

(** The comparison [<] of the number type is transitive / irreflexive (true of the reals and
    of IEEE floats, NaN included). *)
Definition lt_transitive {F} (o : Ops F) : Prop :=
  forall a b c, flt o a b = true -> flt o b c = true -> flt o a c = true.
Definition lt_irreflexive {F} (o : Ops F) : Prop := forall a, flt o a a = false.

(** Every point of the grid is below all later points. *)
Definition increasing_grid {F} (o : Ops F) (g : list F) : Prop :=
  forall i j a b, (i < j)%nat -> nth_error g i = Some a -> nth_error g j = Some b ->
  flt o a b = true.

(** How many points of the grid are strictly below [x]. *)
Definition count_below {F} (o : Ops F) (x : F) (g : list F) : Z :=
  zlen (filter (fun v => flt o v x) g).

(** [i] is the cell (lower index) of the grid that contains [x]: the grid point [i] is below [x]
    unless it is the first, the grid point [i+1] is not below [x] unless it is the last. *)
Definition bracketing_cell {F} (o : Ops F) (x : F) (g : list F) (i : Z) : Prop :=
  0 <= i <= zlen g - 2 /\
  (forall a, 0 < i -> nth_error g (Z.to_nat i) = Some a -> flt o a x = true) /\
  (forall b, i < zlen g - 2 -> nth_error g (Z.to_nat (i + 1)) = Some b -> flt o b x = false).

(** All points of the grid are below [x] / none is. *)
Definition above_grid {F} (o : Ops F) (x : F) (g : list F) : Prop :=
  forall a, In a g -> flt o a x = true.
Definition not_above_first {F} (o : Ops F) (x : F) (g : list F) : Prop :=
  forall a, In a g -> flt o a x = false.
