(** The one-dimensional grids of src/one_dim in exact arithmetic, as objects the theorems
    quantify over: a grid built by its constructor, its value array [vals], its coordinates
    [a : axis], the points [dom] whose cell number is an isize, and its method [at]. *)
From Coq Require Import Reals.
From Verif Require Import Base Ops RInst ModelOneDim Spec SpecReal.
Open Scope R_scope.

Inductive grid1 (c : cfg) (vals : list R) :
  axis -> (R -> Prop) -> (R -> outcome (grid_sample R)) -> Prop :=
| grid1_regular start step g :
    (2 <= zlen vals <= isize_max)%Z -> 0 < step ->
    r1_new ROps c start step vals = Ok g ->
    grid1 c vals (mkAxis (zlen vals) (fun i => start + step * IZR i))
      (fun x => IZR isize_min <= (x - start) / step < IZR (isize_max + 1))
      (r1_at ROps c g)
| grid1_rectilinear grid g :
    (zlen vals <= isize_max)%Z -> strictly_increasing grid ->
    c1_new grid vals = Ok g ->
    grid1 c vals (list_axis grid) (fun _ => True) (c1_at ROps c g).

(** The value stored for grid point [i]. *)
Definition val_at (vals : list R) (i : Z) : R := nth (Z.to_nat i) vals 0.
