(** Small specifications for the Python package, independent of the model's code. *)
From Coq Require Import Reals.
From Verif Require Import Base Ops Spec SpecReal ModelPython.

(** a == b *)
Definition same_number {F} (o : Ops F) (a b : F) : Prop := fle o a b = true /\ fle o b a = true.

(** All differences of consecutive coordinates equal the first one. *)
Definition evenly_spaced {F} (o : Ops F) (g : list F) : Prop :=
  forall i a0 a1 a b, nth_error g 0 = Some a0 -> nth_error g 1 = Some a1 ->
  nth_error g i = Some a -> nth_error g (S i) = Some b ->
  same_number o (fsub o b a) (fsub o a1 a0).

(** First coordinate and first difference of each grid. *)
Definition firsts {F} (d : F) (grids : list (list F)) : list F := map (fun g => nth 0 g d) grids.
Definition spacings {F} (o : Ops F) (d : F) (grids : list (list F)) : list F :=
  map (fun g => fsub o (nth 1 g d) (nth 0 g d)) grids.

(** What Python sees of a call of the Rust library that ended with [r]; the result has the
    given shape. *)
Definition python_result {F} (shape : list nat) (r : outcome unit * list F) : py (ndarray F) :=
  match r with
  | (Ok _, data) => Ret (mkNd shape data)
  | (Err msg, _) => Raise (AssertionError msg)
  | (Panic, _) => Raise PanicException
  end.

(** A well-formed call on [length grids] axes: one observation array per axis, all with as many
    elements as the first, at least [m] points per axis, and a value for each grid node. *)
Definition good_call {F} (m : nat) (o0 : ndarray F) (obs grids : list (ndarray F)) (vals : ndarray F) : Prop :=
  hd_error obs = Some o0 /\ length obs = length grids /\
  Forall (fun a => length (nd_data a) = length (nd_data o0)) obs /\
  Forall (fun g => (m <= length (nd_data g))%nat) grids /\
  zlen (nd_data vals) = zprod (map (fun g => zlen (nd_data g)) grids) /\
  zlen (nd_data vals) <= isize_max.

(** A positive computed difference means the numbers increase (true of the reals and of IEEE
    floats, because of gradual underflow). *)
Definition differences_sound {F} (o : Ops F) : Prop :=
  forall a b, flt o (fzero o) (fsub o b a) = true -> flt o a b = true.

(** The array a class writes to: the one supplied, or zeros like the first observation array. *)
Definition output_array {F} (o : Ops F) (obs : list (list F)) (out : option (list F)) (out0 : list F) : Prop :=
  match out with
  | Some b => out0 = b
  | None => exists x, hd_error obs = Some x /\ out0 = repeat (fzero o) (length x)
  end.
