(** Results with every value replaced by another one: a small specification. *)
From Verif Require Import Base ModelPython.

(** [relabel g r]: the outcome [r] with its value [v], if there is one, replaced by [g v]. *)
Definition relabel {A B} (g : A -> B) (r : outcome A) : outcome B :=
  match r with Ok v => Ok (g v) | Err e => Err e | Panic => Panic end.
(** The same for a call that fills an array: the outcome stays, the entries of the array change. *)
Definition relabel_array {A B} (g : A -> B) (r : outcome unit * list A) : outcome unit * list B := (fst r, map g (snd r)).
(** The same for a call of the Python package, and for an array with a shape. *)
Definition relabel_py {A B} (g : A -> B) (r : py A) : py B := match r with Ret v => Ret (g v) | Raise e => Raise e end.
Definition relabel_nd {A B} (g : A -> B) (a : ndarray A) : ndarray B := mkNd (nd_shape a) (map g (nd_data a)).
