(** What the elements of an array in memory are: a small specification. *)
From Verif Require Import Base ModelPython ModelLayout.
Open Scope Z_scope.

(** Position of the element with the given index. *)
Fixpoint place (strides : list Z) (start : Z) (idx : list nat) : Z :=
  match strides, idx with
  | s :: strides', i :: idx' => place strides' (start + Z.of_nat i * s) idx'
  | _, _ => start
  end.

(** The index of element number [k] of an array in C order (the last index varies fastest). *)
Fixpoint c_index (shape : list nat) (k : nat) : list nat :=
  match shape with
  | [] => []
  | n :: shape' => (k / nprod shape')%nat :: c_index shape' (k mod nprod shape')%nat
  end.

(** The array in memory [a] has the shape and the elements of [x]: element number k of [x] in
    C order is the one that the strides of [a] designate. *)
Definition holds {F} (a : strided F) (x : ndarray F) : Prop :=
  length (strides a) = length (shape a) /\ nd_shape x = shape a /\ length (nd_data x) = nprod (shape a) /\
  forall k v, nth_error (nd_data x) k = Some v ->
    let p := place (strides a) (offset a) (c_index (shape a) k) in 0 <= p /\ nth_error (buffer a) (Z.to_nat p) = Some v.
