(** What `new` of the Python classes and the JSON loader make of integers: small specifications. *)
From Coq Require Import Reals ZArith List.
From Flocq Require Import Core.Core IEEE754.BinarySingleNaN.
From Verif Require Import Base Ops FInst ModelPython ModelSerial SpecSerial SpecDocument.
Import ListNotations.
Unset Implicit Arguments.
Open Scope Z_scope.

(** The number of type [d] nearest to the integer; of two nearest ones, the even one. *)
Definition nearest_to (d : dtype) (z : Z) : R :=
  match d with
  | Float32 => round radix2 (FLT_exp (-149) 24) ZnearestE (IZR z)
  | Float64 => round radix2 (FLT_exp (-1074) 53) ZnearestE (IZR z)
  end.
Definition nearest_int (d : dtype) (z : Z) (x : num d) : Prop :=
  finite_of d x = true /\ real_of d x = nearest_to d z.
(** Integers of at most 64 bits, signed or unsigned. *)
Definition machine_int (z : Z) : Prop := - 2 ^ 63 <= z < 2 ^ 64.
Definition machine_ints (x : nparray) : Prop := forall l, x = NpInt l -> Forall machine_int l.

(** The element type in which `new` stores its arrays: float64 for float64 values, else float32. *)
Inductive new_type : nparray -> dtype -> Prop :=
| new_type_float d l : new_type (typed d l) d
| new_type_ints l : new_type (NpInt l) Float32.
(** The array [a] of type [d] holds what the caller's array [x] says: floating-point numbers
    converted as in C50_conversion_same, _wider and _narrower, integers rounded to nearest. *)
Inductive holds (d : dtype) : nparray -> array -> Prop :=
| holds_floats d' l : holds d (typed d' l) (stored d (map (conv d' d) l))
| holds_ints l xs : Forall2 (nearest_int d) l xs -> holds d (NpInt l) (stored d xs).
