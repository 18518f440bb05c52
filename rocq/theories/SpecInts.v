(** NumPy integer arrays as grids of the Python function interpn: small specifications. *)
From Flocq Require Import Core.Core IEEE754.BinarySingleNaN.
From Verif Require Import Base Ops FInst ModelPython ModelSerial SpecSerial.
Unset Implicit Arguments.
Open Scope Z_scope.

(** A one-dimensional integer array. *)
Definition int_line (g : list Z) : tarray := mkT [length g] (NpInt g).
(** All differences of consecutive entries equal the first one. *)
Definition even_ints (g : list Z) : Prop :=
  forall i a0 a1 a b, nth_error g 0 = Some a0 -> nth_error g 1 = Some a1 ->
  nth_error g i = Some a -> nth_error g (S i) = Some b -> b - a = a1 - a0.
(** The number of type [d] nearest to the integer. *)
Definition int_num (d : dtype) (z : Z) : num d := from_int (format_of d) z.
(** Integers of at most 24 (float32) or 53 (float64) binary digits. *)
Definition short_int (d : dtype) (z : Z) : Prop := Z.abs z <= 2 ^ (match d with Float32 => 24 | Float64 => 53 end).
(** The same grid given as floating-point numbers. *)
Definition float_line (d : dtype) (g : list Z) : tarray := tnd d (mkNd [length g] (map (int_num d) g)).
(** An evenly spaced integer grid, with a step other than 0, whose entries and step are that short. *)
Definition ints_fit (d : dtype) (g : list Z) : Prop :=
  (2 <= length g)%nat /\ even_ints g /\ Forall (short_int d) g /\ nth 0 g 0 <> nth 1 g 0 /\ short_int d (nth 1 g 0 - nth 0 g 0).
