(** Dyadic data and a point inside or outside the grid. *)
From Coq Require Import Reals ZArith List.
From Flocq Require Import Core.Core IEEE754.BinarySingleNaN.
From Verif Require Import SpecReal SpecExtrap SpecExact.
Unset Implicit Arguments.
Open Scope R_scope.

(** The point [x] lies at most (2^m - 1) / 2 cell widths outside the axis; for m = 0 it is inside. *)
Definition at_most_outside (m : Z) (a : axis) (x : R) : Prop := 1 + 2 * overshoot a x <= bpow radix2 m.

Section B.
Variables prec emax : Z.
Notation fl := (binary_float prec emax).
(** [SpecExact.dyadic_axis] with a point that may lie outside the axis: a power of two as step, the start
    and the point whole multiples of 2^-b steps with no more than [prec] binary digits. *)
Definition dyadic_axis_any (b m : Z) (start step x : fl) (d : Z) : Prop :=
  is_finite start = true /\ is_finite step = true /\ is_finite x = true /\
  exists e : Z, let q := (e - b)%Z in
  B2R step = bpow radix2 e /\ (3 - emax - prec <= q)%Z /\ (prec + q < emax)%Z /\
  whole (bpow radix2 q) (B2R start) /\ whole (bpow radix2 q) (B2R x) /\
  at_most_outside m (mkAxis d (fun i => B2R start + B2R step * IZR i)) (B2R x) /\
  Rabs (B2R start) <= bpow radix2 (prec + q) /\ Rabs (B2R start + B2R step * IZR (d - 1)) <= bpow radix2 (prec + q) /\
  (d - 1 + (2 ^ m - 1) <= 2 ^ (prec - b))%Z.
End B.
