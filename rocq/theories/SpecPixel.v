(** Regular axes without rounding. *)
From Coq Require Import Reals ZArith.
From Flocq Require Import Core.Core IEEE754.BinarySingleNaN.
Open Scope R_scope.

Section B.
Variables prec emax : Z.
Notation fl := (binary_float prec emax).
(** An axis of at most 2^prec points that starts at 0, with a step that is a power of two and a normal
    number, like the pixels of an image. *)
Definition pixel_axis (start step : fl) (d : Z) : Prop :=
  is_finite start = true /\ B2R start = 0 /\ is_finite step = true /\
  (exists e, B2R step = bpow radix2 e /\ (2 - emax <= e)%Z) /\ (d <= 2 ^ prec)%Z.
End B.
