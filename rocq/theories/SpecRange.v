(** Ranges of values that floating-point linear interpolation does not leave. *)
From Coq Require Import Reals ZArith.
From Flocq Require Import Core.Core IEEE754.BinarySingleNaN.
Open Scope R_scope.

Section B.
Context {prec emax : Z}.
Notation fl := (binary_float prec emax).
(** The number has at most [prec - 1] significant bits, one less than the format has: 52 bits for f64,
    like every integer below 2^52 and every f32 number. *)
Definition short_number (v : fl) : Prop :=
  exists k e, (Z.abs k < 2 ^ (prec - 1))%Z /\ (3 - emax - prec <= e)%Z /\ B2R v = IZR k * bpow radix2 e.
(** One end of the range is 0 and the other one a short number; or both ends have the same sign and
    the one is at most twice the other. *)
Definition safe_range (lo hi : fl) : Prop :=
  is_finite lo = true /\ is_finite hi = true /\ B2R lo <= B2R hi /\
  (B2R lo = 0 /\ short_number hi \/ B2R hi = 0 /\ short_number lo \/
   0 < B2R lo /\ B2R hi <= 2 * B2R lo \/ B2R hi < 0 /\ 2 * B2R hi <= B2R lo).
End B.
