(** Dyadic data: numbers with few binary digits. *)
From Coq Require Import Reals ZArith List.
From Flocq Require Import Core.Core IEEE754.BinarySingleNaN.
Open Scope R_scope.

(** [r] is a whole multiple of [u]. *)
Definition whole (u r : R) : Prop := exists n : Z, r = IZR n * u.

Section B.
Variables prec emax : Z.
Notation fl := (binary_float prec emax).
(** A regular axis whose step is a power of two, and a point inside it; the start and the point are
    whole multiples of 2^-b steps, and the multiples are small enough to have [prec] binary digits
    (without overflow or underflow). *)
Definition dyadic_axis (b : Z) (start step x : fl) (d : Z) : Prop :=
  is_finite start = true /\ is_finite step = true /\ is_finite x = true /\
  exists e : Z, let q := (e - b)%Z in
  B2R step = bpow radix2 e /\ (3 - emax - prec <= q)%Z /\ (prec + q < emax)%Z /\
  whole (bpow radix2 q) (B2R start) /\ whole (bpow radix2 q) (B2R x) /\
  B2R start <= B2R x <= B2R start + B2R step * IZR (d - 1) /\
  Rabs (B2R start) <= bpow radix2 (prec + q) /\ Rabs (B2R start + B2R step * IZR (d - 1)) <= bpow radix2 (prec + q) /\
  (d - 1 <= 2 ^ (prec - b))%Z.
(** A rectilinear grid whose spacings are powers of two, not necessarily the same, and a point; all
    are whole multiples of 2^-b times every spacing. *)
Definition dyadic_grid (b : Z) (g : list fl) (x : fl) : Prop :=
  exists q : Z, (3 - emax - prec <= q)%Z /\ whole (bpow radix2 q) (B2R x) /\ Forall (fun v => whole (bpow radix2 q) (B2R v)) g /\
  forall i u v, nth_error g i = Some u -> nth_error g (S i) = Some v ->
    exists e, (e <= q + b)%Z /\ B2R v - B2R u = bpow radix2 e.
(** Values that are whole multiples of 2^g and at most 2^(g+a). *)
Definition dyadic_values (a g : Z) (vals : list fl) : Prop :=
  Forall (fun v => is_finite v = true /\ whole (bpow radix2 g) (B2R v) /\ Rabs (B2R v) <= bpow radix2 (g + a)) vals.
End B.
