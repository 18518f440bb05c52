(** Small specification for changes of units of one-dimensional grids. *)
From Coq Require Import Reals.
From Flocq Require Import Core.Core IEEE754.BinarySingleNaN.
From Verif Require Import Base Ops FInst.
Unset Implicit Arguments.
Open Scope R_scope.

Section B.
Context {prec emax : Z} (Hp : Prec_gt_0 prec) (He : Prec_lt_emax prec emax).
Notation fl := (binary_float prec emax).
Notation o := (BOps Hp He).

(** The slope of the line through two points neither overflows nor is subnormal. *)
Definition normal_slope (x0 y0 x1 y1 : fl) : Prop :=
  is_finite y0 = true /\ is_finite y1 = true /\ is_finite (fsub o y1 y0) = true /\
  let dx := B2R (fsub o x1 x0) in let dy := B2R (fsub o y1 y0) in
  dx <> 0 /\ (dy = 0 \/ bpow radix2 (2 - emax) <= Rabs (dy / dx) <= bpow radix2 (emax - 1)).
(** This for all pairs of neighbouring points. *)
Definition normal_slopes (grid vals : list fl) : Prop :=
  forall i x0 y0 x1 y1, nth_error grid i = Some x0 -> nth_error grid (S i) = Some x1 ->
  nth_error vals i = Some y0 -> nth_error vals (S i) = Some y1 -> normal_slope x0 y0 x1 y1.

(** For a regular grid, with the nodes as the library computes them. *)
Definition normal_slopes_regular (start step : fl) (vals : list fl) : Prop :=
  forall i n y0 y1, of_usize o (Z.of_nat i) = Some n -> nth_error vals i = Some y0 -> nth_error vals (S i) = Some y1 ->
  let x0 := fadd o start (fmul o step n) in normal_slope x0 y0 (fadd o x0 step) y1.

(** A regular grid of [d] points and an observation far from overflow. *)
Definition wide_axis (start step : fl) (d : Z) : Prop :=
  Rabs (B2R start) <= bpow radix2 (emax - 6) /\ Rabs (B2R step) * IZR d <= bpow radix2 (emax - 6).
Definition wide (v : fl) : Prop := Rabs (B2R v) <= bpow radix2 (emax - 6).
End B.
