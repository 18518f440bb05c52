(** Dyadic data for cubic interpolation. *)
From Coq Require Import Reals ZArith List.
From Flocq Require Import Core.Core IEEE754.BinarySingleNaN.
From Verif Require Import SpecExact.
Open Scope R_scope.

(** A rectilinear grid whose spacings are all the same power of two, and a point; all are whole
    multiples of 2^-b spacings. *)
Definition even_dyadic_grid (prec emax b : Z) (g : list (binary_float prec emax)) (x : binary_float prec emax) : Prop :=
  exists e : Z, let q := (e - b)%Z in
  (3 - emax - prec <= q)%Z /\ whole (bpow radix2 q) (B2R x) /\ Forall (fun v => whole (bpow radix2 q) (B2R v)) g /\
  forall i u v, nth_error g i = Some u -> nth_error g (S i) = Some v -> B2R v - B2R u = bpow radix2 e.
