(** Small specification: at every cell of a regular one-dimensional grid, the computed distance
    between the ends of the cell is finite and not zero, and the distance from the observation to
    its lower end is finite. *)
From Coq Require Import Reals ZArith.
From Flocq Require Import IEEE754.BinarySingleNaN Core.
From Verif Require Import Base Ops FInst SpecIEEE.

Section B.
Context {prec emax : Z} (Hp : Prec_gt_0 prec) (He : Prec_lt_emax prec emax).
Notation fl := (binary_float prec emax).
Definition nodes_apart (start step : fl) (n : Z) (x : fl) : Prop :=
  forall i a, (0 <= i <= n - 2)%Z -> reg_node Hp He false start step i = Some a ->
  let w := fsub (BOps Hp He) (fadd (BOps Hp He) a step) a in
  is_finite w = true /\ B2R w <> 0%R /\ is_finite (fsub (BOps Hp He) x a) = true.
End B.
