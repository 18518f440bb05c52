(** Results that do not turn back along a line. *)
From Coq Require Import Reals ZArith.
From Flocq Require Import Core.Core IEEE754.BinarySingleNaN.
From Verif Require Import Base Ops FInst.
Open Scope R_scope.

Section B.
Variables prec emax : Z.
Context (Hp : Prec_gt_0 prec) (He : Prec_lt_emax prec emax).
Notation fl := (binary_float prec emax).
(** Three results in rising or falling order (equal ones allowed). *)
Definition rising (a b c : fl) : Prop := B2R a <= B2R b <= B2R c.
Definition falling (a b c : fl) : Prop := B2R c <= B2R b <= B2R a.
(** The cell of a regular axis of [d] points that belongs to [x] is [i]: the whole part of
    (x - start) / step as computed, limited to the cells there are. *)
Definition computed_cell (start step x : fl) (d i : Z) : Prop :=
  i = Z.min (Z.max (Zfloor (B2R (fdiv (BOps Hp He) (fsub (BOps Hp He) x start) step))) 0) (d - 2).
End B.
