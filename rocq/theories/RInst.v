(** Exact arithmetic: the instance of [Ops] at Coq's real numbers. *)
From Coq Require Import Reals.
From Flocq Require Import Core.Raux.
From Verif Require Import Base Ops.
Open Scope R_scope.

Definition Rltb (a b : R) : bool := if Rlt_dec a b then true else false.
Definition Rleb (a b : R) : bool := if Rle_dec a b then true else false.

(** Conversion to isize truncates and fails outside [-2^63, 2^63). *)
Definition R_to_isize (x : R) : option Z :=
  if Rleb (IZR isize_min) x && Rltb x (IZR (isize_max + 1)) then Some (Ztrunc x) else None.

Definition ROps : Ops R := mkOps
  0 1 Rplus Rminus Rmult Rdiv Ropp Rabs
  (fun x => IZR (Zfloor x))
  (fun a b c => a * b + c)
  Rltb Rleb Rmin Rmax
  (fun n => Some (IZR n))
  R_to_isize.
