(** Which evaluations of a Python object return: small specifications. *)
From Coq Require Import ZArith List String.
From Verif Require Import Base Ops FInst ModelPython ModelSerial SpecSerial.
Import ListNotations.
Unset Implicit Arguments.
Open Scope Z_scope.

(** Points per axis that a class needs. *)
Definition points_needed (fam : family) : Z := match fam with Multicubic => 4 | _ => 2 end.
(** One observation array per axis, each with [m] observations, and enough points on every axis. *)
Definition can_evaluate {A} (fam : family) (sizes : list Z) (obs : list (list A)) (m : nat) : Prop :=
  length obs = length sizes /\ Forall (fun xs => length xs = m) obs /\ Forall (fun n => points_needed fam <= n) sizes.

(** The call returns [m] numbers, and they are in the array passed as out, if any. *)
Definition eval_returns {d : dtype} (m : nat) (out : option (list (num d))) (r : py nparray * option nparray) : Prop :=
  exists data, length data = m /\ r = (Ret (typed d data), option_map (fun _ => typed d data) out).
(** It raises AssertionError and the array passed as out is unchanged. *)
Definition eval_refuses {d : dtype} (out : option (list (num d))) (r : py nparray * option nparray) : Prop :=
  exists msg, r = (Raise (AssertionError msg), option_map (typed d) out).
(** It raises AssertionError with this message, and may have written to the array passed as out. *)
Definition eval_stops {d : dtype} (msg : string) (m : nat) (out : option (list (num d))) (r : py nparray * option nparray) : Prop :=
  exists data, length data = m /\ r = (Raise (AssertionError msg), option_map (fun _ => typed d data) out).
