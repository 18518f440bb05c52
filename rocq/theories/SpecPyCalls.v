(** Whole calls of the Python function interpn. *)
From Coq Require Import ZArith List String.
From Verif Require Import Base Ops Spec ModelPython.
Import ListNotations.
Unset Implicit Arguments.
Open Scope string_scope.
Open Scope Z_scope.

(** The methods, the coordinates per axis they need and the axes they allow. *)
Definition known_method (method : string) : Prop := method = "linear" \/ method = "nearest" \/ method = "cubic".
Definition nodes_needed (method : string) : Z := if String.eqb method "cubic" then 4 else 2.
Definition axes_allowed (method : string) : nat := if String.eqb method "nearest" then 6%nat else 8%nat.

(** The call returns a new array like [o0]; no array of the caller is written. *)
Definition returns_like {F} (o0 : ndarray F) (r : py (ndarray F) * option (list F)) : Prop :=
  exists data, r = (Ret (mkNd (nd_shape o0) data), None) /\ length data = length (nd_data o0).
(** The call raises AssertionError. *)
Definition asserts {F} (r : py (ndarray F) * option (list F)) : Prop :=
  exists msg, r = (Raise (AssertionError msg), None).
