(** Property C97: which calls of the Python function interpn return, and what the others raise. *)
From Coq Require Import PeanoNat Bool Lia List String ZArith.
From Verif Require Import Base Ops FInst ModelCore ModelPython Spec SpecCalls SpecPython SpecPyCalls.
From Verif Require Import PyCalls GenProofs3 ExampleData PropertiesFloat PropertiesPython PropertiesCalls.
Import ListNotations.
Open Scope string_scope.
Open Scope Z_scope.
Unset Implicit Arguments.

(** * C97: the call interpn(obs, grids, vals, method=...), without an output array and bounds check.
    Unevenly spaced grids: it returns exactly on valid arguments, whatever the numbers are. *)
Theorem C97_rectilinear :
  forall F (o : Ops F) c obs grids (vals o0 : ndarray F) lin assume atol method,
  hd_error obs = Some o0 -> known_method method ->
  let gs := map nd_data grids in let xs := map nd_data obs in let m := length (nd_data o0) in
  let call := py_interpn o c obs grids vals method None lin assume false atol in
  (length obs <= 8)%nat -> prefix_products_fit (map zlen gs) -> zlen (nd_data vals) <= isize_max ->
  Forall (fun g => (2 <= length (nd_data g))%nat) grids -> assume = false -> ~ Forall (evenly_spaced o) gs ->
  (length grids <= 8)%nat -> (method = "cubic" -> (length grids <= 4)%nat -> length obs = length grids) ->
  (valid_rectilinear o (nodes_needed method) (axes_allowed method) gs (nd_data vals) xs m -> returns_like o0 call) /\
  (~ valid_rectilinear o (nodes_needed method) (axes_allowed method) gs (nd_data vals) xs m -> asserts call).
Proof. exact @python_rectilinear. Qed.
(** Evenly spaced grids (or assume_regular): it returns on valid arguments if the number of steps to
    each observation fits in isize. *)
Theorem C97_regular :
  forall F (o : Ops F) c obs grids (vals o0 : ndarray F) lin assume atol method,
  hd_error obs = Some o0 -> known_method method ->
  let gs := map nd_data grids in let xs := map nd_data obs in let m := length (nd_data o0) in
  let call := py_interpn o c obs grids vals method None lin assume false atol in
  (length obs <= 8)%nat -> prefix_products_fit (map zlen gs) -> zlen (nd_data vals) <= isize_max ->
  usize_converts o -> Forall (fun g => (2 <= length (nd_data g))%nat) grids ->
  assume = true \/ Forall (evenly_spaced o) gs ->
  let dims := map zlen gs in let starts := firsts (fzero o) gs in let steps := spacings o (fzero o) gs in
  (method = "cubic" -> ovf_checks c = false \/ above_lowest o starts steps xs m) ->
  (method = "cubic" -> (length grids <= 4)%nat -> length obs = length grids) ->
  (valid_regular o (nodes_needed method) (axes_allowed method) dims starts steps (nd_data vals) xs m ->
     (observations_fit o starts steps xs m -> returns_like o0 call) /\
     (~ observations_fit o starts steps xs m -> call = (Raise (AssertionError "Unrepresentable coordinate value"), None))) /\
  (~ valid_regular o (nodes_needed method) (axes_allowed method) dims starts steps (nd_data vals) xs m -> asserts call).
Proof. exact @python_regular. Qed.
(** A grid with fewer than two coordinates is an IndexError or an AssertionError. *)
Theorem C97_short_grid :
  forall F (o : Ops F) c obs grids (vals o0 : ndarray F) lin assume atol method,
  hd_error obs = Some o0 -> known_method method ->
  let gs := map nd_data grids in
  let call := py_interpn o c obs grids vals method None lin assume false atol in
  (length obs <= 8)%nat -> prefix_products_fit (map zlen gs) -> zlen (nd_data vals) <= isize_max ->
  Exists (fun g => (length (nd_data g) < 2)%nat) grids -> (length grids <= 8)%nat ->
  (method = "cubic" -> (length grids <= 4)%nat -> length obs = length grids) ->
  call = (Raise IndexError, None) \/ asserts call.
Proof. exact @python_short. Qed.
(** Without observation arrays it is an IndexError; with more than eight it is a Rust panic. *)
Theorem C97_no_observations :
  forall F (o : Ops F) c grids vals method out lin assume cb atol, out = None ->
  py_interpn o c [] grids vals method out lin assume cb atol = (Raise IndexError, None).
Proof. exact @python_no_obs. Qed.
Theorem C97_many_observations :
  forall F (o : Ops F) c obs grids vals (o0 : ndarray F) method lin assume atol,
  hd_error obs = Some o0 -> known_method method ->
  Forall (fun g => (2 <= length (nd_data g))%nat) grids -> (8 < length obs)%nat ->
  py_interpn o c obs grids vals method None lin assume false atol = (Raise PanicException, None).
Proof. exact @python_many. Qed.
(** The condition on cubic calls is needed: one observation array for two grids is a panic. *)
Theorem C97_cubic_refuted :
  py_interpn F64Ops plain [arr [z64 1]] (map arr cub_grids) (arr cub_vals) "cubic" None false false false (z64 0) =
  (Raise PanicException, None).
Proof. vm_compute. reflexivity. Qed.

(** Examples. *)
Example C97_rectilinear_ex : let obs := [arr [nan64; z64 1; z64 5]; arr [z64 2; inf64; z64 2]] in
  returns_like (arr [nan64; z64 1; z64 5])
    (py_interpn F64Ops plain obs (map arr lin_grids) (arr lin_vals) "linear" None false false false (z64 0)).
Proof.
  intros obs.
  refine (proj1 (C97_rectilinear _ F64Ops plain obs (map arr lin_grids) (arr lin_vals) (arr [nan64; z64 1; z64 5])
    false false (z64 0) "linear" eq_refl (or_introl eq_refl) _ _ _ _ eq_refl _ _ _) _).
  - apply Nat.leb_le. reflexivity.
  - sizes_fit.
  - vm_compute. discriminate.
  - repeat constructor.
  - intros Q. apply Forall_inv in Q.
    destruct (Q 1%nat (z64 0) (f64_lit 1 (-1)) (f64_lit 1 (-1)) (z64 2) eq_refl eq_refl eq_refl eq_refl) as (Q1 & _).
    vm_compute in Q1. discriminate.
  - apply Nat.leb_le. reflexivity.
  - discriminate.
  - valid_args.
Qed.
Example C97_regular_ex :
  py_interpn F64Ops plain [arr [nan64]] [arr [z64 1; z64 2; z64 3]] (arr [z64 5; z64 6; z64 7]) "nearest" None false false false (z64 0) =
  (Raise (AssertionError "Unrepresentable coordinate value"), None).
Proof.
  refine (proj2 (proj1 (C97_regular _ F64Ops plain [arr [nan64]] [arr [z64 1; z64 2; z64 3]] (arr [z64 5; z64 6; z64 7]) (arr [nan64])
    false false (z64 0) "nearest" eq_refl (or_intror (or_introl eq_refl)) _ _ _ usize_converts_f64 _ _ _ _) _) _).
  - apply Nat.leb_le. reflexivity.
  - sizes_fit.
  - vm_compute. discriminate.
  - repeat constructor.
  - right. constructor; [|constructor].
    intros i a0 a1 a b [= <-] [= <-] Ha Hb. destruct i as [|[|i]].
    + injection Ha as <-. injection Hb as <-. split; vm_compute; reflexivity.
    + injection Ha as <-. injection Hb as <-. split; vm_compute; reflexivity.
    + simpl in Hb. destruct i; discriminate.
  - discriminate.
  - discriminate.
  - valid_args.
  - intros Q. apply (Q 0%nat 0%nat); [apply Nat.ltb_lt; reflexivity|apply Nat.ltb_lt; reflexivity|].
    vm_compute. reflexivity.
Qed.
Example C97_short_ex :
  let call := py_interpn F64Ops plain [arr [z64 1]] [arr [z64 1]] (arr [z64 5]) "linear" None false false false (z64 0) in
  call = (Raise IndexError, None) \/ asserts call.
Proof.
  refine (C97_short_grid _ F64Ops plain [arr [z64 1]] [arr [z64 1]] (arr [z64 5]) (arr [z64 1]) false false (z64 0) "linear"
    eq_refl (or_introl eq_refl) _ _ _ _ _ _).
  - apply Nat.leb_le. reflexivity.
  - sizes_fit.
  - vm_compute. discriminate.
  - apply Exists_cons_hd. apply Nat.ltb_lt. reflexivity.
  - apply Nat.leb_le. reflexivity.
  - discriminate.
Qed.
Example C97_many_ex :
  py_interpn F64Ops plain (repeat (arr [z64 1]) 9) (repeat (arr [z64 1; z64 2]) 9) (arr []) "linear" None false false false (z64 0) =
  (Raise PanicException, None).
Proof.
  refine (C97_many_observations _ F64Ops plain (repeat (arr [z64 1]) 9) (repeat (arr [z64 1; z64 2]) 9) (arr []) (arr [z64 1])
    "linear" false false (z64 0) eq_refl (or_introl eq_refl) _ _).
  - repeat constructor.
  - apply Nat.ltb_lt. reflexivity.
Qed.
Print Assumptions C97_rectilinear.
Print Assumptions C97_regular.
Print Assumptions C97_short_grid.
Print Assumptions C97_no_observations.
Print Assumptions C97_many_observations.
Print Assumptions C97_cubic_refuted.
