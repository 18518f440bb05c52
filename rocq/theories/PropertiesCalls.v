(** Property C96: a whole call of interpn succeeds exactly on valid arguments and does not panic. *)
From Coq Require Import Reals Lra PeanoNat Bool Lia List String ZArith.
From Flocq Require Import Core.Core IEEE754.BinarySingleNaN.
From Verif Require Import Base Ops FInst ModelCore ModelLinear ModelNearest ModelCubic Spec SpecCalls SpecTotal1D.
From Verif Require Import Total1D CallProofs GenProofs3 ExampleData PropertiesFloat.
Import ListNotations.
Open Scope string_scope.
Open Scope Z_scope.
Unset Implicit Arguments.

(** * C96: rectilinear grids. The call succeeds on valid arguments, whatever the numbers are; on all
    others it returns an error and the output is unchanged. *)
Theorem C96_linear_rectilinear :
  forall F (o : Ops F) c grids vals obs out,
  prefix_products_fit (map zlen grids) -> zlen vals <= isize_max ->
  (valid_rectilinear o 2 8 grids vals obs (length out) -> succeeds out (mlc_interpn o c grids vals obs out)) /\
  (~ valid_rectilinear o 2 8 grids vals obs (length out) -> refused out (mlc_interpn o c grids vals obs out)).
Proof. intros F o c. exact (call_mlc o c). Qed.
Theorem C96_linear_rectilinear_recursive :
  forall F (o : Ops F) c grids vals obs out,
  prefix_products_fit (map zlen grids) -> zlen vals <= isize_max ->
  (valid_rectilinear o 2 8 grids vals obs (length out) -> succeeds out (mlcr_interpn o c grids vals obs out)) /\
  (~ valid_rectilinear o 2 8 grids vals obs (length out) -> refused out (mlcr_interpn o c grids vals obs out)).
Proof. intros F o c. exact (call_mlcr o c). Qed.
Theorem C96_nearest_rectilinear :
  forall F (o : Ops F) c grids vals obs out,
  prefix_products_fit (map zlen grids) -> zlen vals <= isize_max ->
  (valid_rectilinear o 2 6 grids vals obs (length out) -> succeeds out (nc_interpn o c grids vals obs out)) /\
  (~ valid_rectilinear o 2 6 grids vals obs (length out) -> refused out (nc_interpn o c grids vals obs out)).
Proof. intros F o c. exact (call_nc o c). Qed.
Theorem C96_cubic_rectilinear_recursive :
  forall F (o : Ops F) c grids vals obs out lin,
  prefix_products_fit (map zlen grids) -> zlen vals <= isize_max ->
  (valid_rectilinear o 4 8 grids vals obs (length out) -> succeeds out (mccr_interpn o c grids vals lin obs out)) /\
  (~ valid_rectilinear o 4 8 grids vals obs (length out) -> refused out (mccr_interpn o c grids vals lin obs out)).
Proof. intros F o c. exact (call_mccr o c). Qed.
(** With up to four axes a wrong number of arrays panics (C16). *)
Theorem C96_cubic_rectilinear :
  forall F (o : Ops F) c grids vals obs out lin,
  prefix_products_fit (map zlen grids) -> zlen vals <= isize_max ->
  ((length grids <= 4)%nat -> length obs = length grids) ->
  (valid_rectilinear o 4 8 grids vals obs (length out) -> succeeds out (mcc_interpn o c grids vals lin obs out)) /\
  (~ valid_rectilinear o 4 8 grids vals obs (length out) -> refused out (mcc_interpn o c grids vals lin obs out)).
Proof. intros F o c. exact (call_mcc o c). Qed.

(** Regular grids. On valid arguments the call succeeds if the number of whole steps from the start to
    each observation fits in isize, and returns an error otherwise. *)
Theorem C96_linear_regular :
  forall F (o : Ops F) c dims starts steps vals obs out,
  usize_converts o -> prefix_products_fit dims -> zlen vals <= isize_max ->
  let r := mlr_interpn o c dims starts steps vals obs out in
  (valid_regular o 2 8 dims starts steps vals obs (length out) ->
     (observations_fit o starts steps obs (length out) -> succeeds out r) /\
     (~ observations_fit o starts steps obs (length out) -> stopped "Unrepresentable coordinate value" out r)) /\
  (~ valid_regular o 2 8 dims starts steps vals obs (length out) -> refused out r).
Proof. intros F o c. exact (call_mlr o c). Qed.
Theorem C96_linear_regular_recursive :
  forall F (o : Ops F) c dims starts steps vals obs out,
  usize_converts o -> prefix_products_fit dims -> zlen vals <= isize_max ->
  let r := mlrr_interpn o c dims starts steps vals obs out in
  (valid_regular o 2 8 dims starts steps vals obs (length out) ->
     (observations_fit o starts steps obs (length out) -> succeeds out r) /\
     (~ observations_fit o starts steps obs (length out) -> stopped "Unrepresentable coordinate value" out r)) /\
  (~ valid_regular o 2 8 dims starts steps vals obs (length out) -> refused out r).
Proof. intros F o c. exact (call_mlrr o c). Qed.
Theorem C96_nearest_regular :
  forall F (o : Ops F) c dims starts steps vals obs out,
  usize_converts o -> prefix_products_fit dims -> zlen vals <= isize_max ->
  let r := nr_interpn o c dims starts steps vals obs out in
  (valid_regular o 2 6 dims starts steps vals obs (length out) ->
     (observations_fit o starts steps obs (length out) -> succeeds out r) /\
     (~ observations_fit o starts steps obs (length out) -> stopped "Unrepresentable coordinate value" out r)) /\
  (~ valid_regular o 2 6 dims starts steps vals obs (length out) -> refused out r).
Proof. intros F o c. exact (call_nr o c). Qed.
(** Cubic: an observation exactly 2^63 steps below the start panics in builds with overflow checks (C13). *)
Theorem C96_cubic_regular_recursive :
  forall F (o : Ops F) c dims starts steps vals obs out,
  usize_converts o -> prefix_products_fit dims -> zlen vals <= isize_max ->
  forall lin, ovf_checks c = false \/ above_lowest o starts steps obs (length out) ->
  let r := mcrr_interpn o c dims starts steps vals lin obs out in
  (valid_regular o 4 8 dims starts steps vals obs (length out) ->
     (observations_fit o starts steps obs (length out) -> succeeds out r) /\
     (~ observations_fit o starts steps obs (length out) -> stopped "Unrepresentable coordinate value" out r)) /\
  (~ valid_regular o 4 8 dims starts steps vals obs (length out) -> refused out r).
Proof. intros F o c. exact (call_mcrr o c). Qed.
Theorem C96_cubic_regular :
  forall F (o : Ops F) c dims starts steps vals obs out,
  usize_converts o -> prefix_products_fit dims -> zlen vals <= isize_max ->
  forall lin, ovf_checks c = false \/ above_lowest o starts steps obs (length out) ->
  ((length dims <= 4)%nat -> length starts = length dims /\ length steps = length dims /\ length obs = length dims) ->
  let r := mcr_interpn o c dims starts steps vals lin obs out in
  (valid_regular o 4 8 dims starts steps vals obs (length out) ->
     (observations_fit o starts steps obs (length out) -> succeeds out r) /\
     (~ observations_fit o starts steps obs (length out) -> stopped "Unrepresentable coordinate value" out r)) /\
  (~ valid_regular o 4 8 dims starts steps vals obs (length out) -> refused out r).
Proof. intros F o c. exact (call_mcr o c). Qed.
(** What "fits" means on IEEE floats. *)
Theorem C96_whole_steps :
  forall prec emax (Hp : Prec_gt_0 prec) (He : Prec_lt_emax prec emax) (start step x : binary_float prec emax),
  whole_steps (BOps Hp He) start step x <> None <-> steps_fit Hp He start step x.
Proof. exact whole_steps_ieee. Qed.

(** The allocating variants do the same (C37), except that they panic without observation arrays. *)
Theorem C96_alloc_empty :
  forall F (o : Ops F) c dims starts steps vals grids lin,
  mlr_interpn_alloc o c dims starts steps vals [] = Panic /\ mlrr_interpn_alloc o c dims starts steps vals [] = Panic /\
  nr_interpn_alloc o c dims starts steps vals [] = Panic /\ mcr_interpn_alloc o c dims starts steps vals lin [] = Panic /\
  mcrr_interpn_alloc o c dims starts steps vals lin [] = Panic /\
  mlc_interpn_alloc o c grids vals [] = Panic /\ mlcr_interpn_alloc o c grids vals [] = Panic /\
  nc_interpn_alloc o c grids vals [] = Panic /\ mcc_interpn_alloc o c grids vals lin [] = Panic /\
  mccr_interpn_alloc o c grids vals lin [] = Panic.
Proof. intros. repeat split. Qed.

(** Examples: observations that are NaN or infinite on a rectilinear grid; NaN on a regular grid; a
    step of zero; cubic interpolation on a grid of three nodes. *)
Ltac sizes_fit := intros k; do 4 (destruct k as [|k]; [vm_compute; split; congruence|]); vm_compute; split; congruence.
Ltac each_ok := repeat (first [apply Forall_nil | apply Forall_cons; [first [reflexivity|vm_compute; congruence]|]]).
Ltac valid_args := split; [split; apply Nat.leb_le; reflexivity|]; repeat (split; [first [reflexivity|each_ok]|]); each_ok.
Example C96_rectilinear_ex : let obs := [[nan64; z64 1; z64 5]; [z64 2; inf64; z64 2]] in
  valid_rectilinear F64Ops 2 8 lin_grids lin_vals obs 3 /\
  succeeds [z64 0; z64 0; z64 0] (mlc_interpn F64Ops plain lin_grids lin_vals obs [z64 0; z64 0; z64 0]).
Proof.
  intros obs.
  assert (V : valid_rectilinear F64Ops 2 8 lin_grids lin_vals obs 3).
  { valid_args. }
  split; [exact V|].
  refine (proj1 (C96_linear_rectilinear _ F64Ops plain lin_grids lin_vals obs [z64 0; z64 0; z64 0] _ _) V).
  - sizes_fit.
  - vm_compute; discriminate.
Qed.
Example C96_cubic_ex : refused [z64 0]
  (mccr_interpn F64Ops plain [[z64 0; z64 1; z64 2]] [z64 5; z64 6; z64 7] false [[z64 1]] [z64 0]).
Proof.
  refine (proj2 (C96_cubic_rectilinear_recursive _ F64Ops plain [[z64 0; z64 1; z64 2]] [z64 5; z64 6; z64 7] [[z64 1]] [z64 0] false _ _) _).
  - sizes_fit.
  - vm_compute; discriminate.
  - intros (_ & _ & _ & _ & Q & _). apply Forall_inv in Q. vm_compute in Q. apply Q. reflexivity.
Qed.
Example C96_regular_ex : stopped "Unrepresentable coordinate value" [z64 0; z64 0]
  (mlr_interpn F64Ops plain lin_dims lin_starts lin_steps lin_vals [[z64 1; nan64]; [z64 1; z64 2]] [z64 0; z64 0]).
Proof.
  refine (proj2 (proj1 (C96_linear_regular _ F64Ops plain lin_dims lin_starts lin_steps lin_vals
    [[z64 1; nan64]; [z64 1; z64 2]] [z64 0; z64 0] usize_converts_f64 _ _) _) _).
  - sizes_fit.
  - vm_compute; discriminate.
  - valid_args.
  - intros Q. apply (Q 1%nat 0%nat); [apply Nat.ltb_lt; reflexivity|apply Nat.ltb_lt; reflexivity|].
    vm_compute. reflexivity.
Qed.
Example C96_step_ex : refused [z64 0]
  (nr_interpn F64Ops plain [2] [z64 0] [z64 0] [z64 5; z64 6] [[z64 1]] [z64 0]).
Proof.
  refine (proj2 (C96_nearest_regular _ F64Ops plain [2] [z64 0] [z64 0] [z64 5; z64 6] [[z64 1]] [z64 0] usize_converts_f64 _ _) _).
  - sizes_fit.
  - vm_compute; discriminate.
  - intros (_ & _ & _ & _ & _ & _ & _ & Q). apply Forall_inv in Q. vm_compute in Q. discriminate.
Qed.
Example C96_cubic_regular_ex : let obs := [[z64 2]; [z64 9]] in
  succeeds [z64 0] (mcr_interpn F64Ops plain cub_dims cub_starts cub_steps cub_vals true obs [z64 0]).
Proof.
  intros obs.
  refine (proj1 (proj1 (C96_cubic_regular _ F64Ops plain cub_dims cub_starts cub_steps cub_vals obs [z64 0]
    usize_converts_f64 _ _ true _ _) _) _).
  - sizes_fit.
  - vm_compute; discriminate.
  - right. intros j k i Hj Hk. assert (j = 0%nat) by (simpl in Hj; lia). subst j.
    destruct k as [|[|k]].
    + intros E; cut (Some i = Some 2); [intros [= ->]; vm_compute; split; congruence|rewrite <- E; vm_compute; reflexivity].
    + intros E; cut (Some i = Some 32); [intros [= ->]; vm_compute; split; congruence|rewrite <- E; vm_compute; reflexivity].
    + simpl in Hk. lia.
  - intros _. repeat split.
  - valid_args.
  - intros j k Hj Hk. assert (j = 0%nat) by (simpl in Hj; lia). subst j.
    destruct k as [|[|k]]; [vm_compute; discriminate|vm_compute; discriminate|simpl in Hk; lia].
Qed.
Print Assumptions C96_linear_rectilinear.
Print Assumptions C96_linear_rectilinear_recursive.
Print Assumptions C96_nearest_rectilinear.
Print Assumptions C96_cubic_rectilinear_recursive.
Print Assumptions C96_cubic_rectilinear.
Print Assumptions C96_linear_regular.
Print Assumptions C96_linear_regular_recursive.
Print Assumptions C96_nearest_regular.
Print Assumptions C96_cubic_regular_recursive.
Print Assumptions C96_cubic_regular.
Print Assumptions C96_whole_steps.
Print Assumptions C96_alloc_empty.
