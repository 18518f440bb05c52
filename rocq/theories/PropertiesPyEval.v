(** Which evaluations of a Python object return, and what the others raise (C105). *)
From Coq Require Import Reals ZArith Lia List Bool PeanoNat String.
From Flocq Require Import Core.Core IEEE754.BinarySingleNaN.
From Verif Require Import ModelLinear Base Ops FInst ModelCore ModelPython ModelSerial Spec SpecCalls SpecPython SpecSerial SpecPyEval ModelLayout SpecLayout PyEval.
From Verif Require Import ExampleData PropertiesFloat PropertiesCalls PropertiesSerial PropertiesLayout.
Import ListNotations.
Unset Implicit Arguments.
Open Scope string_scope.
Open Scope Z_scope.
Open Scope list_scope.

(** * C105: evaluating a rectilinear object on arrays of its element type returns exactly when
    there is one observation array per axis, all of the length of the output, and every axis has
    enough points; otherwise it raises AssertionError and writes nothing. *)
Theorem C105_rectilinear :
  forall c fam d grids vals lin obs out out0,
  rectilinear_object fam (RectModel (map (stored d) grids) (stored d vals) lin) ->
  (length obs <= 8)%nat -> output_array (ops d) obs out out0 ->
  prefix_products_fit (map zlen grids) -> zlen vals <= isize_max ->
  (fam = Multicubic -> (length grids <= 4)%nat -> length obs = length grids) ->
  let call := rectilinear_eval c fam (RectModel (map (stored d) grids) (stored d vals) lin)
                (map (typed d) obs) (option_map (typed d) out) in
  (can_evaluate fam (map zlen grids) obs (length out0) -> eval_returns (length out0) out call) /\
  (~ can_evaluate fam (map zlen grids) obs (length out0) -> eval_refuses out call).
Proof. exact eval_rectilinear. Qed.
(** A regular object also needs the number of steps to each observation to fit in isize. *)
Theorem C105_regular :
  forall c fam d dims starts steps vals lin obs out out0,
  regular_object fam (RegModel dims (stored d starts) (stored d steps) (stored d vals) lin) ->
  (length obs <= 8)%nat -> output_array (ops d) obs out out0 ->
  Forall (fun k => 0 <= k) dims -> prefix_products_fit dims -> zlen vals <= isize_max ->
  (fam = Multicubic -> ovf_checks c = false \/ above_lowest (ops d) starts steps obs (length out0)) ->
  (fam = Multicubic -> (length dims <= 4)%nat -> length obs = length dims) ->
  let call := regular_eval c fam (RegModel dims (stored d starts) (stored d steps) (stored d vals) lin)
                (map (typed d) obs) (option_map (typed d) out) in
  (can_evaluate fam dims obs (length out0) ->
     (observations_fit (ops d) starts steps obs (length out0) -> eval_returns (length out0) out call) /\
     (~ observations_fit (ops d) starts steps obs (length out0) ->
        eval_stops "Unrepresentable coordinate value" (length out0) out call)) /\
  (~ can_evaluate fam dims obs (length out0) -> eval_refuses out call).
Proof. exact eval_regular. Qed.
(** Without observations and without an output array it is an IndexError. *)
Theorem C105_no_observations_regular : forall c fam m, regular_eval c fam m [] None = (Raise IndexError, None).
Proof. exact eval_nothing_regular. Qed.
Theorem C105_no_observations_rectilinear : forall c fam m, rectilinear_eval c fam m [] None = (Raise IndexError, None).
Proof. exact eval_nothing_rectilinear. Qed.
(** With a negative size it is an OverflowError. *)
Theorem C105_negative_sizes :
  forall c fam m obs out, ~ Forall (fun k => 0 <= k) (rm_dims m) -> obs <> [] \/ out <> None ->
  regular_eval c fam m obs out = (Raise OverflowError, out).
Proof. exact eval_negative. Qed.

(** With more than eight observation arrays it is a Rust panic. *)
Theorem C105_many_rectilinear :
  forall c fam d grids vals lin (obs : list (list (num d))) out, (8 < length obs)%nat ->
  fst (rectilinear_eval c fam (RectModel (map (stored d) grids) (stored d vals) lin)
         (map (typed d) obs) (option_map (typed d) out)) = Raise PanicException.
Proof. exact eval_many_rectilinear. Qed.
Theorem C105_many_regular :
  forall c fam d dims starts steps vals lin (obs : list (list (num d))) out, (8 < length obs)%nat ->
  Forall (fun k => 0 <= k) dims ->
  fst (regular_eval c fam (RegModel dims (stored d starts) (stored d steps) (stored d vals) lin)
         (map (typed d) obs) (option_map (typed d) out)) = Raise PanicException.
Proof. exact eval_many_regular. Qed.

(** check_bounds returns one flag per axis exactly when there is one observation array per axis and,
    for a rectilinear object, no grid is empty; otherwise it raises AssertionError. A regular object
    may have an axis of size 0: then check_bounds panics in builds with overflow checks. *)
Theorem C105_check_bounds_rectilinear :
  forall fam d grids vals lin obs (atol : f64),
  rectilinear_object fam (RectModel (map (stored d) grids) (stored d vals) lin) -> (length obs <= 8)%nat ->
  let call := rectilinear_check_bounds (RectModel (map (stored d) grids) (stored d vals) lin) (map (typed d) obs) atol in
  let can := length obs = length grids /\ ~ In [] grids in
  (can -> exists flags, call = Ret flags /\ length flags = length grids) /\
  (~ can -> call = Raise (AssertionError "Dimension mismatch")).
Proof. exact check_rectilinear. Qed.
Theorem C105_check_bounds_regular :
  forall c fam d dims starts steps vals lin obs (atol : f64),
  regular_object fam (RegModel dims (stored d starts) (stored d steps) (stored d vals) lin) -> (length obs <= 8)%nat ->
  Forall (fun k => 0 <= k < two64) dims ->
  let call := regular_check_bounds c (RegModel dims (stored d starts) (stored d steps) (stored d vals) lin) (map (typed d) obs) atol in
  (length obs = length dims -> (ovf_checks c = true -> ~ In 0 dims) -> exists flags, call = Ret flags /\ length flags = length dims) /\
  (length obs = length dims -> ovf_checks c = true -> In 0 dims -> call = Raise PanicException) /\
  (length obs <> length dims -> call = Raise (AssertionError "Dimension mismatch")).
Proof. exact check_regular. Qed.

(** * C25: the Rust function itself, with the right number of arrays. It returns exactly when
    there is a start and a step for each axis and no axis has size 0 (the latter only with overflow
    checks); otherwise it panics. *)
Theorem C25_regular_returns :
  forall F (o : Ops F) c dims starts steps obs atol out, usize_converts o ->
  Forall (fun k => 0 <= k < two64) dims -> length obs = length dims -> length out = length dims ->
  let call := mlr_check_bounds o c dims starts steps obs atol out in
  let can := (length dims <= length starts)%nat /\ (length dims <= length steps)%nat /\ (ovf_checks c = true -> ~ In 0 dims) in
  (can -> exists out', call = (Ok tt, out') /\ length out' = length dims) /\ (~ can -> fst call = Panic).
Proof. exact @check_reg_returns. Qed.

(** * C81: more than eight arrays of any memory layout. The bindings panic on that many, but only
    after they have asked all arrays to be one-dimensional and the first nine to be contiguous. *)
Theorem C81_eval_many :
  forall F (o : Ops F) raw (obs : list (strided F)) obs', Forall2 SpecLayout.holds obs obs' -> (8 < length obs)%nat ->
  (forall xs b, (8 < length xs)%nat -> fst (raw xs b) = Raise PanicException) ->
  (Forall (fun a => one_dim a = true) obs -> Forall (fun a => c_contiguous a = true) (firstn 9 obs) ->
     layout_eval o raw obs = Some (Raise PanicException)) /\
  (Exists (fun a => one_dim a = false) obs \/ Exists (fun a => c_contiguous a = false) (firstn 9 obs) ->
     layout_eval o raw obs = Some (Raise TypeError)).
Proof. exact @many_layout. Qed.
Theorem C81_bindings_many :
  forall F (o : Ops F) c dims starts steps vals grids lin xs b, (8 < length xs)%nat -> Forall (fun k => 0 <= k) dims ->
  Forall (fun r => fst r = Raise PanicException)
    [raw_linear_regular o c dims starts steps vals xs b; raw_nearest_regular o c dims starts steps vals xs b;
     raw_cubic_regular o c dims starts steps vals lin xs b; raw_linear_rectilinear o c grids vals xs b;
     raw_nearest_rectilinear o c grids vals xs b; raw_cubic_rectilinear o c grids vals lin xs b].
Proof. exact @raw_many. Qed.

(** The condition on cubic objects is needed: one observation array for two axes is a panic. *)
Definition cubic_object : rectilinear_model :=
  RectModel (map (stored Float64) cub_grids) (stored Float64 cub_vals) (Some true).
Theorem C105_cubic_refuted :
  rectilinear_object Multicubic cubic_object /\
  fst (rectilinear_eval plain Multicubic cubic_object [typed Float64 [z64 1]] None) = Raise PanicException.
Proof.
  split; [|vm_compute; reflexivity].
  destruct (returns_ex _ (make_rectilinear Multicubic cubic_object)) as (m & Hm); [vm_compute; reflexivity|].
  destruct (SerialProofs.make_rectilinear_inv _ _ _ Hm) as (-> & _). apply rect_made with (m0 := cubic_object). exact Hm.
Qed.

(** A two-axis object: two arrays of three observations are evaluated (NaN and infinity included);
    arrays of different lengths are refused. *)
Definition grid_object : rectilinear_model := RectModel (map (stored Float64) lin_grids) (stored Float64 lin_vals) None.
Lemma grid_object_ok : rectilinear_object Multilinear grid_object.
Proof.
  destruct (returns_ex _ (make_rectilinear Multilinear grid_object)) as (m & Hm); [vm_compute; reflexivity|].
  destruct (SerialProofs.make_rectilinear_inv _ _ _ Hm) as (-> & _). apply rect_made with (m0 := grid_object). exact Hm.
Qed.
Example C105_rectilinear_ex :
  let obs := [[nan64; z64 1; z64 5]; [z64 2; inf64; z64 2]] in
  let short := [[nan64; z64 1; z64 5]; [z64 2; inf64]] in
  let eval obs out := rectilinear_eval plain Multilinear grid_object (map (typed Float64) obs) (option_map (typed Float64) out) in
  can_evaluate Multilinear (map zlen lin_grids) obs 3 /\
  @eval_returns Float64 3 None (eval obs None) /\
  @eval_refuses Float64 (Some [z64 7; z64 8; z64 9]) (eval short (Some [z64 7; z64 8; z64 9])).
Proof.
  intros obs short eval.
  assert (V : can_evaluate Multilinear (map zlen lin_grids) obs 3).
  { split; [reflexivity|]. split; each_ok. }
  split; [exact V|].
  assert (P : prefix_products_fit (map zlen lin_grids)) by sizes_fit.
  split.
  - refine (proj1 (C105_rectilinear plain Multilinear Float64 lin_grids lin_vals None obs None [z64 0; z64 0; z64 0] grid_object_ok _ _ P _ _) V).
    + apply Nat.leb_le. reflexivity.
    + exists [nan64; z64 1; z64 5]. split; reflexivity.
    + vm_compute. discriminate.
    + discriminate.
  - refine (proj2 (C105_rectilinear plain Multilinear Float64 lin_grids lin_vals None short (Some [z64 7; z64 8; z64 9]) [z64 7; z64 8; z64 9] grid_object_ok _ _ P _ _) _).
    + apply Nat.leb_le. reflexivity.
    + reflexivity.
    + vm_compute. discriminate.
    + discriminate.
    + intros (_ & H & _). apply Forall_inv_tail, Forall_inv in H. discriminate H.
Qed.
Example C105_regular_ex :
  let eval obs := regular_eval plain Multilinear m64 (map (typed Float64) obs) None in
  @eval_returns Float64 2 None (eval x64) /\ @eval_refuses Float64 None (eval [[z64 1; z64 2]]) /\
  @eval_stops Float64 "Unrepresentable coordinate value" 1 None (eval [[nan64]; [z64 1]]).
Proof.
  intros eval.
  assert (O : regular_object Multilinear m64).
  { destruct (returns_ex _ (make_regular Multilinear m64)) as (m & Hm); [vm_compute; reflexivity|].
    destruct (SerialProofs.make_regular_inv _ _ _ Hm) as (-> & _). apply reg_made with (m0 := m64). exact Hm. }
  assert (P : prefix_products_fit lin_dims) by sizes_fit.
  assert (K : forall obs m out0, (length obs <= 8)%nat -> output_array F64Ops obs None out0 -> length out0 = m ->
    (can_evaluate Multilinear lin_dims obs m ->
     (observations_fit F64Ops lin_starts lin_steps obs m -> @eval_returns Float64 m None (eval obs)) /\
     (~ observations_fit F64Ops lin_starts lin_steps obs m -> @eval_stops Float64 "Unrepresentable coordinate value" m None (eval obs))) /\
    (~ can_evaluate Multilinear lin_dims obs m -> @eval_refuses Float64 None (eval obs))).
  { intros obs m out0 L A <-.
    refine (C105_regular plain Multilinear Float64 lin_dims lin_starts lin_steps lin_vals None obs None out0 O L A _ P _ _ _).
    - each_ok.
    - vm_compute. discriminate.
    - discriminate.
    - discriminate. }
  split; [|split].
  - apply (K x64 2%nat [z64 0; z64 0]); [apply Nat.leb_le; reflexivity|eexists; split; reflexivity|reflexivity| |].
    + split; [reflexivity|]. split; each_ok.
    + intros j k Hj Hk. destruct j as [|[|j]]; [| |lia]; (destruct k as [|[|k]]; [| |cbn in Hk; lia]); vm_compute; discriminate.
  - apply (K [[z64 1; z64 2]] 2%nat [z64 0; z64 0]); [apply Nat.leb_le; reflexivity|eexists; split; reflexivity|reflexivity|].
    intros (H & _). discriminate H.
  - apply (K [[nan64]; [z64 1]] 1%nat [z64 0]); [apply Nat.leb_le; reflexivity|eexists; split; reflexivity|reflexivity| |].
    + split; [reflexivity|]. split; each_ok.
    + intros H. apply (H 0%nat 0%nat); [lia|cbn; lia|]. vm_compute. reflexivity.
Qed.
Definition negative_object : regular_model :=
  RegModel [-2; -1] (F64Array [z64 0; z64 0]) (F64Array [z64 1; z64 1]) (F64Array [z64 5; z64 6]) None.
Example C105_negative_sizes_ex :
  returns (make_regular Multilinear negative_object) = true /\
  regular_eval plain Multilinear negative_object [typed Float64 [z64 1]; typed Float64 [z64 1]] None = (Raise OverflowError, None).
Proof.
  split; [vm_compute; reflexivity|]. apply C105_negative_sizes; [|left; discriminate].
  intros H. apply Forall_inv in H. cbn in H. lia.
Qed.

Example C105_many_ex : let nine := repeat [z64 1] 9 in
  fst (rectilinear_eval plain Multilinear grid_object (map (typed Float64) nine) None) = Raise PanicException /\
  fst (regular_eval plain Multilinear m64 (map (typed Float64) nine) None) = Raise PanicException.
Proof.
  intros nine. split.
  - apply (C105_many_rectilinear plain Multilinear Float64 lin_grids lin_vals None nine None). apply Nat.ltb_lt. reflexivity.
  - apply (C105_many_regular plain Multilinear Float64 lin_dims lin_starts lin_steps lin_vals None nine None); [apply Nat.ltb_lt; reflexivity|each_ok].
Qed.
Example C105_check_bounds_ex : let two := [[z64 1]; [z64 9; nan64]] in
  (exists flags, rectilinear_check_bounds grid_object (map (typed Float64) two) (z64 0) = Ret flags /\ length flags = 2%nat) /\
  rectilinear_check_bounds grid_object [typed Float64 [z64 1]] (z64 0) = Raise (AssertionError "Dimension mismatch").
Proof.
  intros two. split.
  - apply (C105_check_bounds_rectilinear Multilinear Float64 lin_grids lin_vals None two (z64 0) grid_object_ok); [apply Nat.leb_le; reflexivity|].
    split; [reflexivity|]. intros [H|[H|[]]]; discriminate H.
  - apply (C105_check_bounds_rectilinear Multilinear Float64 lin_grids lin_vals None [[z64 1]] (z64 0) grid_object_ok); [apply Nat.leb_le; reflexivity|].
    intros (H & _). discriminate H.
Qed.
Example C105_check_bounds_regular_ex :
  regular_check_bounds plain m64 [typed Float64 [z64 1]] (z64 0) = Raise (AssertionError "Dimension mismatch").
Proof.
  apply (C105_check_bounds_regular plain Multilinear Float64 lin_dims lin_starts lin_steps lin_vals None [[z64 1]] (z64 0)).
  - destruct (returns_ex _ (make_regular Multilinear m64)) as (m & Hm); [vm_compute; reflexivity|].
    destruct (SerialProofs.make_regular_inv _ _ _ Hm) as (-> & _). apply reg_made with (m0 := m64). exact Hm.
  - apply Nat.leb_le. reflexivity.
  - repeat (apply Forall_cons; [vm_compute; split; congruence|]). apply Forall_nil.
  - discriminate.
Qed.
Definition empty_object : regular_model := RegModel [0] (F64Array [z64 0]) (F64Array [z64 1]) (F64Array []) None.
Lemma empty_object_ok : regular_object Multilinear empty_object.
Proof.
  destruct (returns_ex _ (make_regular Multilinear empty_object)) as (m & Hm); [vm_compute; reflexivity|].
  destruct (SerialProofs.make_regular_inv _ _ _ Hm) as (-> & _). apply reg_made with (m0 := empty_object). exact Hm.
Qed.
Example C105_check_bounds_empty_ex :
  regular_check_bounds (mkCfg false true) empty_object [typed Float64 [z64 1]] (z64 0) = Raise PanicException /\
  exists flags, regular_check_bounds (mkCfg false false) empty_object [typed Float64 [z64 1]] (z64 0) = Ret flags /\ length flags = 1%nat.
Proof.
  assert (G : Forall (fun k => 0 <= k < two64) [0]) by (apply Forall_cons; [vm_compute; split; congruence|apply Forall_nil]).
  split.
  - apply (C105_check_bounds_regular (mkCfg false true) Multilinear Float64 [0] [z64 0] [z64 1] [] None [[z64 1]] (z64 0) empty_object_ok);
      [apply Nat.leb_le; reflexivity|exact G|reflexivity|reflexivity|left; reflexivity].
  - apply (C105_check_bounds_regular (mkCfg false false) Multilinear Float64 [0] [z64 0] [z64 1] [] None [[z64 1]] (z64 0) empty_object_ok);
      [apply Nat.leb_le; reflexivity|exact G|reflexivity|discriminate].
Qed.
(** One start for two axes. *)
Example C25_regular_returns_ex :
  fst (mlr_check_bounds F64Ops plain [2; 2] [z64 0] [z64 1; z64 1] [[]; []] (z64 0) [false; false]) = Panic.
Proof.
  apply (C25_regular_returns f64 F64Ops plain [2; 2] [z64 0] [z64 1; z64 1] [[]; []] (z64 0) [false; false]).
  - exact (UtilProofs.usize_converts_B _ _).
  - repeat (apply Forall_cons; [vm_compute; split; congruence|]). apply Forall_nil.
  - reflexivity.
  - reflexivity.
  - intros (H & _). cbn [length] in H. lia.
Qed.
(** Nine slices of one array; with the ninth not contiguous it is a TypeError instead. *)
Example C81_eval_many_ex :
  let raw xs b := raw_linear_rectilinear F64Ops plain lin_grids lin_vals xs b in
  layout_eval F64Ops raw (repeat inner_slice 9) = Some (Raise PanicException) /\
  layout_eval F64Ops raw (repeat inner_slice 8 ++ [every_second]) = Some (Raise TypeError) /\
  layout_eval F64Ops raw (repeat inner_slice 9 ++ [every_second]) = Some (Raise PanicException).
Proof. repeat split; vm_compute; reflexivity. Qed.

Print Assumptions C105_many_rectilinear.
Print Assumptions C105_many_regular.
Print Assumptions C105_check_bounds_rectilinear.
Print Assumptions C105_check_bounds_regular.
Print Assumptions C25_regular_returns.
Print Assumptions C81_eval_many.
Print Assumptions C81_bindings_many.
Print Assumptions C105_rectilinear.
Print Assumptions C105_regular.
Print Assumptions C105_no_observations_regular.
Print Assumptions C105_negative_sizes.
Print Assumptions C105_cubic_refuted.
