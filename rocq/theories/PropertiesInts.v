(** C49, continued: integer arrays as grids of the Python function interpn. *)
From Coq Require Import Lia.
From Flocq Require Import Core.Core IEEE754.BinarySingleNaN.
From Verif Require Import Base Ops FInst ModelCore ModelLinear ModelNearest ModelCubic ModelPython ModelSerial
  Spec SpecPython SpecSerial SpecInts IntGrids ExampleData PropertiesSerial.
Unset Implicit Arguments.

Open Scope string_scope.
Open Scope Z_scope.

(** Integer grids that are treated as regular: one axis per grid, with as many points as the grid
    has entries, starting at its first entry with its first difference as step, both converted to
    the type of the values. *)
Theorem C49_interpn_int_grids_regular :
  forall c d (obs : list (ndarray (num d))) (gs : list (list Z)) (vals o0 : ndarray (num d)) lin assume atol,
  hd_error obs = Some o0 -> (length obs <= 8)%nat -> Forall (fun g => (2 <= length g)%nat) gs ->
  let xs := map nd_data obs in
  let zeros := repeat (fzero (ops d)) (length (nd_data o0)) in
  let call method := typed_interpn c (map (tnd d) obs) (map int_line gs) (tnd d vals) method None lin assume false atol in
  assume = true \/ Forall even_ints gs ->
  let dims := map zlen gs in
  let starts := map (fun g => int_num d (nth 0 g 0)) gs in
  let steps := map (fun g => int_num d (nth 1 g 0 - nth 0 g 0)) gs in
  let shaped r := (py_bind (seen r) (fun x => Ret (mkT (nd_shape o0) x)), @None nparray) in
  call "linear" = shaped (mlr_interpn (ops d) c dims starts steps (nd_data vals) xs zeros) /\
  call "nearest" = shaped (nr_interpn (ops d) c dims starts steps (nd_data vals) xs zeros) /\
  call "cubic" = shaped (mcr_interpn (ops d) c dims starts steps (nd_data vals) lin xs zeros).
Proof. exact int_regular_case. Qed.
(** Integer grids of which one is not evenly spaced are refused. *)
Theorem C49_interpn_int_grids_irregular :
  forall c d (obs : list (ndarray (num d))) (gs : list (list Z)) (vals o0 : ndarray (num d)) lin assume atol,
  hd_error obs = Some o0 -> (length obs <= 8)%nat -> Forall (fun g => (2 <= length g)%nat) gs ->
  let call method := typed_interpn c (map (tnd d) obs) (map int_line gs) (tnd d vals) method None lin assume false atol in
  assume = false -> ~ Forall even_ints gs ->
  forall method, In method ["linear"; "nearest"; "cubic"] -> call method = (Raise TypeError, None).
Proof. exact int_irregular_case. Qed.
(** Evenly spaced integer grids of short integers give the very call that the same grids give as
    floating-point arrays of the type of the values, whatever the other arguments. *)
Theorem C49_interpn_ints_like_floats :
  forall c d (gs : list (list Z)) obs vals l method out lin assume cb atol,
  t_data vals = typed d l -> Forall (ints_fit d) gs ->
  typed_interpn c obs (map int_line gs) vals method out lin assume cb atol =
  typed_interpn c obs (map (float_line d) gs) vals method out lin assume cb atol.
Proof. exact ints_like_floats. Qed.
(** Integer values are refused, and an array given as out is left alone. *)
Theorem C49_interpn_int_values :
  forall c obs grids vals l method out lin assume cb atol, t_data vals = NpInt l ->
  (exists e, typed_interpn c obs grids vals method out lin assume cb atol = (Raise e, option_map t_data out)) /\
  (out = None -> obs <> [] -> typed_interpn c obs grids vals method out lin assume cb atol =
     (Raise (AssertionError "`interpn` defined only for float32 and float64 data"), None)).
Proof. exact int_values_refused. Qed.

(** An evenly spaced integer grid is evaluated, and like the floating-point one; an uneven one is
    refused unless it is assumed to be regular. *)
Definition even_grid : list Z := [-3; -1; 1].
Definition uneven_grid : list Z := [-3; -1; 2].
Definition int_call (assume : bool) (g : list Z) : py tarray * option nparray :=
  typed_interpn plain (map (tnd Float64) [mkNd [2%nat] [z64 (-2); z64 1]]) (map int_line [g])
    (tnd Float64 (mkNd [3%nat] [z64 5; z64 7; z64 4])) "linear" None true assume false (z64 0).
Lemma even_grid_fits : ints_fit Float64 even_grid.
Proof.
  split; [simpl; lia|]. split; [|split; [repeat constructor; unfold short_int; lia|split; [discriminate|unfold short_int; simpl; lia]]].
  intros i a0 a1 a b E0 E1 Ea Eb. injection E0 as <-. injection E1 as <-.
  destruct i as [|[|[|i]]]; simpl in Ea, Eb; try discriminate Eb; try congruence;
    injection Ea as <-; injection Eb as <-; reflexivity.
Qed.
Lemma uneven_grid_uneven : ~ even_ints uneven_grid.
Proof. intros H. discriminate (H 1%nat (-3) (-1) (-1) 2 eq_refl eq_refl eq_refl eq_refl). Qed.
Example C49_int_grids_ex :
  Forall (ints_fit Float64) [even_grid] /\ returns (fst (int_call false even_grid)) = true /\
  int_call false even_grid = typed_interpn plain (map (tnd Float64) [mkNd [2%nat] [z64 (-2); z64 1]]) (map (float_line Float64) [even_grid])
    (tnd Float64 (mkNd [3%nat] [z64 5; z64 7; z64 4])) "linear" None true false false (z64 0) /\
  ~ Forall even_ints [uneven_grid] /\ int_call false uneven_grid = (Raise TypeError, None) /\
  returns (fst (int_call true uneven_grid)) = true.
Proof.
  assert (F : Forall (ints_fit Float64) [even_grid]) by (constructor; [exact even_grid_fits|constructor]).
  split; [exact F|]. split; [vm_compute; reflexivity|].
  split; [exact (C49_interpn_ints_like_floats plain Float64 [even_grid] _ (tnd Float64 (mkNd [3%nat] [z64 5; z64 7; z64 4])) _ "linear" None true false false (z64 0) eq_refl F)|].
  split; [intros H; exact (uneven_grid_uneven (Forall_inv H))|]. split; vm_compute; reflexivity.
Qed.
(** The values: at -2 half-way between 5 and 7, at 1 the last value. *)
Example C49_int_grids_values :
  (match fst (int_call false even_grid) with
   | Ret (mkT _ (NpFloat (F64Array [a; b]))) => andb (Beqb a (z64 6)) (Beqb b (z64 4))
   | _ => false
   end) = true.
Proof. vm_compute. reflexivity. Qed.

Print Assumptions C49_interpn_int_grids_regular.
Print Assumptions C49_interpn_int_grids_irregular.
Print Assumptions C49_interpn_ints_like_floats.
Print Assumptions C49_interpn_int_values.
