(** Properties C42, C43, C46, C47: the Python package. *)
From Coq Require Import Reals Lra PeanoNat Bool.
From Flocq Require Import Core IEEE754.BinarySingleNaN.
From Verif Require Import Base Ops FInst RInst ModelUtils ModelLinear ModelNearest ModelCubic ModelPython.
From Verif Require Import Spec SpecReal SpecPython Interpolators GenLemmas ExampleData ExampleReal PyProofs PyProofs2.
Unset Implicit Arguments.
Open Scope string_scope.
Open Scope Z_scope.

(** Arrays of the examples. *)
Definition arr {F} (l : list F) : ndarray F := mkNd [length l] l.
Definition is_ret {A} (r : py A) : bool := match r with Ret _ => true | _ => false end.

(** * C42: dispatch.
    Any number type, any build, grids of at least two points. Regular implementation: *)
Theorem C42_regular :
  forall F (o : Ops F) c obs grids vals o0 lin assume atol,
  hd_error obs = Some o0 -> (length obs <= 8)%nat ->
  Forall (fun g => (2 <= length (nd_data g))%nat) grids ->
  let gs := map nd_data grids in let xs := map nd_data obs in
  let zeros := repeat (fzero o) (length (nd_data o0)) in
  let call m := py_interpn o c obs grids vals m None lin assume false atol in
  assume = true \/ Forall (evenly_spaced o) gs ->
  let dims := map zlen gs in let starts := firsts (fzero o) gs in let steps := spacings o (fzero o) gs in
  call "linear" = (python_result (nd_shape o0) (mlr_interpn o c dims starts steps (nd_data vals) xs zeros), None) /\
  call "nearest" = (python_result (nd_shape o0) (nr_interpn o c dims starts steps (nd_data vals) xs zeros), None) /\
  call "cubic" = (python_result (nd_shape o0) (mcr_interpn o c dims starts steps (nd_data vals) lin xs zeros), None).
Proof. exact @dispatch_regular. Qed.
(** Rectilinear implementation: *)
Theorem C42_rectilinear :
  forall F (o : Ops F) c obs grids vals o0 lin assume atol,
  hd_error obs = Some o0 -> (length obs <= 8)%nat ->
  Forall (fun g => (2 <= length (nd_data g))%nat) grids ->
  let gs := map nd_data grids in let xs := map nd_data obs in
  let zeros := repeat (fzero o) (length (nd_data o0)) in
  let call m := py_interpn o c obs grids vals m None lin assume false atol in
  assume = false -> ~ Forall (evenly_spaced o) gs -> (length grids <= 8)%nat ->
  call "linear" = (python_result (nd_shape o0) (mlc_interpn o c gs (nd_data vals) xs zeros), None) /\
  call "nearest" = (python_result (nd_shape o0) (nc_interpn o c gs (nd_data vals) xs zeros), None) /\
  call "cubic" = (python_result (nd_shape o0) (mcc_interpn o c gs (nd_data vals) lin xs zeros), None).
Proof. exact @dispatch_rectilinear. Qed.
(** Another method never returns; on otherwise valid input it is a ValueError. *)
Theorem C42_unsupported :
  forall F (o : Ops F) c obs grids vals m out lin assume cb atol,
  m <> "linear" -> m <> "nearest" -> m <> "cubic" ->
  exists e, fst (py_interpn o c obs grids vals m out lin assume cb atol) = Raise e.
Proof. exact @unsupported. Qed.
Theorem C42_unsupported_value_error :
  forall F (o : Ops F) c obs grids vals o0 m lin assume atol,
  hd_error obs = Some o0 -> Forall (fun g => (2 <= length (nd_data g))%nat) grids ->
  m <> "linear" -> m <> "nearest" -> m <> "cubic" ->
  fst (py_interpn o c obs grids vals m None lin assume false atol) = Raise ValueError.
Proof. exact @unsupported_value_error. Qed.

(** In exact arithmetic the result is that of the requested method on the grids given, whichever
    implementation runs. (On evenly spaced grids, as long as the cell numbers are isize.) *)
Theorem C42_linear_values :
  forall c m obs grids vals o0 lin assume atol,
  (2 <= m)%nat -> good_call m o0 obs grids vals -> (1 <= length grids <= 8)%nat ->
  let gs := map nd_data grids in let xs := map nd_data obs in
  Forall strictly_increasing gs -> (assume = true -> Forall (evenly_spaced ROps) gs) ->
  (Forall (evenly_spaced ROps) gs -> forall j, (j < length (nd_data o0))%nat ->
     cell_fits isize_min (firsts 0%R gs) (spacings ROps 0%R gs) (point_of 0%R xs j)) ->
  exists eval, multilinear c (nd_data vals) (rect_axes gs) everywhere eval /\
  exists r, fst (py_interpn ROps c obs grids vals "linear" None lin assume false atol) = Ret r /\
    nd_shape r = nd_shape o0 /\ length (nd_data r) = length (nd_data o0) /\
    forall j, (j < length (nd_data o0))%nat -> eval (point_of 0%R xs j) = Ok (nth j (nd_data r) 0%R).
Proof. exact exact_linear. Qed.
Theorem C42_nearest_values :
  forall c m obs grids vals o0 lin assume atol,
  (2 <= m)%nat -> good_call m o0 obs grids vals -> (1 <= length grids <= 8)%nat ->
  let gs := map nd_data grids in let xs := map nd_data obs in
  Forall strictly_increasing gs -> (assume = true -> Forall (evenly_spaced ROps) gs) -> (length grids <= 6)%nat ->
  (Forall (evenly_spaced ROps) gs -> forall j, (j < length (nd_data o0))%nat ->
     cell_fits isize_min (firsts 0%R gs) (spacings ROps 0%R gs) (point_of 0%R xs j)) ->
  exists eval, nearest_nd c (nd_data vals) (rect_axes gs) everywhere eval /\
  exists r, fst (py_interpn ROps c obs grids vals "nearest" None lin assume false atol) = Ret r /\
    nd_shape r = nd_shape o0 /\ length (nd_data r) = length (nd_data o0) /\
    forall j, (j < length (nd_data o0))%nat -> eval (point_of 0%R xs j) = Ok (nth j (nd_data r) 0%R).
Proof. exact exact_nearest. Qed.
Theorem C42_cubic_values :
  forall c m obs grids vals o0 lin assume atol,
  (2 <= m)%nat -> good_call m o0 obs grids vals -> (1 <= length grids <= 8)%nat ->
  let gs := map nd_data grids in let xs := map nd_data obs in
  Forall strictly_increasing gs -> (assume = true -> Forall (evenly_spaced ROps) gs) -> (4 <= m)%nat ->
  (Forall (evenly_spaced ROps) gs -> forall j, (j < length (nd_data o0))%nat ->
     cell_fits (isize_min + 1) (firsts 0%R gs) (spacings ROps 0%R gs) (point_of 0%R xs j)) ->
  exists eval, multicubic c lin (nd_data vals) (rect_axes gs) everywhere eval /\
  exists r, fst (py_interpn ROps c obs grids vals "cubic" None lin assume false atol) = Ret r /\
    nd_shape r = nd_shape o0 /\ length (nd_data r) = length (nd_data o0) /\
    forall j, (j < length (nd_data o0))%nat -> eval (point_of 0%R xs j) = Ok (nth j (nd_data r) 0%R).
Proof. exact exact_cubic. Qed.

(** The two grids of the examples: binary64, evenly and unevenly spaced. *)
Definition even_grids : list (ndarray f64) := [arr [z64 0; z64 1; z64 2]; arr [z64 1; z64 3]].
Definition uneven_grids : list (ndarray f64) := map arr lin_grids.
Definition two_obs : list (ndarray f64) := [mkNd [1; 2]%nat [z64 1; f64_lit 1 (-1)]; mkNd [1; 2]%nat [z64 2; z64 5]].
Lemma even_ok : Forall (evenly_spaced F64Ops) (map nd_data even_grids).
Proof.
  apply Forall_cons; [|apply Forall_cons; [|apply Forall_nil]]; intros i a0 a1 a b E0 E1 Ea Eb; simpl in E0, E1; injection E0 as <-; injection E1 as <-;
    (destruct i as [|[|[|i]]]; simpl in Ea, Eb; try discriminate Ea; try discriminate Eb;
     injection Ea as <-; injection Eb as <-; split; vm_compute; reflexivity).
Qed.
Lemma uneven_ok : ~ Forall (evenly_spaced F64Ops) (map nd_data uneven_grids).
Proof.
  intros H. inversion H as [|g l H1 H2]; subst. 
  assert (E := H1 1%nat _ _ _ _ eq_refl eq_refl eq_refl eq_refl). destruct E as (E & _).
  vm_compute in E. discriminate E.
Qed.
Example C42_regular_ex : fst (py_interpn F64Ops plain two_obs even_grids (arr lin_vals) "linear" None true false false (z64 0))
  = python_result [1; 2]%nat (mlr_interpn F64Ops plain [3; 2] [z64 0; z64 1] [fsub F64Ops (z64 1) (z64 0); fsub F64Ops (z64 3) (z64 1)]
      lin_vals (map nd_data two_obs) [fzero F64Ops; fzero F64Ops]).
Proof.
  destruct (C42_regular f64 F64Ops plain two_obs even_grids (arr lin_vals) _ true false (z64 0) eq_refl) as (E & _).
  - le_ok.
  - repeat constructor.
  - right. apply even_ok.
  - rewrite E. reflexivity.
Qed.
Example C42_rectilinear_ex : fst (py_interpn F64Ops plain two_obs uneven_grids (arr lin_vals) "nearest" None true false false (z64 0))
  = python_result [1; 2]%nat (nc_interpn F64Ops plain lin_grids lin_vals (map nd_data two_obs) [fzero F64Ops; fzero F64Ops]).
Proof.
  destruct (C42_rectilinear f64 F64Ops plain two_obs uneven_grids (arr lin_vals) _ true false (z64 0) eq_refl) as (_ & E & _).
  - le_ok.
  - repeat constructor.
  - reflexivity.
  - apply uneven_ok.
  - le_ok.
  - rewrite E. reflexivity.
Qed.
(** Both calls return. *)
Example C42_returns_ex :
  map (fun m => is_ret (fst (py_interpn F64Ops plain two_obs even_grids (arr lin_vals) m None true false false (z64 0))))
    ["linear"; "nearest"; "cubic"; "quintic"] = [true; true; false; false] /\
  map (fun m => is_ret (fst (py_interpn F64Ops plain two_obs uneven_grids (arr lin_vals) m None true false false (z64 0))))
    ["linear"; "nearest"; "cubic"; "quintic"] = [true; true; false; false].
Proof. split; vm_compute; reflexivity. Qed.
Example C42_unsupported_ex : exists e,
  fst (py_interpn F64Ops plain two_obs even_grids (arr lin_vals) "quintic" None true false true (z64 0)) = Raise e.
Proof. apply C42_unsupported; discriminate. Qed.
Example C42_unsupported_value_error_ex :
  fst (py_interpn F64Ops plain two_obs even_grids (arr lin_vals) "quintic" None true false false (z64 0)) = Raise ValueError.
Proof. eapply C42_unsupported_value_error; [reflexivity|repeat constructor| | |]; discriminate. Qed.

Definition r_obs : list (ndarray R) := [mkNd [2]%nat [1 / 2; 5]; mkNd [2]%nat [2; 7]]%R.
Ltac r_call := repeat split; try reflexivity; repeat constructor; try (vm_compute; discriminate).
(** The bilinear value at (1/2, 2) on the evenly spaced grid; (5, 7) on the uneven one. *)
Example C42_linear_values_ex : exists eval,
  multilinear rplain rl_vals (rect_axes rl_grids) everywhere eval /\
  exists r, fst (py_interpn ROps rplain r_obs (map arr rl_grids) (arr rl_vals) "linear" None true true false 0%R) = Ret r /\
    nd_shape r = [2]%nat /\ eval [1 / 2; 2]%R = Ok (nth 0 (nd_data r) 0%R).
Proof.
  destruct (C42_linear_values rplain 2 r_obs (map arr rl_grids) (arr rl_vals) (mkNd [2]%nat [1 / 2; 5]%R) true true 0%R) as (eval & H & r & E & S & _ & V).
  - lia.
  - r_call.
  - split; le_ok.
  - sorted_ok.
  - intros _. apply Forall_cons; [|apply Forall_cons; [|apply Forall_nil]]; intros [|[|[|i]]] a0 a1 a b E0 E1 Ea Eb; simpl in *; try discriminate; injection E0 as <-; injection E1 as <-; injection Ea as <-; injection Eb as <-; split; apply RChar.Rleb_true; lra.
  - intros _ j Hj. simpl in Hj.
    destruct j as [|[|j]]; [| |lia]; intros k Hk; simpl in Hk; (destruct k as [|[|k]]; [| |lia]); unfold isize_min, isize_max; simpl; split; lra.
  - exists eval. split; [exact H|]. exists r. split; [exact E|]. split; [exact S|]. exact (V 0%nat ltac:(simpl; lia)).
Qed.
Example C42_nearest_values_ex : exists eval,
  nearest_nd rplain rl_vals (rect_axes ru_grids) everywhere eval /\
  exists r, fst (py_interpn ROps rplain r_obs (map arr ru_grids) (arr rl_vals) "nearest" None true false false 0%R) = Ret r /\
    nd_shape r = [2]%nat /\ eval [5; 7]%R = Ok (nth 1 (nd_data r) 0%R).
Proof.
  assert (Ne : ~ Forall (evenly_spaced ROps) ru_grids).
  { intros H. inversion H as [|g l H1 H2]; subst.
    destruct (H1 1%nat _ _ _ _ eq_refl eq_refl eq_refl eq_refl) as (E & _). simpl in E. apply RChar.Rleb_true in E. lra. }
  destruct (C42_nearest_values rplain 2 r_obs (map arr ru_grids) (arr rl_vals) (mkNd [2]%nat [1 / 2; 5]%R) true false 0%R) as (eval & H & r & E & S & _ & V).
  - lia.
  - r_call.
  - split; le_ok.
  - sorted_ok.
  - discriminate.
  - le_ok.
  - intros H. exfalso. apply Ne. exact H.
  - exists eval. split; [exact H|]. exists r. split; [exact E|]. split; [exact S|]. exact (V 1%nat ltac:(simpl; lia)).
Qed.
Example C42_cubic_values_ex : exists eval,
  multicubic rplain true rc_vals (rect_axes rcu_grids) everywhere eval /\
  exists r, fst (py_interpn ROps rplain r_obs (map arr rcu_grids) (arr rc_vals) "cubic" None true false false 0%R) = Ret r /\
    nd_shape r = [2]%nat /\ eval [5; 7]%R = Ok (nth 1 (nd_data r) 0%R).
Proof.
  assert (Ne : ~ Forall (evenly_spaced ROps) rcu_grids).
  { intros H. inversion H as [|g l H1 H2]; subst.
    destruct (H1 1%nat _ _ _ _ eq_refl eq_refl eq_refl eq_refl) as (E & _). simpl in E. apply RChar.Rleb_true in E. lra. }
  destruct (C42_cubic_values rplain 4 r_obs (map arr rcu_grids) (arr rc_vals) (mkNd [2]%nat [1 / 2; 5]%R) true false 0%R) as (eval & H & r & E & S & _ & V).
  - lia.
  - r_call.
  - split; le_ok.
  - sorted_ok.
  - discriminate.
  - le_ok.
  - intros H. exfalso. apply Ne. exact H.
  - exists eval. split; [exact H|]. exists r. split; [exact E|]. split; [exact S|]. exact (V 1%nat ltac:(simpl; lia)).
Qed.
Print Assumptions C42_regular.
Print Assumptions C42_rectilinear.
Print Assumptions C42_unsupported.
Print Assumptions C42_unsupported_value_error.
Print Assumptions C42_linear_values.
Print Assumptions C42_nearest_values.
Print Assumptions C42_cubic_values.

(** * C43: check_bounds=True.
    False with more than one axis: the call below, at two points inside the grid, returns
    without the check and raises AssertionError with it. *)
Definition inside_obs : list (ndarray f64) := [arr [z64 1; f64_lit 1 (-1)]; arr [z64 2; z64 1]].
Theorem C43_refuted :
  let call cb := fst (py_interpn F64Ops plain inside_obs even_grids (arr lin_vals) "linear" None true false cb (f64_lit 1 (-20))) in
  is_ret (call false) = true /\ call true = Raise (AssertionError "Dimension mismatch").
Proof. split; vm_compute; reflexivity. Qed.
(** It is so for every call with a number of axes other than one. *)
Theorem C43_other_dims :
  forall F (o : Ops F) c obs grids vals method o0 lin assume atol,
  hd_error obs = Some o0 -> (length obs <= 8)%nat -> (length grids <= 8)%nat ->
  Forall (fun g => (2 <= length (nd_data g))%nat) grids -> length grids <> 1%nat ->
  fst (py_interpn o c obs grids vals method None lin assume true atol) = Raise (AssertionError "Dimension mismatch").
Proof. exact @bounds_other_dims. Qed.
(** One axis, exact arithmetic. *)
Theorem C43_partial :
  forall c x g vals method lin assume atol,
  (2 <= length (nd_data g))%nat -> zlen (nd_data g) < two64 -> strictly_increasing (nd_data g) ->
  (assume = true -> evenly_spaced ROps (nd_data g)) ->
  let call cb := py_interpn ROps c [x] [g] vals method None lin assume cb atol in
  let outside := beyond (nth 0 (nd_data g) 0%R) (last (nd_data g) 0%R) atol (nd_data x) in
  (outside -> fst (call true) = Raise ValueError) /\ (~ outside -> call true = call false).
Proof. exact bounds_exact. Qed.
Definition r_line : ndarray R := arr [0; 1; 3; 4]%R.
Example C43_partial_ex :
  let call cb x := py_interpn ROps rplain [arr x] [r_line] (arr [1; 2; 3; 4]%R) "linear" None true false cb (1 / 4)%R in
  fst (call true [2; 5]%R) = Raise ValueError /\ call true [2; 33 / 8]%R = call false [2; 33 / 8]%R.
Proof.
  split.
  - apply C43_partial; [le_ok|vm_compute; reflexivity|sorted_ok|discriminate|].
    exists 5%R. simpl. split; [auto|lra].
  - apply C43_partial; [le_ok|vm_compute; reflexivity|sorted_ok|discriminate|].
    intros (x & H & B). simpl in H, B. destruct H as [<- | [<- | []]]; lra.
Qed.
Example C43_other_dims_ex :
  fst (py_interpn F64Ops plain inside_obs even_grids (arr lin_vals) "cubic" None true false true (z64 1)) = Raise (AssertionError "Dimension mismatch").
Proof. eapply C43_other_dims; [reflexivity|le_ok|le_ok|repeat constructor|discriminate]. Qed.
Print Assumptions C43_refuted.
Print Assumptions C43_other_dims.
Print Assumptions C43_partial.

(** * C46: the out argument. False: a buffer of two or more elements always raises, *)
Theorem C46_large_refuted :
  forall F (o : Ops F) c obs grids vals method buf lin assume cb atol, (2 <= length (nd_data buf))%nat ->
  py_interpn o c obs grids vals method (Some buf) lin assume cb atol = (Raise ValueError, Some (nd_data buf)).
Proof. exact @out_large. Qed.
(** and a one-element buffer holding zero is ignored: the result is returned in a new array. *)
Theorem C46_zero_refuted :
  forall F (o : Ops F) c obs grids vals method buf v lin assume cb atol, nd_data buf = [v] -> same_number o v (fzero o) ->
  py_interpn o c obs grids vals method (Some buf) lin assume cb atol =
  (fst (py_interpn o c obs grids vals method None lin assume cb atol), Some [v]).
Proof. exact @out_zero. Qed.
(** A one-element buffer holding anything else does receive the result. *)
Theorem C46_partial :
  forall F (o : Ops F) c obs grids vals method buf v lin assume cb atol r, nd_data buf = [v] -> ~ same_number o v (fzero o) ->
  fst (py_interpn o c obs grids vals method (Some buf) lin assume cb atol) = Ret r ->
  nd_shape r = nd_shape buf /\
  snd (py_interpn o c obs grids vals method (Some buf) lin assume cb atol) = Some (nd_data r).
Proof. exact @out_used. Qed.
Definition one_obs : list (ndarray f64) := [arr [z64 1]; arr [z64 2]].
(** Valid calls: returns without a buffer, with a zero and with a nonzero buffer of one element;
    raises with a buffer of two elements. *)
Example C46_ex :
  let call obs out := is_ret (fst (py_interpn F64Ops plain obs even_grids (arr lin_vals) "linear" out true false false (z64 0))) in
  call two_obs None = true /\ call two_obs (Some (arr [z64 0; z64 0])) = false /\
  call one_obs (Some (arr [z64 0])) = true /\ call one_obs (Some (arr [z64 7])) = true.
Proof. repeat split; vm_compute; reflexivity. Qed.
Example C46_large_refuted_ex :
  py_interpn F64Ops plain two_obs even_grids (arr lin_vals) "linear" (Some (arr [z64 0; z64 0])) true false false (z64 0)
  = (Raise ValueError, Some [z64 0; z64 0]).
Proof. apply C46_large_refuted. le_ok. Qed.
Example C46_zero_refuted_ex :
  snd (py_interpn F64Ops plain one_obs even_grids (arr lin_vals) "linear" (Some (arr [z64 0])) true false false (z64 0))
  = Some [z64 0].
Proof. rewrite (C46_zero_refuted f64 F64Ops plain one_obs even_grids (arr lin_vals) "linear" (arr [z64 0]) (z64 0)); [reflexivity|reflexivity|split; vm_compute; reflexivity]. Qed.
Example C46_partial_ex : exists r,
  fst (py_interpn F64Ops plain one_obs even_grids (arr lin_vals) "linear" (Some (arr [z64 7])) true false false (z64 0)) = Ret r /\
  snd (py_interpn F64Ops plain one_obs even_grids (arr lin_vals) "linear" (Some (arr [z64 7])) true false false (z64 0)) = Some (nd_data r).
Proof.
  destruct C46_ex as (_ & _ & _ & H).
  destruct (fst (py_interpn F64Ops plain one_obs even_grids (arr lin_vals) "linear" (Some (arr [z64 7])) true false false (z64 0))) as [r|e] eqn:E; [|discriminate H].
  exists r. split; [reflexivity|].
  destruct (C46_partial f64 F64Ops plain one_obs even_grids (arr lin_vals) "linear" (arr [z64 7]) (z64 7) true false false (z64 0) r eq_refl) as (_ & S); [|exact E|exact S].
  intros (B & _). vm_compute in B. discriminate B.
Qed.
Print Assumptions C46_large_refuted.
Print Assumptions C46_zero_refuted.
Print Assumptions C46_partial.

(** * C47: the wrapper classes. What the validators accept: *)
Theorem C47_rectilinear_accepts :
  forall F (o : Ops F) maxd grids vals, differences_sound o -> class_rectilinear_ok o maxd grids vals = true ->
  (1 <= length grids <= maxd)%nat /\ zlen vals = zprod (map zlen grids) /\
  forall g i a b, In g grids -> nth_error g i = Some a -> nth_error g (S i) = Some b -> flt o a b = true.
Proof. exact @class_rect_inv. Qed.
Theorem C47_regular_accepts :
  forall F (o : Ops F) dims starts steps vals maxd, class_regular_ok o maxd dims starts steps vals = true ->
  (1 <= length dims <= maxd)%nat /\ length starts = length dims /\ length steps = length dims /\
  zlen vals = zprod dims /\ Forall (fun h => flt o (fzero o) h = true) steps.
Proof. exact @class_reg_inv. Qed.
Theorem C47_differences_ieee : forall prec emax (Hp : Prec_gt_0 prec) (He : Prec_lt_emax prec emax),
  differences_sound (BOps Hp He).
Proof. exact differences_B. Qed.
Theorem C47_differences_exact : differences_sound ROps.
Proof. exact differences_R. Qed.
(** They accept grids too short to be evaluated: eval raises on a validated object. *)
Theorem C47_refuted :
  class_rectilinear_ok F64Ops 8 [[z64 0]] [z64 5] = true /\
  class_eval F64Ops (raw_linear_rectilinear F64Ops plain [[z64 0]] [z64 5]) [[z64 0]] None
    = Raise (AssertionError "All grids must have at least 2 entries") /\
  class_regular_ok F64Ops 8 [3] [z64 0] [z64 1] [z64 5; z64 6; z64 7] = true /\
  class_eval F64Ops (raw_cubic_regular F64Ops plain [3] [z64 0] [z64 1] [z64 5; z64 6; z64 7] true) [[z64 0]] None
    = Raise (AssertionError "All grids must have at least four entries").
Proof. repeat split; vm_compute; reflexivity. Qed.
(** A validated rectilinear interpolator with two (cubic: four) points per axis never raises, and
    returns what the library computed. *)
Theorem C47_linear_rectilinear_partial :
  forall F (o : Ops F) c grids vals obs out out0 maxd m, differences_sound o ->
  class_rectilinear_ok o maxd grids vals = true -> (2 <= m)%nat ->
  Forall (fun g => (m <= length g)%nat) grids -> zlen vals <= isize_max ->
  length obs = length grids -> Forall (fun xs => length xs = length out0) obs ->
  output_array o obs out out0 -> (maxd <= 8)%nat ->
  exists data, class_eval o (raw_linear_rectilinear o c grids vals) obs out = Ret data /\
    mlc_interpn o c grids vals obs out0 = (Ok tt, data) /\ length data = length out0.
Proof. exact @class_linear_rect. Qed.
Theorem C47_nearest_rectilinear_partial :
  forall F (o : Ops F) c grids vals obs out out0 maxd m, differences_sound o ->
  class_rectilinear_ok o maxd grids vals = true -> (2 <= m)%nat ->
  Forall (fun g => (m <= length g)%nat) grids -> zlen vals <= isize_max ->
  length obs = length grids -> Forall (fun xs => length xs = length out0) obs ->
  output_array o obs out out0 -> (maxd <= 8)%nat -> (maxd <= 6)%nat ->
  exists data, class_eval o (raw_nearest_rectilinear o c grids vals) obs out = Ret data /\
    nc_interpn o c grids vals obs out0 = (Ok tt, data) /\ length data = length out0.
Proof. exact @class_nearest_rect. Qed.
Theorem C47_cubic_rectilinear_partial :
  forall F (o : Ops F) c grids vals obs out out0 maxd m, differences_sound o ->
  class_rectilinear_ok o maxd grids vals = true -> (2 <= m)%nat ->
  Forall (fun g => (m <= length g)%nat) grids -> zlen vals <= isize_max ->
  length obs = length grids -> Forall (fun xs => length xs = length out0) obs ->
  output_array o obs out out0 -> (maxd <= 8)%nat -> forall lin, (4 <= m)%nat ->
  exists data, class_eval o (raw_cubic_rectilinear o c grids vals lin) obs out = Ret data /\
    mcc_interpn o c grids vals lin obs out0 = (Ok tt, data) /\ length data = length out0.
Proof. exact @class_cubic_rect. Qed.
(** A validated regular one never panics: it returns what the library computed or raises
    AssertionError with the library's message (cubic: in builds without overflow checks). *)
Theorem C47_linear_regular_partial :
  forall F (o : Ops F) c dims starts steps vals obs out out0 maxd, usize_converts o ->
  class_regular_ok o maxd dims starts steps vals = true -> Forall (fun d => 2 <= d) dims ->
  zlen vals <= isize_max -> length obs = length dims -> Forall (fun xs => length xs = length out0) obs ->
  output_array o obs out out0 -> (maxd <= 8)%nat ->
  let r := mlr_interpn o c dims starts steps vals obs out0 in
  match class_eval o (raw_linear_regular o c dims starts steps vals) obs out with
  | Ret data => r = (Ok tt, data) /\ length data = length out0
  | Raise e => exists msg, e = AssertionError msg /\ fst r = Err msg
  end.
Proof. exact @class_linear_reg. Qed.
Theorem C47_nearest_regular_partial :
  forall F (o : Ops F) c dims starts steps vals obs out out0 maxd, usize_converts o ->
  class_regular_ok o maxd dims starts steps vals = true -> Forall (fun d => 2 <= d) dims ->
  zlen vals <= isize_max -> length obs = length dims -> Forall (fun xs => length xs = length out0) obs ->
  output_array o obs out out0 -> (maxd <= 8)%nat -> (maxd <= 6)%nat ->
  let r := nr_interpn o c dims starts steps vals obs out0 in
  match class_eval o (raw_nearest_regular o c dims starts steps vals) obs out with
  | Ret data => r = (Ok tt, data) /\ length data = length out0
  | Raise e => exists msg, e = AssertionError msg /\ fst r = Err msg
  end.
Proof. exact @class_nearest_reg. Qed.
Theorem C47_cubic_regular_partial :
  forall F (o : Ops F) c dims starts steps vals obs out out0 maxd, usize_converts o ->
  class_regular_ok o maxd dims starts steps vals = true -> Forall (fun d => 2 <= d) dims ->
  zlen vals <= isize_max -> length obs = length dims -> Forall (fun xs => length xs = length out0) obs ->
  output_array o obs out out0 -> (maxd <= 8)%nat ->
  forall lin, ovf_checks c = false -> Forall (fun d => 4 <= d) dims ->
  let r := mcr_interpn o c dims starts steps vals lin obs out0 in
  match class_eval o (raw_cubic_regular o c dims starts steps vals lin) obs out with
  | Ret data => r = (Ok tt, data) /\ length data = length out0
  | Raise e => exists msg, e = AssertionError msg /\ fst r = Err msg
  end.
Proof. exact @class_cubic_reg. Qed.
(** check_bounds of a validated object flags exactly the axes with an observation at least atol
    outside (exact arithmetic). *)
Theorem C47_check_bounds_regular :
  forall c maxd dims starts steps vals obs atol,
  class_regular_ok ROps maxd dims starts steps vals = true -> (maxd <= 8)%nat ->
  Forall (fun d => (1 <= d < two64)%Z) dims -> length obs = length dims ->
  exists flags, class_check_bounds (length dims) (raw_check_bounds_regular ROps c dims starts steps) obs atol = Ret flags /\
    length flags = length dims /\ forall k, (k < length dims)%nat ->
    (nth k flags false = true <->
     beyond (nth k starts 0) (nth k starts 0 + nth k steps 0 * IZR (nth k dims 0%Z - 1))%R atol (nth k obs []))%R.
Proof. exact class_bounds_reg. Qed.
Theorem C47_check_bounds_rectilinear :
  forall maxd grids vals obs atol,
  class_rectilinear_ok ROps maxd grids vals = true -> (maxd <= 8)%nat ->
  Forall (fun g => (1 <= length g)%nat) grids -> length obs = length grids ->
  exists flags, class_check_bounds (length grids) (raw_check_bounds_rectilinear ROps grids) obs atol = Ret flags /\
    length flags = length grids /\ forall k, (k < length grids)%nat ->
    (nth k flags false = true <-> beyond (nth 0 (nth k grids []) 0) (last (nth k grids []) 0) atol (nth k obs []))%R.
Proof. exact class_bounds_rect. Qed.
(** Validated objects of the examples. *)
Lemma lin_class_reg : class_regular_ok F64Ops 8 lin_dims lin_starts lin_steps lin_vals = true.
Proof. vm_compute. reflexivity. Qed.
Lemma lin_class_rect : class_rectilinear_ok F64Ops 6 lin_grids lin_vals = true.
Proof. vm_compute. reflexivity. Qed.
Lemma cub_class_rect : class_rectilinear_ok F64Ops 8 cub_grids cub_vals = true.
Proof. vm_compute. reflexivity. Qed.
Example C47_rectilinear_accepts_ex : flt F64Ops (z64 1) (z64 3) = true.
Proof.
  destruct (C47_rectilinear_accepts f64 F64Ops 6 lin_grids lin_vals (C47_differences_ieee _ _ _ _) lin_class_rect) as (_ & _ & H).
  apply (H [z64 1; z64 3] 0%nat); [right; left|reflexivity|reflexivity]; reflexivity.
Qed.
Example C47_regular_accepts_ex : zlen lin_vals = zprod lin_dims.
Proof. apply (C47_regular_accepts f64 F64Ops lin_dims lin_starts lin_steps lin_vals 8 lin_class_reg). Qed.
Example C47_linear_rectilinear_partial_ex : exists data,
  class_eval F64Ops (raw_linear_rectilinear F64Ops plain lin_grids lin_vals) (map nd_data two_obs) None = Ret data.
Proof.
  destruct (C47_linear_rectilinear_partial f64 F64Ops plain lin_grids lin_vals (map nd_data two_obs) None [fzero F64Ops; fzero F64Ops] 6 2) as (data & E & _);
    [apply C47_differences_ieee|exact lin_class_rect|le_ok|repeat constructor|vm_compute; discriminate|reflexivity|repeat constructor|eexists; split; reflexivity|le_ok|].
  eauto.
Qed.
Example C47_nearest_rectilinear_partial_ex : exists data,
  class_eval F64Ops (raw_nearest_rectilinear F64Ops plain lin_grids lin_vals) (map nd_data two_obs) None = Ret data.
Proof.
  destruct (C47_nearest_rectilinear_partial f64 F64Ops plain lin_grids lin_vals (map nd_data two_obs) None [fzero F64Ops; fzero F64Ops] 6 2) as (data & E & _);
    [apply C47_differences_ieee|exact lin_class_rect|le_ok|repeat constructor|vm_compute; discriminate|reflexivity|repeat constructor|eexists; split; reflexivity|le_ok|le_ok|].
  eauto.
Qed.
Example C47_cubic_rectilinear_partial_ex : exists data,
  class_eval F64Ops (raw_cubic_rectilinear F64Ops plain cub_grids cub_vals true) (map nd_data two_obs) None = Ret data.
Proof.
  destruct (C47_cubic_rectilinear_partial f64 F64Ops plain cub_grids cub_vals (map nd_data two_obs) None [fzero F64Ops; fzero F64Ops] 8 4) with (lin := true) as (data & E & _);
    [apply C47_differences_ieee|exact cub_class_rect|le_ok|repeat constructor|vm_compute; discriminate|reflexivity|repeat constructor|eexists; split; reflexivity|le_ok|le_ok|].
  eauto.
Qed.
(** A regular one returns at finite points and raises at an infinite one. *)
Example C47_regular_partial_ex :
  class_regular_ok F64Ops 8 lin_dims lin_starts lin_steps lin_vals = true /\
  is_ret (class_eval F64Ops (raw_linear_regular F64Ops plain lin_dims lin_starts lin_steps lin_vals) (map nd_data two_obs) None) = true /\
  class_eval F64Ops (raw_linear_regular F64Ops plain lin_dims lin_starts lin_steps lin_vals) [[B754_infinity true]; [z64 2]] None
    = Raise (AssertionError "Unrepresentable coordinate value") /\
  class_regular_ok F64Ops 8 cub_dims cub_starts cub_steps cub_vals = true /\
  is_ret (class_eval F64Ops (raw_cubic_regular F64Ops release cub_dims cub_starts cub_steps cub_vals true) (map nd_data two_obs) None) = true /\
  is_ret (class_eval F64Ops (raw_nearest_regular F64Ops plain lin_dims lin_starts lin_steps lin_vals) (map nd_data two_obs) None) = true.
Proof. repeat split; vm_compute; reflexivity. Qed.
Example C47_check_bounds_regular_ex : class_regular_ok ROps 8 rl_dims rl_starts rl_steps rl_vals = true /\
  class_rectilinear_ok ROps 8 ru_grids rl_vals = true.
Proof.
  split; lazy -[Rltb IZR Rplus Rminus Rmult Rinv Ropp rl_vals]; rltb; reflexivity.
Qed.
Example C47_check_bounds_ex :
  (exists flags, class_check_bounds 2 (raw_check_bounds_regular ROps rplain rl_dims rl_starts rl_steps) [[1 / 2; 5]; [2; 3]]%R (1 / 4)%R = Ret flags /\
    nth 0 flags false = true /\ nth 1 flags false = false) /\
  (exists flags, class_check_bounds 2 (raw_check_bounds_rectilinear ROps ru_grids) [[1 / 2; 5]; [2; 3]]%R (1 / 4)%R = Ret flags /\
    nth 0 flags false = true /\ nth 1 flags false = false).
Proof.
  destruct C47_check_bounds_regular_ex as (C1 & C2). split.
  - destruct (C47_check_bounds_regular rplain 8 rl_dims rl_starts rl_steps rl_vals [[1 / 2; 5]; [2; 3]]%R (1 / 4)%R C1) as (flags & E & _ & H);
      [le_ok|repeat constructor; vm_compute; first [discriminate|reflexivity]|reflexivity|].
    exists flags. split; [exact E|]. split.
    + apply (H 0%nat); [simpl; lia|]. exists 5%R. simpl. split; [auto|lra].
    + apply not_true_is_false. intros T. apply (H 1%nat) in T; [|simpl; lia].
      destruct T as (x & I & B). simpl in I, B. destruct I as [<- | [<- | []]]; lra.
  - destruct (C47_check_bounds_rectilinear 8 ru_grids rl_vals [[1 / 2; 5]; [2; 3]]%R (1 / 4)%R C2) as (flags & E & _ & H);
      [le_ok|repeat constructor|reflexivity|].
    exists flags. split; [exact E|]. split.
    + apply (H 0%nat); [simpl; lia|]. exists 5%R. simpl. split; [auto|lra].
    + apply not_true_is_false. intros T. apply (H 1%nat) in T; [|simpl; lia].
      destruct T as (x & I & B). simpl in I, B. destruct I as [<- | [<- | []]]; lra.
Qed.
Print Assumptions C47_refuted.
Print Assumptions C47_rectilinear_accepts.
Print Assumptions C47_regular_accepts.
Print Assumptions C47_differences_ieee.
Print Assumptions C47_differences_exact.
Print Assumptions C47_linear_rectilinear_partial.
Print Assumptions C47_nearest_rectilinear_partial.
Print Assumptions C47_cubic_rectilinear_partial.
Print Assumptions C47_linear_regular_partial.
Print Assumptions C47_nearest_regular_partial.
Print Assumptions C47_cubic_regular_partial.
Print Assumptions C47_check_bounds_regular.
Print Assumptions C47_check_bounds_rectilinear.
