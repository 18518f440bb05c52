(** Property C87: evaluation of a batch commutes with choosing, reordering, repeating and joining
    observation points. Property C88: the Python function and the Python classes agree. *)
From Coq Require Import List ZArith Bool Lia PeanoNat String.
From Verif Require Import Base Ops FInst ModelCore ModelLinear ModelNearest ModelCubic ModelOneDim ModelPython Spec SpecPython SpecBatch.
From Verif Require Import BatchProofs ExampleData PropertiesFloat PropertiesPython PropertiesDetect.
Import ListNotations.
Unset Implicit Arguments.
Open Scope string_scope.
Open Scope list_scope.
Open Scope nat_scope.

(** * C87: if a batch is evaluated successfully, so is any batch made of points of it, in any order and
    with repetitions, and the result of each point is the same: a part of a batch, a permutation of it. *)
Theorem C87_select :
  forall F (o : Ops F) c f obs out r js out', batch_function o c f -> f obs out = (Ok tt, r) ->
  Forall (fun j => j < length out) js -> length out' = length js ->
  f (map (select (fzero o) js) obs) out' = (Ok tt, select (fzero o) js r).
Proof. exact @C87_proof_select. Qed.
(** If two batches are evaluated successfully, so is the batch of all their points, and the results are
    those of the two batches: splitting a batch in chunks and evaluating them separately gives the same. *)
Theorem C87_joined :
  forall F (o : Ops F) c f obs1 out1 r1 obs2 out2 r2, batch_function o c f -> length obs1 = length obs2 ->
  f obs1 out1 = (Ok tt, r1) -> f obs2 out2 = (Ok tt, r2) ->
  f (joined obs1 obs2) (out1 ++ out2) = (Ok tt, r1 ++ r2).
Proof. exact @C87_proof_joined. Qed.
(** The same for the one-dimensional interpolators. *)
Theorem C87_one_dim_select :
  forall F (o : Ops F) (one : F -> outcome F) locs out r js out', eval1 one locs out = (Ok tt, r) ->
  Forall (fun j => j < length out) js -> length out' = length js ->
  eval1 one (select (fzero o) js locs) out' = (Ok tt, select (fzero o) js r).
Proof. exact @C87_proof_select1. Qed.
Theorem C87_one_dim_joined :
  forall F (o : Ops F) (one : F -> outcome F) locs1 out1 r1 locs2 out2 r2,
  eval1 one locs1 out1 = (Ok tt, r1) -> eval1 one locs2 out2 = (Ok tt, r2) ->
  eval1 one (locs1 ++ locs2) (out1 ++ out2) = (Ok tt, r1 ++ r2).
Proof. exact @C87_proof_joined1. Qed.
(** The same for the Python function, with any method: the arrays may have any shapes, as long as their
    elements in C order are the points chosen, or the points of the two calls. *)
Theorem C87_python_select :
  forall F (o : Ops F) c obs grids vals method lin assume atol r js obs' o0',
  fst (py_interpn o c obs grids vals method None lin assume false atol) = Ret r ->
  Forall (fun j => j < length (nd_data r)) js ->
  map nd_data obs' = map (select (fzero o) js) (map nd_data obs) -> hd_error obs' = Some o0' ->
  exists r', fst (py_interpn o c obs' grids vals method None lin assume false atol) = Ret r' /\
    nd_shape r' = nd_shape o0' /\ nd_data r' = select (fzero o) js (nd_data r).
Proof. exact @C87_proof_python_select. Qed.
Theorem C87_python_joined :
  forall F (o : Ops F) c obs1 obs2 grids vals method lin assume atol r1 r2 obs o0,
  fst (py_interpn o c obs1 grids vals method None lin assume false atol) = Ret r1 ->
  fst (py_interpn o c obs2 grids vals method None lin assume false atol) = Ret r2 -> length obs1 = length obs2 ->
  map nd_data obs = joined (map nd_data obs1) (map nd_data obs2) -> hd_error obs = Some o0 ->
  exists r, fst (py_interpn o c obs grids vals method None lin assume false atol) = Ret r /\
    nd_shape r = nd_shape o0 /\ nd_data r = nd_data r1 ++ nd_data r2.
Proof. exact @C87_proof_python_joined. Qed.
Print Assumptions C87_select.
Print Assumptions C87_joined.
Print Assumptions C87_one_dim_select.
Print Assumptions C87_one_dim_joined.
Print Assumptions C87_python_select.
Print Assumptions C87_python_joined.

(** ** Examples: two points on a 3 x 2 grid of binary64 numbers, swapped and doubled; and joined. *)
Definition bat_f := mlr_interpn F64Ops plain lin_dims lin_starts lin_steps lin_vals.
Definition bat_obs : list (list f64) := [[z64 0; f64_lit 5 (-4)]; [z64 1; z64 2]].
Lemma batch_succeeds (r : outcome unit * list f64) : match fst r with Ok _ => true | _ => false end = true -> r = (Ok tt, snd r).
Proof. destruct r as [[[]|e|] l]; simpl; try discriminate. reflexivity. Qed.
Example C87_select_ex : exists r, bat_f bat_obs [z64 7; z64 7] = (Ok tt, r) /\
  bat_f [[f64_lit 5 (-4); z64 0; f64_lit 5 (-4)]; [z64 2; z64 1; z64 2]] [z64 0; z64 0; z64 0] = (Ok tt, select (fzero F64Ops) [1; 0; 1] r).
Proof.
  eexists. assert (E : bat_f bat_obs [z64 7; z64 7] = (Ok tt, snd (bat_f bat_obs [z64 7; z64 7]))) by (apply batch_succeeds; vm_compute; reflexivity).
  split; [exact E|].
  exact (C87_select _ F64Ops plain bat_f bat_obs _ _ [1; 0; 1] [z64 0; z64 0; z64 0] (b_interpn_linear_regular _ _ _ _ _ _) E
    ltac:(repeat (apply Forall_cons; [vm_compute; lia|]); apply Forall_nil) eq_refl).
Qed.
Example C87_joined_ex : exists r1 r2, bat_f [[z64 0]; [z64 1]] [z64 7] = (Ok tt, r1) /\ bat_f [[f64_lit 5 (-4)]; [z64 2]] [z64 8] = (Ok tt, r2) /\
  bat_f bat_obs [z64 7; z64 8] = (Ok tt, r1 ++ r2).
Proof.
  do 2 eexists.
  assert (E1 : bat_f [[z64 0]; [z64 1]] [z64 7] = (Ok tt, snd (bat_f [[z64 0]; [z64 1]] [z64 7]))) by (apply batch_succeeds; vm_compute; reflexivity).
  assert (E2 : bat_f [[f64_lit 5 (-4)]; [z64 2]] [z64 8] = (Ok tt, snd (bat_f [[f64_lit 5 (-4)]; [z64 2]] [z64 8]))) by (apply batch_succeeds; vm_compute; reflexivity).
  split; [exact E1|]. split; [exact E2|].
  exact (C87_joined _ F64Ops plain bat_f [[z64 0]; [z64 1]] _ _ [[f64_lit 5 (-4)]; [z64 2]] _ _ (b_interpn_linear_regular _ _ _ _ _ _) eq_refl E1 E2).
Qed.
(** A 2 x 1 array of observations made from the two elements of d_obs, reversed. *)
Example C87_python_ex : exists r r',
  fst (py_interpn F64Ops plain d_obs d_grids (arr d_vals) "linear" None true false false (z64 0)) = Ret r /\
  fst (py_interpn F64Ops plain [mkNd [2; 1] [f64_lit 3 (-2); z64 1]; mkNd [2; 1] [z64 2; z64 3]] d_grids (arr d_vals) "linear" None true false false (z64 0)) = Ret r' /\
  nd_shape r' = [2; 1] /\ nd_data r' = select (fzero F64Ops) [1; 0] (nd_data r).
Proof.
  assert (Q : match fst (py_interpn F64Ops plain d_obs d_grids (arr d_vals) "linear" None true false false (z64 0)) with Ret r => length (nd_data r) =? 2 | _ => false end = true)
    by (vm_compute; reflexivity).
  destruct (fst (py_interpn F64Ops plain d_obs d_grids (arr d_vals) "linear" None true false false (z64 0))) as [r|e] eqn:E; [|discriminate Q].
  apply Nat.eqb_eq in Q.
  destruct (C87_python_select _ F64Ops plain d_obs d_grids (arr d_vals) "linear" true false (z64 0) r [1; 0]
    [mkNd [2; 1] [f64_lit 3 (-2); z64 1]; mkNd [2; 1] [z64 2; z64 3]] (mkNd [2; 1] [f64_lit 3 (-2); z64 1]) E) as (r' & H1 & H2 & H3).
  - rewrite Q. repeat (apply Forall_cons; [lia|]). apply Forall_nil.
  - reflexivity.
  - reflexivity.
  - exists r, r'. split; [reflexivity|]. split; [exact H1|]. split; [exact H2|exact H3].
Qed.
Example C87_one_dim_ex : exists r,
  eval1 (linear1 F64Ops plain (c1_at F64Ops plain (mkC1 [z64 0; z64 1; z64 4] [z64 5; z64 7; z64 2]))) [z64 1; z64 3] [z64 0; z64 0] = (Ok tt, r) /\
  eval1 (linear1 F64Ops plain (c1_at F64Ops plain (mkC1 [z64 0; z64 1; z64 4] [z64 5; z64 7; z64 2]))) [z64 3] [z64 9] = (Ok tt, select (fzero F64Ops) [1] r).
Proof.
  eexists. match goal with |- ?a = _ /\ _ => assert (E : a = (Ok tt, snd a)) by (apply batch_succeeds; vm_compute; reflexivity) end.
  split; [exact E|].
  exact (C87_one_dim_select _ F64Ops _ _ _ _ [1] [z64 9] E ltac:(repeat (apply Forall_cons; [vm_compute; lia|]); apply Forall_nil) eq_refl).
Qed.

Example C87_one_dim_joined_ex : exists r1 r2,
  let f := eval1 (linear1 F64Ops plain (c1_at F64Ops plain (mkC1 [z64 0; z64 1; z64 4] [z64 5; z64 7; z64 2]))) in
  f [z64 1; z64 3] [z64 0; z64 0] = (Ok tt, r1) /\ f [z64 2] [z64 9] = (Ok tt, r2) /\
  f [z64 1; z64 3; z64 2] [z64 0; z64 0; z64 9] = (Ok tt, r1 ++ r2).
Proof.
  do 2 eexists. cbv zeta.
  match goal with |- ?a = _ /\ ?b = _ /\ _ => assert (E1 : a = (Ok tt, snd a)) by (apply batch_succeeds; vm_compute; reflexivity);
    assert (E2 : b = (Ok tt, snd b)) by (apply batch_succeeds; vm_compute; reflexivity) end.
  split; [exact E1|]. split; [exact E2|]. exact (C87_one_dim_joined _ F64Ops _ _ _ _ _ _ _ E1 E2).
Qed.
Example C87_python_joined_ex : exists r1 r2 r,
  let call obs := fst (py_interpn F64Ops plain obs d_grids (arr d_vals) "linear" None true false false (z64 0)) in
  call [arr [z64 1]; arr [z64 3]] = Ret r1 /\ call [arr [f64_lit 3 (-2)]; arr [z64 2]] = Ret r2 /\
  call d_obs = Ret r /\ nd_shape r = [2] /\ nd_data r = nd_data r1 ++ nd_data r2.
Proof.
  assert (Q : forall obs, let q := fst (py_interpn F64Ops plain obs d_grids (arr d_vals) "linear" None true false false (z64 0)) in
    match q with Ret _ => true | _ => false end = true -> exists r, q = Ret r).
  { intros obs. cbv zeta. destruct (fst _) as [r|e]; [eauto|discriminate]. }
  destruct (Q [arr [z64 1]; arr [z64 3]]) as (r1 & E1); [vm_compute; reflexivity|].
  destruct (Q [arr [f64_lit 3 (-2)]; arr [z64 2]]) as (r2 & E2); [vm_compute; reflexivity|].
  destruct (C87_python_joined _ F64Ops plain _ _ d_grids (arr d_vals) "linear" true false (z64 0) r1 r2 d_obs _ E1 E2 eq_refl eq_refl eq_refl) as (r & H1 & H2 & H3).
  exists r1, r2, r. split; [exact E1|]. split; [exact E2|]. split; [exact H1|]. split; [exact H2|exact H3].
Qed.

(** * C88: the Python function interpn returns or raises exactly what the wrapper classes do, bit for
    bit: those for regular grids, given the first point and the first difference of every grid, if
    assume_regular is set or all computed differences are equal, otherwise those for rectilinear grids.
    [class_eval .. None] is the method eval(obs) of an object; only the shape is added. *)
Theorem C88_regular :
  forall F (o : Ops F) c obs grids vals o0 lin assume atol,
  hd_error obs = Some o0 -> length obs <= 8 -> Forall (fun g => 2 <= length (nd_data g)) grids ->
  let gs := map nd_data grids in let xs := map nd_data obs in let vs := nd_data vals in
  let dims := map zlen gs in let starts := firsts (fzero o) gs in let steps := spacings o (fzero o) gs in
  let call m := fst (py_interpn o c obs grids vals m None lin assume false atol) in
  let shaped e := py_do data <- e ; Ret (mkNd (nd_shape o0) data) in
  assume = true \/ Forall (evenly_spaced o) gs ->
  call "linear" = shaped (class_eval o (raw_linear_regular o c dims starts steps vs) xs None) /\
  call "nearest" = shaped (class_eval o (raw_nearest_regular o c dims starts steps vs) xs None) /\
  call "cubic" = shaped (class_eval o (raw_cubic_regular o c dims starts steps vs lin) xs None).
Proof. exact @C88_proof_regular. Qed.
Theorem C88_rectilinear :
  forall F (o : Ops F) c obs grids vals o0 lin assume atol,
  hd_error obs = Some o0 -> length obs <= 8 -> Forall (fun g => 2 <= length (nd_data g)) grids ->
  let gs := map nd_data grids in let xs := map nd_data obs in let vs := nd_data vals in
  let call m := fst (py_interpn o c obs grids vals m None lin assume false atol) in
  let shaped e := py_do data <- e ; Ret (mkNd (nd_shape o0) data) in
  assume = false -> ~ Forall (evenly_spaced o) gs -> length grids <= 8 ->
  call "linear" = shaped (class_eval o (raw_linear_rectilinear o c gs vs) xs None) /\
  call "nearest" = shaped (class_eval o (raw_nearest_rectilinear o c gs vs) xs None) /\
  call "cubic" = shaped (class_eval o (raw_cubic_rectilinear o c gs vs lin) xs None).
Proof. exact @C88_proof_rectilinear. Qed.
Print Assumptions C88_regular.
Print Assumptions C88_rectilinear.
(** Both cases occur; one call that returns for each. *)
Example C88_ex :
  (exists r, fst (py_interpn F64Ops plain d_obs d_grids (arr d_vals) "linear" None true false false (z64 0)) = Ret r /\
   class_eval F64Ops (raw_linear_regular F64Ops plain [3; 2]%Z [f64_lit 1 (-60); z64 1] (spacings F64Ops (fzero F64Ops) (map nd_data d_grids)) d_vals) (map nd_data d_obs) None = Ret (nd_data r)) /\
  (exists r, fst (py_interpn F64Ops plain u_obs uneven_grids (arr lin_vals) "linear" None true false false (z64 0)) = Ret r /\
   class_eval F64Ops (raw_linear_rectilinear F64Ops plain (map nd_data uneven_grids) lin_vals) (map nd_data u_obs) None = Ret (nd_data r)).
Proof.
  assert (Q : forall (e : py (list f64)) (q : py (ndarray f64)) shape, match q with Ret _ => true | _ => false end = true ->
    q = (py_do data <- e ; Ret (mkNd shape data)) -> exists r, q = Ret r /\ e = Ret (nd_data r)).
  { intros e q shape Hq E. destruct q as [r|]; [|discriminate Hq]. exists r. split; [reflexivity|]. destruct e as [data|]; [|discriminate E].
    injection E as ->. reflexivity. }
  split.
  - eapply (Q _ _ [2]); [vm_compute; reflexivity|].
    apply (C88_regular _ F64Ops plain d_obs d_grids (arr d_vals) (mkNd [2] [z64 1; f64_lit 3 (-2)]) true false (z64 0));
      [reflexivity|vm_compute; lia|repeat (apply Forall_cons; [vm_compute; lia|]); apply Forall_nil|right; apply C79_not_exactly_even].
  - eapply (Q _ _ [1]); [vm_compute; reflexivity|].
    apply (C88_rectilinear _ F64Ops plain u_obs uneven_grids (arr lin_vals) (mkNd [1] [f64_lit 3 (-2)]) true false (z64 0));
      [reflexivity|vm_compute; lia|repeat (apply Forall_cons; [vm_compute; lia|]); apply Forall_nil|reflexivity|exact uneven_ok|vm_compute; lia].
Qed.
