(** Property C81: memory layout of the arrays passed to the Python package. *)
From Coq Require Import Reals Lia PeanoNat Bool.
From Flocq Require Import Core IEEE754.BinarySingleNaN.
From Verif Require Import Base Ops FInst ModelUtils ModelLinear ModelNearest ModelCubic ModelPython ModelLayout SpecLayout.
From Verif Require Import ExampleData LayoutProofs PropertiesPython.
Unset Implicit Arguments.
Open Scope string_scope.
Open Scope Z_scope.

(** * C81
    `interpn` on arrays of any layout computes with their elements in C order: *)
Theorem C81_interpn :
  forall F (o : Ops F) c obs grids vals obs' grids' vals' method out lin assume check atol,
  Forall2 holds obs obs' -> Forall2 holds grids grids' -> holds vals vals' ->
  layout_interpn o c obs grids vals method out lin assume check atol =
  Some (py_interpn o c obs' grids' vals' method out lin assume check atol).
Proof. exact @layout_interpn_ok. Qed.
(** The classes accept contiguous one-dimensional arrays, wherever they lie in memory, *)
Theorem C81_eval :
  forall F (o : Ops F) raw obs obs', Forall2 holds obs obs' ->
  Forall (fun a => one_dim a = true /\ c_contiguous a = true) obs -> (length obs <= 8)%nat ->
  layout_eval o raw obs = Some (class_eval o raw (map nd_data obs') None).
Proof. exact @layout_eval_ok. Qed.
(** and refuse all others. *)
Theorem C81_eval_refused :
  forall F (o : Ops F) raw obs obs', Forall2 holds obs obs' -> (length obs <= 8)%nat ->
  Exists (fun a => one_dim a = false \/ c_contiguous a = false) obs ->
  layout_eval o raw obs = Some (Raise TypeError).
Proof. exact @layout_eval_refused. Qed.
(** `check_bounds` takes any layout: *)
Theorem C81_check_bounds :
  forall F ndims raw (obs : list (strided F)) obs' atol, Forall2 holds obs obs' ->
  layout_check_bounds ndims raw obs atol = Some (class_check_bounds ndims raw (map nd_data obs') atol).
Proof. exact @layout_check_bounds_ok. Qed.

(** * Examples *)
Ltac holds_tac := split; [reflexivity|split; [reflexivity|split; [reflexivity|]]];
  let k := fresh in let v := fresh in let H := fresh in
  intros k v H; repeat (destruct k as [|k]; [injection H as <-; split; [vm_compute; discriminate|reflexivity]|]);
  destruct k; discriminate.
(** A transposed matrix, [[1, 2, 0], [5, 3, 7]] in Fortran order from position 1 of its buffer;
    the same read backwards; every second element; one element repeated. *)
Definition fortran : strided f64 := mkStrided [2; 3]%nat [1; 2] 1 (map z64 [9; 1; 5; 2; 3; 0; 7]).
Definition backwards : strided f64 := mkStrided [2; 3]%nat [-3; -1] 5 (map z64 [7; 3; 5; 0; 2; 1]).
Definition every_second : strided f64 := mkStrided [3]%nat [2] 0 (map z64 [0; 9; 1; 9; 2]).
Definition broadcast : strided f64 := mkStrided [3]%nat [0] 1 (map z64 [9; 2]).
Definition inner_slice : strided f64 := mkStrided [3]%nat [1] 2 (map z64 [9; 9; 0; 1; 2]).
Definition matrix : ndarray f64 := mkNd [2; 3]%nat (map z64 [1; 2; 0; 5; 3; 7]).
Example C81_held : holds fortran matrix /\ holds backwards matrix /\ holds every_second (arr (map z64 [0; 1; 2])) /\
  holds broadcast (arr (map z64 [2; 2; 2])) /\ holds inner_slice (arr (map z64 [0; 1; 2])) /\
  map c_contiguous [fortran; backwards; every_second; broadcast; inner_slice] = [false; false; false; false; true].
Proof.
  split; [holds_tac|split; [holds_tac|split; [holds_tac|split; [holds_tac|split; [holds_tac|vm_compute; reflexivity]]]]].
Qed.
Lemma pair_held {a b : strided f64} {x y} : holds a x -> holds b y -> Forall2 holds [a; b] [x; y].
Proof. intros H1 H2. apply Forall2_cons; [exact H1|]. apply Forall2_cons; [exact H2|]. apply Forall2_nil. Qed.
(** The grids are given as a slice with stride and as a contiguous array; the points as matrices. *)
Definition some_ret {A B} (r : option (py A * B)) : bool := match r with Some (Ret _, _) => true | _ => false end.
Definition grid_y : strided f64 := array1 (map z64 [1; 3]).
Definition vals_t : strided f64 := mkStrided [3; 2]%nat [1; 3] 0 (map z64 [1; 4; 11; 5; -7; 3]).
Example C81_interpn_ex :
  let call obs := layout_interpn F64Ops plain obs [every_second; grid_y] vals_t "linear" None true false false (z64 0) in
  call [fortran; backwards] = call [backwards; fortran] /\ some_ret (call [fortran; backwards]) = true /\
  call [fortran; backwards] = Some (py_interpn F64Ops plain [matrix; matrix] [arr (map z64 [0; 1; 2]); arr (map z64 [1; 3])]
    (mkNd [3; 2]%nat (map z64 [1; 5; 4; -7; 11; 3])) "linear" None true false false (z64 0)).
Proof.
  destruct C81_held as (H1 & H2 & H3 & _).
  assert (Hy : holds grid_y (arr (map z64 [1; 3]))) by holds_tac.
  assert (Hv : holds vals_t (mkNd [3; 2]%nat (map z64 [1; 5; 4; -7; 11; 3]))) by holds_tac.
  assert (Hg : Forall2 holds [every_second; grid_y] [arr (map z64 [0; 1; 2]); arr (map z64 [1; 3])]) by (exact (pair_held H3 Hy)).
  intros call. split; [|split].
  - unfold call. rewrite (C81_interpn _ _ _ _ _ _ [matrix; matrix] _ _ _ _ _ _ _ _ (pair_held H1 H2) Hg Hv).
    symmetry. exact (C81_interpn _ _ _ _ _ _ [matrix; matrix] _ _ _ _ _ _ _ _ (pair_held H2 H1) Hg Hv).
  - vm_compute. reflexivity.
  - exact (C81_interpn _ _ _ _ _ _ [matrix; matrix] _ _ _ _ _ _ _ _ (pair_held H1 H2) Hg Hv).
Qed.
Definition is_value {A} (r : option (py A)) : bool := match r with Some (Ret _) => true | _ => false end.
Example C81_eval_ex :
  let raw := raw_linear_rectilinear F64Ops plain lin_grids lin_vals in
  layout_eval F64Ops raw [inner_slice; inner_slice] =
    Some (class_eval F64Ops raw [map z64 [0; 1; 2]; map z64 [0; 1; 2]] None) /\
  is_value (layout_eval F64Ops raw [inner_slice; inner_slice]) = true.
Proof.
  destruct C81_held as (_ & _ & _ & _ & H & _). split; [|vm_compute; reflexivity].
  apply (C81_eval _ F64Ops _ [inner_slice; inner_slice] [arr (map z64 [0; 1; 2]); arr (map z64 [0; 1; 2])]).
  - exact (pair_held H H).
  - apply Forall_cons; [split; reflexivity|]. apply Forall_cons; [split; reflexivity|]. apply Forall_nil.
  - simpl. lia.
Qed.
Example C81_eval_refused_ex :
  let raw := raw_linear_rectilinear F64Ops plain lin_grids lin_vals in
  layout_eval F64Ops raw [inner_slice; every_second] = Some (Raise TypeError) /\
  layout_eval F64Ops raw [broadcast; inner_slice] = Some (Raise TypeError) /\
  layout_eval F64Ops raw [fortran; fortran] = Some (Raise TypeError).
Proof.
  destruct C81_held as (H1 & _ & H2 & H3 & H4 & _). intros raw.
  assert (R := C81_eval_refused f64 F64Ops raw). split; [|split].
  - eapply R; [exact (pair_held H4 H2)|simpl; lia|]. apply Exists_cons_tl. apply Exists_cons_hd. right. reflexivity.
  - eapply R; [exact (pair_held H3 H4)|simpl; lia|]. apply Exists_cons_hd. right. reflexivity.
  - eapply R; [exact (pair_held H1 H1)|simpl; lia|]. apply Exists_cons_hd. left. reflexivity.
Qed.
Example C81_check_bounds_ex :
  let raw := raw_check_bounds_rectilinear F64Ops [[z64 0; z64 1; z64 6]; [z64 0; z64 1; z64 2]] in
  layout_check_bounds 2 raw [fortran; every_second] (f64_lit 1 (-1)) =
    Some (class_check_bounds 2 raw [map z64 [1; 2; 0; 5; 3; 7]; map z64 [0; 1; 2]] (f64_lit 1 (-1))) /\
  layout_check_bounds 2 raw [fortran; every_second] (f64_lit 1 (-1)) = Some (Ret [true; false]).
Proof.
  destruct C81_held as (H1 & _ & H2 & _). split; [|vm_compute; reflexivity].
  exact (C81_check_bounds _ 2 _ [fortran; every_second] [matrix; arr (map z64 [0; 1; 2])] _ (pair_held H1 H2)).
Qed.

Print Assumptions C81_interpn.
Print Assumptions C81_eval.
Print Assumptions C81_eval_refused.
Print Assumptions C81_check_bounds.
