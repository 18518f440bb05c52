(** Loading JSON documents (C48) and check_bounds of the Python classes with element types
    (C47, C49). *)
From Coq Require Import Reals Lra PeanoNat Bool Lia List String.
From Flocq Require Import Core.Core IEEE754.BinarySingleNaN.
From Verif Require Import Base Ops FInst ModelCore ModelPython ModelSerial Spec SpecReal SpecPython SpecSerial SpecDocument.
From Verif Require Import SerialProofs SerialProofs2 SerialProofs3 ExampleData PropertiesFloat PropertiesSerial.
Import ListNotations.
Unset Implicit Arguments.
Open Scope string_scope.
Open Scope Z_scope.
Open Scope list_scope.

(** * C48: a document (in which no object repeats a key) loads as the object [m] exactly when it has
    the fields of the class, at every level, they say what [m] holds, and [m] passes the checks
    that an object built in any other way passes. *)
Theorem C48_document_regular : forall fam l m, distinct_keys (JObj l) ->
  (load_regular fam (JObj l) = Ret m <-> means_regular fam l m /\ regular_object fam m).
Proof. exact C48_proof_document_regular. Qed.
Theorem C48_document_rectilinear : forall fam l m, distinct_keys (JObj l) ->
  (load_rectilinear fam (JObj l) = Ret m <-> means_rectilinear fam l m /\ rectilinear_object fam m).
Proof. exact C48_proof_document_rectilinear. Qed.

(** * C49: check_bounds raises TypeError if any array has another element type than the values. *)
Theorem C49_check_bounds_mixed_regular :
  forall c m obs atol, Forall (fun k => 0 <= k) (rm_dims m) -> let d := dtype_of (rm_vals m) in
  dtype_of (rm_starts m) <> d \/ dtype_of (rm_steps m) <> d \/ ~ Forall (has_type d) obs ->
  regular_check_bounds c m obs atol = Raise TypeError.
Proof. exact C49_proof_check_mixed_regular. Qed.
Theorem C49_check_bounds_mixed_rectilinear :
  forall m obs atol, let d := dtype_of (cm_vals m) in
  (exists g, In g (cm_grids m) /\ dtype_of g <> d) \/ ~ Forall (has_type d) obs ->
  rectilinear_check_bounds m obs atol = Raise TypeError.
Proof. exact C49_proof_check_mixed_rectilinear. Qed.

(** * C47: check_bounds of an object of either element type flags the axes with an observation at
    least atol (as a number of that type) outside the grid, and does not flag axes with all
    observations inside. *)
Open Scope R_scope.
Theorem C47_object_check_bounds_rectilinear :
  forall fam d (grids : list (list (num d))) vals lin obs (atol : f64),
  rectilinear_object fam (RectModel (map (stored d) grids) (stored d vals) lin) ->
  Forall (fun g => (1 <= length g)%nat) grids -> length obs = length grids ->
  let a := conv Float64 d atol in finite_of d a = true ->
  Forall (Forall (fun x => finite_of d x = true)) grids -> Forall (Forall (fun x => finite_of d x = true)) obs ->
  exists flags, rectilinear_check_bounds (RectModel (map (stored d) grids) (stored d vals) lin) (map (typed d) obs) atol = Ret flags /\
    length flags = length grids /\ forall k, (k < length grids)%nat -> let g := nth k grids [] in
      let lo := real_of d (nth 0 g (fzero (ops d))) in let hi := real_of d (last g (fzero (ops d))) in
      (beyond lo hi (real_of d a) (map (real_of d) (nth k obs [])) -> nth k flags false = true) /\
      (0 < real_of d a -> Forall (fun x => lo <= real_of d x <= hi) (nth k obs []) -> nth k flags false = false).
Proof. exact C47_proof_object_check_rectilinear. Qed.
Theorem C47_object_check_bounds_regular :
  forall c fam d dims (starts steps vals : list (num d)) lin obs (atol : f64),
  regular_object fam (RegModel dims (stored d starts) (stored d steps) (stored d vals) lin) ->
  Forall (fun k => (1 <= k < two64)%Z) dims -> length obs = length dims ->
  let a := conv Float64 d atol in finite_of d a = true ->
  Forall (Forall (fun x => finite_of d x = true)) obs ->
  exists flags, regular_check_bounds c (RegModel dims (stored d starts) (stored d steps) (stored d vals) lin) (map (typed d) obs) atol = Ret flags /\
    length flags = length dims /\ forall k, (k < length dims)%nat ->
    exists n, of_usize (ops d) (nth k dims 0 - 1)%Z = Some n /\
      let first := nth k starts (fzero (ops d)) in let lst := fadd (ops d) first (fmul (ops d) (nth k steps (fzero (ops d))) n) in
      finite_of d first = true -> finite_of d lst = true ->
      let lo := Rmin (real_of d first) (real_of d lst) in let hi := Rmax (real_of d first) (real_of d lst) in
      (beyond lo hi (real_of d a) (map (real_of d) (nth k obs [])) -> nth k flags false = true) /\
      (0 < real_of d a -> Forall (fun x => lo <= real_of d x <= hi) (nth k obs []) -> nth k flags false = false).
Proof. exact C47_proof_object_check_regular. Qed.

(** ** Examples: a document written by hand, with the fields in another order, integers and a null
    among the numbers. *)
Open Scope Z_scope.
Definition doc_array (l : list json) : json := JObj [("dtype", JString "float64"); ("data", JList l)].
Definition doc : list (string * json) :=
  [("vals", doc_array [JInt 4; JNull; JFloat (f64_lit 1 (-1))]); ("starts", doc_array [JBool false]);
   ("dims", JList [JInt 3]); ("steps", JObj [("data", JText (JList [JInt 2])); ("dtype", JString "float64")])].
Definition doc_model : regular_model :=
  RegModel [3] (F64Array [int_to_f64 0]) (F64Array [int_to_f64 2]) (F64Array [int_to_f64 4; B754_nan; f64_lit 1 (-1)]) None.
Ltac nodup := repeat (apply NoDup_cons; [simpl; intuition discriminate|]); apply NoDup_nil.
Ltac leaf := apply distinct_other; intros ? Q; discriminate Q.
Lemma doc_array_distinct l : Forall distinct_keys l -> distinct_keys (doc_array l).
Proof.
  intros H. apply distinct_obj; [simpl; nodup|]. apply Forall_cons; [leaf|]. apply Forall_cons; [|apply Forall_nil].
  apply distinct_list. exact H.
Qed.
Lemma doc_distinct : distinct_keys (JObj doc).
Proof.
  apply distinct_obj; [simpl; nodup|]. unfold doc. apply Forall_cons; [|apply Forall_cons; [|apply Forall_cons; [|apply Forall_cons; [|apply Forall_nil]]]].
  - apply doc_array_distinct. repeat (apply Forall_cons; [leaf|]). apply Forall_nil.
  - apply doc_array_distinct. repeat (apply Forall_cons; [leaf|]). apply Forall_nil.
  - apply distinct_list. repeat (apply Forall_cons; [leaf|]). apply Forall_nil.
  - apply distinct_obj; [simpl; nodup|]. repeat (apply Forall_cons; [leaf|]). apply Forall_nil.
Qed.
Ltac keys := intros k; simpl; tauto.
Lemma doc_means : means_regular Nearest doc doc_model.
Proof.
  unfold means_regular, doc_model. cbn [rm_dims rm_starts rm_steps rm_vals rm_lin map].
  split; [keys|]. split; [simpl; tauto|]. split; [|split; [|split]].
  - exists (doc_array [JBool false]). split; [simpl; tauto|].
    exists [("dtype", JString "float64"); ("data", JList [JBool false])], [JBool false], [int_to_f64 0].
    split; [reflexivity|]. split; [keys|]. split; [simpl; tauto|]. split; [|right; split; [simpl; tauto|reflexivity]].
    apply Forall2_cons; [apply (means_bool false)|apply Forall2_nil].
  - eexists. split; [simpl; right; right; right; left; reflexivity|].
    eexists _, [JInt 2], [int_to_f64 2]. split; [reflexivity|]. split; [keys|]. split; [simpl; tauto|].
    split; [|right; split; [simpl; tauto|reflexivity]].
    apply Forall2_cons; [apply means_int; vm_compute; reflexivity|apply Forall2_nil].
  - eexists. split; [simpl; left; reflexivity|].
    eexists _, [JInt 4; JNull; JFloat (f64_lit 1 (-1))], [int_to_f64 4; B754_nan; f64_lit 1 (-1)]. split; [reflexivity|]. split; [keys|].
    split; [simpl; tauto|]. split; [|right; split; [simpl; tauto|reflexivity]].
    apply Forall2_cons; [apply means_int; vm_compute; reflexivity|]. apply Forall2_cons; [apply means_null|].
    apply Forall2_cons; [apply means_float|apply Forall2_nil].
  - reflexivity.
Qed.
Example C48_document_ex : load_regular Nearest (JObj doc) = Ret doc_model.
Proof.
  apply (proj2 (C48_document_regular Nearest doc doc_model doc_distinct)). split; [exact doc_means|].
  destruct (returns_ex _ (make_regular Nearest doc_model)) as (m & Hm); [vm_compute; reflexivity|].
  destruct (make_regular_inv _ _ _ Hm) as (-> & _). apply reg_made with (m0 := doc_model). exact Hm.
Qed.
(** An unknown field inside an array is refused too. *)
Example C48_document_refused_ex :
  let a extra l := JObj ([("dtype", JString "float64"); ("data", JList l)] ++ extra) in
  let load extra := load_rectilinear Multilinear
    (JObj [("grids", JList [a extra [JInt 0; JInt 1]]); ("vals", a [] [JInt 4; JInt 5])]) in
  load [("shape", JInt 2)] = Raise ValidationError /\ returns (load []) = true.
Proof. split; vm_compute; reflexivity. Qed.

(** Observations 0.1 above a grid of f32 numbers: flagged with tolerance 1/16, along the first axis
    only; f64 observations are a TypeError. *)
Definition b32 : list (list f32) := [[f32_lit 0 0; f32_lit 1 0]; [f32_lit 1 0; f32_lit 3 0]].
Definition b32_vals : list f32 := [f32_lit 1 0; f32_lit 2 0; f32_lit 3 0; f32_lit 4 0].
Definition b32_obs : list (list f32) := [[f32_lit 1 (-1); f32_lit 9 (-3)]; [f32_lit 1 0; f32_lit 2 0]].
Definition b32_model : rectilinear_model := RectModel (map (stored Float32) b32) (stored Float32 b32_vals) None.
Lemma b32_object : rectilinear_object Multilinear b32_model.
Proof.
  destruct (returns_ex _ (make_rectilinear Multilinear b32_model)) as (m & Hm); [vm_compute; reflexivity|].
  destruct (make_rectilinear_inv _ _ _ Hm) as (-> & _). apply rect_made with (m0 := b32_model). exact Hm.
Qed.
Ltac fin_lists := repeat (apply Forall_cons; [repeat (apply Forall_cons; [reflexivity|]); apply Forall_nil|]); apply Forall_nil.
Ltac real32 := unfold f32_lit; simpl; unfold F2R; simpl; lra.
Example C47_object_check_bounds_ex :
  rectilinear_check_bounds b32_model (map (typed Float32) b32_obs) (f64_lit 1 (-4)) = Ret [true; false] /\
  rectilinear_check_bounds b32_model (map (typed Float64) [[z64 0]; [z64 1]]) (f64_lit 1 (-4)) = Raise TypeError.
Proof.
  split; [|vm_compute; reflexivity].
  destruct (C47_object_check_bounds_rectilinear Multilinear Float32 b32 b32_vals None b32_obs (f64_lit 1 (-4)) b32_object)
    as (flags & E & L & H).
  - repeat (apply Forall_cons; [simpl; lia|]). apply Forall_nil.
  - reflexivity.
  - vm_compute. reflexivity.
  - unfold b32. fin_lists.
  - unfold b32_obs. fin_lists.
  - assert (A : real_of Float32 (conv Float64 Float32 (f64_lit 1 (-4))) = (1 / 16)%R).
    { assert (Q : narrow (f64_lit 1 (-4)) = f32_lit 1 (-4)) by (apply B2SF_inj; vm_compute; reflexivity).
      cbn [real_of conv]. change (from_f64 (format_of Float32) (f64_lit 1 (-4))) with (narrow (f64_lit 1 (-4))). rewrite Q. real32. }
    destruct (H 0%nat ltac:(simpl; lia)) as (H0 & _). destruct (H 1%nat ltac:(simpl; lia)) as (_ & H1).
    rewrite A in H0, H1.
    destruct flags as [|f0 [|f1 [|f2 t]]]; try discriminate L. cbn [nth] in H0, H1.
    rewrite H0, H1 in E; [exact E|lra| |].
    + repeat (apply Forall_cons; [cbn [last nth b32 real_of]; real32|]). apply Forall_nil.
    + exists (real_of Float32 (f32_lit 9 (-3))). split; [right; left; reflexivity|]. right. cbn [last nth b32 real_of]. real32.
Qed.

(** The regular grid 0, 1/2, 1 x 1, 3: the point (2, 2) is outside along the first axis. *)
Lemma m64_object : regular_object Multilinear m64.
Proof.
  destruct (returns_ex _ (make_regular Multilinear m64)) as (m & Hm); [vm_compute; reflexivity|].
  destruct (make_regular_inv _ _ _ Hm) as (-> & _). apply reg_made with (m0 := m64). exact Hm.
Qed.
Example C47_object_check_bounds_regular_ex : exists flags,
  regular_check_bounds plain m64 (map (typed Float64) [[z64 2]; [z64 2]]) (f64_lit 1 (-2)) = Ret flags /\ nth 0 flags false = true.
Proof.
  destruct (C47_object_check_bounds_regular plain Multilinear Float64 lin_dims lin_starts lin_steps lin_vals None [[z64 2]; [z64 2]] (f64_lit 1 (-2)) m64_object)
    as (flags & E & L & H).
  - repeat (apply Forall_cons; [split; vm_compute; congruence|]). apply Forall_nil.
  - reflexivity.
  - vm_compute. reflexivity.
  - fin_lists.
  - exists flags. split; [exact E|]. destruct (H 0%nat ltac:(simpl; lia)) as (n & En & H0).
    change (ops Float64) with F64Ops in En, H0. cbn [nth lin_dims lin_starts lin_steps] in En, H0.
    assert (Q : of_usize F64Ops (3 - 1) = Some (z64 2)).
    { change (Some (f64_lit 2 0) = Some (z64 2)). reflexivity. }
    assert (n = z64 2) as -> by (assert (Q' : Some (z64 2) = Some n) by exact (eq_trans (eq_sym Q) En); congruence).
    cbv zeta in H0. change (elt (format_of Float64)) with f64 in H0. unfold num in H0. cbn [format_of elt format64] in H0.
    assert (El : fadd F64Ops (z64 0) (fmul F64Ops (f64_lit 1 (-1)) (z64 2)) = z64 1) by (apply B2SF_inj; vm_compute; reflexivity).
    rewrite El in H0.
    apply (H0 eq_refl eq_refl). exists (B2R (z64 2)). split; [left; reflexivity|]. right. cbn [real_of conv].
    change (from_f64 (format_of Float64) (f64_lit 1 (-2))) with (f64_lit 1 (-2)).
    rewrite Rmax_right by real_lit. real_lit.
Qed.
(** A rectilinear document. *)
Definition doc_rect : list (string * json) :=
  [("vals", doc_array [JInt 4; JInt 5]); ("linearize_extrapolation", JBool true); ("grids", JList [doc_array [JInt 0; JInt 1]])].
Example C48_document_rectilinear_ex : exists m, load_rectilinear Multicubic (JObj doc_rect) = Ret m /\ means_rectilinear Multicubic doc_rect m.
Proof.
  destruct (returns_ex _ (load_rectilinear Multicubic (JObj doc_rect))) as (m & Hm); [vm_compute; reflexivity|].
  exists m. split; [exact Hm|]. apply C48_document_rectilinear; [|exact Hm].
  apply distinct_obj; [simpl; nodup|]. unfold doc_rect. apply Forall_cons; [|apply Forall_cons; [leaf|apply Forall_cons; [|apply Forall_nil]]].
  - apply doc_array_distinct. repeat (apply Forall_cons; [leaf|]). apply Forall_nil.
  - apply distinct_list. apply Forall_cons; [|apply Forall_nil]. apply doc_array_distinct. repeat (apply Forall_cons; [leaf|]). apply Forall_nil.
Qed.

Print Assumptions C48_document_regular.
Print Assumptions C48_document_rectilinear.
Print Assumptions C49_check_bounds_mixed_regular.
Print Assumptions C49_check_bounds_mixed_rectilinear.
Print Assumptions C47_object_check_bounds_rectilinear.
Print Assumptions C47_object_check_bounds_regular.
