(** Which inputs the Python classes accept (C104). *)
From Coq Require Import Reals Lra ZArith Lia List Bool String.
From Flocq Require Import Core.Core IEEE754.BinarySingleNaN.
From Verif Require Import Base Ops FInst ModelPython ModelSerial SpecSerial SpecDocument SpecPyObjects SerialProofs SerialProofs3 PyObjects.
From Verif Require Import ExampleData PropertiesFloat PropertiesSerial PropertiesDocument.
Import ListNotations.
Unset Implicit Arguments.
Open Scope string_scope.
Open Scope Z_scope.
Open Scope list_scope.

(** * C104: the constructors return the object with the fields given if these are acceptable, and
    raise ValidationError otherwise. *)
Theorem C104_regular_constructor : forall fam m,
  (regular_accepted fam m -> make_regular fam m = Ret m) /\
  (~ regular_accepted fam m -> make_regular fam m = Raise ValidationError).
Proof. exact make_regular_iff. Qed.
Theorem C104_rectilinear_constructor : forall fam m,
  (rectilinear_accepted fam m -> make_rectilinear fam m = Ret m) /\
  (~ rectilinear_accepted fam m -> make_rectilinear fam m = Raise ValidationError).
Proof. exact make_rectilinear_iff. Qed.
(** So do `new`, of the arrays as it stores them (see C50), *)
Theorem C104_regular_new :
  forall fam d d1 d2 dims (starts : list (num d1)) (steps : list (num d2)) (vals : list (num d)) lin,
  let m := RegModel dims (stored d (map (conv d1 d) starts)) (stored d (map (conv d2 d) steps)) (stored d vals) lin in
  let call := regular_new fam dims (typed d1 starts) (typed d2 steps) (typed d vals) lin in
  (regular_accepted fam m -> call = Ret m) /\ (~ regular_accepted fam m -> call = Raise ValidationError).
Proof.
  intros fam d d1 d2 dims starts steps vals lin m call.
  assert (E : call = make_regular fam m).
  { unfold call, m, regular_new. replace (stored d vals) with (stored d (map (conv d d) vals)) by (rewrite C50_conversion_same; reflexivity).
    destruct d, d1, d2; reflexivity. }
  rewrite E. apply make_regular_iff.
Qed.
Theorem C104_rectilinear_new :
  forall fam d d1 (grids : list (list (num d1))) (vals : list (num d)) lin,
  let m := RectModel (map (fun g => stored d (map (conv d1 d) g)) grids) (stored d vals) lin in
  let call := rectilinear_new fam (map (typed d1) grids) (typed d vals) lin in
  (rectilinear_accepted fam m -> call = Ret m) /\ (~ rectilinear_accepted fam m -> call = Raise ValidationError).
Proof.
  intros fam d d1 grids vals lin m call.
  assert (E : call = make_rectilinear fam m).
  { unfold call, m, rectilinear_new. rewrite map_map. replace (stored d vals) with (stored d (map (conv d d) vals)) by (rewrite C50_conversion_same; reflexivity).
    destruct d, d1; reflexivity. }
  rewrite E. apply make_rectilinear_iff.
Qed.
(** and the JSON loader. *)
Theorem C104_regular_documents : forall fam l m, distinct_keys (JObj l) ->
  (load_regular fam (JObj l) = Ret m <-> means_regular fam l m /\ regular_accepted fam m).
Proof. intros fam l m D. rewrite <- regular_objects. exact (C48_document_regular fam l m D). Qed.
Theorem C104_rectilinear_documents : forall fam l m, distinct_keys (JObj l) ->
  (load_rectilinear fam (JObj l) = Ret m <-> means_rectilinear fam l m /\ rectilinear_accepted fam m).
Proof. intros fam l m D. rewrite <- rectilinear_objects. exact (C48_document_rectilinear fam l m D). Qed.
(** The objects that exist, however they were made, are those with acceptable fields. *)
Theorem C104_regular_objects : forall fam m, regular_object fam m <-> regular_accepted fam m.
Proof. exact regular_objects. Qed.
Theorem C104_rectilinear_objects : forall fam m, rectilinear_object fam m <-> rectilinear_accepted fam m.
Proof. exact rectilinear_objects. Qed.
(** A rectilinear grid is tested by the signs of the rounded differences of its points. In every
    IEEE format this is the same as comparing the points themselves, also for neighbouring
    subnormal numbers, differences that overflow, infinities and NaN. *)
Theorem C104_differences : forall prec emax (Hp : Prec_gt_0 prec) (He : Prec_lt_emax prec emax) (a b : binary_float prec emax),
  flt (BOps Hp He) (fzero (BOps Hp He)) (fsub (BOps Hp He) b a) = true <-> less a b.
Proof. exact diff_less. Qed.

(** An object is built from a grid with two neighbouring subnormal points and an infinite last
    point; with a repeated point, or too few values, it is not. *)
Definition odd_grid : list f64 := [z64 0; f64_lit 1 (-1074); B754_infinity false].
Definition odd_model (g vals : list f64) : rectilinear_model := RectModel [F64Array g] (F64Array vals) None.
Definition three_values : list f64 := [z64 5; z64 6; z64 7].
Lemma odd_accepted : rectilinear_accepted Nearest (odd_model odd_grid three_values).
Proof.
  split; [reflexivity|]. split; [cbn; lia|]. split; [reflexivity|]. split.
  - constructor; [|constructor]. intros i a b Ea Eb. destruct i as [|[|[|i]]]; try discriminate Eb.
    + apply (ltb_less 53 1024). injection Ea as <-. injection Eb as <-. vm_compute. reflexivity.
    + apply (ltb_less 53 1024). injection Ea as <-. injection Eb as <-. vm_compute. reflexivity.
  - constructor; [exact I|constructor].
Qed.
Lemma less_irrefl (x : f64) : ~ less x x.
Proof. intros H. inversion H; subst; try discriminate; lra. Qed.
Example C104_rectilinear_ex :
  make_rectilinear Nearest (odd_model odd_grid three_values) = Ret (odd_model odd_grid three_values) /\
  make_rectilinear Nearest (odd_model [z64 1; z64 1; z64 2] three_values) = Raise ValidationError /\
  make_rectilinear Nearest (odd_model odd_grid [z64 5; z64 6]) = Raise ValidationError.
Proof.
  split; [exact (proj1 (C104_rectilinear_constructor _ _) odd_accepted)|]. split.
  - apply C104_rectilinear_constructor. intros (_ & _ & _ & H & _). apply Forall_inv in H.
    exact (less_irrefl (z64 1) (H 0%nat (z64 1) (z64 1) eq_refl eq_refl)).
  - apply C104_rectilinear_constructor. intros (_ & _ & H & _). discriminate H.
Qed.
(** The sizes are only multiplied: -2 and -1 are accepted with two values. *)
Definition negative_model (steps : list f32) : regular_model :=
  RegModel [-2; -1] (F64Array [z64 0; z64 0]) (F32Array steps) (F32Array [f32_lit 5 0; f32_lit 6 0]) (Some true).
Example C104_regular_ex :
  regular_object Multicubic (negative_model [f32_lit 1 0; B754_infinity false]) /\
  make_regular Multicubic (negative_model [f32_lit 1 0; B754_zero false]) = Raise ValidationError /\
  make_regular Multilinear (negative_model [f32_lit 1 0; f32_lit 1 0]) = Raise ValidationError.
Proof.
  split; [|split].
  - apply C104_regular_objects. split; [discriminate|]. split; [cbn; lia|]. split; [reflexivity|]. split; [reflexivity|].
    split; [reflexivity|]. split.
    + constructor; [apply (ltb_less 24 128); vm_compute; reflexivity|]. constructor; [apply less_top; reflexivity|constructor].
    + split; [exact I|]. intros H. discriminate H.
  - apply C104_regular_constructor. intros (_ & _ & _ & _ & _ & H & _). apply Forall_inv_tail, Forall_inv in H.
    inversion H; subst; cbn [B2R] in *; lra.
  - apply C104_regular_constructor. intros (H & _). discriminate H.
Qed.
Example C104_regular_new_ex : exists m,
  regular_new Multilinear [2] (typed Float32 [f32_lit 1 0]) (typed Float64 [z64 1]) (typed Float64 [z64 5; z64 6]) None = Ret m.
Proof.
  eexists. apply C104_regular_new. split; [reflexivity|]. split; [cbn; lia|]. split; [reflexivity|]. split; [reflexivity|].
  split; [reflexivity|]. split; [|split; [exact I|intros H; discriminate H]].
  constructor; [apply (ltb_less 53 1024); vm_compute; reflexivity|constructor].
Qed.
Example C104_documents_ex : load_regular Nearest (JObj doc) = Ret doc_model /\ regular_accepted Nearest doc_model.
Proof.
  assert (H : load_regular Nearest (JObj doc) = Ret doc_model) by exact C48_document_ex.
  split; [exact H|]. exact (proj2 (proj1 (C104_regular_documents Nearest doc doc_model doc_distinct) H)).
Qed.

Print Assumptions C104_regular_constructor.
Print Assumptions C104_rectilinear_constructor.
Print Assumptions C104_regular_new.
Print Assumptions C104_rectilinear_new.
Print Assumptions C104_regular_documents.
Print Assumptions C104_rectilinear_documents.
Print Assumptions C104_regular_objects.
Print Assumptions C104_rectilinear_objects.
Print Assumptions C104_differences.
