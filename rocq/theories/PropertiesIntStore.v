(** Integers given to `new` of the Python classes (C50), and numbers in JSON documents (C48). *)
From Coq Require Import Reals Lra ZArith Lia List String.
From Flocq Require Import Core.Core IEEE754.BinarySingleNaN.
From Verif Require Import Base Ops FInst ModelPython ModelSerial SpecSerial SpecDocument SpecInts SpecIntStore IntStore.
From Verif Require Import ExampleData PropertiesFloat PropertiesAgree PropertiesSerial.
Import ListNotations.
Unset Implicit Arguments.
Open Scope Z_scope.

(** * C50: whatever the kinds of the arrays given to `new`, the object holds them in the element
    type of the values (float32 if these are integers), integers rounded to the nearest number
    of that type. *)
Theorem C50_new_regular_holds :
  forall fam dims starts steps vals lin m, regular_new fam dims starts steps vals lin = Ret m ->
  machine_ints starts -> machine_ints steps -> machine_ints vals ->
  forall d, new_type vals d ->
  rm_dims m = dims /\ holds d starts (rm_starts m) /\ holds d steps (rm_steps m) /\
  holds d vals (rm_vals m) /\ rm_lin m = lin.
Proof. exact new_regular_holds. Qed.
Theorem C50_new_rectilinear_holds :
  forall fam grids vals lin m, rectilinear_new fam grids vals lin = Ret m ->
  Forall machine_ints grids -> machine_ints vals ->
  forall d, new_type vals d ->
  Forall2 (holds d) grids (cm_grids m) /\ holds d vals (cm_vals m) /\ cm_lin m = lin.
Proof. exact new_rectilinear_holds. Qed.
(** There is always exactly one such element type. *)
Theorem C50_new_type : forall vals, exists! d, new_type vals d.
Proof.
  intros vals. exists (arrtype vals). split; [exact (new_type_ex vals)|]. intros d H. symmetry. exact (new_type_is vals d H).
Qed.

(** * C48: in a document, an integer stands for the nearest float64 number and is refused if that
    is too large; a boolean stands for 1 or 0. *)
Theorem C48_document_integers : forall z x, means_number (JInt z) x <->
  (Rabs (nearest_to Float64 z) < bpow radix2 1024)%R /\ is_finite x = true /\
  B2R x = nearest_to Float64 z /\ Bsign x = (z <? 0).
Proof. exact json_int. Qed.
Theorem C48_document_booleans : forall b x, means_number (JBool b) x <->
  is_finite x = true /\ B2R x = (if b then 1 else 0)%R /\ Bsign x = false.
Proof. exact json_bool. Qed.

(** * C49: the numbers that interpn makes of integer grids (C49_interpn_int_grids_regular). *)
Theorem C49_int_num : forall d z, machine_int z -> nearest_int d z (int_num d z).
Proof. exact int_conversion. Qed.

(** 2^60 + 2^36 + 1 lies just above the middle of two float32 numbers and becomes the upper one.
    Rounded to float64 first, it would be that middle, and become the lower one. *)
Definition above_middle : Z := 2 ^ 60 + 2 ^ 36 + 1.
Definition below_middle : Z := 2 ^ 60 + 2 ^ 36 - 1.
Definition int_object : py regular_model :=
  regular_new Multilinear [2] (NpInt [-3]) (NpInt [2]) (NpInt [above_middle; below_middle]) None.
Lemma middle_ints : machine_int above_middle /\ machine_int below_middle.
Proof. unfold machine_int, above_middle, below_middle. lia. Qed.
Example C50_new_regular_holds_ex : exists m l,
  int_object = Ret m /\ new_type (NpInt [above_middle; below_middle]) Float32 /\
  holds Float32 (NpInt [above_middle; below_middle]) (rm_vals m) /\
  rm_vals m = F32Array l /\ map B2R l = [(IZR (2 ^ 60 + 2 ^ 37))%R; (IZR (2 ^ 60))%R].
Proof.
  destruct (returns_ex _ int_object) as (m & Hm); [vm_compute; reflexivity|].
  pose proof (make_regular_same _ _ _ Hm) as E.
  exists m, [int_to_f32 above_middle; int_to_f32 below_middle]. split; [exact Hm|]. split; [constructor|].
  assert (M : machine_ints (NpInt [above_middle; below_middle])).
  { intros l H. injection H as <-. repeat constructor; apply middle_ints. }
  assert (S : machine_ints (NpInt [-3]) /\ machine_ints (NpInt [2])).
  { split; intros l H; injection H as <-; repeat constructor; discriminate. }
  split; [|split].
  - exact (proj1 (proj2 (proj2 (proj2 (C50_new_regular_holds _ _ _ _ _ _ _ Hm (proj1 S) (proj2 S) M Float32 (new_type_ints _)))))).
  - rewrite <- E. reflexivity.
  - cbn [map]. f_equal; [|f_equal].
    + change (int_to_f32 above_middle) with (f32_lit above_middle 0).
      replace (f32_lit above_middle 0) with (f32_lit (2 ^ 23 + 1) 37) by (apply B2SF_inj; vm_compute; reflexivity). real32.
    + change (int_to_f32 below_middle) with (f32_lit below_middle 0).
      replace (f32_lit below_middle 0) with (f32_lit 1 60) by (apply B2SF_inj; vm_compute; reflexivity). real32.
Qed.
Example C49_int_num_ex : nearest_int Float32 above_middle (int_num Float32 above_middle).
Proof. exact (C49_int_num _ _ (proj1 middle_ints)). Qed.
Example C50_new_rectilinear_holds_ex : exists m,
  rectilinear_new Nearest [NpInt [-3; 5]] (typed Float64 [z64 7; z64 8]) None = Ret m /\
  Forall2 (holds Float64) [NpInt [-3; 5]] (cm_grids m).
Proof.
  destruct (returns_ex _ (rectilinear_new Nearest [NpInt [-3; 5]] (typed Float64 [z64 7; z64 8]) None)) as (m & Hm); [vm_compute; reflexivity|].
  exists m. split; [exact Hm|].
  refine (proj1 (C50_new_rectilinear_holds _ _ _ _ _ Hm _ _ Float64 (new_type_float Float64 _))).
  - constructor; [|constructor]. intros l H. injection H as <-. repeat constructor; discriminate.
  - intros l H. discriminate H.
Qed.
(** 2^53 + 3 is between two float64 numbers and becomes the even one, 2^53 + 4; 2^1024 is refused. *)
Example C48_document_integers_ex :
  (exists x, means_number (JInt (2 ^ 53 + 3)) x /\ B2R x = IZR (2 ^ 53 + 4)) /\
  (forall x, ~ means_number (JInt (2 ^ 1024)) x) /\
  means_number (JBool true) (z64 1).
Proof.
  split; [|split].
  - exists (int_to_f64 (2 ^ 53 + 3)). split; [constructor; vm_compute; reflexivity|].
    change (int_to_f64 (2 ^ 53 + 3)) with (f64_lit (2 ^ 53 + 3) 0).
    replace (f64_lit (2 ^ 53 + 3) 0) with (f64_lit (2 ^ 51 + 1) 2) by (apply B2SF_inj; vm_compute; reflexivity). real_lit.
  - intros x H. apply C48_document_integers in H. destruct H as (L & _).
    revert L. apply Rle_not_lt. unfold nearest_to.
    replace (IZR (2 ^ 1024)) with (bpow radix2 1024) by (rewrite <- IZR_Zpower by discriminate; reflexivity).
    rewrite round_generic; [|apply valid_rnd_N|apply generic_format_bpow; discriminate].
    rewrite Rabs_pos_eq by apply bpow_ge_0. apply Rle_refl.
  - apply C48_document_booleans. split; [reflexivity|]. split; [real_lit|reflexivity].
Qed.

Print Assumptions C50_new_regular_holds.
Print Assumptions C50_new_rectilinear_holds.
Print Assumptions C50_new_type.
Print Assumptions C48_document_integers.
Print Assumptions C48_document_booleans.
Print Assumptions C49_int_num.
