(** Properties C48, C49, C50: element types and JSON serialisation of the Python package. *)
From Coq Require Import Reals Lra Bool.
From Flocq Require Import Core IEEE754.BinarySingleNaN.
From Verif Require Import Base Ops FInst ModelLinear ModelNearest ModelCubic ModelPython ModelSerial.
From Verif Require Import Spec SpecPython SpecSerial ExampleData SerialProofs SerialProofs2.
Unset Implicit Arguments.
Open Scope string_scope.
Open Scope Z_scope.

Definition returns {A} (r : py A) : bool := match r with Ret _ => true | _ => false end.
Lemma returns_ex : forall A (r : py A), returns r = true -> exists a, r = Ret a.
Proof. intros A [a|e] H; [exists a; reflexivity|discriminate H]. Qed.

(** * C48: saving an interpolator as JSON and loading it gives the same interpolator. *)
Theorem C48_regular :
  forall fam m, regular_object fam m -> load_regular fam (dump_regular m) = Ret m.
Proof. exact C48_proof_regular. Qed.
Theorem C48_rectilinear :
  forall fam m, rectilinear_object fam m -> load_rectilinear fam (dump_rectilinear m) = Ret m.
Proof. exact C48_proof_rectilinear. Qed.
(** Numbers of type f32 are written as f64; reading them back changes none of them. *)
Theorem C48_f32_numbers : forall x : f32, narrow (widen x) = x.
Proof. exact narrow_widen. Qed.
(** A document is accepted only if it has exactly the fields of the class. *)
Theorem C48_fields_regular :
  forall fam l m, load_regular fam (JObj l) = Ret m -> forall k, In k (map fst l) <->
  In k (["dims"; "starts"; "steps"; "vals"] ++ match fam with Multicubic => ["linearize_extrapolation"] | _ => [] end)%list.
Proof. exact C48_proof_fields_regular. Qed.
Theorem C48_fields_rectilinear :
  forall fam l m, load_rectilinear fam (JObj l) = Ret m -> forall k, In k (map fst l) <->
  In k (["grids"; "vals"] ++ match fam with Multicubic => ["linearize_extrapolation"] | _ => [] end)%list.
Proof. exact C48_proof_fields_rectilinear. Qed.

(** A grid of f32 numbers that are not short decimals, with a NaN and an infinity as values. *)
Definition s_tenth : f32 := f32_lit 13421773 (-27).
Definition s_grid : list f32 := [s_tenth; f32_lit 1 0; f32_lit 11184811 (-22); f32_lit 3 0].
Definition s_vals : list f32 := [s_tenth; B754_nan; B754_infinity true; B754_zero true].
Example C48_ex :
  (exists m, rectilinear_new Multicubic [typed Float32 s_grid] (typed Float32 s_vals) (Some true) = Ret m /\
     load_rectilinear Multicubic (dump_rectilinear m) = Ret m) /\
  (exists m, regular_new Multilinear lin_dims (typed Float64 lin_starts) (typed Float64 lin_steps) (typed Float64 lin_vals) None = Ret m /\
     load_regular Multilinear (dump_regular m) = Ret m).
Proof.
  split.
  - destruct (returns_ex _ (rectilinear_new Multicubic [typed Float32 s_grid] (typed Float32 s_vals) (Some true))) as (m & Hm);
      [vm_compute; reflexivity|].
    exists m. split; [exact Hm|]. apply C48_rectilinear. eapply rect_new. exact Hm.
  - destruct (returns_ex _ (regular_new Multilinear lin_dims (typed Float64 lin_starts) (typed Float64 lin_steps)
      (typed Float64 lin_vals) None)) as (m & Hm); [vm_compute; reflexivity|].
    exists m. split; [exact Hm|]. apply C48_regular. eapply reg_new. exact Hm.
Qed.
(** An unknown field, a missing field and a wrong number of values are refused. *)
Example C48_refused_ex :
  let a l := dump_array (F64Array l) in
  load_regular Nearest (JObj [("dims", JList [JInt 2]); ("starts", a [z64 0]); ("steps", a [z64 1]);
    ("vals", a [z64 4; z64 5]); ("order", JInt 1)]) = Raise ValidationError /\
  load_regular Nearest (JObj [("dims", JList [JInt 2]); ("starts", a [z64 0]); ("vals", a [z64 4; z64 5])]) = Raise ValidationError /\
  load_regular Nearest (JObj [("dims", JList [JInt 3]); ("starts", a [z64 0]); ("steps", a [z64 1]);
    ("vals", a [z64 4; z64 5])]) = Raise ValidationError /\
  returns (load_regular Nearest (JObj [("vals", a [z64 4; z64 5]); ("dims", JList [JInt 2]); ("starts", a [z64 0]);
    ("steps", a [z64 1])])) = true.
Proof. repeat split; vm_compute; reflexivity. Qed.

(** * C49: evaluation uses one element type.
    Arrays that all have the element type of the values: the result is that of the Rust library
    in that type, and the array passed as out receives the data. *)
Theorem C49_linear_regular :
  forall c d obs out out0, (length obs <= 8)%nat -> output_array (ops d) obs out out0 ->
  forall dims starts steps vals, Forall (fun k => 0 <= k) dims ->
  let r := mlr_interpn (ops d) c dims starts steps vals obs out0 in
  regular_eval c Multilinear (RegModel dims (stored d starts) (stored d steps) (stored d vals) None)
    (map (typed d) obs) (option_map (typed d) out) = (seen r, option_map (fun _ => typed d (snd r)) out).
Proof. exact C49_proof_linear_regular. Qed.
Theorem C49_nearest_regular :
  forall c d obs out out0, (length obs <= 8)%nat -> output_array (ops d) obs out out0 ->
  forall dims starts steps vals, Forall (fun k => 0 <= k) dims ->
  let r := nr_interpn (ops d) c dims starts steps vals obs out0 in
  regular_eval c Nearest (RegModel dims (stored d starts) (stored d steps) (stored d vals) None)
    (map (typed d) obs) (option_map (typed d) out) = (seen r, option_map (fun _ => typed d (snd r)) out).
Proof. exact C49_proof_nearest_regular. Qed.
Theorem C49_cubic_regular :
  forall c d obs out out0, (length obs <= 8)%nat -> output_array (ops d) obs out out0 ->
  forall dims starts steps vals lin, Forall (fun k => 0 <= k) dims ->
  let r := mcr_interpn (ops d) c dims starts steps vals lin obs out0 in
  regular_eval c Multicubic (RegModel dims (stored d starts) (stored d steps) (stored d vals) (Some lin))
    (map (typed d) obs) (option_map (typed d) out) = (seen r, option_map (fun _ => typed d (snd r)) out).
Proof. exact C49_proof_cubic_regular. Qed.
Theorem C49_linear_rectilinear :
  forall c d obs out out0, (length obs <= 8)%nat -> output_array (ops d) obs out out0 ->
  forall grids vals, (length grids <= 8)%nat ->
  let r := mlc_interpn (ops d) c grids vals obs out0 in
  rectilinear_eval c Multilinear (RectModel (map (stored d) grids) (stored d vals) None)
    (map (typed d) obs) (option_map (typed d) out) = (seen r, option_map (fun _ => typed d (snd r)) out).
Proof. exact C49_proof_linear_rectilinear. Qed.
Theorem C49_nearest_rectilinear :
  forall c d obs out out0, (length obs <= 8)%nat -> output_array (ops d) obs out out0 ->
  forall grids vals, (length grids <= 8)%nat ->
  let r := nc_interpn (ops d) c grids vals obs out0 in
  rectilinear_eval c Nearest (RectModel (map (stored d) grids) (stored d vals) None)
    (map (typed d) obs) (option_map (typed d) out) = (seen r, option_map (fun _ => typed d (snd r)) out).
Proof. exact C49_proof_nearest_rectilinear. Qed.
Theorem C49_cubic_rectilinear :
  forall c d obs out out0, (length obs <= 8)%nat -> output_array (ops d) obs out out0 ->
  forall grids vals lin, (length grids <= 8)%nat ->
  let r := mcc_interpn (ops d) c grids vals lin obs out0 in
  rectilinear_eval c Multicubic (RectModel (map (stored d) grids) (stored d vals) (Some lin))
    (map (typed d) obs) (option_map (typed d) out) = (seen r, option_map (fun _ => typed d (snd r)) out).
Proof. exact C49_proof_cubic_rectilinear. Qed.
(** Any array of another element type: TypeError, and the array passed as out is unchanged. *)
Theorem C49_mixed_regular :
  forall c fam m obs out, Forall (fun k => 0 <= k) (rm_dims m) -> obs <> [] \/ out <> None ->
  let d := dtype_of (rm_vals m) in
  dtype_of (rm_starts m) <> d \/ dtype_of (rm_steps m) <> d \/ ~ Forall (has_type d) obs \/
  (exists b, out = Some b /\ ~ has_type d b) ->
  regular_eval c fam m obs out = (Raise TypeError, out).
Proof. exact C49_proof_mixed_regular. Qed.
Theorem C49_mixed_rectilinear :
  forall c fam m obs out, obs <> [] \/ out <> None ->
  let d := dtype_of (cm_vals m) in
  (exists g, In g (cm_grids m) /\ dtype_of g <> d) \/ ~ Forall (has_type d) obs \/
  (exists b, out = Some b /\ ~ has_type d b) ->
  rectilinear_eval c fam m obs out = (Raise TypeError, out).
Proof. exact C49_proof_mixed_rectilinear. Qed.
(** The function interpn on arrays of one element type is the function of C42, C43, C46. *)
Theorem C49_interpn :
  forall c d obs grids vals method out lin assume cb atol,
  typed_interpn c (map (tnd d) obs) (map (tnd d) grids) (tnd d vals) method (option_map (tnd d) out) lin assume cb atol =
  tnd_result (py_interpn (ops d) c obs grids vals method out lin assume cb (from_f64 (format_of d) atol)).
Proof. exact C49_proof_interpn. Qed.
(** Observations of another type than the values: it raises, and out is unchanged. *)
Theorem C49_interpn_mixed :
  forall c d l obs grids vals method out lin assume cb atol,
  t_data vals = typed d l -> ~ Forall (fun x => has_type d (t_data x)) obs ->
  exists e, typed_interpn c obs grids vals method out lin assume cb atol = (Raise e, option_map t_data out).
Proof. exact C49_proof_interpn_mixed. Qed.
(** Grids of another type than the values are accepted exactly when they are treated as regular:
    first points and first differences are converted. *)
Theorem C49_interpn_grids_regular :
  forall c d d' (obs : list (ndarray (num d))) (grids : list (ndarray (num d'))) (vals o0 : ndarray (num d)) lin assume atol,
  hd_error obs = Some o0 -> (length obs <= 8)%nat -> Forall (fun g => (2 <= length (nd_data g))%nat) grids ->
  let gs := map nd_data grids in let xs := map nd_data obs in
  let zeros := repeat (fzero (ops d)) (length (nd_data o0)) in
  let call method := typed_interpn c (map (tnd d) obs) (map (tnd d') grids) (tnd d vals) method None lin assume false atol in
  assume = true \/ Forall (evenly_spaced (ops d')) gs ->
  let dims := map zlen gs in
  let starts := map (conv d' d) (firsts (fzero (ops d')) gs) in
  let steps := map (conv d' d) (spacings (ops d') (fzero (ops d')) gs) in
  let shaped r := (py_bind (seen r) (fun x => Ret (mkT (nd_shape o0) x)), @None nparray) in
  call "linear" = shaped (mlr_interpn (ops d) c dims starts steps (nd_data vals) xs zeros) /\
  call "nearest" = shaped (nr_interpn (ops d) c dims starts steps (nd_data vals) xs zeros) /\
  call "cubic" = shaped (mcr_interpn (ops d) c dims starts steps (nd_data vals) lin xs zeros).
Proof. exact grids_regular_case. Qed.
Theorem C49_interpn_grids_irregular :
  forall c d d' (obs : list (ndarray (num d))) (grids : list (ndarray (num d'))) (vals o0 : ndarray (num d)) lin assume atol,
  hd_error obs = Some o0 -> (length obs <= 8)%nat -> Forall (fun g => (2 <= length (nd_data g))%nat) grids ->
  let gs := map nd_data grids in
  let call method := typed_interpn c (map (tnd d) obs) (map (tnd d') grids) (tnd d vals) method None lin assume false atol in
  d <> d' -> assume = false -> ~ Forall (evenly_spaced (ops d')) gs ->
  forall method, In method ["linear"; "nearest"; "cubic"] -> call method = (Raise TypeError, None).
Proof. exact grids_irregular_case. Qed.

Definition m64 : regular_model :=
  RegModel lin_dims (stored Float64 lin_starts) (stored Float64 lin_steps) (stored Float64 lin_vals) None.
Definition x64 : list (list f64) := [[z64 1; z64 2]; [z64 2; z64 1]].
Definition x32 : list (list f32) := [[f32_lit 1 0; f32_lit 2 0]; [f32_lit 2 0; f32_lit 1 0]].
(** f64 observations are evaluated; f32 observations, or an f32 output, are a TypeError. *)
Example C49_ex :
  returns (fst (regular_eval plain Multilinear m64 (map (typed Float64) x64) None)) = true /\
  regular_eval plain Multilinear m64 (map (typed Float32) x32) None = (Raise TypeError, None) /\
  ~ Forall (has_type Float64) (map (typed Float32) x32) /\
  fst (regular_eval plain Multilinear m64 (map (typed Float64) x64) (Some (typed Float32 [s_tenth; s_tenth]))) = Raise TypeError.
Proof.
  split; [vm_compute; reflexivity|]. split; [vm_compute; reflexivity|]. split; [|vm_compute; reflexivity].
  intro K. inversion K as [|x l (y & Hy) K']. discriminate Hy.
Qed.
(** f32 grids with f64 values: a regular grid is evaluated, an irregular one is a TypeError. *)
Definition tline (l : list f32) : tarray := tnd Float32 (mkNd [length l] l).
Definition tvals (l : list f64) : tarray := tnd Float64 (mkNd [length l] l).
Example C49_grids_ex :
  let call g := fst (typed_interpn plain [tvals [z64 1; z64 2]] [tline g] (tvals [z64 5; z64 7; z64 4]) "linear" None true false false (z64 0)) in
  returns (call [f32_lit 0 0; f32_lit 1 0; f32_lit 2 0]) = true /\
  call [f32_lit 0 0; f32_lit 1 0; f32_lit 3 0] = Raise TypeError.
Proof. split; vm_compute; reflexivity. Qed.

(** * C50: an interpolator holds the numbers it was built from, in one element type.
    Refuted: `new` stores integer data as f32, which changes integers above 2^24; *)
Theorem C50_integers_refuted :
  let build v := regular_new Multilinear [2] (NpInt [0]) (NpInt [1]) (NpInt [v; 0]) None in
  returns (build 16777217) = true /\ build 16777217 = build 16777216.
Proof.
  split; [vm_compute; reflexivity|].
  assert (E : int_to_f32 16777217 = int_to_f32 16777216) by (apply B2SF_inj; vm_compute; reflexivity).
  unfold regular_new, arrtype. change (store Float32 (NpInt [16777217; 0])) with (F32Array [int_to_f32 16777217; int_to_f32 0]).
  rewrite E. reflexivity.
Qed.
(** and MultilinearRegular and MulticubicRegular accept `starts` of another element type than
    `vals`, after which every evaluation raises TypeError. *)
Definition mixed_model : regular_model :=
  RegModel lin_dims (stored Float32 [f32_lit 0 0; f32_lit 1 0]) (stored Float64 lin_steps) (stored Float64 lin_vals) None.
Theorem C50_starts_refuted :
  regular_object Multilinear mixed_model /\
  forall c obs out, obs <> [] \/ out <> None -> regular_eval c Multilinear mixed_model obs out = (Raise TypeError, out).
Proof.
  split.
  - destruct (returns_ex _ (make_regular Multilinear mixed_model)) as (m & Hm); [vm_compute; reflexivity|].
    destruct (make_regular_inv _ _ _ Hm) as (-> & _). apply reg_made with (m0 := mixed_model). exact Hm.
  - intros c obs out H. apply C49_mixed_regular; [repeat constructor; discriminate|exact H|]. left. discriminate.
Qed.
(** Floating-point data: `new` stores the values unchanged and converts the grid to their type. *)
Theorem C50_regular_partial :
  forall fam d d1 d2 dims starts steps vals lin m,
  regular_new fam dims (typed d1 starts) (typed d2 steps) (typed d vals) lin = Ret m ->
  m = RegModel dims (stored d (map (conv d1 d) starts)) (stored d (map (conv d2 d) steps)) (stored d vals) lin.
Proof. exact C50_proof_regular. Qed.
Theorem C50_rectilinear_partial :
  forall fam d d1 grids vals lin m,
  rectilinear_new fam (map (typed d1) grids) (typed d vals) lin = Ret m ->
  m = RectModel (map (fun g => stored d (map (conv d1 d) g)) grids) (stored d vals) lin.
Proof. exact C50_proof_rectilinear. Qed.
(** The conversion does nothing to numbers of the right type, is exact from f32 to f64, and is
    rounding to nearest (ties to even) from f64 to f32, if that does not overflow. *)
Theorem C50_conversion_same : forall d l, map (conv d d) l = l.
Proof. exact conv_same. Qed.
Theorem C50_conversion_wider : forall x : f32, is_finite x = true ->
  is_finite (conv Float32 Float64 x) = true /\ B2R (conv Float32 Float64 x : f64) = B2R x.
Proof. intros x H. destruct (widen_exact x H) as (A & B & _). split; assumption. Qed.
Theorem C50_conversion_narrower : forall x : f64, is_finite x = true ->
  let y := round radix2 (FLT_exp (-149) 24) ZnearestE (B2R x) in
  (Rabs y < bpow radix2 128)%R -> B2R (conv Float64 Float32 x : f32) = y.
Proof. intros x H y Hy. exact (convert_round 53 1024 24 128 Hp32 He32 x H Hy). Qed.
(** An object made by `new`, and a rectilinear or nearest object made in any way, has arrays of
    one element type only. *)
Theorem C50_new_one_type :
  forall fam dims starts steps vals lin m, regular_new fam dims starts steps vals lin = Ret m ->
  dtype_of (rm_starts m) = dtype_of (rm_vals m) /\ dtype_of (rm_steps m) = dtype_of (rm_vals m).
Proof. exact C50_proof_new_regular. Qed.
Theorem C50_rectilinear_one_type :
  forall fam m, rectilinear_object fam m -> forall g, In g (cm_grids m) -> dtype_of g = dtype_of (cm_vals m).
Proof. exact C50_proof_rectilinear_types. Qed.
Theorem C50_regular_one_type_partial :
  forall fam m, regular_object fam m ->
  dtype_of (rm_steps m) = dtype_of (rm_vals m) /\ (fam = Nearest -> dtype_of (rm_starts m) = dtype_of (rm_vals m)).
Proof. exact C50_proof_steps_type. Qed.
(** f32 grids with f64 values: built, widened. f64 grids with f32 values: two points 1 and
    1 + 2^-30 round to the same number and are refused. *)
Example C50_ex :
  returns (rectilinear_new Multilinear [typed Float32 s_grid] (typed Float64 [z64 1; z64 2; z64 3; z64 4]) None) = true /\
  rectilinear_new Multilinear [typed Float64 [z64 1; f64_lit 1073741825 (-30)]] (typed Float32 [s_tenth; s_tenth]) None = Raise ValidationError /\
  returns (rectilinear_new Multilinear [typed Float64 [z64 1; f64_lit 1073741825 (-30)]] (typed Float64 [z64 1; z64 2]) None) = true.
Proof. repeat split; vm_compute; reflexivity. Qed.

(** * C47 for objects with element types: every object satisfies the conditions that the C47
    theorems of PropertiesPython.v start from. *)
Theorem C47_regular_object :
  forall fam d dims starts steps vals lin,
  regular_object fam (RegModel dims (stored d starts) (stored d steps) (stored d vals) lin) ->
  class_regular_ok (ops d) (match fam with Nearest => 6 | _ => 8 end) dims starts steps vals = true.
Proof. exact regular_valid_class. Qed.
Theorem C47_rectilinear_object :
  forall fam d grids vals lin,
  rectilinear_object fam (RectModel (map (stored d) grids) (stored d vals) lin) ->
  class_rectilinear_ok (ops d) (match fam with Nearest => 6 | _ => 8 end) grids vals = true.
Proof. exact rectilinear_valid_class. Qed.

Print Assumptions C48_regular.
Print Assumptions C48_rectilinear.
Print Assumptions C49_linear_regular.
Print Assumptions C49_mixed_regular.
Print Assumptions C49_interpn.
Print Assumptions C49_interpn_grids_regular.
Print Assumptions C50_regular_partial.
Print Assumptions C50_conversion_narrower.
Print Assumptions C47_rectilinear_object.
