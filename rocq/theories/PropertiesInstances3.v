(** Concrete instances, on binary64 data, of theorems of C24, C25, C27, C31, C33, C34, C35, C40,
    C44, C47, C48, C49, C50, C90, C95 and C96. *)
From Coq Require Import Reals Lra PeanoNat Bool Lia List String ZArith.
From Flocq Require Import Core.Core IEEE754.BinarySingleNaN.
From Verif Require Import Base Ops FInst ModelCore ModelUtils ModelLinear ModelNearest ModelCubic ModelOneDim ModelPython ModelSerial.
From Verif Require Import Spec SpecReal SpecOrder Spec1D SpecIEEE SpecPython SpecSerial SpecCalls SpecTotal1D SpecError Interpolators.
From Verif Require Import CoreLemmas GenLemmas GenProofs GenProofs3 SerialProofs SerialProofs2 Total1D ExampleData PropertiesGeneric PropertiesExact PropertiesUtils
  PropertiesOneDim PropertiesFloat PropertiesError PropertiesPython PropertiesSerial PropertiesDocument PropertiesMonotone
  PropertiesTotal1D PropertiesCalls.
Import ListNotations.
Unset Implicit Arguments.
Open Scope string_scope.
Open Scope Z_scope.
Open Scope list_scope.

(** * C24, C31: the result is one of the stored values *)
Example C24_stored_ex : (exists r, nr_interp_one F64Ops plain lin_s [f64_lit 3 (-2); z64 99] = Ok r /\ In r lin_vals) /\
  (exists r, nc_interp_one F64Ops plain lin_g [f64_lit 3 (-2); z64 99] = Ok r /\ In r lin_vals).
Proof.
  split.
  - destruct (@is_ok_ex _ (nr_interp_one F64Ops plain lin_s [f64_lit 3 (-2); z64 99])) as (r & E); [vm_compute; reflexivity|].
    exists r. split; [exact E|].
    exact (C24_stored_value_regular _ F64Ops plain lin_dims lin_starts lin_steps lin_vals lin_s [f64_lit 3 (-2); z64 99] r usize_converts_f64
      (lin_input plain) lin_new eq_refl E).
  - destruct (@is_ok_ex _ (nc_interp_one F64Ops plain lin_g [f64_lit 3 (-2); z64 99])) as (r & E); [vm_compute; reflexivity|].
    exists r. split; [exact E|].
    exact (C24_stored_value_rectilinear _ F64Ops plain lin_grids lin_vals lin_g [f64_lit 3 (-2); z64 99] r (lin_rinput plain) lin_gnew eq_refl E).
Qed.
Example C31_stored_value_regular_ex : exists g r, r1_new F64Ops plain (z64 0) tenth hl_vals = Ok g /\
  nearest1 F64Ops (r1_at F64Ops plain g) (f64_lit 1 (-2)) = Ok r /\ In r hl_vals.
Proof.
  destruct (@is_ok_ex _ (r1_new F64Ops plain (z64 0) tenth hl_vals)) as (g & E); [vm_compute; reflexivity|].
  assert (K : match r1_new F64Ops plain (z64 0) tenth hl_vals with
    | Ok g => is_ok (nearest1 F64Ops (r1_at F64Ops plain g) (f64_lit 1 (-2))) | _ => false end = true) by (vm_compute; reflexivity).
  rewrite E in K. apply is_ok_ex in K as (r & K). exists g, r. split; [exact E|]. split; [exact K|].
  refine (C31_stored_value_regular _ F64Ops plain _ _ _ g (f64_lit 1 (-2)) r E _). right; right. exact K.
Qed.

(** * C25: check_bounds on regular grids *)
Example C25_regular_error_ex : mlr_check_bounds F64Ops plain lin_dims lin_starts lin_steps [[z64 0]] (z64 0) [false; true] = (Err msg_dim, [false; true]).
Proof. apply C25_regular_error. left. discriminate. Qed.
Example C25_regular_ieee_ex : exists out',
  mlr_check_bounds F64Ops plain lin_dims lin_starts lin_steps [[z64 0; z64 3]; [z64 1; z64 3]] (f64_lit 1 (-3)) [false; true] = (Ok tt, out') /\
  nth 0 out' false = true /\ nth 1 out' true = false.
Proof.
  destruct (C25_regular_ieee 53 1024 Hp64 He64 plain lin_dims lin_starts lin_steps [[z64 0; z64 3]; [z64 1; z64 3]] (f64_lit 1 (-3)) [false; true])
    as (out' & E & L & H); [reflexivity|reflexivity|repeat constructor; vm_compute; congruence|reflexivity|reflexivity|reflexivity|repeat constructor|].
  exists out'. split; [exact E|]. split.
  - destruct (H 0%nat ltac:(simpl; lia)) as (m & Em & K). assert (m = z64 2) as ->.
    { apply B2SF_inj. injection Em as <-. vm_compute. reflexivity. }
    apply K; [reflexivity|vm_compute; reflexivity|]. exists (B2R (z64 3)). split; [simpl; auto|]. right.
    assert (E1 : (B2R (nth 0 lin_starts (B754_zero false)) = 0)%R) by reflexivity.
    assert (E2 : (B2R (fadd F64Ops (nth 0 lin_starts (B754_zero false)) (fmul F64Ops (nth 0 lin_steps (B754_zero false)) (z64 2))) = 1)%R).
    { replace (fadd F64Ops (nth 0 lin_starts (B754_zero false)) (fmul F64Ops (nth 0 lin_steps (B754_zero false)) (z64 2))) with (z64 1)
        by (apply B2SF_inj; vm_compute; reflexivity). real_lit. }
    replace (Rmax _ _) with 1%R by (symmetry; eapply eq_trans; [apply f_equal2; [exact E1|exact E2]|apply Rmax_right; lra]).
    assert (E3 : (B2R (z64 3) = 3)%R) by real_lit. assert (E4 : (B2R (f64_lit 1 (-3)) = 1 / 8)%R) by real_lit. apply Rle_trans with (1 + 1 / 8)%R; [apply Rplus_le_compat_l, Req_le; exact E4|].
    apply Rle_trans with 3%R; [lra|apply Req_le; symmetry; exact E3].
  - assert (X : nth 1 out' false = false).
    { destruct (H 1%nat ltac:(simpl; lia)) as (m & Em & K). assert (m = z64 1) as ->.
      { apply B2SF_inj. injection Em as <-. vm_compute. reflexivity. }
      assert (E1 : (B2R (nth 1 lin_starts (B754_zero false)) = 1)%R) by (change (B2R (z64 1) = 1)%R; real_lit).
      assert (E2 : (B2R (fadd F64Ops (nth 1 lin_starts (B754_zero false)) (fmul F64Ops (nth 1 lin_steps (B754_zero false)) (z64 1))) = 3)%R).
      { replace (fadd F64Ops (nth 1 lin_starts (B754_zero false)) (fmul F64Ops (nth 1 lin_steps (B754_zero false)) (z64 1))) with (z64 3)
          by (apply B2SF_inj; vm_compute; reflexivity). real_lit. }
      assert (E3 : (B2R (z64 3) = 3)%R) by real_lit. assert (E4 : (B2R (f64_lit 1 (-3)) = 1 / 8)%R) by real_lit. assert (E5 : (B2R (z64 1) = 1)%R) by real_lit.
      apply K; [reflexivity|vm_compute; reflexivity| |].
      - eapply eq_ind_r with (P := fun v => (0 < v)%R); [|exact E4]. lra.
      - replace (Rmax _ _) with 3%R by (symmetry; eapply eq_trans; [apply f_equal2; [exact E1|exact E2]|apply Rmax_right; lra]).
        replace (Rmin _ _) with 1%R by (symmetry; eapply eq_trans; [apply f_equal2; [exact E1|exact E2]|apply Rmin_left; lra]).
        apply Forall_cons; [eapply eq_ind_r with (P := fun v => (1 <= v <= 3)%R); [|exact E5]; lra|].
        apply Forall_cons; [eapply eq_ind_r with (P := fun v => (1 <= v <= 3)%R); [|exact E3]; lra|]. apply Forall_nil. }
    destruct out' as [|? [|? ?]]; try discriminate L. exact X.
Qed.

(** * C27: the recursive interpolator and one dimension find the same cell *)
Example C27_linear_recursive_ex : exists i, rect_get_loc F64Ops plain lin_g (f64_lit 3 (-1)) 0 = Ok i /\
  bracketing_cell F64Ops (f64_lit 3 (-1)) [z64 0; f64_lit 1 (-1); z64 2] i /\ i = 1.
Proof.
  destruct (C27_linear_recursive _ F64Ops plain 2 lin_grids lin_vals lin_g 0 [z64 0; f64_lit 1 (-1); z64 2] (f64_lit 3 (-1)))
    as (i & H1 & H2 & H3); [apply C27_number_types|apply lin_rinput|exact C11_linear_rectilinear_new_ex|reflexivity|inc_grid|].
  exists i. split; [exact H1|split; [exact H2|]]. rewrite H3. vm_compute. reflexivity.
Qed.
Example C27_one_dim_ex : exists i e, c1_index F64Ops plain (mkC1 i64_grid i64_vals) (z64 50) = Ok (i, e) /\
  bracketing_cell F64Ops (z64 50) i64_grid i /\ i = 1.
Proof.
  destruct (C27_one_dim _ F64Ops plain i64_grid i64_vals (mkC1 i64_grid i64_vals) (z64 50)) as (i & e & H1 & H2 & H3);
    [apply i64_types|exact i64_inc|vm_compute; discriminate|reflexivity|].
  exists i, e. split; [exact H1|split; [exact H2|]]. rewrite H3. vm_compute. reflexivity.
Qed.

(** * C33: NaN and infinity *)
Example C33_cubic_regular_ex :
  (mcr_interp_one F64Ops plain (cub_s true) [z64 0; nan64] = Err msg_repr \/
   (true = true /\ mcr_interp_one F64Ops plain (cub_s true) [z64 0; nan64] = Panic)) /\
  (mcrr_interp_one F64Ops plain 2 (cub_s true) [inf64; z64 1] = Err msg_repr \/
   (true = true /\ mcrr_interp_one F64Ops plain 2 (cub_s true) [inf64; z64 1] = Panic)) /\
  mccr_interp_one F64Ops plain 2 (cub_g true) [z64 0; nan64] = Ok nan64.
Proof.
  split; [|split].
  - apply (C33_cubic_regular _ _ Hp64 He64 plain cub_dims cub_starts cub_steps cub_vals true (cub_s true) _ nan64);
      [apply cub_input|apply cub_new|reflexivity|right; left; reflexivity|reflexivity].
  - apply (C33_cubic_regular_recursive _ _ Hp64 He64 plain 2 cub_dims cub_starts cub_steps cub_vals true (cub_s true) _ inf64);
      [apply cub_input|exact C11_cubic_regular_new_ex|reflexivity|left; reflexivity|reflexivity].
  - apply (C33_cubic_rectilinear_recursive _ _ Hp64 He64 plain 2 cub_grids cub_vals true);
      [apply cub_rinput|exact C11_cubic_rectilinear_new_ex|reflexivity|right; left; reflexivity].
Qed.

(** * C40, C44: the cell number does not decrease *)
Example C40_more_ex : (0 <= 1)%Z /\ (0 <= 1)%Z. (* cells of 0.1 and 7 on the first axis *)
Proof.
  assert (A : reg_get_loc F64Ops lin_s tenth 0 = Ok 0%Z) by (vm_compute; reflexivity).
  assert (B : reg_get_loc F64Ops lin_s (z64 7) 0 = Ok 1%Z) by (vm_compute; reflexivity).
  split.
  - refine (C40_linear_recursive _ _ Hp64 He64 plain 2 lin_dims lin_starts lin_steps lin_vals lin_s 0 tenth (z64 7) _ _ _ _ _ _ A B);
      [apply lin_input|exact C11_linear_regular_new_ex|simpl; lia|vm_compute; reflexivity].
  - refine (C40_nearest _ _ Hp64 He64 plain lin_dims lin_starts lin_steps lin_vals lin_s 0 tenth (z64 7) _ _ _ _ _ _ A B);
      [apply lin_input|apply lin_new|simpl; lia|vm_compute; reflexivity].
Qed.
Example C44_recursive_ex : (0 <= 1)%Z /\ (sat_rank OutsideLow <= sat_rank OutsideHigh)%Z.
Proof.
  assert (A : creg_get_loc F64Ops plain (cr_base (cub_s true)) (z64 (-2)) 1 = Ok (0%Z, OutsideLow)) by (vm_compute; reflexivity).
  assert (B : creg_get_loc F64Ops plain (cr_base (cub_s true)) (z64 6) 1 = Ok (1%Z, OutsideHigh)) by (vm_compute; reflexivity).
  refine (C44_recursive_partial _ _ Hp64 He64 plain 2 cub_dims cub_starts cub_steps cub_vals true (cub_s true) 1 (z64 (-2)) (z64 6) _ _ _ _ _ _ _ _ _ A B);
    [apply cub_input|exact C11_cubic_regular_new_ex|simpl; lia|vm_compute; reflexivity|left; reflexivity].
Qed.

(** * C47: the Python classes on regular grids *)
Example C47_linear_regular_ex : let r := mlr_interpn F64Ops plain lin_dims lin_starts lin_steps lin_vals (map nd_data two_obs) [fzero F64Ops; fzero F64Ops] in
  match class_eval F64Ops (raw_linear_regular F64Ops plain lin_dims lin_starts lin_steps lin_vals) (map nd_data two_obs) None with
  | Ret data => r = (Ok tt, data) /\ length data = 2%nat
  | Raise e => exists msg, e = AssertionError msg /\ fst r = Err msg
  end.
Proof.
  refine (C47_linear_regular_partial f64 F64Ops plain lin_dims lin_starts lin_steps lin_vals (map nd_data two_obs) None [fzero F64Ops; fzero F64Ops] 8
    usize_converts_f64 lin_class_reg _ _ eq_refl _ _ _);
    [repeat constructor; vm_compute; discriminate|vm_compute; discriminate|repeat constructor|eexists; split; reflexivity|le_ok].
Qed.
Example C47_nearest_regular_ex : let r := nr_interpn F64Ops plain lin_dims lin_starts lin_steps lin_vals (map nd_data two_obs) [fzero F64Ops; fzero F64Ops] in
  match class_eval F64Ops (raw_nearest_regular F64Ops plain lin_dims lin_starts lin_steps lin_vals) (map nd_data two_obs) None with
  | Ret data => r = (Ok tt, data) /\ length data = 2%nat
  | Raise e => exists msg, e = AssertionError msg /\ fst r = Err msg
  end.
Proof.
  refine (C47_nearest_regular_partial f64 F64Ops plain lin_dims lin_starts lin_steps lin_vals (map nd_data two_obs) None [fzero F64Ops; fzero F64Ops] 6
    usize_converts_f64 _ _ _ eq_refl _ _ _ _);
    [vm_compute; reflexivity|repeat constructor; vm_compute; discriminate|vm_compute; discriminate|repeat constructor|eexists; split; reflexivity|le_ok|le_ok].
Qed.
Example C47_cubic_regular_ex : let r := mcr_interpn F64Ops release cub_dims cub_starts cub_steps cub_vals true (map nd_data two_obs) [fzero F64Ops; fzero F64Ops] in
  match class_eval F64Ops (raw_cubic_regular F64Ops release cub_dims cub_starts cub_steps cub_vals true) (map nd_data two_obs) None with
  | Ret data => r = (Ok tt, data) /\ length data = 2%nat
  | Raise e => exists msg, e = AssertionError msg /\ fst r = Err msg
  end.
Proof.
  refine (C47_cubic_regular_partial f64 F64Ops release cub_dims cub_starts cub_steps cub_vals (map nd_data two_obs) None [fzero F64Ops; fzero F64Ops] 8
    usize_converts_f64 _ _ _ eq_refl _ _ _ true eq_refl _);
    [vm_compute; reflexivity|repeat constructor; vm_compute; discriminate|vm_compute; discriminate|repeat constructor|eexists; split; reflexivity|le_ok
    |repeat constructor; vm_compute; discriminate].
Qed.

(** * C48, C50: objects *)
Lemma m64_object : regular_object Multilinear m64.
Proof.
  destruct (returns_ex _ (make_regular Multilinear m64)) as (m & Hm); [vm_compute; reflexivity|].
  destruct (make_regular_inv _ _ _ Hm) as (-> & _). apply reg_made with (m0 := m64). exact Hm.
Qed.
Definition g64 : rectilinear_model := RectModel (map (stored Float64) lin_grids) (stored Float64 lin_vals) None.
Lemma g64_object : rectilinear_object Nearest g64.
Proof.
  destruct (returns_ex _ (rectilinear_new Nearest (map (typed Float64) lin_grids) (typed Float64 lin_vals) None)) as (m & Hm);
    [vm_compute; reflexivity|].
  assert (E := C50_rectilinear_partial Nearest Float64 Float64 lin_grids lin_vals None m Hm).
  assert (m = g64) as ->.
  { rewrite E. unfold g64. f_equal. }
  eapply rect_new. exact Hm.
Qed.
Example C47_object_ex : class_regular_ok F64Ops 8 lin_dims lin_starts lin_steps lin_vals = true /\
  class_rectilinear_ok F64Ops 6 lin_grids lin_vals = true.
Proof.
  split.
  - exact (C47_regular_object Multilinear Float64 lin_dims lin_starts lin_steps lin_vals None m64_object).
  - exact (C47_rectilinear_object Nearest Float64 lin_grids lin_vals None g64_object).
Qed.
Example C50_one_type_ex : dtype_of (rm_steps m64) = dtype_of (rm_vals m64) /\
  (forall g, In g (cm_grids g64) -> dtype_of g = dtype_of (cm_vals g64)).
Proof. split; [exact (proj1 (C50_regular_one_type_partial _ _ m64_object))|exact (C50_rectilinear_one_type _ _ g64_object)]. Qed.
Example C50_regular_ex : exists m,
  regular_new Multilinear lin_dims (typed Float32 [f32_lit 0 0; f32_lit 1 0]) (typed Float64 lin_steps) (typed Float64 lin_vals) None = Ret m /\
  m = RegModel lin_dims (stored Float64 (map (conv Float32 Float64) [f32_lit 0 0; f32_lit 1 0])) (stored Float64 lin_steps) (stored Float64 lin_vals) None /\
  dtype_of (rm_starts m) = dtype_of (rm_vals m).
Proof.
  destruct (returns_ex _ (regular_new Multilinear lin_dims (typed Float32 [f32_lit 0 0; f32_lit 1 0]) (typed Float64 lin_steps) (typed Float64 lin_vals) None))
    as (m & Hm); [vm_compute; reflexivity|].
  exists m. split; [exact Hm|]. split.
  - assert (E := C50_regular_partial Multilinear Float64 Float32 Float64 lin_dims _ _ _ None m Hm). rewrite (C50_conversion_same Float64 lin_steps) in E. exact E.
  - apply (C50_new_one_type _ _ _ _ _ _ _ Hm).
Qed.
Example C50_conversion_ex : B2R (conv Float32 Float64 s_tenth : f64) = B2R s_tenth /\
  B2R (conv Float64 Float32 (z64 3) : f32) = round radix2 (FLT_exp (-149) 24) ZnearestE (B2R (z64 3)).
Proof.
  split; [apply C50_conversion_wider; reflexivity|]. apply C50_conversion_narrower; [reflexivity|].
  assert (E : B2R (z64 3) = B2R (f32_lit 3 0)) by (transitivity 3%R; [real_lit|unfold f32_lit; simpl; unfold F2R; simpl; lra]).
  rewrite E. assert (G := generic_format_B2R 24 128 (f32_lit 3 0)).
  change (SpecFloat.fexp 24 128) with (FLT_exp (-149) 24) in G. rewrite round_generic by (auto with typeclass_instances).
  apply (abs_B2R_lt_emax 24 128).
Qed.
Example C48_fields_ex : forall k, In k (map fst (match dump_regular m64 with JObj l => l | _ => [] end)) <-> In k ["dims"; "starts"; "steps"; "vals"].
Proof.
  assert (E := C48_regular _ _ m64_object). destruct (dump_regular m64) as [| | | | | | |l] eqn:D; try (discriminate D).
  exact (C48_fields_regular Multilinear l m64 E).
Qed.
Example C48_fields_rectilinear_ex : forall k, In k (map fst (match dump_rectilinear g64 with JObj l => l | _ => [] end)) <-> In k ["grids"; "vals"].
Proof.
  assert (E := C48_rectilinear _ _ g64_object). destruct (dump_rectilinear g64) as [| | | | | | |l] eqn:D; try (discriminate D).
  exact (C48_fields_rectilinear Nearest l g64 E).
Qed.

(** * C49: arrays of one element type, and of two *)
Lemma x64_out : output_array (ops Float64) x64 None [fzero F64Ops; fzero F64Ops].
Proof. eexists; split; reflexivity. Qed.
Ltac few := apply Nat.leb_le; reflexivity.
Ltac nonneg := repeat constructor; vm_compute; discriminate.
Example C49_linear_regular_ex :
  regular_eval plain Multilinear m64 (map (typed Float64) x64) None =
  (@seen Float64 (mlr_interpn F64Ops plain lin_dims lin_starts lin_steps lin_vals x64 [fzero F64Ops; fzero F64Ops]), None).
Proof. refine (C49_linear_regular plain Float64 x64 None _ _ x64_out lin_dims lin_starts lin_steps lin_vals _); [few|nonneg]. Qed.
Example C49_nearest_regular_ex :
  regular_eval plain Nearest (RegModel lin_dims (stored Float64 lin_starts) (stored Float64 lin_steps) (stored Float64 lin_vals) None) (map (typed Float64) x64) None =
  (@seen Float64 (nr_interpn F64Ops plain lin_dims lin_starts lin_steps lin_vals x64 [fzero F64Ops; fzero F64Ops]), None).
Proof. refine (C49_nearest_regular plain Float64 x64 None _ _ x64_out lin_dims lin_starts lin_steps lin_vals _); [few|nonneg]. Qed.
Example C49_cubic_regular_ex :
  regular_eval plain Multicubic (RegModel cub_dims (stored Float64 cub_starts) (stored Float64 cub_steps) (stored Float64 cub_vals) (Some true)) (map (typed Float64) x64) None =
  (@seen Float64 (mcr_interpn F64Ops plain cub_dims cub_starts cub_steps cub_vals true x64 [fzero F64Ops; fzero F64Ops]), None).
Proof. refine (C49_cubic_regular plain Float64 x64 None _ _ x64_out cub_dims cub_starts cub_steps cub_vals true _); [few|nonneg]. Qed.
Example C49_linear_rectilinear_ex :
  rectilinear_eval plain Multilinear g64 (map (typed Float64) x64) None =
  (@seen Float64 (mlc_interpn F64Ops plain lin_grids lin_vals x64 [fzero F64Ops; fzero F64Ops]), None).
Proof. refine (C49_linear_rectilinear plain Float64 x64 None _ _ x64_out lin_grids lin_vals _); few. Qed.
Example C49_nearest_rectilinear_ex :
  rectilinear_eval plain Nearest g64 (map (typed Float64) x64) None =
  (@seen Float64 (nc_interpn F64Ops plain lin_grids lin_vals x64 [fzero F64Ops; fzero F64Ops]), None).
Proof. refine (C49_nearest_rectilinear plain Float64 x64 None _ _ x64_out lin_grids lin_vals _); few. Qed.
Example C49_cubic_rectilinear_ex :
  rectilinear_eval plain Multicubic (RectModel (map (stored Float64) cub_grids) (stored Float64 cub_vals) (Some false)) (map (typed Float64) x64) None =
  (@seen Float64 (mcc_interpn F64Ops plain cub_grids cub_vals false x64 [fzero F64Ops; fzero F64Ops]), None).
Proof. refine (C49_cubic_rectilinear plain Float64 x64 None _ _ x64_out cub_grids cub_vals false _); few. Qed.
(** f32 observations for an f64 object. *)
Lemma x32_wrong : ~ Forall (has_type Float64) (map (typed Float32) x32).
Proof. intro K. inversion K as [|x l (y & Hy) K']. discriminate Hy. Qed.
Example C49_mixed_ex : regular_eval plain Multilinear m64 (map (typed Float32) x32) None = (Raise TypeError, None) /\
  rectilinear_eval plain Nearest g64 (map (typed Float32) x32) None = (Raise TypeError, None) /\
  regular_check_bounds plain m64 (map (typed Float32) x32) (z64 0) = Raise TypeError /\
  rectilinear_check_bounds g64 (map (typed Float32) x32) (z64 0) = Raise TypeError.
Proof.
  split; [|split; [|split]].
  - refine (C49_mixed_regular plain Multilinear m64 (map (typed Float32) x32) None _ _ _);
      [nonneg|left; discriminate|right; right; left; exact x32_wrong].
  - refine (C49_mixed_rectilinear plain Nearest g64 (map (typed Float32) x32) None _ _);
      [left; discriminate|right; left; exact x32_wrong].
  - refine (C49_check_bounds_mixed_regular plain m64 (map (typed Float32) x32) (z64 0) _ _); [nonneg|right; right; exact x32_wrong].
  - refine (C49_check_bounds_mixed_rectilinear g64 (map (typed Float32) x32) (z64 0) _); right; exact x32_wrong.
Qed.
(** The function: f64 arrays; f32 observations with f64 values; f32 grids with f64 values. *)
Example C49_interpn_ex : typed_interpn plain (map (tnd Float64) two_obs) (map (tnd Float64) even_grids) (tnd Float64 (arr lin_vals)) "linear" None true false false (z64 0)
  = @tnd_result Float64 (py_interpn F64Ops plain two_obs even_grids (arr lin_vals) "linear" None true false false (from_f64 (format_of Float64) (z64 0))).
Proof. exact (C49_interpn plain Float64 two_obs even_grids (arr lin_vals) "linear" None true false false (z64 0)). Qed.
Example C49_interpn_mixed_ex : exists e, typed_interpn plain [tline [f32_lit 1 0]] [tvals [z64 0; z64 1]] (tvals [z64 5; z64 7]) "cubic" None true false false (z64 0)
  = (Raise e, None).
Proof.
  refine (C49_interpn_mixed plain Float64 [z64 5; z64 7] [tline [f32_lit 1 0]] [tvals [z64 0; z64 1]] (tvals [z64 5; z64 7]) "cubic" None true false false (z64 0) eq_refl _).
  intro K. apply Forall_inv in K as (y & Hy). discriminate Hy.
Qed.
Definition tri32 : list f32 := [f32_lit 0 0; f32_lit 1 0; f32_lit 3 0].
Example C49_interpn_grids_irregular_ex :
  typed_interpn plain (map (tnd Float64) [arr [z64 1; z64 2]]) (map (tnd Float32) [arr tri32]) (tnd Float64 (arr [z64 5; z64 7; z64 4])) "nearest" None true false false (z64 0)
  = (Raise TypeError, None).
Proof.
  refine (C49_interpn_grids_irregular plain Float64 Float32 [arr [z64 1; z64 2]] [arr tri32] (arr [z64 5; z64 7; z64 4]) (arr [z64 1; z64 2]) true false (z64 0)
    eq_refl _ _ _ eq_refl _ "nearest" _); [few|repeat constructor|discriminate| |right; left; reflexivity].
  intro K. apply Forall_inv in K. destruct (K 1%nat _ _ _ _ eq_refl eq_refl eq_refl eq_refl) as (E & _). vm_compute in E. discriminate E.
Qed.
Example C49_interpn_grids_regular_ex :
  typed_interpn plain (map (tnd Float64) [arr [z64 1; z64 2]]) (map (tnd Float32) [arr tri32]) (tnd Float64 (arr [z64 5; z64 7; z64 4])) "linear" None true true false (z64 0)
  = (py_bind (@seen Float64 (mlr_interpn F64Ops plain [3] [conv Float32 Float64 (f32_lit 0 0)]
       [conv Float32 Float64 (fsub F32Ops (f32_lit 1 0) (f32_lit 0 0))] [z64 5; z64 7; z64 4] [[z64 1; z64 2]] [fzero F64Ops; fzero F64Ops]))
       (fun x => Ret (mkT [2%nat] x)), None).
Proof.
  refine (proj1 (C49_interpn_grids_regular plain Float64 Float32 [arr [z64 1; z64 2]] [arr tri32] (arr [z64 5; z64 7; z64 4]) (arr [z64 1; z64 2]) true true (z64 0)
    eq_refl _ _ (or_introl eq_refl))); [few|repeat constructor].
Qed.

(** * C95: one-dimensional regular interpolators *)
Example C95_short_ex : exists g, r1_new F64Ops plain (z64 0) (z64 1) [z64 5] = Ok g /\
  linear1 F64Ops plain (r1_at F64Ops plain g) (z64 3) = Panic.
Proof.
  destruct (@is_ok_ex _ (r1_new F64Ops plain (z64 0) (z64 1) [z64 5])) as (g & E); [vm_compute; reflexivity|].
  exists g. split; [exact E|].
  refine (C95_regular_short 53 1024 Hp64 He64 plain (z64 0) (z64 1) [z64 5] g _ (z64 3) _ E (m1_linear F64Ops plain _) _);
    [vm_compute; reflexivity|].
  apply whole_steps_ieee. vm_compute. discriminate.
Qed.
Example C95_regular_partial_ex : exists g, r1_new F64Ops plain (z64 0) (z64 0) [z64 5; z64 6] = Ok g /\
  ((exists r, left1 (r1_at F64Ops plain g) (z64 3) = Ok r) \/ left1 (r1_at F64Ops plain g) (z64 3) = Err "Unrepresentable number").
Proof.
  destruct (@is_ok_ex _ (r1_new F64Ops plain (z64 0) (z64 0) [z64 5; z64 6])) as (g & E); [vm_compute; reflexivity|].
  exists g. split; [exact E|].
  refine (C95_regular_partial _ F64Ops plain (z64 0) (z64 0) [z64 5; z64 6] g _ (z64 3) _ E (m1_left F64Ops plain _)).
  vm_compute; split; discriminate.
Qed.

(** * C96: the remaining entry points *)
Definition obs96 : list (list f64) := [[nan64; z64 1; z64 5]; [z64 2; inf64; z64 2]].
Definition out96 : list f64 := [z64 0; z64 0; z64 0].
Example C96_linear_rectilinear_recursive_ex : succeeds out96 (mlcr_interpn F64Ops plain lin_grids lin_vals obs96 out96).
Proof.
  refine (proj1 (C96_linear_rectilinear_recursive _ F64Ops plain lin_grids lin_vals obs96 out96 _ _) _);
    [sizes_fit|vm_compute; discriminate|valid_args].
Qed.
Example C96_nearest_rectilinear_ex : succeeds out96 (nc_interpn F64Ops plain lin_grids lin_vals obs96 out96).
Proof.
  refine (proj1 (C96_nearest_rectilinear _ F64Ops plain lin_grids lin_vals obs96 out96 _ _) _);
    [sizes_fit|vm_compute; discriminate|valid_args].
Qed.
Example C96_cubic_rectilinear_ex : succeeds out96 (mcc_interpn F64Ops plain cub_grids cub_vals true obs96 out96).
Proof.
  refine (proj1 (C96_cubic_rectilinear _ F64Ops plain cub_grids cub_vals obs96 out96 true _ _ _) _);
    [sizes_fit|vm_compute; discriminate|reflexivity|valid_args].
Qed.
Example C96_linear_regular_recursive_ex : refused out96 (mlrr_interpn F64Ops plain lin_dims lin_starts lin_steps lin_vals [[z64 1; z64 1; z64 1]] out96).
Proof.
  refine (proj2 (C96_linear_regular_recursive _ F64Ops plain lin_dims lin_starts lin_steps lin_vals [[z64 1; z64 1; z64 1]] out96 usize_converts_f64 _ _) _);
    [sizes_fit|vm_compute; discriminate|]. intros (_ & _ & _ & Q & _). discriminate Q.
Qed.
Example C96_cubic_regular_recursive_ex : stopped "Unrepresentable coordinate value" [z64 0; z64 0]
  (mcrr_interpn F64Ops release cub_dims cub_starts cub_steps cub_vals true [[z64 1; nan64]; [z64 1; z64 2]] [z64 0; z64 0]).
Proof.
  refine (proj2 (proj1 (C96_cubic_regular_recursive _ F64Ops release cub_dims cub_starts cub_steps cub_vals [[z64 1; nan64]; [z64 1; z64 2]] [z64 0; z64 0]
    usize_converts_f64 _ _ true _) _) _); [sizes_fit|vm_compute; discriminate|left; reflexivity|valid_args|].
  intros Q. apply (Q 1%nat 0%nat); [apply Nat.ltb_lt; reflexivity|apply Nat.ltb_lt; reflexivity|]. vm_compute. reflexivity.
Qed.
Example C96_whole_steps_ex : steps_fit Hp64 He64 (z64 0) tenth (z64 77) /\ ~ steps_fit Hp64 He64 (z64 0) tenth inf64.
Proof.
  split; [apply C96_whole_steps; vm_compute; discriminate|]. intros Q. apply C96_whole_steps in Q. apply Q. vm_compute. reflexivity.
Qed.

(** * C34, C35: rectilinear grids *)
Example C34_rectilinear_ex : exists s v, mlc_new F64Ops fused lin_grids const_vals = Ok s /\
  mlc_interp_one F64Ops fused s [z64 77; z64 (-9)] = Ok v /\ is_real v (B2R tenth).
Proof.
  destruct (@is_ok_ex _ (mlc_new F64Ops fused lin_grids const_vals)) as (s & E); [vm_compute; reflexivity|].
  assert (I : rect_input fused lin_grids const_vals) by rect_ok.
  destruct (C34_rectilinear _ _ Hp64 He64 fused lin_grids const_vals (mlc_interp_one F64Ops fused s) [z64 77; z64 (-9)] (B2R tenth))
    as (v & H1 & H2).
  - apply float_rectilinear_flat; assumption.
  - reflexivity.
  - apply lin_inc.
  - apply Forall2_cons; [|apply Forall2_cons; [|apply Forall2_nil]]; intros i a b (Hi & _) Ha Hb; unfold zlen in Hi; simpl in Hi.
    + assert (Q : i = 0 \/ i = 1) by lia. destruct Q as [-> | ->]; injection Ha as <-; injection Hb as <-; vm_compute; reflexivity.
    + assert (Q : i = 0) by lia. subst i. injection Ha as <-. injection Hb as <-. vm_compute. reflexivity.
  - repeat (apply Forall_cons; [split; reflexivity|]). apply Forall_nil.
  - exists s, v. auto.
Qed.
(** At the node (2, 0) of the uneven grid, position (2, 1), value 11. *)
Open Scope R_scope.
Example C35_rectilinear_near_ex : exists y, mlc_interp_one F64Ops plain lin_g [z64 2; z64 1] = Ok y /\ is_finite y = true /\
  Rabs (B2R y - 11) <= / 1000000000000.
Proof.
  assert (X : map B2R [z64 2; z64 1] = [2; 1]) by (cbn [map]; repeat (apply f_equal2); try reflexivity; real_lit).
  destruct (C35_rectilinear_near_partial _ _ Hp64 He64 plain lin_grids lin_vals _ [z64 2; z64 1] 11 lin_frect lin_inc lin_mod
    ltac:(repeat (apply Forall_cons; [reflexivity|]); apply Forall_nil)
    ltac:(rewrite lin_grids_real, X; split; [reflexivity|]; each_axis2; lra) lin_bounded
    ltac:(assert (U := roundoff_64); simpl; lra) [2%Z; 0%Z]) as (y & E & F & B).
  - rewrite lin_grids_real. apply Forall2_cons; [simpl; unfold zlen; simpl; lia|]. apply Forall2_cons; [simpl; unfold zlen; simpl; lia|]. apply Forall2_nil.
  - rewrite lin_grids_real, X. simpl. repeat (apply f_equal2); try reflexivity; lra.
  - exists y. split; [exact E|]. split; [exact F|]. rewrite lin_grids_real, lin_vals_real in B.
    unfold entry in B. simpl nth in B. eapply Rle_trans; [exact B|].
    assert (Q := err_small 352 ltac:(lra)). unfold rectilinear_error. simpl length. simpl INR. lra.
Qed.
