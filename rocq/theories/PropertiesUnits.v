(** Changes of units along the axes (C71) and of the sign of the data (C72), in floating point. *)
From Coq Require Import Reals Lra PeanoNat Bool Lia List.
From Flocq Require Import Core.Core IEEE754.BinarySingleNaN.
From Verif Require Import Base Ops RInst FInst ModelCore ModelLinear ModelCubic ModelNearest Spec SpecOrder SpecIEEE SpecUnits.
From Verif Require Import GenLemmas MethodLemmas UnitProofs UnitProofs2 NegProofs RelProofs ExampleData PropertiesFloat PropertiesError.
Import ListNotations.
Open Scope R_scope.
Unset Implicit Arguments.

(** * C71: measuring an axis in a unit that differs by a power of two (of any sign, another one for
    each axis) does not change a single bit of the result, for any method, as long as neither the
    old nor the new numbers are rounded or come near overflow; and the new grid is accepted. *)
Theorem C71_rectilinear :
  forall prec emax (Hp : Prec_gt_0 prec) (He : Prec_lt_emax prec emax),
  forall m c ks (grids grids' : list (list (binary_float prec emax))) vals eval, (3 <= emax)%Z ->
  built_rectilinear Hp He m c grids vals eval ->
  each_axis (fun k => Forall2 (rescaled k)) ks grids grids' ->
  Forall (Forall moderate) grids -> Forall (Forall moderate) grids' ->
  (exists eval', built_rectilinear Hp He m c grids' vals eval') /\
  forall eval' x x', built_rectilinear Hp He m c grids' vals eval' -> each_axis rescaled ks x x' ->
  Forall moderate x -> Forall moderate x' -> eval' x' = eval x.
Proof. exact C71_proof_rectilinear. Qed.
Theorem C71_regular :
  forall prec emax (Hp : Prec_gt_0 prec) (He : Prec_lt_emax prec emax),
  forall m c ks dims (starts steps starts' steps' : list (binary_float prec emax)) vals eval, (64 < emax)%Z ->
  built_regular Hp He m c dims starts steps vals eval ->
  each_axis rescaled ks starts starts' -> each_axis rescaled ks steps steps' ->
  roomy_axes starts steps dims -> roomy_axes starts' steps' dims ->
  (exists eval', built_regular Hp He m c dims starts' steps' vals eval') /\
  forall eval' x x', built_regular Hp He m c dims starts' steps' vals eval' -> each_axis rescaled ks x x' ->
  Forall roomy x -> Forall roomy x' -> eval' x' = eval x.
Proof. exact C71_proof_regular. Qed.

(** * C72: with the negated data every method returns the negated result, at every point, NaN
    included, and fails where it failed. *)
Theorem C72_rectilinear :
  forall prec emax (Hp : Prec_gt_0 prec) (He : Prec_lt_emax prec emax),
  forall m c (grids : list (list (binary_float prec emax))) vals vals' eval eval' x,
  built_rectilinear Hp He m c grids vals eval -> built_rectilinear Hp He m c grids vals' eval' ->
  Forall2 negation vals vals' -> length x = length grids -> outcome_rel negation (eval x) (eval' x).
Proof. exact C72_proof_rectilinear. Qed.
Theorem C72_regular :
  forall prec emax (Hp : Prec_gt_0 prec) (He : Prec_lt_emax prec emax),
  forall m c dims (starts steps : list (binary_float prec emax)) vals vals' eval eval' x,
  built_regular Hp He m c dims starts steps vals eval -> built_regular Hp He m c dims starts steps vals' eval' ->
  Forall2 negation vals vals' -> length x = length dims -> outcome_rel negation (eval x) (eval' x).
Proof. exact C72_proof_regular. Qed.

(** ** Examples: the grid [[0; 1/2; 2]; [1; 3]] and the regular grid from (0, 1) with steps
    (1/2, 2), measured in units 1024 times smaller along the first axis and 8 times larger along
    the second. *)
Definition unit_ks : list Z := [10%Z; (-3)%Z].
Definition unit_grids : list (list f64) := [[z64 0; z64 512; z64 2048]; [f64_lit 1 (-3); f64_lit 3 (-3)]].
Definition unit_starts : list f64 := [z64 0; f64_lit 1 (-3)].
Definition unit_steps : list f64 := [z64 512; f64_lit 2 (-3)].
Definition unit_x : list f64 := [z64 768; f64_lit 2 (-3)].
Lemma rescaled_by (k : Z) (a b : f64) : is_finite a = true -> is_finite b = true -> Bsign b = Bsign a ->
  B2R b = B2R a * bpow radix2 k -> rescaled k a b.
Proof. intros F G S E. split; [exact F|]. split; [exact G|]. split; [exact E|exact S]. Qed.
Ltac rescaled_lit := apply rescaled_by; [reflexivity|reflexivity|reflexivity|real_lit].
Lemma unit_grids_rescaled : each_axis (fun k => Forall2 (rescaled k)) unit_ks lin_grids unit_grids.
Proof.
  unfold unit_ks, lin_grids, unit_grids.
  repeat (apply each_axis_cons; [repeat (apply Forall2_cons; [rescaled_lit|]); apply Forall2_nil|]). apply each_axis_nil.
Qed.
Ltac rescaled_list := repeat (apply each_axis_cons; [rescaled_lit|]); apply each_axis_nil.
Lemma unit_starts_rescaled : each_axis rescaled unit_ks lin_starts unit_starts.
Proof. unfold unit_ks, lin_starts, unit_starts. rescaled_list. Qed.
Lemma unit_steps_rescaled : each_axis rescaled unit_ks lin_steps unit_steps.
Proof. unfold unit_ks, lin_steps, unit_steps. rescaled_list. Qed.
Lemma unit_x_rescaled : each_axis rescaled unit_ks err_x unit_x.
Proof. unfold unit_ks, err_x, unit_x. rescaled_list. Qed.
Lemma moderate_4096 (v : f64) : is_finite v = true -> -4096 <= B2R v <= 4096 -> moderate v.
Proof.
  intros F B. split; [exact F|]. apply Rle_trans with (bpow radix2 12); [|apply bpow_le; vm_compute; discriminate].
  change (bpow radix2 12) with (IZR 4096). apply Rabs_le. lra.
Qed.
Ltac mod4 := apply moderate_4096; [reflexivity|real_lit].
Lemma unit_mod : Forall (Forall moderate) unit_grids.
Proof. unfold unit_grids. repeat (apply Forall_cons; [repeat (apply Forall_cons; [mod4|]); apply Forall_nil|]). apply Forall_nil. Qed.
Lemma unit_x_mod : Forall moderate unit_x.
Proof. unfold unit_x. repeat (apply Forall_cons; [mod4|]). apply Forall_nil. Qed.
Lemma err_x_mod : Forall moderate err_x.
Proof. unfold err_x. repeat (apply Forall_cons; [mod4|]). apply Forall_nil. Qed.
Definition unit_g : rectilinear f64 := mkRect unit_grids [3%Z; 2%Z] lin_vals.
Definition unit_s : regular f64 := mkRegular lin_dims unit_starts unit_steps lin_vals.
Lemma lin_built : built_rectilinear Hp64 He64 LinearRect plain lin_grids lin_vals (mlc_interp_one F64Ops plain lin_g).
Proof. split; [apply lin_rinput|]. exists lin_g. split; [apply lin_gnew|reflexivity]. Qed.
Lemma near_built : built_rectilinear Hp64 He64 NearestRect plain lin_grids lin_vals (nc_interp_one F64Ops plain lin_g).
Proof. split; [apply lin_rinput|]. exists lin_g. split; [apply lin_gnew|reflexivity]. Qed.
Lemma lin_reg_built : built_regular Hp64 He64 LinearReg plain lin_dims lin_starts lin_steps lin_vals (mlr_interp_one F64Ops plain lin_s).
Proof. split; [apply lin_input|]. exists lin_s. split; [apply lin_new|reflexivity]. Qed.
Lemma unit_rinput c : rect_input c unit_grids lin_vals.
Proof. rect_ok. Qed.
Lemma unit_gnew : mlc_new F64Ops plain unit_grids lin_vals = Ok unit_g.
Proof.
  destruct (@is_ok_ex _ (mlc_new F64Ops plain unit_grids lin_vals)) as (s & E); [vm_compute; reflexivity|].
  rewrite E. destruct (mlc_new_inv F64Ops (unit_rinput _) E) as (_ & ->). reflexivity.
Qed.
Lemma unit_built : built_rectilinear Hp64 He64 LinearRect plain unit_grids lin_vals (mlc_interp_one F64Ops plain unit_g).
Proof. split; [apply unit_rinput|]. exists unit_g. split; [apply unit_gnew|reflexivity]. Qed.
Lemma unit_near_built : built_rectilinear Hp64 He64 NearestRect plain unit_grids lin_vals (nc_interp_one F64Ops plain unit_g).
Proof. split; [apply unit_rinput|]. exists unit_g. split; [apply unit_gnew|reflexivity]. Qed.
Example C71_rectilinear_ex :
  mlc_interp_one F64Ops plain unit_g unit_x = mlc_interp_one F64Ops plain lin_g err_x /\
  nc_interp_one F64Ops plain unit_g unit_x = nc_interp_one F64Ops plain lin_g err_x /\
  is_ok (mlc_interp_one F64Ops plain lin_g err_x) = true.
Proof.
  split; [|split].
  - destruct (C71_rectilinear _ _ Hp64 He64 LinearRect plain unit_ks lin_grids unit_grids lin_vals _ ltac:(lia) lin_built
      unit_grids_rescaled lin_mod unit_mod) as (_ & H).
    apply (H _ err_x unit_x unit_built unit_x_rescaled err_x_mod unit_x_mod).
  - destruct (C71_rectilinear _ _ Hp64 He64 NearestRect plain unit_ks lin_grids unit_grids lin_vals _ ltac:(lia) near_built
      unit_grids_rescaled lin_mod unit_mod) as (_ & H).
    apply (H _ err_x unit_x unit_near_built unit_x_rescaled err_x_mod unit_x_mod).
  - vm_compute. reflexivity.
Qed.

(** The cubic method on a 4 x 5 regular grid, at a point outside the grid along the second axis. *)
Definition cunit_starts : list f64 := [z64 0; f64_lit 1 (-3)].
Definition cunit_steps : list f64 := [z64 1024; f64_lit 1 (-5)].
Definition cunit_x : list f64 := [z64 1536; f64_lit 9 (-3)].
Definition cunit_s : @cubic_regular f64 := mkCR (mkRegular cub_dims cunit_starts cunit_steps cub_vals) false.
Lemma cunit_input c : reg_input c cub_dims cunit_starts cunit_steps cub_vals.
Proof. reg_ok. Qed.
Lemma cunit_new : mcr_new F64Ops plain cub_dims cunit_starts cunit_steps cub_vals false = Ok cunit_s.
Proof.
  destruct (@is_ok_ex _ (mcr_new F64Ops plain cub_dims cunit_starts cunit_steps cub_vals false)) as (s & E); [vm_compute; reflexivity|].
  rewrite E. destruct (mcr_new_inv F64Ops false (cunit_input _) E) as (_ & ->). reflexivity.
Qed.
Lemma cub_built : built_regular Hp64 He64 (CubicReg false) plain cub_dims cub_starts cub_steps cub_vals (mcr_interp_one F64Ops plain (cub_s false)).
Proof. split; [apply cub_input|]. exists (cub_s false). split; [apply cub_new|reflexivity]. Qed.
Lemma cunit_built : built_regular Hp64 He64 (CubicReg false) plain cub_dims cunit_starts cunit_steps cub_vals (mcr_interp_one F64Ops plain cunit_s).
Proof. split; [apply cunit_input|]. exists cunit_s. split; [apply cunit_new|reflexivity]. Qed.
Lemma roomy_8192 (r : R) : -8192 <= r <= 8192 -> Rabs r <= bpow radix2 (1024 - 4).
Proof.
  intros B. apply Rle_trans with (bpow radix2 13); [|apply bpow_le; vm_compute; discriminate].
  change (bpow radix2 13) with (IZR 8192). apply Rabs_le. lra.
Qed.
Ltac roomy_lists := intros k s h d Es Eh Ed; destruct k as [|[|k]]; [| |destruct k; discriminate Es];
  injection Es as <-; injection Eh as <-; injection Ed as <-;
  (split; [apply roomy_8192; real_lit|]);
  match goal with |- Rabs ?h * IZR ?d <= _ => rewrite <- (Rabs_pos_eq (IZR d)) by (apply IZR_le; lia); rewrite <- Rabs_mult end;
  apply roomy_8192; real_lit.
Lemma cub_roomy : roomy_axes cub_starts cub_steps cub_dims.
Proof. roomy_lists. Qed.
Lemma cunit_roomy : roomy_axes cunit_starts cunit_steps cub_dims.
Proof. roomy_lists. Qed.
Example C71_regular_ex :
  mcr_interp_one F64Ops plain cunit_s cunit_x = mcr_interp_one F64Ops plain (cub_s false) cub_pt /\
  is_ok (mcr_interp_one F64Ops plain (cub_s false) cub_pt) = true.
Proof.
  split; [|vm_compute; reflexivity].
  destruct (C71_regular _ _ Hp64 He64 (CubicReg false) plain unit_ks cub_dims cub_starts cub_steps cunit_starts cunit_steps cub_vals _
    ltac:(lia) cub_built) as (_ & H).
  - unfold unit_ks, cub_starts, cunit_starts. rescaled_list.
  - unfold unit_ks, cub_steps, cunit_steps. rescaled_list.
  - apply cub_roomy.
  - apply cunit_roomy.
  - apply (H _ cub_pt cunit_x cunit_built).
    + unfold unit_ks, cub_pt, cunit_x. rescaled_list.
    + unfold cub_pt. repeat (apply Forall_cons; [apply roomy_8192; real_lit|]). apply Forall_nil.
    + unfold cunit_x. repeat (apply Forall_cons; [apply roomy_8192; real_lit|]). apply Forall_nil.
Qed.

(** The negated data. *)
Definition neg_lin : list f64 := map (@Bopp 53 1024) lin_vals.
Definition neg_s : regular f64 := mkRegular lin_dims lin_starts lin_steps neg_lin.
Definition neg_g : rectilinear f64 := mkRect lin_grids [3%Z; 2%Z] neg_lin.
Lemma neg_negation : Forall2 negation lin_vals neg_lin.
Proof. unfold neg_lin, lin_vals. cbn [map]. repeat (apply Forall2_cons; [right; vm_compute; reflexivity|]). apply Forall2_nil. Qed.
Lemma neg_rinput c : rect_input c lin_grids neg_lin.
Proof. rect_ok. Qed.
Lemma neg_input c : reg_input c lin_dims lin_starts lin_steps neg_lin.
Proof. reg_ok. Qed.
Lemma neg_built : built_rectilinear Hp64 He64 LinearRect plain lin_grids neg_lin (mlc_interp_one F64Ops plain neg_g).
Proof.
  split; [apply neg_rinput|]. exists neg_g. split; [|reflexivity].
  destruct (@is_ok_ex _ (mlc_new F64Ops plain lin_grids neg_lin)) as (s & E); [vm_compute; reflexivity|].
  change (mlc_new F64Ops plain lin_grids neg_lin = Ok neg_g).
  rewrite E. destruct (mlc_new_inv F64Ops (neg_rinput _) E) as (_ & ->). reflexivity.
Qed.
Lemma neg_reg_built : built_regular Hp64 He64 LinearReg plain lin_dims lin_starts lin_steps neg_lin (mlr_interp_one F64Ops plain neg_s).
Proof.
  split; [apply neg_input|]. exists neg_s. split; [|reflexivity].
  destruct (@is_ok_ex _ (mlr_new F64Ops plain lin_dims lin_starts lin_steps neg_lin)) as (s & E); [vm_compute; reflexivity|].
  change (mlr_new F64Ops plain lin_dims lin_starts lin_steps neg_lin = Ok neg_s).
  rewrite E. destruct (mlr_new_inv F64Ops (neg_input _) E) as (_ & ->). reflexivity.
Qed.
(** Both calls return; with a NaN coordinate both results are NaN. *)
Example C72_ex :
  outcome_rel negation (mlc_interp_one F64Ops plain lin_g err_x) (mlc_interp_one F64Ops plain neg_g err_x) /\
  outcome_rel negation (mlr_interp_one F64Ops plain lin_s err_x) (mlr_interp_one F64Ops plain neg_s err_x) /\
  is_ok (mlc_interp_one F64Ops plain lin_g err_x) = true /\ is_ok (mlr_interp_one F64Ops plain lin_s err_x) = true /\
  outcome_rel negation (mlc_interp_one F64Ops plain lin_g [nan64; z64 2]) (mlc_interp_one F64Ops plain neg_g [nan64; z64 2]).
Proof.
  split; [|split; [|split; [|split]]].
  - apply (C72_rectilinear _ _ Hp64 He64 LinearRect plain lin_grids lin_vals neg_lin _ _ err_x lin_built neg_built neg_negation eq_refl).
  - apply (C72_regular _ _ Hp64 He64 LinearReg plain lin_dims lin_starts lin_steps lin_vals neg_lin _ _ err_x lin_reg_built neg_reg_built neg_negation eq_refl).
  - vm_compute. reflexivity.
  - vm_compute. reflexivity.
  - apply (C72_rectilinear _ _ Hp64 He64 LinearRect plain lin_grids lin_vals neg_lin _ _ [nan64; z64 2] lin_built neg_built neg_negation eq_refl).
Qed.

Print Assumptions C71_rectilinear.
Print Assumptions C71_regular.
Print Assumptions C72_rectilinear.
Print Assumptions C72_regular.
