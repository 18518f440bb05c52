(** Further theorems for C25, C26 (bounds checks), C30, C33, C72 (one-dimensional grids) and C41
    (fma feature). *)
From Coq Require Import Reals Lra PeanoNat Bool Lia List.
From Flocq Require Import Core.Core IEEE754.BinarySingleNaN.
From Verif Require Import Base Ops RInst FInst ModelCore ModelLinear ModelCubic ModelNearest ModelOneDim.
From Verif Require Import Spec SpecOrder SpecIEEE SpecUnits.
From Verif Require Import FLemmas OneDimMore BoundsMore ExampleData PropertiesFloat.
Import ListNotations.
Open Scope R_scope.
Unset Implicit Arguments.

(** * C25: an infinite observation is flagged, for every tolerance that is a number. *)
Theorem C25_rectilinear_infinite :
  forall prec emax (Hp : Prec_gt_0 prec) (He : Prec_lt_emax prec emax), let o := BOps Hp He in
  forall grids obs atol out,
  Forall (fun g => (1 <= length g)%nat) grids -> length obs = length grids -> length out = length grids ->
  is_nan atol = false ->
  Forall (Forall (fun x : binary_float prec emax => is_finite x = true)) grids ->
  exists out', mlc_check_bounds o grids obs atol out = (Ok tt, out') /\ length out' = length grids /\
    forall k s, (k < length grids)%nat -> In (B754_infinity s) (nth k obs []) -> nth k out' false = true.
Proof. intros prec emax Hp He o. exact (infinite_flagged_rect prec emax Hp He). Qed.
Theorem C25_regular_infinite :
  forall prec emax (Hp : Prec_gt_0 prec) (He : Prec_lt_emax prec emax), let o := BOps Hp He in
  forall c dims starts steps obs (atol : binary_float prec emax) out,
  length starts = length dims -> length steps = length dims ->
  Forall (fun n => (1 <= n < two64)%Z) dims ->
  length obs = length dims -> length out = length dims -> is_nan atol = false ->
  exists out', mlr_check_bounds o c dims starts steps obs atol out = (Ok tt, out') /\ length out' = length dims /\
    forall k s, (k < length dims)%nat -> exists m, of_usize o (nth k dims 0 - 1)%Z = Some m /\
      let first := nth k starts (B754_zero false) in
      let lst := fadd o first (fmul o (nth k steps (B754_zero false)) m) in
      (is_finite first = true -> is_finite lst = true ->
      In (B754_infinity s) (nth k obs []) -> nth k out' false = true).
Proof. intros prec emax Hp He o. exact (infinite_flagged_reg prec emax Hp He). Qed.
Example C25_infinite_ex :
  exists out', mlc_check_bounds F64Ops lin_grids [[z64 0; inf64]; [z64 1; z64 3]] (f64_lit 1 1023) [false; true] = (Ok tt, out')
   /\ nth 0 out' false = true.
Proof.
  destruct (C25_rectilinear_infinite 53 1024 Hp64 He64 lin_grids [[z64 0; inf64]; [z64 1; z64 3]] (f64_lit 1 1023) [false; true])
    as (out' & E & L & H); [repeat constructor|reflexivity|reflexivity|reflexivity|repeat constructor|].
  exists out'. split; [exact E|]. apply (H 0%nat false); [simpl; lia|]. right. left. reflexivity.
Qed.
Example C25_regular_infinite_ex :
  exists out', mlr_check_bounds F64Ops plain lin_dims lin_starts lin_steps [[z64 0]; [fneg F64Ops inf64]] (f64_lit 1 1023) [false; false] = (Ok tt, out')
   /\ nth 1 out' false = true.
Proof.
  destruct (C25_regular_infinite 53 1024 Hp64 He64 plain lin_dims lin_starts lin_steps [[z64 0]; [fneg F64Ops inf64]] (f64_lit 1 1023) [false; false])
    as (out' & E & L & H); [reflexivity|reflexivity|repeat constructor; vm_compute; discriminate|reflexivity|reflexivity|reflexivity|].
  exists out'. split; [exact E|]. destruct (H 1%nat true ltac:(simpl; lia)) as (m & Em & V).
  assert (Q : match of_usize (BOps Hp64 He64) (nth 1 lin_dims 0 - 1)%Z with
    | Some m => is_finite (fadd F64Ops (nth 1 lin_starts (B754_zero false)) (fmul F64Ops (nth 1 lin_steps (B754_zero false)) m)) | None => false end = true)
    by (vm_compute; reflexivity).
  rewrite Em in Q. apply V; [reflexivity|exact Q|left; reflexivity].
Qed.
Print Assumptions C25_rectilinear_infinite.
Print Assumptions C25_regular_infinite.

(** * C26, NaN: the second half of the English statement is false for every grid and tolerance:
    NaN observations have no influence on the answer at all. *)
Theorem C26_nan_rectilinear_refuted :
  forall prec emax (Hp : Prec_gt_0 prec) (He : Prec_lt_emax prec emax) grids obs atol out,
  mlc_check_bounds (BOps Hp He) grids obs atol out =
  mlc_check_bounds (BOps Hp He) grids (map (filter (fun x => negb (is_nan x))) obs) atol out.
Proof. exact nan_ignored_rect. Qed.
Theorem C26_nan_regular_refuted :
  forall prec emax (Hp : Prec_gt_0 prec) (He : Prec_lt_emax prec emax) c dims starts steps obs atol out,
  mlr_check_bounds (BOps Hp He) c dims starts steps obs atol out =
  mlr_check_bounds (BOps Hp He) c dims starts steps (map (filter (fun x => negb (is_nan x))) obs) atol out.
Proof. exact nan_ignored_reg. Qed.
Example C26_nan_regular_ex :
  mlr_check_bounds F64Ops plain lin_dims lin_starts lin_steps [[nan64; z64 0]; [nan64]] (f64_lit 1 (-10)) [true; true] = (Ok tt, [false; false]).
Proof.
  rewrite (C26_nan_regular_refuted 53 1024 Hp64 He64 plain lin_dims lin_starts lin_steps [[nan64; z64 0]; [nan64]]).
  vm_compute. reflexivity.
Qed.
Print Assumptions C26_nan_rectilinear_refuted.
Print Assumptions C26_nan_regular_refuted.

(** * C30: between the first and the last grid point hold-last is the linear method, bit for bit,
    for every number type. *)
Theorem C30_inside_any_number_type :
  forall F (o : Ops F) c grid vals g x d,
  (zlen vals <= isize_max)%Z -> c1_new grid vals = Ok g ->
  flt o x (nth 0 grid d) = false -> flt o (last grid d) x = false ->
  hold_last1 o c (c1_at o c g) x = linear1 o c (c1_at o c g) x.
Proof. intros F o c grid vals g x d. exact (hold_inside_rect o c grid vals g x d). Qed.
Theorem C30_inside_regular_any_number_type :
  forall F (o : Ops F) c start step vals g x m,
  (1 <= zlen vals <= isize_max)%Z -> r1_new o c start step vals = Ok g ->
  of_usize o (zlen vals - 1) = Some m ->
  flt o x start = false -> flt o (fadd o start (fmul o step m)) x = false ->
  hold_last1 o c (r1_at o c g) x = linear1 o c (r1_at o c g) x.
Proof. intros F o c start step vals g x m. exact (hold_inside_reg o c start step vals g x m). Qed.
Definition od_grid : list f64 := [z64 0; z64 1; z64 3].
Definition od_g : rect1 f64 := mkC1 od_grid hl_vals.
Example C30_inside_any_ex :
  hold_last1 F64Ops fused (c1_at F64Ops fused od_g) (f64_lit 5 (-1)) = linear1 F64Ops fused (c1_at F64Ops fused od_g) (f64_lit 5 (-1)) /\
  ok_is (linear1 F64Ops fused (c1_at F64Ops fused od_g) (f64_lit 5 (-1))) (f64_lit 17 (-1)) = true.
Proof.
  split; [|vm_compute; reflexivity].
  apply (C30_inside_any_number_type _ F64Ops fused od_grid hl_vals od_g (f64_lit 5 (-1)) (z64 0)).
  - vm_compute; discriminate.
  - reflexivity.
  - vm_compute; reflexivity.
  - vm_compute; reflexivity.
Qed.
Lemma od_reg_new : exists g, r1_new F64Ops plain (z64 1) (f64_lit 1 (-1)) hl_vals = Ok g.
Proof. apply is_ok_ex. vm_compute. reflexivity. Qed.
Example C30_inside_regular_ex : exists g, r1_new F64Ops plain (z64 1) (f64_lit 1 (-1)) hl_vals = Ok g /\
  hold_last1 F64Ops plain (r1_at F64Ops plain g) (f64_lit 7 (-2)) = linear1 F64Ops plain (r1_at F64Ops plain g) (f64_lit 7 (-2)).
Proof.
  destruct od_reg_new as (g & E). exists g. split; [exact E|].
  destruct (of_usize_some Hp64 He64 (zlen hl_vals - 1)) as (m & Em).
  apply (C30_inside_regular_any_number_type _ F64Ops plain (z64 1) (f64_lit 1 (-1)) hl_vals g (f64_lit 7 (-2)) m).
  - vm_compute; split; discriminate.
  - exact E.
  - exact Em.
  - vm_compute; reflexivity.
  - assert (Q : match of_usize F64Ops (zlen hl_vals - 1) with
      | Some m => flt F64Ops (fadd F64Ops (z64 1) (fmul F64Ops (f64_lit 1 (-1)) m)) (f64_lit 7 (-2)) | None => true end = false)
      by (vm_compute; reflexivity).
    change (of_usize F64Ops (zlen hl_vals - 1) = Some m) in Em. rewrite Em in Q. exact Q.
Qed.
Print Assumptions C30_inside_any_number_type.
Print Assumptions C30_inside_regular_any_number_type.

(** * C33, one-dimensional methods: on a regular grid every method refuses an observation that is
    not finite; on a rectilinear grid the linear methods return NaN for NaN, and the step methods
    return the values of the first cell. *)
Theorem C33_one_dim_methods :
  forall prec emax (Hp : Prec_gt_0 prec) (He : Prec_lt_emax prec emax), let o := BOps Hp He in
  forall c start h vals g (x : binary_float prec emax),
  r1_new o c start h vals = Ok g -> is_finite x = false ->
  linear1 o c (r1_at o c g) x = Err msg_num /\ hold_last1 o c (r1_at o c g) x = Err msg_num /\
  left1 (r1_at o c g) x = Err msg_num /\ right1 (r1_at o c g) x = Err msg_num /\ nearest1 o (r1_at o c g) x = Err msg_num.
Proof. intros prec emax Hp He o. exact (C33_proof_one_dim_methods prec emax Hp He). Qed.
Theorem C33_one_dim_rectilinear :
  forall prec emax (Hp : Prec_gt_0 prec) (He : Prec_lt_emax prec emax), let o := BOps Hp He in
  forall c (grid vals : list (binary_float prec emax)) g d,
  (zlen vals <= isize_max)%Z -> c1_new grid vals = Ok g ->
  linear1 o c (c1_at o c g) B754_nan = Ok B754_nan /\ hold_last1 o c (c1_at o c g) B754_nan = Ok B754_nan /\
  left1 (c1_at o c g) B754_nan = Ok (nth 0 vals d) /\ right1 (c1_at o c g) B754_nan = Ok (nth 1 vals d) /\
  nearest1 o (c1_at o c g) B754_nan = Ok (nth 1 vals d).
Proof. intros prec emax Hp He o. exact (C33_proof_one_dim_nan prec emax Hp He). Qed.
Example C33_one_dim_ex : exists g, r1_new F64Ops plain (z64 1) (f64_lit 1 (-1)) hl_vals = Ok g /\
  nearest1 F64Ops (r1_at F64Ops plain g) inf64 = Err msg_num /\ left1 (r1_at F64Ops plain g) nan64 = Err msg_num.
Proof.
  destruct od_reg_new as (g & E). exists g. split; [exact E|]. split.
  - destruct (C33_one_dim_methods 53 1024 Hp64 He64 plain _ _ _ g inf64 E eq_refl) as (_ & _ & _ & _ & H). exact H.
  - destruct (C33_one_dim_methods 53 1024 Hp64 He64 plain _ _ _ g nan64 E eq_refl) as (_ & _ & H & _). exact H.
Qed.
Example C33_one_dim_nan_ex :
  hold_last1 F64Ops plain (c1_at F64Ops plain od_g) nan64 = Ok nan64 /\ right1 (c1_at F64Ops plain od_g) nan64 = Ok (z64 7).
Proof.
  destruct (C33_one_dim_rectilinear 53 1024 Hp64 He64 plain od_grid hl_vals od_g (z64 0)) as (_ & H1 & _ & H2 & _);
    [vm_compute; discriminate|reflexivity|]. split; [exact H1|exact H2].
Qed.
Print Assumptions C33_one_dim_methods.
Print Assumptions C33_one_dim_rectilinear.

(** * C72, one-dimensional grids *)
Theorem C72_one_dim_rectilinear :
  forall prec emax (Hp : Prec_gt_0 prec) (He : Prec_lt_emax prec emax), let o := BOps Hp He in
  forall c (grid vals vals' : list (binary_float prec emax)) g g' x, Forall2 negation vals vals' ->
  c1_new grid vals = Ok g -> c1_new grid vals' = Ok g' ->
  outcome_rel negation (linear1 o c (c1_at o c g) x) (linear1 o c (c1_at o c g') x) /\
  outcome_rel negation (hold_last1 o c (c1_at o c g) x) (hold_last1 o c (c1_at o c g') x) /\
  outcome_rel negation (left1 (c1_at o c g) x) (left1 (c1_at o c g') x) /\
  outcome_rel negation (right1 (c1_at o c g) x) (right1 (c1_at o c g') x) /\
  outcome_rel negation (nearest1 o (c1_at o c g) x) (nearest1 o (c1_at o c g') x).
Proof. intros prec emax Hp He o. exact (C72_proof_one_dim_rect prec emax Hp He). Qed.
Theorem C72_one_dim_regular :
  forall prec emax (Hp : Prec_gt_0 prec) (He : Prec_lt_emax prec emax), let o := BOps Hp He in
  forall c start step (vals vals' : list (binary_float prec emax)) g g' x, Forall2 negation vals vals' ->
  r1_new o c start step vals = Ok g -> r1_new o c start step vals' = Ok g' ->
  outcome_rel negation (linear1 o c (r1_at o c g) x) (linear1 o c (r1_at o c g') x) /\
  outcome_rel negation (hold_last1 o c (r1_at o c g) x) (hold_last1 o c (r1_at o c g') x) /\
  outcome_rel negation (left1 (r1_at o c g) x) (left1 (r1_at o c g') x) /\
  outcome_rel negation (right1 (r1_at o c g) x) (right1 (r1_at o c g') x) /\
  outcome_rel negation (nearest1 o (r1_at o c g) x) (nearest1 o (r1_at o c g') x).
Proof. intros prec emax Hp He o. exact (C72_proof_one_dim_reg prec emax Hp He). Qed.
Definition neg_hl : list f64 := map (@Bopp 53 1024) hl_vals.
Lemma neg_hl_negation : Forall2 negation hl_vals neg_hl.
Proof. unfold neg_hl, hl_vals. cbn [map]. repeat (apply Forall2_cons; [right; vm_compute; reflexivity|]). apply Forall2_nil. Qed.
Example C72_one_dim_ex :
  outcome_rel negation (linear1 F64Ops plain (c1_at F64Ops plain od_g) (f64_lit 5 (-1)))
    (linear1 F64Ops plain (c1_at F64Ops plain (mkC1 od_grid neg_hl)) (f64_lit 5 (-1))) /\
  ok_is (linear1 F64Ops plain (c1_at F64Ops plain (mkC1 od_grid neg_hl)) (f64_lit 5 (-1))) (f64_lit (-17) (-1)) = true.
Proof.
  split; [|vm_compute; reflexivity].
  destruct (C72_one_dim_rectilinear 53 1024 Hp64 He64 plain od_grid hl_vals neg_hl od_g (mkC1 od_grid neg_hl) (f64_lit 5 (-1)) neg_hl_negation)
    as (H & _); [reflexivity|reflexivity|exact H].
Qed.
Example C72_one_dim_regular_ex : exists g g', r1_new F64Ops plain (z64 1) (f64_lit 1 (-1)) hl_vals = Ok g /\
  r1_new F64Ops plain (z64 1) (f64_lit 1 (-1)) neg_hl = Ok g' /\
  outcome_rel negation (nearest1 F64Ops (r1_at F64Ops plain g) (z64 9)) (nearest1 F64Ops (r1_at F64Ops plain g') (z64 9)).
Proof.
  destruct od_reg_new as (g & E). destruct (@is_ok_ex _ (r1_new F64Ops plain (z64 1) (f64_lit 1 (-1)) neg_hl)) as (g' & E'); [vm_compute; reflexivity|].
  exists g, g'. split; [exact E|]. split; [exact E'|].
  destruct (C72_one_dim_regular 53 1024 Hp64 He64 plain (z64 1) (f64_lit 1 (-1)) hl_vals neg_hl g g' (z64 9) neg_hl_negation E E')
    as (_ & _ & _ & _ & H). exact H.
Qed.
Print Assumptions C72_one_dim_rectilinear.
Print Assumptions C72_one_dim_regular.

(** * C41: the recursive batch functions and those that allocate their result *)
Theorem C41_interpn_recursive : forall ov,
  mlrr_interpn ROps (mkCfg true ov) = mlrr_interpn ROps (mkCfg false ov) /\
  mlcr_interpn ROps (mkCfg true ov) = mlcr_interpn ROps (mkCfg false ov) /\
  mcrr_interpn ROps (mkCfg true ov) = mcrr_interpn ROps (mkCfg false ov) /\
  mccr_interpn ROps (mkCfg true ov) = mccr_interpn ROps (mkCfg false ov).
Proof. exact C41_proof_recursive. Qed.
Theorem C41_interpn_alloc : forall ov,
  mlr_interpn_alloc ROps (mkCfg true ov) = mlr_interpn_alloc ROps (mkCfg false ov) /\
  mlrr_interpn_alloc ROps (mkCfg true ov) = mlrr_interpn_alloc ROps (mkCfg false ov) /\
  mlc_interpn_alloc ROps (mkCfg true ov) = mlc_interpn_alloc ROps (mkCfg false ov) /\
  mlcr_interpn_alloc ROps (mkCfg true ov) = mlcr_interpn_alloc ROps (mkCfg false ov) /\
  nr_interpn_alloc ROps (mkCfg true ov) = nr_interpn_alloc ROps (mkCfg false ov) /\
  nc_interpn_alloc ROps (mkCfg true ov) = nc_interpn_alloc ROps (mkCfg false ov) /\
  mcr_interpn_alloc ROps (mkCfg true ov) = mcr_interpn_alloc ROps (mkCfg false ov) /\
  mcrr_interpn_alloc ROps (mkCfg true ov) = mcrr_interpn_alloc ROps (mkCfg false ov) /\
  mcc_interpn_alloc ROps (mkCfg true ov) = mcc_interpn_alloc ROps (mkCfg false ov) /\
  mccr_interpn_alloc ROps (mkCfg true ov) = mccr_interpn_alloc ROps (mkCfg false ov).
Proof. exact C41_proof_alloc. Qed.
Print Assumptions C41_interpn_recursive.
Print Assumptions C41_interpn_alloc.
