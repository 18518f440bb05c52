(** IEEE floating point: hold-last (C30), non-finite observations (C33), constant data (C34),
    grid nodes (C35), bounds (C36) and monotone cell search (C40, C44). [BOps Hp He] is IEEE
    arithmetic with round to nearest even in any precision and exponent range; binary32 and
    binary64 are the instances used by the library. *)
From Coq Require Import Reals Lra PeanoNat Bool.
From Flocq Require Import Core.Core IEEE754.BinarySingleNaN.
From Verif Require Import Base Ops RInst FInst ModelCore ModelLinear ModelNearest ModelCubic ModelOneDim.
From Verif Require Import Spec SpecOrder SpecIEEE.
From Verif Require Import GenLemmas FLemmas FProofs FProofs2 ExampleData.
Open Scope R_scope.
Unset Implicit Arguments.

(** * C30 on regular grids. An observation that cannot be placed (its cell number does not fit
    in a machine integer) is an error; every other one below the grid gives the first value and
    above the grid (beyond the last point as the library computes it) the last value. *)
Theorem C30_regular_ieee :
  forall prec emax (Hp : Prec_gt_0 prec) (He : Prec_lt_emax prec emax), let o := BOps Hp He in
  forall c (start h : binary_float prec emax) vals g x d,
  is_finite start = true -> is_finite h = true -> 0 < B2R h ->
  (2 <= zlen vals <= isize_max)%Z -> (zlen vals - 1 <= 2 ^ prec)%Z ->
  r1_new o c start h vals = Ok g ->
  (flt o x start = true ->
     hold_last1 o c (r1_at o c g) x = Ok (nth 0 vals d) \/ hold_last1 o c (r1_at o c g) x = Err msg_num) /\
  (forall m, of_usize o (zlen vals - 1) = Some m -> flt o (fadd o start (fmul o h m)) x = true ->
     hold_last1 o c (r1_at o c g) x = Ok (last vals d) \/ hold_last1 o c (r1_at o c g) x = Err msg_num).
Proof. intros prec emax Hp He o. exact (C30_proof_ieee prec emax Hp He). Qed.
(** Start 0, step 1/2, three points, observed at -3 and 7. *)
Definition hl_vals : list f64 := [z64 5; z64 7; z64 9].
Example C30_regular_ieee_ex : exists g, r1_new F64Ops fused (z64 0) (f64_lit 1 (-1)) hl_vals = Ok g /\
  hold_last1 F64Ops fused (r1_at F64Ops fused g) (z64 (-3)) = Ok (z64 5) /\
  hold_last1 F64Ops fused (r1_at F64Ops fused g) (z64 7) = Ok (z64 9).
Proof.
  destruct (@is_ok_ex _ (r1_new F64Ops fused (z64 0) (f64_lit 1 (-1)) hl_vals)) as (g & E); [vm_compute; reflexivity|].
  exists g. split; [exact E|].
  assert (K : forall x v, is_ok (match r1_new F64Ops fused (z64 0) (f64_lit 1 (-1)) hl_vals with
     | Ok g => hold_last1 F64Ops fused (r1_at F64Ops fused g) x | Err e => Err e | Panic => Panic end) = true ->
     (hold_last1 F64Ops fused (r1_at F64Ops fused g) x = Ok v \/ hold_last1 F64Ops fused (r1_at F64Ops fused g) x = Err msg_num) ->
     hold_last1 F64Ops fused (r1_at F64Ops fused g) x = Ok v).
  { intros x v H [K|K]; auto. rewrite E, K in H. discriminate. }
  assert (T := fun x => C30_regular_ieee _ _ Hp64 He64 fused (z64 0) (f64_lit 1 (-1)) hl_vals g x (z64 0)
    eq_refl eq_refl ltac:(unfold f64_lit; simpl; unfold F2R; simpl; lra) ltac:(split; vm_compute; discriminate)
    ltac:(vm_compute; discriminate) E).
  split.
  - apply K; [vm_compute; reflexivity|]. apply T. vm_compute. reflexivity.
  - apply K; [vm_compute; reflexivity|].
    destruct (T (z64 7)) as (_ & T2). refine (T2 (f64_lit 2 0) _ _).
    + unfold of_usize. reflexivity.
    + vm_compute. reflexivity.
Qed.
Print Assumptions C30_regular_ieee.

(** * C33: a NaN or infinite coordinate. On a regular grid it is an error from every method;
    the cubic method may instead hit its overflow panic (C13) on another coordinate, in a build
    with overflow checks. *)
Theorem C33_linear_regular :
  forall prec emax (Hp : Prec_gt_0 prec) (He : Prec_lt_emax prec emax),
  forall c dims starts steps vals eval x (v : binary_float prec emax),
  float_regular Hp He c dims starts steps vals eval ->
  length x = length dims -> In v x -> is_finite v = false -> eval x = Err msg_repr.
Proof. exact C33_proof_regular. Qed.
Theorem C33_nearest_regular :
  forall prec emax (Hp : Prec_gt_0 prec) (He : Prec_lt_emax prec emax), let o := BOps Hp He in
  forall c dims starts steps vals s x (v : binary_float prec emax),
  reg_input c dims starts steps vals -> nr_new o c dims starts steps vals = Ok s ->
  length x = length dims -> In v x -> is_finite v = false -> nr_interp_one o c s x = Err msg_repr.
Proof. intros prec emax Hp He o. exact (C33_proof_nearest_regular prec emax Hp He). Qed.
Theorem C33_cubic_regular :
  forall prec emax (Hp : Prec_gt_0 prec) (He : Prec_lt_emax prec emax), let o := BOps Hp He in
  forall c dims starts steps vals lin s x (v : binary_float prec emax),
  reg_input c dims starts steps vals -> mcr_new o c dims starts steps vals lin = Ok s ->
  length x = length dims -> In v x -> is_finite v = false ->
  mcr_interp_one o c s x = Err msg_repr \/ (ovf_checks c = true /\ mcr_interp_one o c s x = Panic).
Proof. intros prec emax Hp He o. exact (C33_proof_cubic_regular prec emax Hp He). Qed.
Theorem C33_cubic_regular_recursive :
  forall prec emax (Hp : Prec_gt_0 prec) (He : Prec_lt_emax prec emax), let o := BOps Hp He in
  forall c m dims starts steps vals lin s x (v : binary_float prec emax),
  reg_input c dims starts steps vals -> mcrr_new o c m dims starts steps vals lin = Ok s ->
  length x = length dims -> In v x -> is_finite v = false ->
  mcrr_interp_one o c m s x = Err msg_repr \/ (ovf_checks c = true /\ mcrr_interp_one o c m s x = Panic).
Proof. intros prec emax Hp He o. exact (C33_proof_cubic_regular_recursive prec emax Hp He). Qed.
Theorem C33_one_dim_regular :
  forall prec emax (Hp : Prec_gt_0 prec) (He : Prec_lt_emax prec emax), let o := BOps Hp He in
  forall c start h vals g (x : binary_float prec emax),
  r1_new o c start h vals = Ok g -> is_finite x = false -> r1_at o c g x = Err msg_num.
Proof. intros prec emax Hp He o. exact (C33_proof_one_dim prec emax Hp He). Qed.
(** On a rectilinear grid a NaN coordinate makes the linear and cubic results NaN, whatever the
    grid and the values are; the nearest method returns a stored value for every observation. *)
Theorem C33_linear_rectilinear :
  forall prec emax (Hp : Prec_gt_0 prec) (He : Prec_lt_emax prec emax),
  forall c grids vals eval (x : list (binary_float prec emax)),
  float_rectilinear Hp He c grids vals eval ->
  length x = length grids -> In B754_nan x -> eval x = Ok B754_nan.
Proof. exact C33_proof_rectilinear_nan. Qed.
Theorem C33_cubic_rectilinear :
  forall prec emax (Hp : Prec_gt_0 prec) (He : Prec_lt_emax prec emax), let o := BOps Hp He in
  forall c grids vals lin s (x : list (binary_float prec emax)),
  rect_input c grids vals -> mcc_new o c grids vals lin = Ok s ->
  length x = length grids -> In B754_nan x -> mcc_interp_one o c s x = Ok B754_nan.
Proof. intros prec emax Hp He o. exact (C33_proof_cubic_nan prec emax Hp He). Qed.
Theorem C33_cubic_rectilinear_recursive :
  forall prec emax (Hp : Prec_gt_0 prec) (He : Prec_lt_emax prec emax), let o := BOps Hp He in
  forall c m grids vals lin s (x : list (binary_float prec emax)),
  rect_input c grids vals -> mccr_new o c m grids vals lin = Ok s ->
  length x = length grids -> In B754_nan x -> mccr_interp_one o c m s x = Ok B754_nan.
Proof. intros prec emax Hp He o. exact (C33_proof_cubic_nan_recursive prec emax Hp He). Qed.
Theorem C33_nearest_rectilinear :
  forall prec emax (Hp : Prec_gt_0 prec) (He : Prec_lt_emax prec emax), let o := BOps Hp He in
  forall c grids vals s (x : list (binary_float prec emax)),
  rect_input c grids vals -> nc_new o c grids vals = Ok s ->
  length x = length grids -> exists v, nc_interp_one o c s x = Ok v /\ In v vals.
Proof. intros prec emax Hp He o. exact (C33_proof_nearest_stored prec emax Hp He). Qed.

Definition inf64 : f64 := B754_infinity false.
Definition nan64 : f64 := B754_nan.
Example C33_regular_ex :
  mlr_interp_one F64Ops plain lin_s [inf64; z64 1] = Err msg_repr /\
  mlr_interp_one F64Ops plain lin_s [z64 0; nan64] = Err msg_repr /\
  nr_interp_one F64Ops plain lin_s [z64 0; nan64] = Err msg_repr.
Proof.
  assert (E : float_regular Hp64 He64 plain lin_dims lin_starts lin_steps lin_vals (mlr_interp_one F64Ops plain lin_s)).
  { apply float_regular_flat; [apply lin_input|apply lin_new]. }
  split; [|split].
  - apply (C33_linear_regular _ _ Hp64 He64 _ _ _ _ _ _ _ inf64 E); [reflexivity|left; reflexivity|reflexivity].
  - apply (C33_linear_regular _ _ Hp64 He64 _ _ _ _ _ _ _ nan64 E); [reflexivity|right; left; reflexivity|reflexivity].
  - apply (C33_nearest_regular _ _ Hp64 He64 plain lin_dims lin_starts lin_steps lin_vals lin_s _ nan64);
      [apply lin_input|apply lin_new|reflexivity|right; left; reflexivity|reflexivity].
Qed.
(** A cubic evaluation that reports the error, and one that panics because of the first coordinate. *)
Example C33_cubic_ex :
  mcr_interp_one F64Ops plain (cub_s true) [z64 0; nan64] = Err msg_repr /\
  mcr_interp_one F64Ops plain (cub_s true) [f64_lit (-1) 63; nan64] = Panic.
Proof. split; vm_compute; reflexivity. Qed.
Example C33_one_dim_ex : exists g, r1_new F64Ops plain (z64 0) (f64_lit 1 (-1)) hl_vals = Ok g /\
  r1_at F64Ops plain g nan64 = Err msg_num.
Proof.
  destruct (@is_ok_ex _ (r1_new F64Ops plain (z64 0) (f64_lit 1 (-1)) hl_vals)) as (g & E); [vm_compute; reflexivity|].
  exists g. split; [exact E|]. apply (C33_one_dim_regular _ _ Hp64 He64 _ _ _ _ _ _ E). reflexivity.
Qed.
Lemma lin_frect : float_rectilinear Hp64 He64 plain lin_grids lin_vals (mlc_interp_one F64Ops plain lin_g).
Proof. apply float_rectilinear_flat; [apply lin_rinput|apply lin_gnew]. Qed.
Example C33_rectilinear_ex :
  mlc_interp_one F64Ops plain lin_g [nan64; z64 2] = Ok nan64 /\
  mcc_interp_one F64Ops plain (cub_g false) [z64 2; nan64] = Ok nan64 /\
  exists v, nc_interp_one F64Ops plain lin_g [nan64; inf64] = Ok v /\ In v lin_vals.
Proof.
  split; [|split].
  - apply (C33_linear_rectilinear _ _ Hp64 He64 _ _ _ _ _ lin_frect); [reflexivity|left; reflexivity].
  - apply (C33_cubic_rectilinear _ _ Hp64 He64 plain cub_grids cub_vals false);
      [apply cub_rinput|apply cub_gnew|reflexivity|right; left; reflexivity].
  - apply (C33_nearest_rectilinear _ _ Hp64 He64 plain lin_grids lin_vals); [apply lin_rinput|apply lin_gnew|reflexivity].
Qed.
Print Assumptions C33_linear_regular.
Print Assumptions C33_nearest_regular.
Print Assumptions C33_cubic_regular.
Print Assumptions C33_cubic_regular_recursive.
Print Assumptions C33_one_dim_regular.
Print Assumptions C33_linear_rectilinear.
Print Assumptions C33_cubic_rectilinear.
Print Assumptions C33_cubic_rectilinear_recursive.
Print Assumptions C33_nearest_rectilinear.

(** * C34: constant data. All values equal the real number r, as floats (zeros may have either
    sign). *)
Theorem C34_rectilinear :
  forall prec emax (Hp : Prec_gt_0 prec) (He : Prec_lt_emax prec emax),
  forall c grids vals eval (x : list (binary_float prec emax)) r,
  float_rectilinear Hp He c grids vals eval -> length x = length grids ->
  Forall (increasing_grid (BOps Hp He)) grids -> Forall2 (rect_position_finite Hp He) grids x ->
  Forall (fun v => is_real v r) vals ->
  exists v, eval x = Ok v /\ is_real v r.
Proof. exact C34_proof_rectilinear. Qed.
(** In particular at every point of the grid box, if coordinates are below a quarter of the
    overflow threshold. *)
Theorem C34_inside :
  forall prec emax (Hp : Prec_gt_0 prec) (He : Prec_lt_emax prec emax),
  forall c grids vals eval (x : list (binary_float prec emax)) r,
  float_rectilinear Hp He c grids vals eval -> length x = length grids ->
  Forall (increasing_grid (BOps Hp He)) grids -> Forall (Forall moderate) grids ->
  Forall2 (inside_grid Hp He) grids x -> Forall (fun v => is_real v r) vals ->
  exists v, eval x = Ok v /\ is_real v r.
Proof. exact C34_proof_inside. Qed.
Theorem C34_regular :
  forall prec emax (Hp : Prec_gt_0 prec) (He : Prec_lt_emax prec emax),
  forall c dims starts steps vals eval (x : list (binary_float prec emax)) r v,
  float_regular Hp He c dims starts steps vals eval -> length x = length dims ->
  (forall k start h d xk, nth_error starts k = Some start -> nth_error steps k = Some h ->
     nth_error dims k = Some d -> nth_error x k = Some xk -> reg_position_finite Hp He start h d xk) ->
  Forall (fun v => is_real v r) vals -> eval x = Ok v -> is_real v r.
Proof. exact C34_proof_regular. Qed.
Print Assumptions C34_rectilinear.
Print Assumptions C34_inside.
Print Assumptions C34_regular.

(** The binary64 number nearest to 1/10. *)
Definition tenth : f64 := f64_lit 3602879701896397 (-55).
Definition const_vals : list f64 := [tenth; tenth; tenth; tenth; tenth; tenth].
Ltac inc_grid := let i := fresh in let j := fresh in intros [|[|[|[|[|i]]]]] [|[|[|[|[|j]]]]] ? ? ? Ha Hb;
  try lia; simpl in Ha, Hb; try (destruct i; discriminate); try (destruct j; discriminate);
  inversion Ha; inversion Hb; subst; vm_compute; reflexivity.
Lemma lin_inc : Forall (increasing_grid F64Ops) lin_grids.
Proof. repeat (constructor; [inc_grid|]). constructor. Qed.
Lemma moderate_small (v : f64) : is_finite v = true -> -1000 <= B2R v <= 1000 -> moderate v.
Proof.
  intros F B. split; [exact F|]. apply Rle_trans with (bpow radix2 10); [|apply bpow_le; vm_compute; discriminate].
  change (bpow radix2 10) with (IZR 1024). apply Rabs_le. lra.
Qed.
Ltac real_lit := unfold z64, f64_lit; simpl; unfold F2R; simpl; lra.
Ltac mod_ok := apply moderate_small; [reflexivity|real_lit].
Lemma lin_mod : Forall (Forall moderate) lin_grids.
Proof. unfold lin_grids. repeat (apply Forall_cons; [repeat (apply Forall_cons; [mod_ok|]); apply Forall_nil|]). apply Forall_nil. Qed.
Lemma inside_by (g : list f64) x : is_finite x = true ->
  match hd_error g with Some a => fle F64Ops a x | None => true end = true ->
  match hd_error (rev g) with Some b => fle F64Ops x b | None => true end = true ->
  inside_grid Hp64 He64 g x.
Proof.
  unfold f64 in *. intros F A B. split; [exact F|].
  split; [intros a E; rewrite E in A; exact A|intros b E; rewrite E in B; exact B].
Qed.
Ltac inside_ok := repeat (apply Forall2_cons; [apply inside_by; vm_compute; reflexivity|]); apply Forall2_nil.
Example C34_ex : exists s v, mlc_new F64Ops fused lin_grids const_vals = Ok s /\
  mlc_interp_one F64Ops fused s [tenth; z64 2] = Ok v /\ is_real v (B2R tenth).
Proof.
  destruct (@is_ok_ex _ (mlc_new F64Ops fused lin_grids const_vals)) as (s & E); [vm_compute; reflexivity|].
  assert (I : rect_input fused lin_grids const_vals) by rect_ok.
  destruct (C34_inside _ _ Hp64 He64 fused lin_grids const_vals (mlc_interp_one F64Ops fused s) [tenth; z64 2] (B2R tenth))
    as (v & H1 & H2).
  - apply float_rectilinear_flat; assumption.
  - reflexivity.
  - apply lin_inc.
  - apply lin_mod.
  - inside_ok.
  - repeat (apply Forall_cons; [split; reflexivity|]). apply Forall_nil.
  - exists s, v. auto.
Qed.
(** Regular grid, observed far outside. *)
Example C34_regular_ex : exists s v, mlr_new F64Ops fused lin_dims lin_starts lin_steps const_vals = Ok s /\
  mlr_interp_one F64Ops fused s [z64 77; z64 (-9)] = Ok v /\ is_real v (B2R tenth).
Proof.
  destruct (@is_ok_ex _ (mlr_new F64Ops fused lin_dims lin_starts lin_steps const_vals)) as (s & E); [vm_compute; reflexivity|].
  assert (I : reg_input fused lin_dims lin_starts lin_steps const_vals) by reg_ok.
  destruct (@is_ok_ex _ (mlr_interp_one F64Ops fused s [z64 77; z64 (-9)])) as (v & Ev).
  { destruct (mlr_new_inv F64Ops I E) as (_ & ->). vm_compute. reflexivity. }
  exists s, v. split; [exact E|split; [exact Ev|]].
  eapply (C34_regular _ _ Hp64 He64 fused lin_dims lin_starts lin_steps const_vals (mlr_interp_one F64Ops fused s) [z64 77; z64 (-9)]);
    [apply float_regular_flat; assumption|reflexivity| | |exact Ev].
  - intros [|[|[|k]]] start h d xk Hs Hh Hd Hx; simpl in Hs, Hh, Hd, Hx; try discriminate.
    + injection Hs as <-; injection Hh as <-; injection Hd as <-; injection Hx as <-.
      intros q fma a Hq Ha. assert (q = 154%Z) as -> by (vm_compute in Hq; congruence).
      unfold reg_node in Ha. cbn [of_usize BOps option_map] in Ha. injection Ha as <-. destruct fma; vm_compute; reflexivity.
    + injection Hs as <-; injection Hh as <-; injection Hd as <-; injection Hx as <-.
      intros q fma a Hq Ha. assert (q = (-5)%Z) as -> by (vm_compute in Hq; congruence).
      unfold reg_node in Ha. cbn [of_usize BOps option_map] in Ha. injection Ha as <-. destruct fma; vm_compute; reflexivity.
  - repeat (apply Forall_cons; [split; reflexivity|]). apply Forall_nil.
Qed.

(** * C35: grid nodes. The full claim is false on both grid kinds. *)
Definition returns_nodes_rectilinear : Prop :=
  forall c grids vals eval idx, float_rectilinear Hp64 He64 c grids vals eval ->
  Forall (increasing_grid F64Ops) grids -> Forall (Forall moderate) grids ->
  Forall (fun v : f64 => is_finite v = true) vals -> in_shape (map zlen grids) idx ->
  exists v, eval (grid_point (fzero F64Ops) grids idx) = Ok v /\
    is_real v (B2R (entry (fzero F64Ops) (map zlen grids) vals idx)).
(** Values 10^16 and 1 on the grid 0, 1: the result at the second node is 0. *)
Definition big_grid : list (list f64) := [[z64 0; z64 1]].
Definition big_vals : list f64 := [f64_lit 152587890625 16; z64 1].
Theorem C35_rectilinear_refuted : ~ returns_nodes_rectilinear.
Proof.
  intros H.
  destruct (@is_ok_ex _ (mlc_new F64Ops plain big_grid big_vals)) as (s & E); [vm_compute; reflexivity|].
  assert (I : rect_input plain big_grid big_vals) by rect_ok.
  destruct (H plain big_grid big_vals (mlc_interp_one F64Ops plain s) [1%Z]) as (v & Ev & Fv & Rv).
  - apply float_rectilinear_flat; assumption.
  - repeat (constructor; [inc_grid|]). constructor.
  - repeat (apply Forall_cons; [repeat (apply Forall_cons; [mod_ok|]); apply Forall_nil|]). apply Forall_nil.
  - repeat (apply Forall_cons; [reflexivity|]). apply Forall_nil.
  - repeat constructor; simpl; lia.
  - assert (K : ok_is (mlc_interp_one F64Ops plain s [z64 1]) (z64 0) = true).
    { destruct (mlc_new_inv F64Ops I E) as (_ & ->). vm_compute. reflexivity. }
    change (grid_point (fzero F64Ops) big_grid [1%Z]) with [z64 1] in Ev. rewrite Ev in K. simpl in K.
    rewrite Beqb_correct in K by (auto; reflexivity). revert K. case Req_bool_spec; [|discriminate].
    rewrite Rv. change (entry (fzero F64Ops) (map zlen big_grid) big_vals [1%Z]) with (z64 1). intros K _.
    revert K. unfold z64, f64_lit. simpl. unfold F2R. simpl. lra.
Qed.
(** Regular: start 0, step 1/10, four points with values 0, 0, 0, 1. The fourth node, as the
    library computes it, gives a value different from 1. *)
Definition returns_nodes_regular : Prop :=
  forall c dims starts steps vals eval idx x v, float_regular Hp64 He64 c dims starts steps vals eval ->
  Forall moderate starts -> Forall moderate steps -> Forall (fun v : f64 => is_finite v = true) vals ->
  in_shape dims idx -> length x = length dims ->
  (forall k start h i xk, nth_error starts k = Some start -> nth_error steps k = Some h ->
     nth_error idx k = Some i -> nth_error x k = Some xk -> reg_node Hp64 He64 (use_fma c) start h i = Some xk) ->
  eval x = Ok v -> is_real v (B2R (entry (fzero F64Ops) dims vals idx)).
Definition tick_vals : list f64 := [z64 0; z64 0; z64 0; z64 1].
Definition tick_node : f64 := fadd F64Ops (z64 0) (fmul F64Ops tenth (z64 3)).
Theorem C35_regular_refuted : ~ returns_nodes_regular.
Proof.
  intros H.
  destruct (@is_ok_ex _ (mlr_new F64Ops plain [4%Z] [z64 0] [tenth] tick_vals)) as (s & E); [vm_compute; reflexivity|].
  assert (I : reg_input plain [4%Z] [z64 0] [tenth] tick_vals) by reg_ok.
  assert (K : is_ok (mlr_interp_one F64Ops plain s [tick_node]) = true /\
     ok_is (mlr_interp_one F64Ops plain s [tick_node]) (z64 1) = false).
  { destruct (mlr_new_inv F64Ops I E) as (_ & ->). split; vm_compute; reflexivity. }
  destruct K as (K1 & K2). apply is_ok_ex in K1 as (v & Ev).
  assert (T : is_real v (B2R (z64 1))).
  { apply (H plain [4%Z] [z64 0] [tenth] tick_vals (mlr_interp_one F64Ops plain s) [3%Z] [tick_node] v).
    - apply float_regular_flat; assumption.
    - repeat (apply Forall_cons; [mod_ok|]). apply Forall_nil.
    - repeat (apply Forall_cons; [mod_ok|]). apply Forall_nil.
    - repeat (apply Forall_cons; [reflexivity|]). apply Forall_nil.
    - repeat constructor; simpl; lia.
    - reflexivity.
    - intros [|[|k]] start h i xk Hs Hh Hi Hx; try discriminate Hi.
      + injection Hs as <-. injection Hh as <-. injection Hi as <-. injection Hx as <-. reflexivity.
    - exact Ev. }
  rewrite Ev in K2. simpl in K2. destruct T as (Fv & Rv).
  rewrite Beqb_correct in K2 by (auto; reflexivity). rewrite Rv in K2.
  revert K2. case Req_bool_spec; [discriminate|]. intros K. elim K. reflexivity.
Qed.
(** What holds. Rectilinear grids: the stored value is returned (as a number) when the
    difference of any two values is exact, e.g. for integers up to 2^(prec-1). Missing: values
    with inexact differences. *)
Theorem C35_rectilinear_partial :
  forall prec emax (Hp : Prec_gt_0 prec) (He : Prec_lt_emax prec emax), let o := BOps Hp He in
  forall c grids vals eval idx, float_rectilinear Hp He c grids vals eval ->
  Forall (increasing_grid o) grids -> Forall (Forall (@moderate prec emax)) grids ->
  Forall (fun v : binary_float prec emax => is_finite v = true) vals -> exact_differences Hp He vals ->
  in_shape (map zlen grids) idx ->
  exists v, eval (grid_point (fzero o) grids idx) = Ok v /\
    is_real v (B2R (entry (fzero o) (map zlen grids) vals idx)).
Proof. intros prec emax Hp He o. exact (C35_proof_rectilinear prec emax Hp He). Qed.
(** Regular grids: also the coordinates of the axes must be exact. *)
Theorem C35_regular_partial :
  forall prec emax (Hp : Prec_gt_0 prec) (He : Prec_lt_emax prec emax), let o := BOps Hp He in
  forall c dims starts steps vals eval idx (x : list (binary_float prec emax)) v,
  float_regular Hp He c dims starts steps vals eval ->
  Forall (fun s : binary_float prec emax => is_finite s = true) starts ->
  Forall (fun h : binary_float prec emax => is_finite h = true) steps ->
  Forall (fun d => d <= 2 ^ prec)%Z dims ->
  (forall k start h d, nth_error starts k = Some start -> nth_error steps k = Some h -> nth_error dims k = Some d ->
     exact_axis start h d) ->
  Forall (fun v : binary_float prec emax => is_finite v = true) vals -> exact_differences Hp He vals ->
  in_shape dims idx -> length x = length dims ->
  (forall k start h i xk, nth_error starts k = Some start -> nth_error steps k = Some h -> nth_error idx k = Some i ->
     nth_error x k = Some xk -> is_real xk (B2R start + B2R h * IZR i)) ->
  eval x = Ok v -> is_real v (B2R (entry (fzero o) dims vals idx)).
Proof. intros prec emax Hp He o. exact (C35_proof_regular prec emax Hp He). Qed.

(** The hypothesis on the values holds for integers, or multiples of any power of two 2^e, with
    fewer than [prec] bits. *)
Theorem C35_exact_differences :
  forall prec emax (Hp : Prec_gt_0 prec) (He : Prec_lt_emax prec emax),
  forall e (vals : list (binary_float prec emax)), (3 - emax - prec <= e)%Z -> (e + prec <= emax)%Z ->
  Forall (fun v => is_finite v = true /\ exists m, (Z.abs m < 2 ^ (prec - 1))%Z /\ B2R v = IZR m * bpow radix2 e) vals ->
  exact_differences Hp He vals.
Proof. exact scaled_differences. Qed.
Lemma lin_exact_diff : exact_differences Hp64 He64 lin_vals.
Proof.
  apply (C35_exact_differences _ _ Hp64 He64 (-3)); [vm_compute; discriminate|vm_compute; discriminate|].
  assert (K : forall (v : f64) m, is_finite v = true -> (Z.abs m < 2 ^ 52)%Z -> B2R v = IZR m * / 8 ->
    is_finite v = true /\ exists m, (Z.abs m < 2 ^ (53 - 1))%Z /\ B2R v = IZR m * bpow radix2 (-3)).
  { intros v m F B R. split; [exact F|]. exists m. split; [exact B|]. rewrite R. reflexivity. }
  unfold lin_vals. repeat apply Forall_cons; [apply (K _ 8%Z)|apply (K _ 20%Z)|apply (K _ 32%Z)
    |apply (K _ (-56)%Z)|apply (K _ 88%Z)|apply (K _ 3%Z)|apply Forall_nil]; try reflexivity; real_lit.
Qed.
Example C35_ex : exists v, mlc_interp_one F64Ops plain lin_g [z64 2; z64 1] = Ok v /\ is_real v (B2R (z64 11)).
Proof.
  apply (C35_rectilinear_partial _ _ Hp64 He64 plain lin_grids lin_vals _ [2%Z; 0%Z] lin_frect lin_inc lin_mod).
  - repeat (apply Forall_cons; [reflexivity|]). apply Forall_nil.
  - apply lin_exact_diff.
  - repeat constructor; simpl; lia.
Qed.
(** Binary fractions as coordinates. *)
Example C35_regular_ex : exists v, mlr_interp_one F64Ops plain lin_s [z64 1; z64 1] = Ok v /\ is_real v (B2R (z64 11)).
Proof.
  destruct (@is_ok_ex _ (mlr_interp_one F64Ops plain lin_s [z64 1; z64 1])) as (v & Ev); [vm_compute; reflexivity|].
  exists v. split; [exact Ev|].
  refine (C35_regular_partial _ _ Hp64 He64 plain lin_dims lin_starts lin_steps lin_vals (mlr_interp_one F64Ops plain lin_s)
    [2%Z; 0%Z] [z64 1; z64 1] v _ _ _ _ _ _ _ _ _ _ Ev).
  - apply float_regular_flat; [apply lin_input|apply lin_new].
  - repeat (apply Forall_cons; [reflexivity|]). apply Forall_nil.
  - repeat (apply Forall_cons; [reflexivity|]). apply Forall_nil.
  - repeat (apply Forall_cons; [vm_compute; discriminate|]). apply Forall_nil.
  - intros [|[|[|k]]] start h d Hs Hh Hd; try discriminate Hd.
    + injection Hs as <-. injection Hh as <-. injection Hd as <-. intros i Hi.
      assert (i = 0 \/ i = 1 \/ i = 2)%Z as [-> | [-> | ->]] by lia;
        [exists (z64 0), (z64 0)|exists (f64_lit 1 (-1)), (f64_lit 1 (-1))|exists (z64 1), (z64 1)]; split; real_lit.
    + injection Hs as <-. injection Hh as <-. injection Hd as <-. intros i Hi.
      assert (i = 0 \/ i = 1)%Z as [-> | ->] by lia;
        [exists (z64 0), (z64 1)|exists (z64 2), (z64 3)]; split; real_lit.
  - repeat (apply Forall_cons; [reflexivity|]). apply Forall_nil.
  - apply lin_exact_diff.
  - repeat constructor; simpl; lia.
  - reflexivity.
  - intros [|[|[|k]]] start h i xk Hs Hh Hi Hx; try discriminate Hi.
    + injection Hs as <-. injection Hh as <-. injection Hi as <-. injection Hx as <-. split; [reflexivity|real_lit].
    + injection Hs as <-. injection Hh as <-. injection Hi as <-. injection Hx as <-. split; [reflexivity|real_lit].
Qed.
Print Assumptions C35_rectilinear_refuted.
Print Assumptions C35_regular_refuted.
Print Assumptions C35_rectilinear_partial.
Print Assumptions C35_regular_partial.
Print Assumptions C35_exact_differences.

(** * C36: the result stays between the corner values. False: with values 10^16 and 1 the
    result at the second node is 0. *)
Definition stays_between : Prop :=
  forall c grids vals eval x lo hi, float_rectilinear Hp64 He64 c grids vals eval ->
  Forall (increasing_grid F64Ops) grids -> Forall (Forall moderate) grids ->
  Forall (fun v : f64 => is_finite v = true /\ lo <= B2R v <= hi) vals ->
  length x = length grids -> Forall2 (inside_grid Hp64 He64) grids x ->
  exists v, eval x = Ok v /\ lo <= B2R v <= hi.
Theorem C36_refuted : ~ stays_between.
Proof.
  intros H.
  destruct (@is_ok_ex _ (mlc_new F64Ops plain big_grid big_vals)) as (s & E); [vm_compute; reflexivity|].
  assert (I : rect_input plain big_grid big_vals) by rect_ok.
  assert (Z1 : B2R (z64 1) = 1) by real_lit.
  assert (Z2 : B2R (f64_lit 152587890625 16) = 10000000000000000) by real_lit.
  destruct (H plain big_grid big_vals (mlc_interp_one F64Ops plain s) [z64 1] 1 10000000000000000) as (v & Ev & Rv).
  - apply float_rectilinear_flat; assumption.
  - repeat (constructor; [inc_grid|]). constructor.
  - repeat (apply Forall_cons; [repeat (apply Forall_cons; [mod_ok|]); apply Forall_nil|]). apply Forall_nil.
  - apply Forall_cons; [split; [reflexivity|rewrite Z2; lra]|]. apply Forall_cons; [split; [reflexivity|rewrite Z1; lra]|].
    apply Forall_nil.
  - reflexivity.
  - inside_ok.
  - assert (K : ok_is (mlc_interp_one F64Ops plain s [z64 1]) (z64 0) = true).
    { destruct (mlc_new_inv F64Ops I E) as (_ & ->). vm_compute. reflexivity. }
    rewrite Ev in K. simpl in K. destruct v as [b|b| |b m e Hb]; simpl in K, Rv; try lra; try (destruct b; discriminate).
Qed.
Print Assumptions C36_refuted.

(** * C40: the cell search on a regular grid is monotone: of two observations that can both be
    placed, the larger is never in a lower cell. For the nearest method the constructor and the
    search are those of the linear one. *)
Theorem C40_linear :
  forall prec emax (Hp : Prec_gt_0 prec) (He : Prec_lt_emax prec emax), let o := BOps Hp He in
  forall c dims starts steps vals s k (a b : binary_float prec emax) i j,
  reg_input c dims starts steps vals -> mlr_new o c dims starts steps vals = Ok s ->
  (k < length dims)%nat -> fle o a b = true ->
  reg_get_loc o s a k = Ok i -> reg_get_loc o s b k = Ok j -> (i <= j)%Z.
Proof. intros prec emax Hp He o. exact (C40_proof_linear prec emax Hp He). Qed.
Theorem C40_linear_recursive :
  forall prec emax (Hp : Prec_gt_0 prec) (He : Prec_lt_emax prec emax), let o := BOps Hp He in
  forall c m dims starts steps vals s k (a b : binary_float prec emax) i j,
  reg_input c dims starts steps vals -> mlrr_new o c m dims starts steps vals = Ok s ->
  (k < length dims)%nat -> fle o a b = true ->
  reg_get_loc o s a k = Ok i -> reg_get_loc o s b k = Ok j -> (i <= j)%Z.
Proof. intros prec emax Hp He o. exact (C40_proof_linear_recursive prec emax Hp He). Qed.
Theorem C40_nearest :
  forall prec emax (Hp : Prec_gt_0 prec) (He : Prec_lt_emax prec emax), let o := BOps Hp He in
  forall c dims starts steps vals s k (a b : binary_float prec emax) i j,
  reg_input c dims starts steps vals -> nr_new o c dims starts steps vals = Ok s ->
  (k < length dims)%nat -> fle o a b = true ->
  reg_get_loc o s a k = Ok i -> reg_get_loc o s b k = Ok j -> (i <= j)%Z.
Proof. intros prec emax Hp He o. exact (C40_proof_linear prec emax Hp He). Qed.
Theorem C40_one_dim :
  forall prec emax (Hp : Prec_gt_0 prec) (He : Prec_lt_emax prec emax), let o := BOps Hp He in
  forall c start h vals g (a b : binary_float prec emax) i ei j ej,
  (2 <= zlen vals <= isize_max)%Z -> flt o (fzero o) h = true -> r1_new o c start h vals = Ok g -> fle o a b = true ->
  r1_index o c g a = Ok (i, ei) -> r1_index o c g b = Ok (j, ej) -> (i <= j)%Z.
Proof. intros prec emax Hp He o. exact (C40_proof_one_dim prec emax Hp He). Qed.
Example C40_ex : fle F64Ops tenth (z64 7) = true /\
  reg_get_loc F64Ops lin_s tenth 0 = Ok 0%Z /\ reg_get_loc F64Ops lin_s (z64 7) 0 = Ok 1%Z /\ (0 <= 1)%Z.
Proof.
  assert (A : reg_get_loc F64Ops lin_s tenth 0 = Ok 0%Z) by (vm_compute; reflexivity).
  assert (B : reg_get_loc F64Ops lin_s (z64 7) 0 = Ok 1%Z) by (vm_compute; reflexivity).
  split; [vm_compute; reflexivity|]. split; [exact A|]. split; [exact B|].
  refine (C40_linear _ _ Hp64 He64 plain lin_dims lin_starts lin_steps lin_vals lin_s 0 tenth (z64 7) _ _ _ _ _ _ A B);
    [apply lin_input|apply lin_new|simpl; lia|vm_compute; reflexivity].
Qed.
Example C40_one_dim_ex : exists g, r1_new F64Ops plain (z64 0) tenth hl_vals = Ok g /\
  exists i j ei ej, r1_index F64Ops plain g (f64_lit 1 (-4)) = Ok (i, ei) /\ r1_index F64Ops plain g (z64 3) = Ok (j, ej) /\ (i <= j)%Z.
Proof.
  destruct (@is_ok_ex _ (r1_new F64Ops plain (z64 0) tenth hl_vals)) as (g & E); [vm_compute; reflexivity|].
  exists g. split; [exact E|].
  assert (K : match r1_new F64Ops plain (z64 0) tenth hl_vals with
    | Ok g => is_ok (r1_index F64Ops plain g (f64_lit 1 (-4))) && is_ok (r1_index F64Ops plain g (z64 3)) | _ => false end = true)
    by (vm_compute; reflexivity).
  rewrite E in K. apply andb_prop in K as (K1 & K2). apply is_ok_ex in K1 as ((i & ei) & K1). apply is_ok_ex in K2 as ((j & ej) & K2).
  exists i, j, ei, ej. split; [exact K1|]. split; [exact K2|].
  refine (C40_one_dim _ _ Hp64 He64 plain (z64 0) tenth hl_vals g (f64_lit 1 (-4)) (z64 3) i ei j ej _ _ E _ K1 K2);
    [split; vm_compute; discriminate|vm_compute; reflexivity|vm_compute; reflexivity].
Qed.
Print Assumptions C40_linear.
Print Assumptions C40_linear_recursive.
Print Assumptions C40_nearest.
Print Assumptions C40_one_dim.

(** * C44: the same for the cubic method, whose search also decides on which side of the grid the
    observation is. False in a build without overflow checks: an observation with cell number
    -2^63 is taken to be above the grid. *)
Definition cubic_search_monotone (c : cfg) : Prop :=
  forall dims starts steps vals lin s k (a b : f64) i sa j sb,
  reg_input c dims starts steps vals -> mcr_new F64Ops c dims starts steps vals lin = Ok s ->
  (k < length dims)%nat -> fle F64Ops a b = true ->
  creg_get_loc F64Ops c (cr_base s) a k = Ok (i, sa) -> creg_get_loc F64Ops c (cr_base s) b k = Ok (j, sb) ->
  (i <= j)%Z /\ (sat_rank sa <= sat_rank sb)%Z.
Theorem C44_refuted : ~ cubic_search_monotone release.
Proof.
  intros H.
  destruct (@is_ok_ex _ (mcr_new F64Ops release cub_dims cub_starts cub_steps cub_vals true)) as (s & E); [vm_compute; reflexivity|].
  destruct (mcr_new_inv F64Ops true (cub_input release) E) as (_ & Es).
  destruct (H cub_dims cub_starts cub_steps cub_vals true s 1%nat (f64_lit (-1) 61) (z64 0) 1%Z OutsideHigh 0%Z OutsideLow (cub_input _) E) as (C & _);
    [simpl; lia|vm_compute; reflexivity|rewrite Es; vm_compute; reflexivity|rewrite Es; vm_compute; reflexivity|lia].
Qed.
(** With overflow checks (where that observation panics instead, C13), or for any other
    observation. *)
Theorem C44_partial :
  forall prec emax (Hp : Prec_gt_0 prec) (He : Prec_lt_emax prec emax), let o := BOps Hp He in
  forall c dims starts steps vals lin s k (a b : binary_float prec emax) i sa j sb,
  reg_input c dims starts steps vals -> mcr_new o c dims starts steps vals lin = Ok s ->
  (k < length dims)%nat -> fle o a b = true ->
  (ovf_checks c = true \/
   to_isize o (ffloor o (fdiv o (fsub o a (nth k starts (fzero o))) (nth k steps (fzero o)))) <> Some isize_min) ->
  creg_get_loc o c (cr_base s) a k = Ok (i, sa) -> creg_get_loc o c (cr_base s) b k = Ok (j, sb) ->
  (i <= j)%Z /\ (sat_rank sa <= sat_rank sb)%Z.
Proof. intros prec emax Hp He o. exact (C44_proof prec emax Hp He). Qed.
Theorem C44_recursive_partial :
  forall prec emax (Hp : Prec_gt_0 prec) (He : Prec_lt_emax prec emax), let o := BOps Hp He in
  forall c m dims starts steps vals lin s k (a b : binary_float prec emax) i sa j sb,
  reg_input c dims starts steps vals -> mcrr_new o c m dims starts steps vals lin = Ok s ->
  (k < length dims)%nat -> fle o a b = true ->
  (ovf_checks c = true \/
   to_isize o (ffloor o (fdiv o (fsub o a (nth k starts (fzero o))) (nth k steps (fzero o)))) <> Some isize_min) ->
  creg_get_loc o c (cr_base s) a k = Ok (i, sa) -> creg_get_loc o c (cr_base s) b k = Ok (j, sb) ->
  (i <= j)%Z /\ (sat_rank sa <= sat_rank sb)%Z.
Proof. intros prec emax Hp He o. exact (C44_proof_recursive prec emax Hp He). Qed.
(** Below the grid and above it. *)
Example C44_ex :
  creg_get_loc F64Ops plain (cr_base (cub_s true)) (z64 (-2)) 1 = Ok (0%Z, OutsideLow) /\
  creg_get_loc F64Ops plain (cr_base (cub_s true)) (z64 6) 1 = Ok (1%Z, OutsideHigh) /\
  (0 <= 1)%Z /\ (sat_rank OutsideLow <= sat_rank OutsideHigh)%Z.
Proof.
  assert (A : creg_get_loc F64Ops plain (cr_base (cub_s true)) (z64 (-2)) 1 = Ok (0%Z, OutsideLow)) by (vm_compute; reflexivity).
  assert (B : creg_get_loc F64Ops plain (cr_base (cub_s true)) (z64 6) 1 = Ok (1%Z, OutsideHigh)) by (vm_compute; reflexivity).
  split; [exact A|]. split; [exact B|].
  refine (C44_partial _ _ Hp64 He64 plain cub_dims cub_starts cub_steps cub_vals true (cub_s true) 1 (z64 (-2)) (z64 6) _ _ _ _ _ _ _ _ _ A B);
    [apply cub_input|apply cub_new|simpl; lia|vm_compute; reflexivity|left; reflexivity].
Qed.
Print Assumptions C44_refuted.
Print Assumptions C44_partial.
Print Assumptions C44_recursive_partial.
