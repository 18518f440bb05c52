(** Bounds checks (C25, C26), meshgrid (C28) and linspace (C38, C39). *)
From Coq Require Import Reals Lra PeanoNat Bool.
From Flocq Require Import Core.Core IEEE754.BinarySingleNaN.
From Verif Require Import Base Ops RInst FInst ModelCore ModelUtils ModelLinear ModelNearest ModelCubic.
From Verif Require Import Spec SpecReal Interpolators.
From Verif Require Import FLemmas UtilProofs ExampleData ExampleReal.
Open Scope R_scope.
Unset Implicit Arguments.

(** * C25: the flags of the bounds check. [beyond lo hi atol xs]: some observation is at least
    atol below lo or above hi. *)
Theorem C25_regular :
  forall c dims starts steps obs atol out,
  length starts = length dims -> length steps = length dims ->
  Forall (fun n => (1 <= n < two64)%Z) dims ->
  length obs = length dims -> length out = length dims ->
  exists out', mlr_check_bounds ROps c dims starts steps obs atol out = (Ok tt, out') /\
    length out' = length dims /\
    forall k, (k < length dims)%nat ->
      let first := nth k starts 0 in let lst := first + nth k steps 0 * IZR (nth k dims 0%Z - 1)%Z in
      (nth k out' false = true <-> beyond (Rmin first lst) (Rmax first lst) atol (nth k obs [])).
Proof. exact C25_proof_regular. Qed.
Theorem C25_rectilinear :
  forall grids obs atol out,
  Forall (fun g => (1 <= length g)%nat) grids ->
  length obs = length grids -> length out = length grids ->
  exists out', mlc_check_bounds ROps grids obs atol out = (Ok tt, out') /\
    length out' = length grids /\
    forall k, (k < length grids)%nat -> let g := nth k grids [] in
      (nth k out' false = true <-> beyond (nth 0 g 0) (last g 0) atol (nth k obs [])).
Proof. exact C25_proof_rectilinear. Qed.
(** Mismatched argument counts (or an empty grid) are errors and leave the flags alone. *)
Theorem C25_regular_error :
  forall F (o : Ops F) c dims starts steps obs atol out,
  (length obs <> length dims \/ length out <> length dims) ->
  mlr_check_bounds o c dims starts steps obs atol out = (Err msg_dim, out).
Proof. intros F o c dims starts steps obs atol out. exact (@check_reg_error F o c dims starts steps obs atol out). Qed.
Theorem C25_rectilinear_error :
  forall F (o : Ops F) grids obs atol out,
  (length obs <> length grids \/ length out <> length grids \/ In [] grids) ->
  mlc_check_bounds o grids obs atol out = (Err msg_dim, out).
Proof. intros F o grids obs atol out. exact (@check_rect_error F o grids obs atol out). Qed.
(** On IEEE floats of any precision, finite data: an observation at least atol outside the grid
    is always flagged. (For a regular grid the last point is the one the library computes.) *)
Theorem C25_regular_ieee :
  forall prec emax (Hp : Prec_gt_0 prec) (He : Prec_lt_emax prec emax), let o := BOps Hp He in
  forall c dims starts steps obs atol out,
  length starts = length dims -> length steps = length dims ->
  Forall (fun n => (1 <= n < two64)%Z) dims ->
  length obs = length dims -> length out = length dims -> is_finite atol = true ->
  Forall (Forall (fun x : binary_float prec emax => is_finite x = true)) obs ->
  exists out', mlr_check_bounds o c dims starts steps obs atol out = (Ok tt, out') /\
    length out' = length dims /\
    forall k, (k < length dims)%nat -> exists m, of_usize o (nth k dims 0 - 1)%Z = Some m /\
      let first := nth k starts (B754_zero false) in
      let lst := fadd o first (fmul o (nth k steps (B754_zero false)) m) in
      is_finite first = true -> is_finite lst = true ->
      let lo := Rmin (B2R first) (B2R lst) in let hi := Rmax (B2R first) (B2R lst) in
      (beyond lo hi (B2R atol) (map B2R (nth k obs [])) -> nth k out' false = true) /\
      (0 < B2R atol -> Forall (fun x => lo <= B2R x <= hi) (nth k obs []) -> nth k out' false = false).
Proof. intros prec emax Hp He o. exact (@check_reg_ieee prec emax Hp He). Qed.
Theorem C25_rectilinear_ieee :
  forall prec emax (Hp : Prec_gt_0 prec) (He : Prec_lt_emax prec emax), let o := BOps Hp He in
  forall grids obs atol out,
  Forall (fun g => (1 <= length g)%nat) grids ->
  length obs = length grids -> length out = length grids -> is_finite atol = true ->
  Forall (Forall (fun x : binary_float prec emax => is_finite x = true)) grids ->
  Forall (Forall (fun x : binary_float prec emax => is_finite x = true)) obs ->
  exists out', mlc_check_bounds o grids obs atol out = (Ok tt, out') /\
    length out' = length grids /\
    forall k, (k < length grids)%nat -> let g := nth k grids [] in
      let lo := B2R (nth 0 g (B754_zero false)) in let hi := B2R (last g (B754_zero false)) in
      (beyond lo hi (B2R atol) (map B2R (nth k obs [])) -> nth k out' false = true) /\
      (0 < B2R atol -> Forall (fun x => lo <= B2R x <= hi) (nth k obs []) -> nth k out' false = false).
Proof. intros prec emax Hp He o. exact (@check_rect_ieee prec emax Hp He). Qed.

(** Two axes, one violation on the second, and a mismatch. *)
Example C25_ex :
  exists out', mlc_check_bounds ROps ru_grids [[1; 2]; [0; 5]] (1 / 8) [true; false] = (Ok tt, out')
   /\ nth 1 out' false = true /\ nth 0 out' true = false.
Proof.
  destruct (C25_rectilinear ru_grids [[1; 2]; [0; 5]] (1 / 8) [true; false]) as (out' & E & L & H);
    [repeat constructor; simpl; lia|reflexivity|reflexivity|].
  exists out'. split; [exact E|]. split.
  - apply (H 1%nat); [simpl; lia|]. exists 5. simpl. split; auto. right. lra.
  - destruct (nth 0 out' true) eqn:E0; auto. exfalso.
    assert (E1 : nth 0 out' false = true) by (destruct out'; [discriminate L|exact E0]).
    apply (H 0%nat) in E1; [|simpl; lia]. destruct E1 as (x & [<-|[<-|[]]] & [V|V]); simpl in V; lra.
Qed.
Example C25_regular_ex :
  exists out', mlr_check_bounds ROps rplain rl_dims rl_starts rl_steps [[1; 2]; [0; 2]] (1 / 8) [true; false] = (Ok tt, out')
   /\ nth 1 out' false = true.
Proof.
  destruct (C25_regular rplain rl_dims rl_starts rl_steps [[1; 2]; [0; 2]] (1 / 8) [true; false]) as (out' & E & L & H);
    [reflexivity|reflexivity|repeat constructor; vm_compute; discriminate|reflexivity|reflexivity|].
  exists out'. split; [exact E|].
  apply (H 1%nat); [simpl; lia|]. exists 0. simpl. split; auto. left.
  rewrite Rmin_left by lra. lra.
Qed.
Example C25_error_ex :
  mlc_check_bounds F64Ops lin_grids [[z64 0]] (z64 0) [false] = (Err msg_dim, [false]) /\
  mlc_check_bounds F64Ops [[]] [[z64 0]] (z64 0) [false] = (Err msg_dim, [false]).
Proof. split; apply C25_rectilinear_error; simpl; auto. Qed.
Example C25_ieee_ex :
  exists out', mlc_check_bounds F64Ops lin_grids [[z64 0; z64 3]; [z64 1; z64 3]] (f64_lit 1 (-3)) [false; true] = (Ok tt, out')
   /\ nth 0 out' false = true /\ nth 1 out' true = false.
Proof.
  destruct (C25_rectilinear_ieee 53 1024 Hp64 He64 lin_grids [[z64 0; z64 3]; [z64 1; z64 3]] (f64_lit 1 (-3)) [false; true])
    as (out' & E & L & H); [repeat constructor|reflexivity|reflexivity|reflexivity|repeat constructor|repeat constructor|].
  exists out'. split; [exact E|]. split.
  - apply (H 0%nat); [simpl; lia|]. exists (B2R (z64 3)). split; [simpl; auto|]. right.
    unfold lin_grids, z64, f64_lit. simpl. unfold F2R. simpl. lra.
  - assert (X : nth 1 out' false = false).
    + apply (H 1%nat); [simpl; lia| |].
      * unfold f64_lit. simpl. unfold F2R. simpl. lra.
      * apply Forall_forall. intros x [<-|[<-|[]]]; unfold z64, f64_lit; simpl; unfold F2R; simpl; lra.
    + destruct out' as [|? [|? ?]]; try discriminate L. exact X.
Qed.
Print Assumptions C25_regular.
Print Assumptions C25_rectilinear.
Print Assumptions C25_regular_error.
Print Assumptions C25_rectilinear_error.
Print Assumptions C25_regular_ieee.
Print Assumptions C25_rectilinear_ieee.

(** * C26: boundary points are not flagged, NaN is. Both halves are false: with atol = 0 the grid
    point itself is flagged, and NaN never is. *)
Theorem C26_boundary_refuted :
  exists out', mlc_check_bounds F64Ops [[z64 0; z64 1]] [[z64 0]] (z64 0) [false] = (Ok tt, out') /\ out' = [true].
Proof. exists [true]. split; [vm_compute; reflexivity|reflexivity]. Qed.
Theorem C26_boundary_regular_refuted :
  exists out', mlr_check_bounds F64Ops plain [2%Z] [z64 0] [z64 1] [[z64 1]] (z64 0) [false] = (Ok tt, out') /\ out' = [true].
Proof. exists [true]. split; [vm_compute; reflexivity|reflexivity]. Qed.
Theorem C26_nan_refuted :
  forall prec emax (Hp : Prec_gt_0 prec) (He : Prec_lt_emax prec emax) lo hi atol xs,
  Forall (fun x : binary_float prec emax => x = B754_nan) xs -> violates (BOps Hp He) lo hi atol xs = false.
Proof. intros prec emax Hp He lo hi atol xs. exact (@nan_not_flagged prec emax Hp He lo hi atol xs). Qed.
Example C26_nan_ex :
  mlc_check_bounds F64Ops [[z64 0; z64 1]] [[B754_nan; B754_nan]] (z64 1) [true] = (Ok tt, [false]).
Proof. vm_compute. reflexivity. Qed.
(** With a positive tolerance no point of the closed grid interval is flagged: in exact
    arithmetic, and on IEEE floats. *)
Theorem C26_exact_partial :
  forall grids obs atol out,
  Forall (fun g => (1 <= length g)%nat) grids ->
  length obs = length grids -> length out = length grids -> 0 < atol ->
  exists out', mlc_check_bounds ROps grids obs atol out = (Ok tt, out') /\
    forall k, (k < length grids)%nat -> let g := nth k grids [] in
      Forall (fun x => nth 0 g 0 <= x <= last g 0) (nth k obs []) -> nth k out' false = false.
Proof.
  intros grids obs atol out Hg L1 L2 Ha.
  destruct (C25_rectilinear grids obs atol out Hg L1 L2) as (out' & E & L & H).
  exists out'. split; [exact E|]. intros k Hk g Hx. destruct (nth k out' false) eqn:Ef; auto. exfalso.
  apply (H k Hk) in Ef. destruct Ef as (x & Ix & V). rewrite Forall_forall in Hx. specialize (Hx x Ix). fold g in V. lra.
Qed.
Theorem C26_ieee_partial :
  forall prec emax (Hp : Prec_gt_0 prec) (He : Prec_lt_emax prec emax),
  forall (lo hi atol : binary_float prec emax) xs,
  is_finite lo = true -> is_finite hi = true -> is_finite atol = true -> 0 < B2R atol ->
  Forall (fun x => is_finite x = true /\ B2R lo <= B2R x <= B2R hi) xs ->
  violates (BOps Hp He) lo hi atol xs = false.
Proof. intros prec emax Hp He. exact (@inside_not_flagged prec emax Hp He). Qed.
Example C26_ex : violates F64Ops (z64 0) (z64 1) (f64_lit 1 (-1074)) [z64 0; z64 1; f64_lit 1 (-3)] = false.
Proof.
  apply (C26_ieee_partial 53 1024 Hp64 He64); try reflexivity.
  - simpl. apply F2R_gt_0. reflexivity.
  - apply Forall_forall. intros x [<-|[<-|[<-|[]]]]; unfold z64, f64_lit; simpl; unfold F2R; simpl; split; auto; lra.
Qed.
Print Assumptions C26_boundary_refuted.
Print Assumptions C26_boundary_regular_refuted.
Print Assumptions C26_nan_refuted.
Print Assumptions C26_exact_partial.
Print Assumptions C26_ieee_partial.

(** * C28: meshgrid order. [entry d dims vals idx] is the element of the C-ordered array at the
    multi-index idx, [grid_point] the coordinates of the node. *)
Theorem C28_entry :
  forall F A (d : F) (da : A) (grids : list (list F)) (f : list F -> A) idx,
  in_shape (map zlen grids) idx ->
  entry da (map zlen grids) (map f (meshgrid grids)) idx = f (grid_point d grids idx).
Proof. intros F A d da grids f idx. exact (@C28_proof_entry F A d da grids f idx). Qed.
Theorem C28_size :
  forall F A (grids : list (list F)) (f : list F -> A),
  zlen (map f (meshgrid grids)) = zprod (map zlen grids).
Proof. intros F A grids f. apply C28_proof_size. Qed.
Theorem C28_samples :
  forall grids f, samples (rect_axes grids) (map f (meshgrid grids)) f.
Proof. exact C28_proof_samples. Qed.
(** Every interpolator evaluated at a node returns the function at that node. *)
Theorem C28_nodes :
  forall f grids idx, in_shape (map zlen grids) idx ->
  (forall c dom eval, multilinear c (map f (meshgrid grids)) (rect_axes grids) dom eval ->
     eval (grid_point 0 grids idx) = Ok (f (grid_point 0 grids idx))) /\
  (forall c lin dom eval, multicubic c lin (map f (meshgrid grids)) (rect_axes grids) dom eval ->
     eval (grid_point 0 grids idx) = Ok (f (grid_point 0 grids idx))) /\
  (forall c dom eval, nearest_nd c (map f (meshgrid grids)) (rect_axes grids) dom eval ->
     eval (grid_point 0 grids idx) = Ok (f (grid_point 0 grids idx))).
Proof. exact C28_proof_nodes. Qed.
Example C28_ex :
  entry 0%Z [2%Z; 3%Z] (map (fun p => match p with [a; b] => (10 * a + b)%Z | _ => 0%Z end)
    (meshgrid [[1%Z; 2%Z]; [5%Z; 6%Z; 7%Z]])) [1%Z; 2%Z] = 27%Z.
Proof.
  refine (C28_entry Z Z 0%Z 0%Z [[1%Z; 2%Z]; [5%Z; 6%Z; 7%Z]] _ [1%Z; 2%Z] _).
  repeat constructor; vm_compute; discriminate.
Qed.
Example C28_nodes_ex :
  mlc_interp_one ROps rplain (mkRect ru_grids [3%Z; 2%Z] (map (fun p => nth 0 p 0 * nth 1 p 0) (meshgrid ru_grids))) [4; -1] = Ok (4 * -1).
Proof.
  refine (proj1 (C28_nodes (fun p => nth 0 p 0 * nth 1 p 0) ru_grids [2%Z; 0%Z] _) rplain everywhere _ _).
  - repeat constructor; vm_compute; discriminate.
  - apply (@multilinear_rectilinear rplain); [rrect_ok|sorted_ok|].
    unfold ru_grids. lazy -[Rltb IZR Rmult Ropp]. rltb. reflexivity.
Qed.
Print Assumptions C28_entry.
Print Assumptions C28_size.
Print Assumptions C28_samples.
Print Assumptions C28_nodes.

(** * C38: linspace *)
Theorem C38_points :
  forall c a b n, (2 <= n)%nat -> (Z.of_nat n < two64)%Z ->
  exists l, linspace ROps c a b n = Ok l /\ length l = n /\
    (forall i, (i < n)%nat -> nth i l 0 = a + INR i * (b - a) / INR (n - 1)) /\
    nth 0 l 0 = a /\ last l 0 = b /\ (a < b -> strictly_increasing l).
Proof. exact C38_proof. Qed.
Theorem C38_accepted :
  forall c grids vals, prefix_products_fit (map zlen grids) ->
  zlen vals = zprod (map zlen grids) ->
  Forall (fun g => exists a b n, a < b /\ (2 <= n)%nat /\ (Z.of_nat n < two64)%Z /\ linspace ROps c a b n = Ok g) grids ->
  mlc_new ROps c grids vals = Ok (mkRect grids (map zlen grids) vals).
Proof. exact C38_proof_accepted. Qed.
Example C38_ex : exists l, linspace ROps rplain 1 2 3 = Ok l /\ nth 1 l 0 = 3 / 2 /\ last l 0 = 2
  /\ mlc_new ROps rplain [l] [7; 8; 9] = Ok (mkRect [l] [3%Z] [7; 8; 9]).
Proof.
  destruct (C38_points rplain 1 2 3) as (l & E & L & H & _ & L1 & _); [lia|reflexivity|].
  exists l. split; [exact E|]. split; [rewrite H by lia; simpl; lra|]. split; [exact L1|].
  assert (Z3 : map zlen [l] = [3%Z]) by (unfold zlen; simpl; rewrite L; reflexivity).
  rewrite <- Z3. apply C38_accepted; rewrite ?Z3.
  - intros [|[|k]]; vm_compute; split; congruence.
  - reflexivity.
  - constructor; [|constructor]. exists 1, 2, 3%nat. split; [lra|]. split; [lia|]. split; [reflexivity|exact E].
Qed.
Print Assumptions C38_points.
Print Assumptions C38_accepted.

(** * C39: linspace for every n. False: n = 1 gives NaN, n = 0 panics when overflow is checked,
    and b - a may overflow. *)
Theorem C39_one_point_refuted :
  exists l, linspace F64Ops plain (z64 0) (z64 1) 1 = Ok l /\ existsb is_nan l = true.
Proof.
  destruct (@is_ok_ex _ (linspace F64Ops plain (z64 0) (z64 1) 1)) as (l & E); [vm_compute; reflexivity|].
  exists l. split; [exact E|].
  assert (C : match linspace F64Ops plain (z64 0) (z64 1) 1 with Ok l => existsb is_nan l | _ => false end = true)
    by (vm_compute; reflexivity).
  rewrite E in C. exact C.
Qed.
Theorem C39_no_points_refuted : linspace F64Ops plain (z64 0) (z64 1) 0 = Panic.
Proof. vm_compute. reflexivity. Qed.
Theorem C39_overflow_refuted :
  exists a b : f64, is_finite a = true /\ is_finite b = true /\
  exists l, linspace F64Ops plain a b 2 = Ok l /\ forallb is_finite l = false.
Proof.
  exists (f64_lit (-1) 1023), (f64_lit 1 1023). split; [reflexivity|]. split; [reflexivity|].
  destruct (@is_ok_ex _ (linspace F64Ops plain (f64_lit (-1) 1023) (f64_lit 1 1023) 2)) as (l & E); [vm_compute; reflexivity|].
  exists l. split; [exact E|].
  assert (C : match linspace F64Ops plain (f64_lit (-1) 1023) (f64_lit 1 1023) 2 with Ok l => forallb is_finite l | _ => true end = false)
    by (vm_compute; reflexivity).
  rewrite E in C. exact C.
Qed.
(** Proved: n >= 2 points, all finite, when |a|, |b| <= 2^(emax-5) (2^1019 for f64). *)
Theorem C39_finite_partial :
  forall prec emax (Hp : Prec_gt_0 prec) (He : Prec_lt_emax prec emax) c (a b : binary_float prec emax) n,
  (8 <= emax)%Z -> (2 <= n)%nat -> (Z.of_nat n < two64)%Z -> (Z.of_nat n <= 2 ^ prec)%Z ->
  is_finite a = true -> is_finite b = true ->
  Rabs (B2R a) <= bpow radix2 (emax - 5) -> Rabs (B2R b) <= bpow radix2 (emax - 5) ->
  exists l, linspace (BOps Hp He) c a b n = Ok l /\ length l = n /\ Forall (fun x => is_finite x = true) l.
Proof. intros prec emax Hp He. exact (@linspace_finite prec emax Hp He). Qed.
Example C39_ex : exists l, linspace F64Ops release (z64 0) (z64 1) 7 = Ok l /\ length l = 7%nat
  /\ Forall (fun x => is_finite x = true) l.
Proof.
  apply (C39_finite_partial 53 1024 Hp64 He64); try reflexivity; try lia.
  - replace (B2R (z64 0)) with 0 by reflexivity. rewrite Rabs_R0. apply bpow_ge_0.
  - replace (B2R (z64 1)) with (bpow radix2 0).
    + rewrite Rabs_right by (simpl; lra). apply bpow_le. lia.
    + unfold z64, f64_lit. simpl. unfold F2R. simpl. lra.
Qed.
Print Assumptions C39_one_point_refuted.
Print Assumptions C39_no_points_refuted.
Print Assumptions C39_overflow_refuted.
Print Assumptions C39_finite_partial.
