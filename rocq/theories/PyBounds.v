(** The bounds checks of the Python interface on IEEE floats. *)
From Coq Require Import Reals Lra Lia List Bool ZifyBool ZifyNat PeanoNat.
From Flocq Require Import Core.Core IEEE754.BinarySingleNaN.
From Verif Require Import Base Ops FInst ModelCore ModelLinear ModelUtils ModelPython Spec SpecReal SpecPython.
From Verif Require Import CoreLemmas GenLemmas RInst R1D RChar OrderLemmas FLemmas UtilProofs PyProofs PyProofs2.
Import ListNotations.
Unset Implicit Arguments.
Open Scope R_scope.

Section B.
Variables prec emax : Z.
Context (Hp : Prec_gt_0 prec) (He : Prec_lt_emax prec emax).
Notation fl := (binary_float prec emax).
Notation o := (BOps Hp He).
Notation fin x := (is_finite x = true).
Notation zero := (B754_zero false : fl).

Theorem class_bounds_reg_ieee c maxd dims (starts steps vals : list fl) obs atol :
  class_regular_ok o maxd dims starts steps vals = true -> (maxd <= 8)%nat ->
  Forall (fun d => (1 <= d < two64)%Z) dims -> length obs = length dims -> fin atol ->
  Forall (Forall (fun x : fl => fin x)) obs ->
  exists flags, class_check_bounds (length dims) (raw_check_bounds_regular o c dims starts steps) obs atol = Ret flags /\
    length flags = length dims /\ forall k, (k < length dims)%nat ->
    exists m, of_usize o (nth k dims 0 - 1)%Z = Some m /\
      let first := nth k starts zero in let lst := fadd o first (fmul o (nth k steps zero) m) in
      fin first -> fin lst ->
      let lo := Rmin (B2R first) (B2R lst) in let hi := Rmax (B2R first) (B2R lst) in
      (beyond lo hi (B2R atol) (map B2R (nth k obs [])) -> nth k flags false = true) /\
      (0 < B2R atol -> Forall (fun x => lo <= B2R x <= hi) (nth k obs []) -> nth k flags false = false).
Proof.
  intros Hok M8 Hd Lo Fa Fo. destruct (class_reg_inv o dims starts steps vals maxd Hok) as (Ln & L1 & L2 & _ & SP).
  destruct (@check_reg_ieee prec emax Hp He c dims starts steps obs atol (repeat false (length dims)) L1 L2 Hd Lo) as (flags & E & Lf & Hf);
    [apply repeat_length|auto|auto|].
  exists flags. unfold class_check_bounds, raw_check_bounds_regular.
  replace (dims_ok dims) with true.
  2:{ symmetry. apply forallb_forall. rewrite Forall_forall in Hd. intros d Hi. specialize (Hd d Hi). simpl in Hd. lia. }
  replace (unpack_ok obs) with true by (unfold unpack_ok; lia). cbn [negb]. rewrite E. split; [reflexivity|]. split; auto.
Qed.
Theorem class_bounds_rect_ieee maxd (grids : list (list fl)) vals obs atol :
  class_rectilinear_ok o maxd grids vals = true -> (maxd <= 8)%nat ->
  Forall (fun g => (1 <= length g)%nat) grids -> length obs = length grids -> fin atol ->
  Forall (Forall (fun x : fl => fin x)) grids -> Forall (Forall (fun x : fl => fin x)) obs ->
  exists flags, class_check_bounds (length grids) (raw_check_bounds_rectilinear o grids) obs atol = Ret flags /\
    length flags = length grids /\ forall k, (k < length grids)%nat -> let g := nth k grids [] in
      let lo := B2R (nth 0 g zero) in let hi := B2R (last g zero) in
      (beyond lo hi (B2R atol) (map B2R (nth k obs [])) -> nth k flags false = true) /\
      (0 < B2R atol -> Forall (fun x => lo <= B2R x <= hi) (nth k obs []) -> nth k flags false = false).
Proof.
  intros Hok M8 Hd Lo Fa Fg Fo. destruct (class_rect_inv o maxd grids vals (differences_B prec emax Hp He) Hok) as (Ln & _).
  destruct (@check_rect_ieee prec emax Hp He grids obs atol (repeat false (length grids)) Hd Lo) as (flags & E & Lf & Hf);
    [apply repeat_length|auto|auto|auto|].
  exists flags. unfold class_check_bounds, raw_check_bounds_rectilinear.
  replace (unpack_ok grids && unpack_ok obs) with true by (unfold unpack_ok; lia). cbn [negb]. rewrite E. split; [reflexivity|]. split; auto.
Qed.

(** interpn() with one axis. *)
Theorem bounds_ieee_rect c (x g vals : ndarray fl) method lin atol :
  (2 <= length (nd_data g))%nat -> (zlen (nd_data g) < two64)%Z -> ~ evenly_spaced o (nd_data g) ->
  Forall (fun v : fl => fin v) (nd_data g) -> Forall (fun v : fl => fin v) (nd_data x) -> fin atol ->
  let call cb := py_interpn o c [x] [g] vals method None lin false cb atol in
  let lo := B2R (nth 0 (nd_data g) zero) in let hi := B2R (last (nd_data g) zero) in
  (beyond lo hi (B2R atol) (map B2R (nd_data x)) -> fst (call true) = Raise ValueError) /\
  (0 < B2R atol -> Forall (fun v => lo <= B2R v <= hi) (nd_data x) -> call true = call false).
Proof.
  intros L Hz Ev Fg Fx Fa call lo hi.
  destruct (bounds_one_dim o c x g vals method lin false atol (usize_converts_B Hp He) L Hz) as (flag & Hf & _ & Hc).
  specialize (Hc eq_refl Ev). change (fzero o) with zero in Hc.
  assert (El : last (nd_data g) zero = nth (length (nd_data g) - 1) (nd_data g) zero) by apply last_nth.
  rewrite Forall_forall in Fg.
  assert (F0 : fin (nth 0 (nd_data g) zero)) by (apply Fg, nth_In; lia).
  assert (F1 : fin (nth (length (nd_data g) - 1) (nd_data g) zero)) by (apply Fg, nth_In; lia).
  unfold lo, hi. rewrite El. split.
  - intros H. rewrite Hc in Hf. rewrite (@beyond_flagged prec emax Hp He _ _ _ _ F0 F1 Fa Fx H) in Hf. exact Hf.
  - intros Ha H. rewrite Hc in Hf. rewrite (@inside_not_flagged prec emax Hp He _ _ _ _ F0 F1 Fa Ha) in Hf; [exact Hf|].
    rewrite Forall_forall in *. auto.
Qed.
Theorem bounds_ieee_reg c (x g vals : ndarray fl) method lin assume atol :
  (2 <= length (nd_data g))%nat -> (zlen (nd_data g) < two64)%Z -> assume = true \/ evenly_spaced o (nd_data g) ->
  Forall (fun v : fl => fin v) (nd_data x) -> fin atol ->
  let call cb := py_interpn o c [x] [g] vals method None lin assume cb atol in
  exists m, of_usize o (zlen (nd_data g) - 1) = Some m /\
  let first := nth 0 (nd_data g) zero in let lst := fadd o first (fmul o (fsub o (nth 1 (nd_data g) zero) first) m) in
  fin first -> fin lst ->
  let lo := Rmin (B2R first) (B2R lst) in let hi := Rmax (B2R first) (B2R lst) in
  (beyond lo hi (B2R atol) (map B2R (nd_data x)) -> fst (call true) = Raise ValueError) /\
  (0 < B2R atol -> Forall (fun v => lo <= B2R v <= hi) (nd_data x) -> call true = call false).
Proof.
  intros L Hz Ev Fx Fa call.
  destruct (bounds_one_dim o c x g vals method lin assume atol (usize_converts_B Hp He) L Hz) as (flag & Hf & Hr & _).
  destruct (Hr Ev) as (m & Em & Hc). exists m. split; [exact Em|]. change (fzero o) with zero in Hc. cbv zeta in *. intros F0 F1.
  destruct (min_fin Hp He _ _ F0 F1) as (Fm & Vm). destruct (max_fin Hp He _ _ F0 F1) as (FM & VM).
  split.
  - intros H. rewrite <- Vm, <- VM in H. rewrite Hc in Hf. rewrite (@beyond_flagged prec emax Hp He _ _ _ _ Fm FM Fa Fx H) in Hf. exact Hf.
  - intros Ha H. rewrite Hc in Hf. rewrite (@inside_not_flagged prec emax Hp He _ _ _ _ Fm FM Fa Ha) in Hf; [exact Hf|].
    rewrite Vm, VM. rewrite Forall_forall in *. auto.
Qed.
End B.
