(** Nearest-neighbour interpolation in floating point: the node that is chosen, and the accuracy
    for a function with bounded slopes. *)
From Coq Require Import Reals Lra PeanoNat Bool Lia List.
From Flocq Require Import Core.Core IEEE754.BinarySingleNaN.
From Verif Require Import Base Ops RInst FInst ModelCore ModelLinear ModelNearest Spec SpecOrder SpecIEEE SpecError SpecReal Interpolators SpecApprox SpecReach.
From Verif Require Import GenLemmas FLemmas FProofs FProofs2 FNearest FNearestAny RChar ExampleData ExampleReal.
From Verif Require Import PropertiesFloat PropertiesError PropertiesApprox PropertiesAccuracy.
Import ListNotations.
Open Scope R_scope.
Unset Implicit Arguments.

(** * C56: in floating point the value of a node is returned that is, along every axis, as near to
    the observation as any other node: up to the factor 1 + 8u on a rectilinear grid (any finite
    observation), up to 16 u kappa steps on a regular grid (observation inside the grid, or at most
    kappa steps from zero). *)
Theorem C56_rectilinear :
  forall prec emax (Hp : Prec_gt_0 prec) (He : Prec_lt_emax prec emax), let o := BOps Hp He in
  forall c (grids : list (list (binary_float prec emax))) vals s x,
  let axes := rect_axes (map (map B2R) grids) in
  rect_input c grids vals -> nc_new o c grids vals = Ok s ->
  Forall (increasing_grid o) grids -> Forall (Forall moderate) grids ->
  length x = length grids -> Forall (fun v => is_finite v = true) x -> 64 * roundoff prec <= 1 ->
  exists idx, in_shape (map npts axes) idx /\
  nc_interp_one o c s x = Ok (entry (fzero o) (map npts axes) vals idx) /\
  forall k a, nth_error axes k = Some a ->
    nearest_up_to_factor (1 + 8 * roundoff prec) a (nth k (map B2R x) 0) (nth k idx 0%Z).
Proof. intros prec emax Hp He o. exact (nearest_rectilinear prec emax Hp He). Qed.

(** A node that is nearer than all others by more than that factor is the one chosen. *)
Theorem C56_rectilinear_clear :
  forall prec emax (Hp : Prec_gt_0 prec) (He : Prec_lt_emax prec emax), let o := BOps Hp He in
  forall c (grids : list (list (binary_float prec emax))) vals s x idx,
  let axes := rect_axes (map (map B2R) grids) in
  rect_input c grids vals -> nc_new o c grids vals = Ok s ->
  Forall (increasing_grid o) grids -> Forall (Forall moderate) grids ->
  length x = length grids -> Forall (fun v => is_finite v = true) x -> 64 * roundoff prec <= 1 ->
  in_shape (map npts axes) idx ->
  (forall k a j, nth_error axes k = Some a -> (0 <= j < npts a)%Z -> j <> nth k idx 0%Z ->
    (1 + 8 * roundoff prec) * Rabs (nth k (map B2R x) 0 - coord a (nth k idx 0%Z))
    < Rabs (nth k (map B2R x) 0 - coord a j)) ->
  nc_interp_one o c s x = Ok (entry (fzero o) (map npts axes) vals idx).
Proof. intros prec emax Hp He o. exact (nearest_rectilinear_clear prec emax Hp He). Qed.

Theorem C56_regular :
  forall prec emax (Hp : Prec_gt_0 prec) (He : Prec_lt_emax prec emax), let o := BOps Hp He in
  forall c dims (starts steps vals : list (binary_float prec emax)) s x kappa,
  let axes := reg_axes dims (map B2R starts) (map B2R steps) in
  reg_input c dims starts steps vals -> nr_new o c dims starts steps vals = Ok s ->
  Forall (fun v => is_finite v = true) x -> axes_within prec emax kappa starts steps dims ->
  SpecReal.inside_grid axes (map B2R x) -> 504 * (roundoff prec * kappa) <= 1 -> (prec <= 64)%Z ->
  exists idx, in_shape (map npts axes) idx /\
  nr_interp_one o c s x = Ok (entry (fzero o) (map npts axes) vals idx) /\
  forall k a, nth_error axes k = Some a ->
    nearest_up_to (16 * (roundoff prec * kappa) * B2R (nth k steps (fzero o))) a
      (nth k (map B2R x) 0) (nth k idx 0%Z).
Proof. intros prec emax Hp He o. exact (nearest_regular prec emax Hp He). Qed.

Theorem C56_regular_anywhere :
  forall prec emax (Hp : Prec_gt_0 prec) (He : Prec_lt_emax prec emax), let o := BOps Hp He in
  forall c dims (starts steps vals : list (binary_float prec emax)) s x kappa,
  let axes := reg_axes dims (map B2R starts) (map B2R steps) in
  reg_input c dims starts steps vals -> nr_new o c dims starts steps vals = Ok s ->
  axes_within prec emax kappa starts steps dims -> length x = length dims -> point_within prec emax kappa steps x ->
  504 * (roundoff prec * kappa) <= 1 -> (prec <= 64)%Z ->
  exists idx, in_shape (map npts axes) idx /\
  nr_interp_one o c s x = Ok (entry (fzero o) (map npts axes) vals idx) /\
  forall k a, nth_error axes k = Some a ->
    nearest_up_to (16 * (roundoff prec * kappa) * B2R (nth k steps (fzero o))) a
      (nth k (map B2R x) 0) (nth k idx 0%Z).
Proof. intros prec emax Hp He o. exact (nearest_regular_any prec emax Hp He). Qed.

(** Some allowance is needed: on the grid -1, 1 the value of node -1 is returned at 2^-54. *)
Definition tie_grid : list (list f64) := [[z64 (-1); z64 1]].
Definition tie_vals : list f64 := [z64 5; z64 7].
Definition tie_x : list f64 := [f64_lit 1 (-54)].
Definition tie_g : rectilinear f64 := mkRect tie_grid [2%Z] tie_vals.
Definition tie_s : regular f64 := mkRegular [2%Z] [z64 (-1)] [z64 2] tie_vals.
Theorem C56_exact_refuted :
  is_ok (nc_new F64Ops plain tie_grid tie_vals) = true /\
  is_ok (nr_new F64Ops plain [2%Z] [z64 (-1)] [z64 2] tie_vals) = true /\
  ok_is (nc_interp_one F64Ops plain tie_g tie_x) (z64 5) = true /\
  ok_is (nr_interp_one F64Ops plain tie_s tie_x) (z64 5) = true /\
  Rabs (nth 0 (map B2R tie_x) 0 - coord (list_axis (map B2R (hd [] tie_grid))) 1)
  < Rabs (nth 0 (map B2R tie_x) 0 - coord (list_axis (map B2R (hd [] tie_grid))) 0).
Proof.
  split; [vm_compute; reflexivity|]. split; [vm_compute; reflexivity|].
  split; [vm_compute; reflexivity|]. split; [vm_compute; reflexivity|].
  assert (E : map B2R (hd [] tie_grid) = [-1; 1]).
  { unfold tie_grid. cbn [hd map]. repeat (apply f_equal2); try reflexivity; real_lit. }
  rewrite E. assert (X : 0 < nth 0 (map B2R tie_x) 0 < 1).
  { unfold tie_x. cbn [nth map]. split; real_lit. }
  change (coord (list_axis [-1; 1]) 1) with 1. change (coord (list_axis [-1; 1]) 0) with (-1).
  rewrite Rabs_left, Rabs_right by lra. lra.
Qed.

Lemma bowl_ngnew : nc_new F64Ops plain lin_grids bowl_rect = Ok bowl_g.
Proof. exact bowl_gnew. Qed.
Lemma bowl_nsnew : nr_new F64Ops plain lin_dims lin_starts lin_steps bowl_reg = Ok bowl_s.
Proof. exact bowl_snew. Qed.
(** At (3/4, 3/2) the nodes (1/2, 1) of the uneven grid and (1/2 or 1, 1) of the even one are nearest. *)
Definition near_x : list f64 := [f64_lit 3 (-2); f64_lit 3 (-1)].
Lemma near_x_real : map B2R near_x = [3 / 4; 3 / 2].
Proof. unfold near_x. cbn [map]. repeat (apply f_equal2); try reflexivity; real_lit. Qed.
Lemma fin_near_x : Forall (fun v : f64 => is_finite v = true) near_x.
Proof. repeat (apply Forall_cons; [reflexivity|]). apply Forall_nil. Qed.
Lemma near_rect_inside : SpecReal.inside_grid (rect_axes (map (map B2R) lin_grids)) (map B2R near_x).
Proof. rewrite lin_grids_real, near_x_real. split; [reflexivity|]. each_axis2; lra. Qed.
Lemma near_reg_inside : SpecReal.inside_grid (reg_axes lin_dims (map B2R lin_starts) (map B2R lin_steps)) (map B2R near_x).
Proof. rewrite lin_starts_real, lin_steps_real, near_x_real. split; [reflexivity|]. each_axis2; lra. Qed.

Example C56_ex :
  (exists idx, nc_interp_one F64Ops plain bowl_g near_x = Ok (entry (fzero F64Ops) [3%Z; 2%Z] bowl_rect idx) /\
     nearest_up_to_factor (1 + 8 * roundoff 53) (list_axis [0; 1 / 2; 2]) (3 / 4) (nth 0 idx 0%Z)) /\
  nc_interp_one F64Ops plain bowl_g near_x = Ok (entry (fzero F64Ops) [3%Z; 2%Z] bowl_rect [1%Z; 0%Z]) /\
  (exists idx, nr_interp_one F64Ops plain bowl_s near_x = Ok (entry (fzero F64Ops) [3%Z; 2%Z] bowl_reg idx) /\
     nearest_up_to (32 * roundoff 53 * 2) (mkAxis 2 (fun i => 1 + 2 * IZR i)) (3 / 2) (nth 1 idx 0%Z)).
Proof.
  assert (U := roundoff_64). assert (U0 : 0 <= roundoff 53) by apply bpow_ge_0.
  split; [|split].
  - destruct (C56_rectilinear _ _ Hp64 He64 plain lin_grids bowl_rect bowl_g near_x bowl_rinput bowl_ngnew lin_inc lin_mod
      eq_refl fin_near_x ltac:(lra)) as (idx & _ & E & K).
    exists idx. split; [exact E|]. rewrite lin_grids_real, near_x_real in K. exact (K 0%nat _ eq_refl).
  - apply (C56_rectilinear_clear _ _ Hp64 He64 plain lin_grids bowl_rect bowl_g near_x [1%Z; 0%Z] bowl_rinput bowl_ngnew lin_inc lin_mod
      eq_refl fin_near_x ltac:(lra)).
    + rewrite lin_grids_real. apply Forall2_cons; [simpl; unfold zlen; simpl; lia|].
      apply Forall2_cons; [simpl; unfold zlen; simpl; lia|apply Forall2_nil].
    + rewrite lin_grids_real, near_x_real. intros k a j Hk Hj N.
      destruct k as [|[|k]]; [| |destruct k; discriminate]; injection Hk as <-; unfold list_axis, zlen in *; simpl in *.
      * assert (Ej : (j = 0 \/ j = 2)%Z) by lia. rewrite (Rabs_right (3 / 4 - 1 / 2)) by lra.
        destruct Ej as [-> | ->]; simpl; [rewrite Rabs_right by lra|rewrite Rabs_left by lra]; lra.
      * assert (Ej : (j = 1)%Z) by lia. rewrite Ej. simpl. rewrite (Rabs_right (3 / 2 - 1)), Rabs_left by lra. lra.
  - destruct (C56_regular _ _ Hp64 He64 plain lin_dims lin_starts lin_steps bowl_reg bowl_s near_x 2 bowl_input bowl_nsnew
      fin_near_x lin_within near_reg_inside ltac:(lra) ltac:(lia)) as (idx & _ & E & K).
    exists idx. split; [exact E|]. rewrite lin_starts_real, lin_steps_real, near_x_real in K.
    specialize (K 1%nat _ eq_refl). change (nth 1 [3 / 4; 3 / 2] 0) with (3 / 2) in K.
    assert (S1 : B2R (nth 1 lin_steps (B754_zero false)) = 2) by (cbn [nth lin_steps]; real_lit).
    match type of K with context [B2R ?v] => replace (B2R v) with 2 in K by (symmetry; exact S1) end.
    replace (32 * roundoff 53 * 2) with (16 * (roundoff 53 * 2) * 2) by ring. exact K.
Qed.

(** (-1, 3/2) is outside the grid 0, 1/2, 1 of the first axis. *)
Definition away_x : list f64 := [z64 (-1); f64_lit 3 (-1)].
Lemma away_within : point_within 53 1024 2 lin_steps away_x.
Proof.
  intros k h v Eh Ev.
  assert (S0 : B2R (nth 0 lin_steps (B754_zero false)) = 1 / 2) by (cbn [nth lin_steps]; real_lit).
  assert (S1 : B2R (nth 1 lin_steps (B754_zero false)) = 2) by (cbn [nth lin_steps]; real_lit).
  assert (X0 : B2R (z64 (-1)) = -1) by real_lit. assert (X1 : B2R (f64_lit 3 (-1)) = 3 / 2) by real_lit.
  destruct k as [|[|k]]; [| |destruct k; discriminate Eh]; cbn [nth_error away_x lin_steps] in Eh, Ev;
    apply (f_equal (fun q => match q with Some v => v | None => z64 1 end)) in Eh; apply (f_equal (fun q => match q with Some v => v | None => z64 1 end)) in Ev;
    rewrite <- Eh, <- Ev; (split; [reflexivity|]).
  - replace (B2R (z64 (-1))) with (-1) by (symmetry; exact X0). match goal with |- _ <= 2 * B2R ?w => replace (B2R w) with (1 / 2) by (symmetry; exact S0) end.
    apply Rabs_le. lra.
  - replace (B2R (f64_lit 3 (-1))) with (3 / 2) by (symmetry; exact X1). match goal with |- _ <= 2 * B2R ?w => replace (B2R w) with 2 by (symmetry; exact S1) end.
    apply Rabs_le. lra.
Qed.
Example C56_regular_anywhere_ex : exists idx,
  nr_interp_one F64Ops plain bowl_s away_x = Ok (entry (fzero F64Ops) [3%Z; 2%Z] bowl_reg idx) /\ nth 0 idx 0%Z = 0%Z.
Proof.
  assert (U := roundoff_64). assert (U0 : 0 <= roundoff 53) by apply bpow_ge_0.
  destruct (C56_regular_anywhere _ _ Hp64 He64 plain lin_dims lin_starts lin_steps bowl_reg bowl_s away_x 2 bowl_input bowl_nsnew
    lin_within eq_refl away_within ltac:(lra) ltac:(lia)) as (idx & Hi & E & K).
  exists idx. split; [exact E|]. rewrite lin_starts_real, lin_steps_real in K.
  assert (S0 : B2R (nth 0 lin_steps (B754_zero false)) = 1 / 2) by (cbn [nth lin_steps]; real_lit).
  assert (X0 : nth 0 (map B2R away_x) 0 = -1) by (unfold away_x; cbn [nth map]; real_lit).
  specialize (K 0%nat _ eq_refl). rewrite X0 in K.
  match type of K with context [B2R ?v] => replace (B2R v) with (1 / 2) in K by (symmetry; exact S0) end.
  destruct K as (Hr & K). specialize (K 0%Z ltac:(simpl; lia)). cbn [npts] in Hr. unfold lin_dims in Hr. simpl in Hr. simpl in K.
  set (i := nth 0 idx 0%Z) in *. clearbody i. clear - U U0 K Hr.
  assert (Ei : (i = 0 \/ i = 1 \/ i = 2)%Z) by lia. set (u := roundoff 53) in *. clearbody u.
  destruct Ei as [-> | [-> | ->]]; auto; exfalso; rewrite !Rabs_left in K by lra; lra.
Qed.

(** * C57: with samples accurate to [e] of a function whose slope along axis [k] is at most [L k],
    the floating-point nearest interpolators are within e + sum L h / 2 (plus rounding). *)
Theorem C57_rectilinear :
  forall prec emax (Hp : Prec_gt_0 prec) (He : Prec_lt_emax prec emax), let o := BOps Hp He in
  forall c (grids : list (list (binary_float prec emax))) vals s x f e L h,
  let axes := rect_axes (map (map B2R) grids) in
  rect_input c grids vals -> nc_new o c grids vals = Ok s ->
  Forall (increasing_grid o) grids -> Forall (Forall moderate) grids ->
  Forall (fun v => is_finite v = true) x -> SpecReal.inside_grid axes (map B2R x) -> 64 * roundoff prec <= 1 ->
  samples_within e axes (map B2R vals) f ->
  (forall k, (k < length axes)%nat -> slope_at_most axes f k (L k)) ->
  (forall k a, nth_error axes k = Some a -> spacing_at_most a (h k)) ->
  exists y, nc_interp_one o c s x = Ok y /\
  Rabs (B2R y - f (map B2R x)) <= e + sum_upto (length axes) (fun k => L k * ((1 / 2 + 4 * roundoff prec) * h k)).
Proof. intros prec emax Hp He o. exact (nearest_rectilinear_error prec emax Hp He). Qed.
Theorem C57_regular :
  forall prec emax (Hp : Prec_gt_0 prec) (He : Prec_lt_emax prec emax), let o := BOps Hp He in
  forall c dims (starts steps vals : list (binary_float prec emax)) s x kappa f e L,
  let axes := reg_axes dims (map B2R starts) (map B2R steps) in
  reg_input c dims starts steps vals -> nr_new o c dims starts steps vals = Ok s ->
  Forall (fun v => is_finite v = true) x -> axes_within prec emax kappa starts steps dims ->
  SpecReal.inside_grid axes (map B2R x) -> 504 * (roundoff prec * kappa) <= 1 -> (prec <= 64)%Z ->
  samples_within e axes (map B2R vals) f ->
  (forall k, (k < length axes)%nat -> slope_at_most axes f k (L k)) ->
  exists y, nr_interp_one o c s x = Ok y /\
  Rabs (B2R y - f (map B2R x)) <=
    e + sum_upto (length axes) (fun k => L k * ((1 / 2 + 16 * (roundoff prec * kappa)) * B2R (nth k steps (fzero o)))).
Proof. intros prec emax Hp He o. exact (nearest_regular_error prec emax Hp He). Qed.

(** x^2 + y^2 has slopes of at most 6 on these grids; its value at (3/4, 3/2) is 45/16. *)
Lemma bowl_slope axes k : length axes = 2%nat -> (k < 2)%nat ->
  (forall x, SpecReal.inside_grid axes x -> Forall (fun t => 0 <= t <= 3) x) -> slope_at_most axes bowl k 6.
Proof.
  intros La Hk In x t Hx Ht. assert (Lx := proj1 Hx). rewrite La in Lx. apply In in Hx. apply In in Ht.
  destruct x as [|u [|v [|]]]; try discriminate.
  inversion Hx as [|? ? Hu Hx']; subst. inversion Hx' as [|? ? Hv _]; subst.
  destruct k as [|[|k]]; [| |lia]; simpl in Ht; unfold bowl; simpl.
  - inversion Ht as [|? ? H1 _]; subst. replace (_ - _) with ((t + u) * (t - u)) by ring. rewrite Rabs_mult.
    apply Rmult_le_compat_r; [apply Rabs_pos|]. rewrite Rabs_right; lra.
  - inversion Ht as [|? ? _ Ht']; subst. inversion Ht' as [|? ? H1 _]; subst.
    replace (_ - _) with ((t + v) * (t - v)) by ring. rewrite Rabs_mult.
    apply Rmult_le_compat_r; [apply Rabs_pos|]. rewrite Rabs_right; lra.
Qed.
Ltac range2 := let x := fresh in let Hx := fresh in let Hc := fresh in
  intros x (Hx & Hc); destruct x as [|u [|v [|]]]; try discriminate;
  assert (R0 := Hc 0%nat _ eq_refl); assert (R1 := Hc 1%nat _ eq_refl); unfold list_axis, zlen in R0, R1; simpl in R0, R1;
  repeat (apply Forall_cons; [lra|]); apply Forall_nil.
Example C57_ex :
  (exists y, nc_interp_one F64Ops plain bowl_g near_x = Ok y /\ Rabs (B2R y - 45 / 16) <= 11) /\
  (exists y, nr_interp_one F64Ops plain bowl_s near_x = Ok y /\ Rabs (B2R y - 45 / 16) <= 8).
Proof.
  assert (U := roundoff_64). assert (U0 : 0 <= roundoff 53) by apply bpow_ge_0.
  assert (F : bowl (map B2R near_x) = 45 / 16) by (rewrite near_x_real; unfold bowl; simpl; field).
  split.
  - destruct (C57_rectilinear _ _ Hp64 He64 plain lin_grids bowl_rect bowl_g near_x bowl (1 / 4) (fun _ => 6)
      (fun k => match k with O => 3 / 2 | _ => 2 end) bowl_rinput bowl_ngnew lin_inc lin_mod fin_near_x near_rect_inside
      ltac:(lra) bowl_rect_samples) as (y & E & B).
    + intros k Hk. apply bowl_slope; auto. rewrite lin_grids_real. range2.
    + rewrite lin_grids_real. intros k a Hk. destruct k as [|[|k]]; [| |destruct k; discriminate]; injection Hk as <-;
        intros j Hj; unfold spacing, list_axis, zlen in *; simpl in *.
      * assert (Ej : (j = 0 \/ j = 1)%Z) by lia. destruct Ej as [-> | ->]; simpl; lra.
      * assert (Ej : (j = 0)%Z) by lia. rewrite Ej. simpl. lra.
    + exists y. split; [exact E|]. rewrite F in B. eapply Rle_trans; [exact B|].
      change (length (rect_axes _)) with 2%nat. unfold sum_upto, Rsum. simpl. lra.
  - destruct (C57_regular _ _ Hp64 He64 plain lin_dims lin_starts lin_steps bowl_reg bowl_s near_x 2 bowl 0 (fun _ => 6)
      bowl_input bowl_nsnew fin_near_x lin_within near_reg_inside ltac:(lra) ltac:(lia) bowl_reg_samples) as (y & E & B).
    + intros k Hk. apply bowl_slope; auto. rewrite lin_starts_real, lin_steps_real. range2.
    + exists y. split; [exact E|]. rewrite F in B. eapply Rle_trans; [exact B|].
      change (length (reg_axes _ _ _)) with 2%nat. unfold sum_upto.
      assert (S0 : B2R (nth 0 lin_steps (B754_zero false)) = 1 / 2) by (cbn [nth lin_steps]; real_lit).
      assert (S1 : B2R (nth 1 lin_steps (B754_zero false)) = 2) by (cbn [nth lin_steps]; real_lit).
      assert (S3 : Rsum (map (fun k => 6 * ((1 / 2 + 16 * (roundoff 53 * 2)) * B2R (nth k lin_steps (B754_zero false)))) (seq 0 2))
        = 15 / 2 + 480 * roundoff 53) by (cbn [seq map]; rewrite S0, S1; unfold Rsum; simpl; field).
      match goal with |- context [Rsum ?l] => replace (Rsum l) with (15 / 2 + 480 * roundoff 53) by (symmetry; exact S3) end. lra.
Qed.
Print Assumptions C56_rectilinear.
Print Assumptions C56_rectilinear_clear.
Print Assumptions C56_regular.
Print Assumptions C56_regular_anywhere.
Print Assumptions C57_rectilinear.
Print Assumptions C57_regular.
