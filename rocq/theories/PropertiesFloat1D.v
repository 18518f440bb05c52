(** The one-dimensional interpolators in floating point: distance from the exact result (C68), which
    stored value Nearest1D, Left1D and Right1D return (C69), accuracy on smooth functions (C70). *)
From Coq Require Import Reals Lra PeanoNat Bool Lia List.
From Flocq Require Import Core.Core IEEE754.BinarySingleNaN.
From Verif Require Import Base Ops RInst FInst ModelCore ModelOneDim Spec SpecOrder SpecIEEE SpecError SpecReal Spec1D SpecFloat1D.
From Verif Require Import GenLemmas FLemmas FProofs FProofs2 RChar R1D F1D F1D2 ExampleData ExampleReal PropertiesFloat PropertiesOneDim PropertiesError.
Import ListNotations.
Open Scope R_scope.
Unset Implicit Arguments.

(** * C68: Linear1D and LinearHoldLast1D against the same code in exact arithmetic.
    Rectilinear grids: inside the grid and up to a distance [rho] outside it. *)
Theorem C68_rectilinear :
  forall prec emax (Hp : Prec_gt_0 prec) (He : Prec_lt_emax prec emax), let o := BOps Hp He in
  forall c (grid vals : list (binary_float prec emax)) g x A S W rho, let a := list_axis (map B2R grid) in
  64 * roundoff prec <= 1 -> (zlen vals <= isize_max)%Z -> increasing_grid o grid -> Forall moderate grid -> moderate x ->
  c1_new grid vals = Ok g -> bounded_values prec emax A vals -> slopes_within S a (map B2R vals) -> widths_within W a ->
  0 <= rho -> near_axis rho a (B2R x) -> S <= bpow radix2 (emax - 2) -> 2 * A + S * rho <= bpow radix2 (emax - 2) ->
  forall c' (dom : R -> Prop) at_, grid1 c' (map B2R vals) a dom at_ -> dom (B2R x) ->
  exists y r, linear1 o c (c1_at o c g) x = Ok y /\ is_finite y = true /\ linear1 ROps c' at_ (B2R x) = Ok r /\
    Rabs (B2R y - r) <= line_error prec emax A S W rho.
Proof. intros prec emax Hp He o. exact (C68_proof_rectilinear prec emax Hp He). Qed.
(** Inside a rectilinear grid LinearHoldLast1D returns the result of Linear1D, bit for bit. *)
Theorem C68_rectilinear_hold_last :
  forall prec emax (Hp : Prec_gt_0 prec) (He : Prec_lt_emax prec emax), let o := BOps Hp He in
  forall c (grid vals : list (binary_float prec emax)) g x, let a := list_axis (map B2R grid) in
  (zlen vals <= isize_max)%Z -> increasing_grid o grid -> Forall moderate grid -> is_finite x = true ->
  c1_new grid vals = Ok g -> coord a 0 <= B2R x <= coord a (npts a - 1) ->
  hold_last1 o c (c1_at o c g) x = linear1 o c (c1_at o c g) x.
Proof. intros prec emax Hp He o. exact (hold1_rect_inside prec emax Hp He). Qed.
(** Regular grids, inside the grid. *)
Theorem C68_regular :
  forall prec emax (Hp : Prec_gt_0 prec) (He : Prec_lt_emax prec emax), let o := BOps Hp He in
  forall c (start h x : binary_float prec emax) vals g kappa A S,
  let a := mkAxis (zlen vals) (fun i => B2R start + B2R h * IZR i) in
  (2 <= zlen vals <= isize_max)%Z -> 0 < B2R h -> axis_within prec emax kappa start h (zlen vals) -> is_finite x = true ->
  coord a 0 <= B2R x <= coord a (npts a - 1) -> r1_new o c start h vals = Ok g ->
  bounded_values prec emax A vals -> slopes_within S a (map B2R vals) -> S <= bpow radix2 (emax - 3) ->
  504 * (roundoff prec * kappa) <= 1 -> (prec <= 64)%Z ->
  forall c' (dom : R -> Prop) at_, grid1 c' (map B2R vals) a dom at_ -> dom (B2R x) ->
  exists y z r, linear1 o c (r1_at o c g) x = Ok y /\ hold_last1 o c (r1_at o c g) x = Ok z /\
    is_finite y = true /\ is_finite z = true /\ linear1 ROps c' at_ (B2R x) = Ok r /\
    Rabs (B2R y - r) <= regular_line_error prec emax kappa A (B2R h) /\
    Rabs (B2R z - r) <= regular_line_error prec emax kappa A (B2R h).
Proof. intros prec emax Hp He o. exact (C68_proof_regular prec emax Hp He). Qed.
(** The bound on the slopes is needed: on two nodes 2^-1060 apart with the values 0 and 1, the value
    at the first node comes out as NaN, because the slope is computed first and overflows. *)
Definition nan_result (r : outcome f64) : bool := match r with Ok y => is_nan y | _ => false end.
Definition thin_grid : list f64 := [z64 0; f64_lit 1 (-1060)].
Definition thin_vals : list f64 := [z64 0; z64 1].
Theorem C68_slope_bound_needed : exists (grid vals : list f64) g x,
  increasing_grid F64Ops grid /\ Forall moderate grid /\ moderate x /\ c1_new grid vals = Ok g /\
  bounded_values 53 1024 1 vals /\ x = nth 0 grid x /\
  nan_result (linear1 F64Ops plain (c1_at F64Ops plain g) x) = true.
Proof.
  exists thin_grid, thin_vals, (mkC1 thin_grid thin_vals), (z64 0).
  split; [inc_grid|].
  split.
  { unfold thin_grid. apply Forall_cons; [|apply Forall_cons; [|apply Forall_nil]].
    - split; [reflexivity|]. replace (B2R (z64 0)) with 0 by real_lit. rewrite Rabs_R0. apply bpow_ge_0.
    - split; [reflexivity|]. change (B2R (f64_lit 1 (-1060))) with (F2R (Float radix2 16384 (-1074))).
      unfold F2R. cbn [Fnum Fexp]. change 16384 with (bpow radix2 14). rewrite <- bpow_plus, Rabs_pos_eq by apply bpow_ge_0. apply bpow_le. lia. }
  split; [split; [reflexivity|]; replace (B2R (z64 0)) with 0 by real_lit; rewrite Rabs_R0; apply bpow_ge_0|].
  split; [reflexivity|].
  split.
  { split.
    - split; [lra|]. apply Rle_trans with (bpow radix2 4); [simpl; lra|]. apply bpow_le. lia.
    - unfold thin_vals. repeat (apply Forall_cons; [split; [reflexivity|apply Rabs_le; real_lit]|]). apply Forall_nil. }
  split; [reflexivity|vm_compute; reflexivity].
Qed.

(** * C69: which stored value is returned *)
(** Nearest1D: a node whose distance is smallest up to a relative error of three unit roundoffs
    (rectilinear), or up to a small part of a step (regular). *)
Theorem C69_nearest_rectilinear :
  forall prec emax (Hp : Prec_gt_0 prec) (He : Prec_lt_emax prec emax), let o := BOps Hp He in
  forall c (grid vals : list (binary_float prec emax)) g x, let a := list_axis (map B2R grid) in
  roundoff prec <= / 64 -> (zlen vals <= isize_max)%Z -> increasing_grid o grid -> Forall moderate grid -> is_finite x = true ->
  c1_new grid vals = Ok g -> moderate x ->
  exists i, nearest1 o (c1_at o c g) x = Ok (nth (Z.to_nat i) vals (fzero o)) /\
    nearest_up_to_factor (1 + 3 * roundoff prec) a (B2R x) i.
Proof. intros prec emax Hp He o. exact (nearest1_rect prec emax Hp He). Qed.
Theorem C69_nearest_regular :
  forall prec emax (Hp : Prec_gt_0 prec) (He : Prec_lt_emax prec emax), let o := BOps Hp He in
  forall c (start h x : binary_float prec emax) vals g kappa,
  let a := mkAxis (zlen vals) (fun i => B2R start + B2R h * IZR i) in
  (2 <= zlen vals <= isize_max)%Z -> 0 < B2R h -> axis_within prec emax kappa start h (zlen vals) -> is_finite x = true ->
  504 * (roundoff prec * kappa) <= 1 -> (prec <= 64)%Z ->
  coord a 0 <= B2R x <= coord a (npts a - 1) -> r1_new o c start h vals = Ok g ->
  exists i, nearest1 o (r1_at o c g) x = Ok (nth (Z.to_nat i) vals (fzero o)) /\
    nearest_up_to (16 * (roundoff prec * kappa) * B2R h) a (B2R x) i.
Proof. intros prec emax Hp He o. exact (nearest1_reg prec emax Hp He). Qed.
(** Left1D and Right1D on a regular grid: the node on that side, up to a small part of a step.
    (C31 has the rectilinear case, where the choice is exact.) *)
Theorem C69_left_right_regular :
  forall prec emax (Hp : Prec_gt_0 prec) (He : Prec_lt_emax prec emax), let o := BOps Hp He in
  forall c (start h x : binary_float prec emax) vals g kappa,
  let a := mkAxis (zlen vals) (fun i => B2R start + B2R h * IZR i) in
  (2 <= zlen vals <= isize_max)%Z -> 0 < B2R h -> axis_within prec emax kappa start h (zlen vals) -> is_finite x = true ->
  504 * (roundoff prec * kappa) <= 1 -> (prec <= 64)%Z ->
  coord a 0 <= B2R x <= coord a (npts a - 1) -> r1_new o c start h vals = Ok g ->
  let e := 6 * (roundoff prec * kappa) * B2R h in
  (exists i, left1 (r1_at o c g) x = Ok (nth (Z.to_nat i) vals (fzero o)) /\ left_node_up_to e a (B2R x) i) /\
  (exists i, right1 (r1_at o c g) x = Ok (nth (Z.to_nat i) vals (fzero o)) /\ right_node_up_to e a (B2R x) i).
Proof. intros prec emax Hp He o. exact (hold1_reg prec emax Hp He). Qed.
(** Without the bound on the magnitudes it fails: both distances from 1.5 * 2^1023 to the nodes -2^1023
    and -2^1022 overflow, and the farther node is returned. *)
Definition far_grid : list f64 := [f64_lit (-1) 1023; f64_lit (-1) 1022].
Definition far_vals : list f64 := [z64 10; z64 20].
Theorem C69_magnitude_bound_needed : exists (grid vals : list f64) g x,
  increasing_grid F64Ops grid /\ c1_new grid vals = Ok g /\ is_finite x = true /\
  flt F64Ops (nth 0 grid x) (nth 1 grid x) = true /\ flt F64Ops (nth 1 grid x) x = true /\
  ok_is (nearest1 F64Ops (c1_at F64Ops plain g) x) (nth 0 vals x) = true /\
  ok_is (nearest1 F64Ops (c1_at F64Ops plain g) x) (nth 1 vals x) = false.
Proof.
  exists far_grid, far_vals, (mkC1 far_grid far_vals), (f64_lit 3 1022).
  split; [inc_grid|]. split; [reflexivity|]. repeat split; vm_compute; reflexivity.
Qed.

(** * C70: Linear1D and LinearHoldLast1D on samples of a twice differentiable function *)
Theorem C70_rectilinear :
  forall prec emax (Hp : Prec_gt_0 prec) (He : Prec_lt_emax prec emax), let o := BOps Hp He in
  forall c (grid vals : list (binary_float prec emax)) g x A S W f D1 D2 e M, let a := list_axis (map B2R grid) in
  64 * roundoff prec <= 1 -> (zlen vals <= isize_max)%Z -> increasing_grid o grid -> Forall moderate grid -> is_finite x = true ->
  c1_new grid vals = Ok g -> bounded_values prec emax A vals -> slopes_within S a (map B2R vals) -> widths_within W a ->
  S <= bpow radix2 (emax - 2) -> coord a 0 <= B2R x <= coord a (npts a - 1) ->
  (forall i, (0 <= i < npts a)%Z -> Rabs (val_at (map B2R vals) i - f (coord a i)) <= e) ->
  (forall s, coord a 0 <= s <= coord a (npts a - 1) -> derivable_pt_lim f s (D1 s)) ->
  (forall s, coord a 0 <= s <= coord a (npts a - 1) -> derivable_pt_lim D1 s (D2 s)) ->
  (forall s, coord a 0 <= s <= coord a (npts a - 1) -> Rabs (D2 s) <= M) ->
  exists y, linear1 o c (c1_at o c g) x = Ok y /\ hold_last1 o c (c1_at o c g) x = Ok y /\ is_finite y = true /\
    Rabs (B2R y - f (B2R x)) <= line_error prec emax A S W 0 + e + M * W ^ 2 / 8.
Proof. intros prec emax Hp He o. exact (C70_proof_rectilinear prec emax Hp He). Qed.
Theorem C70_regular :
  forall prec emax (Hp : Prec_gt_0 prec) (He : Prec_lt_emax prec emax), let o := BOps Hp He in
  forall c (start h x : binary_float prec emax) vals g kappa A S f D1 D2 e M,
  let a := mkAxis (zlen vals) (fun i => B2R start + B2R h * IZR i) in
  (2 <= zlen vals <= isize_max)%Z -> 0 < B2R h -> axis_within prec emax kappa start h (zlen vals) -> is_finite x = true ->
  coord a 0 <= B2R x <= coord a (npts a - 1) -> r1_new o c start h vals = Ok g ->
  bounded_values prec emax A vals -> slopes_within S a (map B2R vals) -> S <= bpow radix2 (emax - 3) ->
  504 * (roundoff prec * kappa) <= 1 -> (prec <= 64)%Z ->
  (forall i, (0 <= i < npts a)%Z -> Rabs (val_at (map B2R vals) i - f (coord a i)) <= e) ->
  (forall s, coord a 0 <= s <= coord a (npts a - 1) -> derivable_pt_lim f s (D1 s)) ->
  (forall s, coord a 0 <= s <= coord a (npts a - 1) -> derivable_pt_lim D1 s (D2 s)) ->
  (forall s, coord a 0 <= s <= coord a (npts a - 1) -> Rabs (D2 s) <= M) ->
  exists y z, linear1 o c (r1_at o c g) x = Ok y /\ hold_last1 o c (r1_at o c g) x = Ok z /\
    is_finite y = true /\ is_finite z = true /\
    Rabs (B2R y - f (B2R x)) <= regular_line_error prec emax kappa A (B2R h) + e + M * B2R h ^ 2 / 8 /\
    Rabs (B2R z - f (B2R x)) <= regular_line_error prec emax kappa A (B2R h) + e + M * B2R h ^ 2 / 8.
Proof. intros prec emax Hp He o. exact (C70_proof_regular prec emax Hp He). Qed.

(** ** Examples in binary64: samples of x^2 at 0, 1/2, 2 and at 0, 1/2, 1. *)
Definition q_grid : list f64 := [z64 0; f64_lit 1 (-1); z64 2].
Definition q_vals : list f64 := [z64 0; f64_lit 1 (-2); z64 4].
Definition q_rvals : list f64 := [z64 0; f64_lit 1 (-2); z64 1].
Definition q_g := mkC1 q_grid q_vals.
Lemma q_grid_real : map B2R q_grid = [0; 1 / 2; 2].
Proof. unfold q_grid. cbn [map]. repeat (apply f_equal2); try reflexivity; real_lit. Qed.
Lemma q_vals_real : map B2R q_vals = [0; 1 / 4; 4].
Proof. unfold q_vals. cbn [map]. repeat (apply f_equal2); try reflexivity; real_lit. Qed.
Lemma q_rvals_real : map B2R q_rvals = [0; 1 / 4; 1].
Proof. unfold q_rvals. cbn [map]. repeat (apply f_equal2); try reflexivity; real_lit. Qed.
Lemma z0_real : B2R (z64 0) = 0. Proof. real_lit. Qed.
Lemma half_real : B2R (f64_lit 1 (-1)) = 1 / 2. Proof. real_lit. Qed.
Lemma q_in : B2R (f64_lit 3 (-2)) = 3 / 4. Proof. real_lit. Qed.
Lemma q_out : B2R (z64 3) = 3. Proof. real_lit. Qed.
Lemma small_lit (x : f64) : is_finite x = true -> Rabs (B2R x) <= 16 -> moderate x.
Proof.
  intros F B. split; auto. eapply Rle_trans; [exact B|]. apply Rle_trans with (bpow radix2 4); [simpl; lra|]. apply bpow_le. lia.
Qed.
Lemma q_inc : increasing_grid F64Ops q_grid. Proof. inc_grid. Qed.
Lemma q_mod : Forall moderate q_grid.
Proof. unfold q_grid. repeat (apply Forall_cons; [apply small_lit; [reflexivity|apply Rabs_le; real_lit]|]). apply Forall_nil. Qed.
Lemma q_bounded : bounded_values 53 1024 4 q_vals.
Proof.
  split.
  - split; [lra|]. apply Rle_trans with (bpow radix2 4); [simpl; lra|]. apply bpow_le. lia.
  - unfold q_vals. repeat (apply Forall_cons; [split; [reflexivity|apply Rabs_le; real_lit]|]). apply Forall_nil.
Qed.
Lemma q_rbounded : bounded_values 53 1024 1 q_rvals.
Proof.
  split.
  - split; [lra|]. apply Rle_trans with (bpow radix2 4); [simpl; lra|]. apply bpow_le. lia.
  - unfold q_rvals. repeat (apply Forall_cons; [split; [reflexivity|apply Rabs_le; real_lit]|]). apply Forall_nil.
Qed.
Ltac cell01 := let i := fresh in let Hi := fresh in intros i Hi; change (0 <= i <= 1)%Z in Hi;
  assert (i = 0 \/ i = 1)%Z as [-> | ->] by lia.
Lemma q_slopes : slopes_within (5 / 2) (list_axis (map B2R q_grid)) (map B2R q_vals).
Proof. rewrite q_grid_real, q_vals_real. cell01; unfold val_at; simpl; apply Rabs_le; lra. Qed.
Lemma q_widths : widths_within (3 / 2) (list_axis (map B2R q_grid)).
Proof. rewrite q_grid_real. cell01; simpl; lra. Qed.
Definition q_ra : axis := mkAxis (zlen q_rvals) (fun i => B2R (z64 0) + B2R (f64_lit 1 (-1)) * IZR i).
Lemma q_ra_real i : coord q_ra i = 1 / 2 * IZR i.
Proof. unfold q_ra. cbn [coord]. rewrite z0_real, half_real. ring. Qed.
Lemma q_rslopes : slopes_within (3 / 2) q_ra (map B2R q_rvals).
Proof.
  rewrite q_rvals_real. cell01; rewrite !q_ra_real; unfold val_at; simpl; apply Rabs_le; lra.
Qed.
Lemma q_within : axis_within 53 1024 2 (z64 0) (f64_lit 1 (-1)) (zlen q_rvals).
Proof.
  split; [reflexivity|]. split; [reflexivity|]. change (zlen q_rvals) with 3%Z.
  split; [apply Rabs_le; real_lit|]. split; [apply Rabs_le; real_lit|].
  apply Rle_trans with (bpow radix2 4); [real_lit|]. apply bpow_le. lia.
Qed.
Lemma big_bound e v : (4 <= e)%Z -> v <= 16 -> v <= bpow radix2 e.
Proof. intros He Hv. eapply Rle_trans; [exact Hv|]. apply Rle_trans with (bpow radix2 4); [simpl; lra|]. apply bpow_le. lia. Qed.
Definition q_rnew : exists g, r1_new F64Ops plain (z64 0) (f64_lit 1 (-1)) q_rvals = Ok g.
Proof. apply is_ok_ex. vm_compute. reflexivity. Qed.
Lemma q_rinside : coord q_ra 0 <= B2R (f64_lit 3 (-2)) <= coord q_ra (npts q_ra - 1).
Proof. rewrite !q_ra_real, q_in. change (npts q_ra) with 3%Z. simpl. lra. Qed.
Lemma q_inside : coord (list_axis (map B2R q_grid)) 0 <= B2R (f64_lit 3 (-2)) <= coord (list_axis (map B2R q_grid)) (npts (list_axis (map B2R q_grid)) - 1).
Proof. rewrite q_grid_real, q_in. simpl. lra. Qed.
Lemma q_exact : grid1 rplain (map B2R q_vals) (list_axis (map B2R q_grid)) (fun _ => True) (c1_at ROps rplain (mkC1 (map B2R q_grid) (map B2R q_vals))).
Proof.
  apply grid1_rectilinear; [vm_compute; discriminate| |reflexivity].
  rewrite q_grid_real. sorted_ok.
Qed.
Lemma q_rexact : exists g dom, grid1 rplain (map B2R q_rvals) q_ra dom (r1_at ROps rplain g) /\ dom (B2R (f64_lit 3 (-2))).
Proof.
  assert (E : exists g, r1_new ROps rplain (B2R (z64 0)) (B2R (f64_lit 1 (-1))) (map B2R q_rvals) = Ok g).
  { eexists. reflexivity. }
  destruct E as (g & E). exists g. eexists. split.
  - apply (@grid1_regular rplain (map B2R q_rvals) (B2R (z64 0)) (B2R (f64_lit 1 (-1))) g); [vm_compute; split; discriminate|rewrite half_real; lra|exact E].
  - cbv beta. rewrite z0_real, half_real, q_in. unfold isize_min, isize_max. simpl. split; lra.
Qed.
Lemma tiny_err a b : 0 <= a <= 3000 -> 0 <= b <= 20 -> a * roundoff 53 + b * underflow 53 1024 <= / 100000000000.
Proof.
  intros Ha Hb. assert (U := roundoff_64).
  assert (W : underflow 53 1024 <= / 2 * roundoff 53).
  { unfold underflow, roundoff. apply Rmult_le_compat_l; [lra|]. apply bpow_le. lia. }
  assert (0 <= roundoff 53) by (apply bpow_ge_0). nra.
Qed.

(** Extrapolation one unit to the right of the uneven grid, and a point inside the even grid. *)
Example C68_ex :
  (exists y r, linear1 F64Ops plain (c1_at F64Ops plain q_g) (z64 3) = Ok y /\
     linear1 ROps rplain (c1_at ROps rplain (mkC1 (map B2R q_grid) (map B2R q_vals))) 3 = Ok r /\ Rabs (B2R y - r) <= / 100000000000) /\
  (exists g g' y r, r1_new F64Ops plain (z64 0) (f64_lit 1 (-1)) q_rvals = Ok g /\ linear1 F64Ops plain (r1_at F64Ops plain g) (f64_lit 3 (-2)) = Ok y /\
     linear1 ROps rplain (r1_at ROps rplain g') (3 / 4) = Ok r /\ Rabs (B2R y - r) <= / 100000000000).
Proof.
  split.
  - destruct (C68_rectilinear _ _ Hp64 He64 plain q_grid q_vals q_g (z64 3) 4 (5 / 2) (3 / 2) 1
      ltac:(assert (U := roundoff_64); lra) ltac:(vm_compute; discriminate) q_inc q_mod
      ltac:(apply small_lit; [reflexivity|apply Rabs_le; real_lit]) eq_refl q_bounded q_slopes q_widths ltac:(lra)
      ltac:(rewrite q_grid_real, q_out; unfold near_axis; simpl; lra)
      ltac:(apply big_bound; [lia|lra]) ltac:(apply big_bound; [lia|lra]) _ _ _ q_exact I) as (y & r & E & _ & E' & B).
    exists y, r. split; [exact E|]. split; [rewrite <- q_out; exact E'|]. eapply Rle_trans; [exact B|].
    unfold line_error. assert (Q := tiny_err 69.5 7 ltac:(lra) ltac:(lra)). lra.
  - destruct q_rexact as (g' & dom & H1 & Dx). destruct q_rnew as (g & Hg).
    destruct (C68_regular _ _ Hp64 He64 plain (z64 0) (f64_lit 1 (-1)) (f64_lit 3 (-2)) q_rvals g 2 1 (3 / 2)
      ltac:(vm_compute; split; discriminate) ltac:(rewrite half_real; lra) q_within eq_refl q_rinside Hg q_rbounded q_rslopes
      ltac:(apply big_bound; [lia|lra]) ltac:(assert (U := roundoff_64); lra) ltac:(lia) _ _ _ H1 Dx) as (y & z & r & E & _ & _ & _ & E' & B & _).
    exists g, g', y, r. split; [exact Hg|]. split; [exact E|]. split; [rewrite <- q_in; exact E'|].
    eapply Rle_trans; [exact B|]. unfold regular_line_error. rewrite half_real.
    assert (Q := tiny_err 128 4.5 ltac:(lra) ltac:(lra)). lra.
Qed.
Example C68_hold_last_ex :
  hold_last1 F64Ops plain (c1_at F64Ops plain q_g) (f64_lit 3 (-2)) = linear1 F64Ops plain (c1_at F64Ops plain q_g) (f64_lit 3 (-2)).
Proof.
  apply (C68_rectilinear_hold_last _ _ Hp64 He64 plain q_grid q_vals q_g); [vm_compute; discriminate|apply q_inc|apply q_mod|reflexivity|reflexivity|apply q_inside].
Qed.
(** At 3/4 the nearest node of the uneven grid is number 1, and the left and right nodes of the even grid are
    numbers 1 and 2. *)
Example C69_ex :
  (exists i, nearest1 F64Ops (c1_at F64Ops plain q_g) (f64_lit 3 (-2)) = Ok (nth (Z.to_nat i) q_vals (fzero F64Ops)) /\ i = 1%Z) /\
  (exists g i, r1_new F64Ops plain (z64 0) (f64_lit 1 (-1)) q_rvals = Ok g /\
     left1 (r1_at F64Ops plain g) (f64_lit 3 (-2)) = Ok (nth (Z.to_nat i) q_rvals (fzero F64Ops)) /\ i = 1%Z) /\
  (exists g i, r1_new F64Ops plain (z64 0) (f64_lit 1 (-1)) q_rvals = Ok g /\
     nearest1 F64Ops (r1_at F64Ops plain g) (f64_lit 3 (-2)) = Ok (nth (Z.to_nat i) q_rvals (fzero F64Ops)) /\ (1 <= i <= 2)%Z).
Proof.
  assert (U := roundoff_64). assert (U0 : 0 < roundoff 53) by apply bpow_gt_0.
  split; [|split].
  - destruct (C69_nearest_rectilinear _ _ Hp64 He64 plain q_grid q_vals q_g (f64_lit 3 (-2)) ltac:(lra) ltac:(vm_compute; discriminate) q_inc q_mod
      eq_refl eq_refl ltac:(apply small_lit; [reflexivity|apply Rabs_le; real_lit])) as (i & E & Ri & N).
    exists i. split; [exact E|]. rewrite q_grid_real in Ri, N. rewrite q_in in N. change (0 <= i < 3)%Z in Ri.
    specialize (N 1%Z ltac:(change (npts _) with 3%Z; lia)).
    assert (i = 0 \/ i = 1 \/ i = 2)%Z as [-> |[-> | ->]] by lia; auto; exfalso; simpl in N.
    + rewrite (Rabs_pos_eq (3 / 4 - 0)), (Rabs_pos_eq (3 / 4 - 1 / 2)) in N by lra. lra.
    + rewrite (Rabs_left1 (3 / 4 - 2)), (Rabs_pos_eq (3 / 4 - 1 / 2)) in N by lra. lra.
  - destruct q_rnew as (g & Hg).
    destruct (C69_left_right_regular _ _ Hp64 He64 plain (z64 0) (f64_lit 1 (-1)) (f64_lit 3 (-2)) q_rvals g 2
      ltac:(vm_compute; split; discriminate) ltac:(rewrite half_real; lra) q_within eq_refl ltac:(lra) ltac:(lia) q_rinside Hg) as ((i & E & Ri & L & R) & _).
    exists g, i. split; [exact Hg|]. split; [exact E|]. fold q_ra in Ri, L, R. rewrite !q_ra_real in L, R. rewrite q_in, half_real in L, R. change (0 <= i < 3)%Z in Ri.
    assert (i = 0 \/ i = 1 \/ i = 2)%Z as [-> |[-> | ->]] by lia; auto; exfalso.
    + destruct R as [R|R]; [discriminate R|]. simpl in R. lra.
    + simpl in L. lra.
  - destruct q_rnew as (g & Hg).
    destruct (C69_nearest_regular _ _ Hp64 He64 plain (z64 0) (f64_lit 1 (-1)) (f64_lit 3 (-2)) q_rvals g 2
      ltac:(vm_compute; split; discriminate) ltac:(rewrite half_real; lra) q_within eq_refl ltac:(lra) ltac:(lia) q_rinside Hg) as (i & E & Ri & N).
    exists g, i. split; [exact Hg|]. split; [exact E|]. fold q_ra in Ri, N. change (0 <= i < 3)%Z in Ri.
    specialize (N 1%Z ltac:(vm_compute; split; reflexivity || discriminate)). rewrite !q_ra_real, q_in, half_real in N.
    assert (i = 0 \/ i = 1 \/ i = 2)%Z as [-> |[-> | ->]] by lia; try lia; exfalso.
    rewrite (Rabs_pos_eq (3 / 4 - 1 / 2 * 0)), (Rabs_pos_eq (3 / 4 - 1 / 2 * 1)) in N by lra. lra.
Qed.
(** x^2 at 3/4: within 9/16 on the uneven grid and 1/16 on the even one, plus rounding. *)
Example C70_ex :
  (exists y, linear1 F64Ops plain (c1_at F64Ops plain q_g) (f64_lit 3 (-2)) = Ok y /\ Rabs (B2R y - 9 / 16) <= 9 / 16 + / 100000000000) /\
  (exists g y, r1_new F64Ops plain (z64 0) (f64_lit 1 (-1)) q_rvals = Ok g /\
     linear1 F64Ops plain (r1_at F64Ops plain g) (f64_lit 3 (-2)) = Ok y /\ Rabs (B2R y - 9 / 16) <= 1 / 16 + / 100000000000).
Proof.
  assert (U := roundoff_64). assert (U0 : 0 < roundoff 53) by apply bpow_gt_0.
  assert (D1 : forall s, derivable_pt_lim (fun s => s * s) s (2 * s)).
  { intros s. replace (2 * s) with (1 * id s + id s * 1) by (unfold id; ring).
    apply (derivable_pt_lim_mult id id s 1 1); apply derivable_pt_lim_id. }
  assert (D2 : forall s, derivable_pt_lim (fun s => 2 * s) s 2).
  { intros s. apply (eq_ind (2 * 1) (derivable_pt_lim (fun s => 2 * s) s)); [|ring].
    apply (derivable_pt_lim_scal id 2 s 1). apply derivable_pt_lim_id. }
  split.
  - destruct (C70_rectilinear _ _ Hp64 He64 plain q_grid q_vals q_g (f64_lit 3 (-2)) 4 (5 / 2) (3 / 2) (fun s => s * s) (fun s => 2 * s) (fun _ => 2) 0 2
      ltac:(lra) ltac:(vm_compute; discriminate) q_inc q_mod eq_refl eq_refl q_bounded q_slopes q_widths
      ltac:(apply big_bound; [lia|lra]) q_inside
      ltac:(rewrite q_grid_real, q_vals_real; change (npts _) with 3%Z; intros i Hi;
        assert (i = 0 \/ i = 1 \/ i = 2)%Z as [-> |[-> | ->]] by lia; unfold val_at; simpl; apply Rabs_le; lra)
      ltac:(intros; apply D1) ltac:(intros; apply D2) ltac:(intros; apply Rabs_le; lra)) as (y & E & _ & _ & B).
    exists y. split; [exact E|]. cbv beta in B. rewrite q_in in B. replace (3 / 4 * (3 / 4)) with (9 / 16) in B by field.
    eapply Rle_trans; [exact B|]. unfold line_error.
    assert (Q := tiny_err 52 5 ltac:(lra) ltac:(lra)). lra.
  - destruct q_rnew as (g & Hg).
    destruct (C70_regular _ _ Hp64 He64 plain (z64 0) (f64_lit 1 (-1)) (f64_lit 3 (-2)) q_rvals g 2 1 (3 / 2) (fun s => s * s) (fun s => 2 * s) (fun _ => 2) 0 2
      ltac:(vm_compute; split; discriminate) ltac:(rewrite half_real; lra) q_within eq_refl q_rinside Hg q_rbounded q_rslopes
      ltac:(apply big_bound; [lia|lra]) ltac:(lra) ltac:(lia)
      ltac:(fold q_ra; intros i Hi; rewrite q_ra_real, q_rvals_real; change (0 <= i < 3)%Z in Hi;
        assert (i = 0 \/ i = 1 \/ i = 2)%Z as [-> |[-> | ->]] by lia; unfold val_at; simpl; apply Rabs_le; lra)
      ltac:(intros; apply D1) ltac:(intros; apply D2) ltac:(intros; apply Rabs_le; lra)) as (y & z & E & _ & _ & _ & B & _).
    exists g, y. split; [exact Hg|]. split; [exact E|]. cbv beta in B. rewrite q_in, half_real in B. replace (3 / 4 * (3 / 4)) with (9 / 16) in B by field.
    eapply Rle_trans; [exact B|]. unfold regular_line_error.
    assert (Q := tiny_err 128 4.5 ltac:(lra) ltac:(lra)). lra.
Qed.
Print Assumptions C68_rectilinear.
Print Assumptions C68_rectilinear_hold_last.
Print Assumptions C68_regular.
Print Assumptions C68_slope_bound_needed.
Print Assumptions C69_nearest_rectilinear.
Print Assumptions C69_nearest_regular.
Print Assumptions C69_left_right_regular.
Print Assumptions C69_magnitude_bound_needed.
Print Assumptions C70_rectilinear.
Print Assumptions C70_regular.
